(** Model of oa/plugins/free_mail.py.  Definitions only.
    The expressions that find addresses in a text ([email_re], 87-101), recognise role
    accounts ([EMAIL_WHITELIST], 15-25) and bulk senders ([SKIP_REPLYTO_FROM], 26-35) are
    not modelled: they are functions the theorems quantify over. *)
From Verif Require Import PyStr Model_Files.

(** ** 56-81 [check_start]: the domains *)
(** oa/plugins/free_mail.py:59 [^[a-z0-9.*?-]+$], for words (which have no newline) *)
Definition domain_char (c : char) : bool :=
  (N.leb 97 c && N.leb c 122) || (N.leb 48 c && N.leb c 57) || N.eqb c 46 || N.eqb c 42 || N.eqb c 63 || N.eqb c 45.
(** For oa/plugins/free_mail.py:57-95. *)
Definition valid_domain (d : str) : bool := match d with [] => false | _ => forallb domain_char d end.
(** What the context keeps of the domains: the list and, once there were any, the entries
    with a "*" (oa/plugins/free_mail.py:71-73).  An entry that is not valid is taken from the list but, if it has a
    "*", not from the expression (62-70: there is no [continue]). *)
Record fdomains := { fd_list : list str; fd_wild : option (list str) }.
(** oa/plugins/free_mail.py:57-95. *)
Definition check_start_domains (s : fdomains) : fdomains :=
  let wild := filter (mem_char 42%N) (fd_list s) in
  {| fd_list := filter valid_domain (fd_list s);
     fd_wild := match wild with [] => fd_wild s | _ => Some wild end |}.

(** oa/plugins/free_mail.py:67-72: an entry as an expression: "?" is any character but a newline, "*" any text
    without a dot, and it has to reach the end (or a final newline).  Entries with
    characters outside [domain_char] are not modelled as expressions: [other] says what
    they match. *)
Fixpoint gmatch (e : str) (s : str) {struct e} : bool :=
  match e with
  | [] => match s with [] => true | [c] => N.eqb c 10 | _ => false end
  | c :: e' =>
      if N.eqb c 42 then
        (fix star (s : str) : bool :=
           gmatch e' s || match s with d :: r => negb (N.eqb d 46) && star r | [] => false end) s
      else if N.eqb c 63 then match s with d :: r => negb (N.eqb d 10) && gmatch e' r | [] => false end
      else match s with d :: r => N.eqb c d && gmatch e' r | [] => false end
  end.
(** [\@(?:...)$], searched.  For oa/plugins/free_mail.py:363-395. *)
Fixpoint at_search (f : str -> bool) (s : str) : bool :=
  match s with
  | [] => false
  | c :: r => (N.eqb c 64 && f r) || at_search f r
  end.

Section Plugin.
Variable other : str -> str -> bool.
Variable role : str -> bool.
Variable whitelist : list str.
Variable domains : fdomains.

(** For oa/plugins/free_mail.py:363-395. *)
Definition wild_match (email : str) : bool :=
  match fd_wild domains with
  | None => false
  | Some l => existsb (fun e => if valid_domain e then at_search (gmatch e) email else other e email) l
  end.
(** ** oa/plugins/free_mail.py:363-395 [_is_freemail]; [None]: no "@" (IndexError) *)
Definition is_freemail (email : str) : option bool :=
  match email with
  | [] => Some false
  | _ =>
      match split_char 64%N email with
      | _ :: d :: _ =>
          Some (if mem_str email whitelist then false
                else if mem_str d whitelist then false
                else if role email then false
                else mem_str d (fd_list domains) || wild_match email)
      | _ => None
      end
  end.

(** ** 189-243 [check_freemail_from]: whether the rule hits; an exception is caught by
    oa/rules/eval_.py:70-77 *)
(** 221-242; [check]: the expression given, if any *)
Fixpoint from_loop (check : option (str -> bool)) (l : list str) : bool :=
  match l with
  | [] => false
  | e :: rest =>
      match is_freemail e with
      | None => false
      | Some true => match check with None => true | Some f => f e end
      | Some false => from_loop check rest
      end
  end.
(** oa/plugins/free_mail.py:182-233. *)
Definition check_freemail_from (check : option (str -> bool)) (addresses : list str) : bool :=
  from_loop check (sorted (nodup (list_eq_dec N.eq_dec) addresses)).

(** ** oa/plugins/free_mail.py:245-285 [check_freemail_header]: [addresses] are those found in the header, in order *)
Definition check_freemail_header (check : option (str -> bool)) (addresses : list str) : bool := from_loop check addresses.

(** ** oa/plugins/free_mail.py:334-361 [_parse_body]: the addresses kept, or [None] for False.  [body]: the set of
    addresses, in the order in which it is walked. *)
Fixpoint free_ones (max : nat) (body : list str) (count : nat) (acc : list str) : option (list str) :=
  match body with
  | [] => Some acc
  | e :: rest =>
      match is_freemail e with
      | None => None
      | Some b =>
          let count := if b then S count else count in
          let acc := if b then acc ++ [e] else acc in
          if Nat.leb max count then None else free_ones max rest count acc
      end
  end.
(** oa/plugins/free_mail.py:335-361. *)
Definition parse_body (max_emails max_free : nat) (skip : bool) (body : list str) : option (list str) :=
  if Nat.leb max_emails (length body) && skip then None else free_ones max_free body 0 [].
(** The plugin's data between rules: [Some l] once parsed (check_if_parsed, 339-340 and
    359-360); [check_start] (oa/plugins/free_mail.py:103-104) sets it to [None] and the set to the empty set. *)
Definition parsed_body (max_emails max_free : nat) (skip : bool) (body : list str) (kept : option (list str)) : option (list str) :=
  match kept with Some l => Some l | None => parse_body max_emails max_free skip body end.

(** ** oa/plugins/free_mail.py:287-332 [check_freemail_body]: whether it hits, and what is kept *)
Definition check_freemail_body (max_emails max_free : nat) (skip : bool) (check : option (str -> bool)) (body : list str)
  (kept : option (list str)) : bool * option (list str) :=
  match body with
  | [] => (false, kept)
  | _ =>
      match parsed_body max_emails max_free skip body kept with
      | None => (false, kept)
      | Some l => (match check with
                   | Some f => existsb f l
                   | None => match l with [] => false | _ => true end
                   end, Some l)
      end
  end.

(** ** oa/plugins/free_mail.py:115-187 [check_freemail_replyto] *)
Inductive mode := ReplyTo | Reply.
(** oa/plugins/free_mail.py:106-180. *)
Definition check_freemail_replyto (max_emails max_free : nat) (skip : bool) (bulk : bool) (m : mode) (from reply_to : str)
  (body : list str) (kept : option (list str)) : bool * option (list str) :=
  if bulk then (false, kept)
  else
    match is_freemail from, is_freemail reply_to with
    | Some ff, Some rf =>
        if ff && rf && negb (streqb from reply_to) then (true, kept)
        else if (match m with
                 | ReplyTo => negb rf
                 | Reply => (negb (match reply_to with [] => true | _ => false end) && negb rf) || negb ff
                 end) then (false, kept)
        else match parsed_body max_emails max_free skip body kept with
             | None => (false, kept)
             | Some l =>
                 let check := match m with ReplyTo => reply_to | Reply => if rf then reply_to else from end in
                 (existsb (fun e => negb (streqb e check)) l, Some l)
             end
    | _, _ => (false, kept)
    end.
End Plugin.
