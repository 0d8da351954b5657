(** Model of oa/plugins/dkim.py.  Definitions only.
    Bytes and text are not told apart (ASCII is assumed), except where the code compares
    one with the other (258). *)
From Verif Require Import PyStr PyDict PyRe Model_Spf.

(** ** What a message gives the plugin *)
(** The outcome of [dkim.verify] (289): a result, one of the three exceptions caught
    (oa/plugins/dkim.py:295-303), or any other exception.  [get_txt] (60-83) raises one of the latter when
    the query gets no answer: [ctxt.dns.query] then gives [[]], which has no [response]. *)
Inductive outcome := Passed | Failed | Rejected | Raised.
(** For oa/plugins/dkim.py:248-249,270-271. *)
Record dmsg := {
  dm_from : list str;               (* oa/message.py:255-264: the first address of each From *)
  dm_signature : str;               (* 272: the DKIM-Signature header, "" if there is none *)
  dm_tags : option (option str);    (* 275 [parse_tag_value]: [None] if it raises, else the tag d *)
  dm_verify : outcome;              (* 289 *)
  dm_fields : bool                  (* 294: [validate_signature_fields] does not raise *)
}.

(** ** State *)
(** oa/plugins/dkim.py:19-30, on the plugin of one context *)
Record dkim := {
  dk_addresses : list str;
  dk_checked : bool;
  dk_signed : bool;
  dk_valid : bool;
  dk_author_sig : bool;
  dk_dependable : bool;
  dk_is_valid : bool;
  dk_match_adsp : bool
}.
(** The class's values.  oa/plugins/dkim.py:19-30. *)
Definition dkim0 : dkim :=
  {| dk_addresses := []; dk_checked := false; dk_signed := false; dk_valid := false; dk_author_sig := false;
     dk_dependable := false; dk_is_valid := true; dk_match_adsp := false |}.
(** oa/plugins/dkim.py:22 [author_domains] belongs to the class: it is only ever appended to (232), so all
    contexts of the process share it. *)
Record dstate := { ds_domains : list str; ds_me : dkim }.

(** ** oa/plugins/dkim.py:226-232 [_get_authors] *)
Definition blank_char (c : char) : bool := N.eqb c 32 || N.eqb c 9.
(** [[ \t]*$].  For oa/plugins/dkim.py:229-231. *)
Definition tail_ok (r : str) : bool :=
  match drop_while blank_char r with [] => true | [c] => N.eqb c 10 | _ => false end.
(** [([^@]+?)], shortest first, on a text without "@".  For oa/plugins/dkim.py:229-231. *)
Fixpoint lazy_group (c : char) (r : str) : str :=
  if tail_ok r then [c] else match r with d :: r' => c :: lazy_group d r' | [] => [c] end.
(** oa/plugins/dkim.py:229-231: only the last "@" is followed by no other *)
Definition author_of (address : str) : option str :=
  match rsplit1 64%N address with
  | Some (_, c :: r) => Some (lazy_group c r)
  | _ => None
  end.
(** For oa/plugins/dkim.py:248-249,270-271. *)
Definition authors (addresses : list str) : list str :=
  flat_map (fun a => match author_of a with Some d => [d] | None => [] end) addresses.

(** For oa/plugins/dkim.py:248-249,270-271. *)
Definition with_addresses (a : list str) (k : dkim) : dkim :=
  {| dk_addresses := a; dk_checked := dk_checked k; dk_signed := dk_signed k; dk_valid := dk_valid k;
     dk_author_sig := dk_author_sig k; dk_dependable := dk_dependable k; dk_is_valid := dk_is_valid k;
     dk_match_adsp := dk_match_adsp k |}.
(** oa/plugins/dkim.py:248-249,270-271 *)
Definition get_authors (m : dmsg) (s : dstate) : dstate :=
  match ds_domains s with
  | [] => {| ds_domains := authors (dm_from m); ds_me := with_addresses (dm_from m) (ds_me s) |}
  | _ => s
  end.

(** For oa/plugins/dkim.py:262-303. *)
Definition flags (sg v a dep iv : bool) (k : dkim) : dkim :=
  {| dk_addresses := dk_addresses k; dk_checked := true; dk_signed := sg; dk_valid := v; dk_author_sig := a;
     dk_dependable := dep; dk_is_valid := iv; dk_match_adsp := dk_match_adsp k |}.

(** ** oa/plugins/dkim.py:262-303 [check_dkim_signature]: the new state, and whether it raised *)
Definition check_signature (m : dmsg) (s : dstate) : dstate * bool :=
  let s := get_authors m s in
  let put sg v a dep iv := {| ds_domains := ds_domains s; ds_me := flags sg v a dep iv (ds_me s) |} in
  let iv := dk_is_valid (ds_me s) in
  let signed := match dm_signature m with [] => false | _ => true end in
  match dm_tags m with
  | None => (put signed true true true iv, true)
  | Some d =>
      let '(sg, v, a, dep) :=
        match d with
        | Some d => if mem_str d (ds_domains s) then (signed, true, true, true) else (false, false, false, false)
        | None => (signed, false, true, true)
        end in
      match dm_verify m with
      | Raised => (put sg v a dep iv, true)
      | Rejected => (put sg false false dep iv, false)
      | Passed => if dm_fields m then (put sg v a dep iv, false) else (put sg false false dep iv, false)
      | Failed => if dm_fields m then (put sg false a dep false, false) else (put sg false false dep false, false)
      end
  end.
(** oa/plugins/dkim.py:117-118,152-153, ...: once per plugin *)
Definition ensure (m : dmsg) (s : dstate) : dstate * bool :=
  if dk_checked (ds_me s) then (s, false) else check_signature m s.

(** ** 234-260 [_check_dkim_signed_by]; [None]: it raised *)
(** oa/plugins/dkim.py:253-259.  A name without a dot is text and never equal to the tag, which is bytes. *)
Definition accepts (acceptable d : str) : bool :=
  match rev (split_char 46%N acceptable) with
  | y :: x :: _ => contains (x ++ $"." ++ y) d
  | _ => false
  end.
(** For oa/rules/eval_.py:70-77. *)
Definition signed_by (m : dmsg) (must_valid must_author : bool) (acceptable : str) (s : dstate) : option bool * dstate :=
  match dm_tags m with
  | None => (None, s)
  | Some d =>
      if must_valid && negb (match acceptable with [] => true | _ => false end) && negb (dk_is_valid (ds_me s)) then (Some false, s)
      else match d with
           | None => (Some false, s)
           | Some d =>
               let s := if must_author then get_authors m s else s in
               if must_author && negb (mem_str d (ds_domains s)) then (Some false, s)
               else (Some (accepts acceptable d), s)
           end
  end.
(** 158-162 and so on; an exception is caught by oa/rules/eval_.py:70-77, the rule does not hit *)
Fixpoint any_signed_by (m : dmsg) (mv ma : bool) (args : list str) (s : dstate) : bool * dstate :=
  match args with
  | [] => (false, s)
  | x :: rest => match signed_by m mv ma x s with
                 | (Some true, s) => (true, s)
                 | (Some false, s) => any_signed_by m mv ma rest s
                 | (None, s) => (false, s)
                 end
  end.

(** ** The rules, with oa/rules/eval_.py:70-77 *)
Definition flag_rule (flag : dkim -> bool) (mv ma : bool) (args : list str) (m : dmsg) (s : dstate) : bool * dstate :=
  let '(s, raised) := ensure m s in
  if raised then (false, s)
  else if negb (flag (ds_me s)) then (false, s)
  else match args with [] => (true, s) | _ => any_signed_by m mv ma args s end.
(** oa/plugins/dkim.py:149-162 *)
Definition check_dkim_signed : list str -> dmsg -> dstate -> bool * dstate := flag_rule dk_signed false false.
(** oa/plugins/dkim.py:164-177 *)
Definition check_dkim_valid : list str -> dmsg -> dstate -> bool * dstate := flag_rule dk_valid true false.
(** oa/plugins/dkim.py:179-192 *)
Definition check_dkim_valid_author_sig : list str -> dmsg -> dstate -> bool * dstate := flag_rule dk_author_sig true true.
(** oa/plugins/dkim.py:194-197 *)
Definition check_dkim_dependable (m : dmsg) (s : dstate) : bool * dstate :=
  let '(s, raised) := ensure m s in
  if raised then (false, s) else (dk_dependable (ds_me s), s).

(** ** oa/plugins/dkim.py:99-111 [parse_input]; [None]: an entry without a word (IndexError) *)
Definition star_key (p : str) : str := replace ($"*") ($".*") p.
(** oa/plugins/dkim.py:99-111. *)
Fixpoint parse_input (unlisted entries : list str) (d : dict str) : option (dict str) :=
  match entries with
  | [] => Some d
  | e :: rest =>
      match words e with
      | [] => None
      | p :: doms =>
          if mem_str p unlisted then parse_input unlisted rest d
          else parse_input unlisted rest (dset (star_key p) (last doms []) d)
      end
  end.

(** ** 211-224 [_check_dkim_whitelist] *)
(** oa/plugins/dkim.py:218-223, for one address; [None]: an expression outside the fragment *)
Fixpoint wl_address (domains : list str) (items : dict str) (a : str) : option bool :=
  match items with
  | [] => Some false
  | (key, value) :: rest =>
      match re_match_text key a with
      | None => None
      | Some b => if b && (match value with [] => true | _ => mem_str value domains end) then Some true
                  else wl_address domains rest a
      end
  end.
(** For oa/plugins/dkim.py:113-224. *)
Fixpoint wl_addresses (domains : list str) (items : dict str) (l : list str) : option bool :=
  match l with
  | [] => Some false
  | a :: rest => match wl_address domains items a with
                 | Some false => wl_addresses domains items rest
                 | r => r
                 end
  end.
(** For oa/plugins/dkim.py:113-224. *)
Definition check_whitelist (unlisted entries : list str) (m : dmsg) (s : dstate) : option bool * dstate :=
  let '(s, raised) := ensure m s in
  if raised then (Some false, s)
  else if negb (dk_valid (ds_me s)) then (Some false, s)
  else match parse_input unlisted entries [] with
       | None => (Some false, s)
       | Some items => (wl_addresses (ds_domains s) items (dk_addresses (ds_me s)), s)
       end.

(** ** 113-147 [check_dkim_adsp] *)
(** oa/plugins/dkim.py:50-58 *)
Definition adsp_options : dict str :=
  [($"A", $"all"); ($"D", $"discardable"); ($"N", $"nxdomain"); ($"1", $"custom_low"); ($"2", $"custom_med");
   ($"3", $"custom_high"); ($"U", $"unknown")].
(** oa/plugins/dkim.py:135-140: go on, hit, or no such practice (141-142); [None]: an expression outside
    the fragment *)
Inductive scan := GoOn | Hit | Stop.
(** For oa/plugins/dkim.py:124-144. *)
Fixpoint adsp_scan (practice : str) (author : str) (items : dict str) : option scan :=
  match items with
  | [] => Some GoOn
  | (key, value) :: rest =>
      match re_search key author with
      | None => None
      | Some b =>
          if b && (match value with [] => false | _ => true end) then
            match dget practice adsp_options with
            | None => Some Stop
            | Some name => if streqb name (lower value) then Some Hit else adsp_scan practice author rest
            end
          else adsp_scan practice author rest
      end
  end.
(** oa/plugins/dkim.py:124-144.  Line 127 also adds the author's domain to the dictionary, with an empty value;
    such an item has no effect on 135-140 unless the domain is outside the fragment of
    expressions, which is not modelled.  [only]: the argument [domains_list], "" for None. *)
Fixpoint adsp_authors (practice only : str) (items : dict str) (l : list str) : option scan :=
  match l with
  | [] => Some GoOn
  | a :: rest =>
      if (match only with [] => false | _ => negb (streqb only a) end) then adsp_authors practice only items rest
      else if (match dget a items with None | Some [] => true | _ => false end) && streqb practice ($"D") then Some Hit
      else if streqb practice ($"*") then Some Hit
      else match adsp_scan practice a items with
           | Some GoOn => adsp_authors practice only items rest
           | r => r
           end
  end.
(** For oa/plugins/dkim.py:113-147. *)
Definition with_match (b : bool) (k : dkim) : dkim :=
  {| dk_addresses := dk_addresses k; dk_checked := dk_checked k; dk_signed := dk_signed k; dk_valid := dk_valid k;
     dk_author_sig := dk_author_sig k; dk_dependable := dk_dependable k; dk_is_valid := dk_is_valid k;
     dk_match_adsp := b |}.
(** oa/plugins/dkim.py:113-147. *)
Definition check_dkim_adsp (unlisted overrides : list str) (practice only : str) (m : dmsg) (s : dstate) : option bool * dstate :=
  let '(s, raised) := ensure m s in
  if raised then (Some false, s)
  else if dk_valid (ds_me s) then (Some false, s)
  else if Nat.ltb 3 (length overrides) then (Some false, s)
  else match parse_input unlisted overrides [] with
       | None => (Some false, s)
       | Some items =>
           match adsp_authors practice only items (ds_domains s) with
           | None => (None, s)
           | Some Hit => (Some true, {| ds_domains := ds_domains s; ds_me := with_match true (ds_me s) |})
           | Some Stop => (Some false, s)
           | Some GoOn => (Some (negb (dk_match_adsp (ds_me s)) && streqb practice ($"U")), s)
           end
       end.

(** ** A sequence of rules asked of one context: the state in which the next one is asked.
    oa/plugins/dkim.py:113-224. *)
Inductive question :=
| QSigned (args : list str) | QValid (args : list str) | QAuthor (args : list str) | QDependable
| QWhitelist (unlisted entries : list str) | QAdsp (unlisted overrides : list str) (practice only : str).
(** oa/plugins/dkim.py:113-224. *)
Definition ask (q : question) (m : dmsg) (s : dstate) : option bool * dstate :=
  match q with
  | QSigned args => let '(b, s) := check_dkim_signed args m s in (Some b, s)
  | QValid args => let '(b, s) := check_dkim_valid args m s in (Some b, s)
  | QAuthor args => let '(b, s) := check_dkim_valid_author_sig args m s in (Some b, s)
  | QDependable => let '(b, s) := check_dkim_dependable m s in (Some b, s)
  | QWhitelist u e => check_whitelist u e m s
  | QAdsp u o p d => check_dkim_adsp u o p d m s
  end.
(** Rules of one context over one message after another, while other contexts of the
    process may use the plugin too; here alone.  oa/plugins/dkim.py:113-224. *)
Fixpoint asked (l : list (question * dmsg)) (s : dstate) : dstate :=
  match l with
  | [] => s
  | (q, m) :: rest => asked rest (snd (ask q m s))
  end.
