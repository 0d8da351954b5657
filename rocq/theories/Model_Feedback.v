(** Model of oa/plugins/razor2.py, pyzor.py, spam_cop.py and whitelist_subject.py.
    Definitions only. *)
From Verif Require Import PyStr PyDict.

(** ** oa/plugins/razor2.py *)
(** What running razor-check comes to (oa/plugins/razor2.py:55-71): it cannot be started (OSError), or it ends
    with a return code, negative if a signal ended it (the timer's kill, 9-11, gives -9). *)
Inductive run := NotStarted | Ended (code : Z).
(** The local data of the message: [razor2_result], if any.  The answer is what a rule
    makes of the value returned: true or not.  For oa/plugins/razor2.py:35-75. *)
Definition truth (code : Z) : bool := negb (Z.eqb code 0).
(** oa/plugins/razor2.py:35-75 [check_razor2] *)
Definition check_razor2 (use : bool) (r : run) (stored : option Z) : bool * option Z :=
  if negb use then (false, stored)
  else match stored with
       | Some v => (truth v, stored)
       | None =>
           match r with
           | NotStarted => (false, Some 0%Z)
           | Ended code =>
               (negb (truth code), Some (if Z.eqb code 1 || Z.eqb code 0 then code else 0%Z))
           end
       end.
(** The answers of rules asked one after the other about a message; the program is run at
    most once.  oa/plugins/razor2.py:35-75. *)
Fixpoint razor_answers (use : bool) (r : run) (n : nat) (stored : option Z) : list bool :=
  match n with
  | 0 => []
  | S n => let '(b, stored) := check_razor2 use r stored in b :: razor_answers use r n stored
  end.

(** ** oa/plugins/pyzor.py *)
(** A server's answer to a digest (oa/plugins/pyzor.py:47-49): the counts, or an exception (no answer, or one
    without numbers). *)
Definition answer := option (Z * Z).
(** 46-56: the result, the last counts stored as tags (53-54), and the servers asked; an
    exception ends the rule, which then does not hit (oa/rules/eval_.py:70-77). *)
Fixpoint ask_servers (max : Z) (reply : str -> answer) (servers : list str) (tags : option (Z * Z)) (seen : list str)
  : bool * option (Z * Z) * list str :=
  match servers with
  | [] => (false, tags, seen)
  | s :: rest =>
      match reply s with
      | None => (false, tags, seen ++ [s])
      | Some (count, wl) =>
          if Z.leb max count && Z.eqb wl 0 then (true, Some (count, wl), seen ++ [s])
          else ask_servers max reply rest (Some (count, wl)) (seen ++ [s])
      end
  end.
(** oa/plugins/pyzor.py:29-57 [check_pyzor]; [digest] of the message *)
Record pyzor := { pz_digest : option str; pz_tags : option (Z * Z); pz_asked : list str }.
(** oa/plugins/pyzor.py:27-54. *)
Definition check_pyzor (use : bool) (max : Z) (servers : list str) (reply : str -> str -> answer) (digest : str) (p : pyzor) : bool * pyzor :=
  if negb use then (false, p)
  else let '(b, t, l) := ask_servers max (reply digest) servers (pz_tags p) (pz_asked p) in
       (b, {| pz_digest := Some digest; pz_tags := t; pz_asked := l |}).
(** oa/plugins/pyzor.py:69-84 [_pyzor_report]: the (server, digest) pairs sent, until one raises *)
Fixpoint send_all (send : str -> bool) (digest : str) (servers : list str) : list (str * str) :=
  match servers with
  | [] => []
  | s :: rest => (s, digest) :: if send s then send_all send digest rest else []
  end.
(** oa/plugins/pyzor.py:66-82. *)
Definition pyzor_report (use : bool) (servers : list str) (send : str -> bool) (digest : str) (p : pyzor) : list (str * str) :=
  if negb use then []
  else send_all send (match pz_digest p with Some d => d | None => digest end) servers.

(** ** oa/plugins/spam_cop.py *)
(** oa/plugins/spam_cop.py:78: [re.match(".+@.+", to)]: an "@" after one or more characters and before another,
    all on the first line *)
Fixpoint at_inside (seen : bool) (s : str) : bool :=
  match s with
  | [] => false
  | c :: r =>
      if N.eqb c 10 then false
      else (seen && N.eqb c 64 && match r with d :: _ => negb (N.eqb d 10) | [] => false end) || at_inside true r
  end.
(** oa/plugins/spam_cop.py:47-55 [get_mail_date]: the first Received header's text between the first ";" and the
    next; [None]: an exception.  [parse] is [mktime(parsedate(..))], which raises if the
    text is no date. *)
Definition mail_date (parse : str -> option Z) (received : list str) : option Z :=
  match received with
  | [] => None
  | h :: _ => match split_char 59%N h with
              | _ :: t :: _ => parse t
              | _ => None
              end
  end.
(** oa/plugins/spam_cop.py:102-104 *)
Definition notice : str := 10%N :: $"[truncated by OrangeAssassin]" ++ [10%N].
(** For oa/plugins/spam_cop.py:27-38. *)
Definition excerpt (max : nat) (raw : str) : str :=
  if Nat.ltb (max * 1024) (length raw) then firstn (max * 1024) raw ++ notice else raw.
(** oa/plugins/spam_cop.py:72-122 [plugin_report], which the context's hook calls: what is sent as the original
    message, if anything.  [dont]: the option dont_report_to_spamcop, which only
    [_spamcop_report] (27-38) reads; nothing calls that. *)
Inductive report := Crash | NotSent | Sent (original : str).
(** oa/plugins/spam_cop.py:27-38. *)
Definition spamcop_report (dont : bool) (to : str) (max : nat) (parse : str -> option Z) (now : Z) (received : list str) (raw : str) : report :=
  if negb (at_inside false to) then NotSent
  else match mail_date parse received with
       | None => Crash
       | Some d => if Z.eqb d 0 || Z.ltb d (now - 2 * 86400) then NotSent else Sent (excerpt max raw)
       end.

(** ** oa/plugins/whitelist_subject.py *)
(** The two lists belong to the class: all contexts of the process append to them (44).
    For oa/plugins/whitelist_subject.py:25-46. *)
Definition subject_lists := dict (list str).
(** oa/plugins/whitelist_subject.py:25-46. *)
Definition empty_lists : subject_lists := [($"whitelist_subject", []); ($"blacklist_subject", [])].
(** oa/plugins/whitelist_subject.py:25-46; [valid]: the expression compiles.  Which context reads the line makes no
    difference. *)
Definition subject_config (valid : str -> bool) (key value : str) (l : subject_lists) : subject_lists :=
  match dget key l with
  | None => l
  | Some old => if valid (strip value) then dset key (old ++ [value]) l else l
  end.
(** oa/plugins/whitelist_subject.py:25-46. *)
Fixpoint subject_configs (valid : str -> bool) (lines : list (str * str)) (l : subject_lists) : subject_lists :=
  match lines with
  | [] => l
  | (k, v) :: rest => subject_configs valid rest (subject_config valid k v l)
  end.
(** oa/plugins/whitelist_subject.py:48-69; [None]: no Subject header (TypeError in [re.match], so the rule does not hit,
    unless the list is empty, in which case it does not either) *)
Definition check_subject (matches : str -> str -> bool) (key : str) (l : subject_lists) (subject : option str) : bool :=
  match subject with
  | None => false
  | Some s => match dget key l with Some items => existsb (fun i => matches i s) items | None => false end
  end.
