(** The program as a whole, put together from the models of its parts: configuration files are read
    (oa/rules/parser.py:286-332), a message is loaded (oa/message.py:133-168) and checked
    (oa/rules/ruleset.py:341-366), and the daemon answers (oa/server.py, oa/protocol/check.py).  No plugin is
    loaded: the hooks do nothing.  Definitions only. *)
From Verif Require Import PyStr PyDict Regexp PyEmail Model_Rules Model_Headers Model_Parser Model_Build Model_Load Model_Message.
From Verif Require Model_Server Model_Meta.

Section Program.
Variable udigit uword : char -> bool.                                  (** see Regexp *)
Variable codec : str -> bool -> list N -> option str.                  (** see Model_Load *)
Variable feed : str -> list str * bool.
Variable header_parts : str -> option (list hpart).
Variable decode : str -> bool -> list N -> option (option str).        (** see Model_Message *)
Variable repair : list N -> list N.
Variable py_float : str -> option Q.                                   (** [float] *)

(** [re.compile(pattern, flags).search], oa/regex.py:104-112 and oa/rules/body.py:19-26.  Simplification: the
    flags s and m, which change what [.], [^] and [$] mean, are ignored. *)
Definition searcher (pattern : str) (f : reflags) : option (str -> bool) :=
  match compile (f_i f) (f_x f) pattern with
  | Some r => Some (fun s => matched (re_search udigit uword r s))
  | None => None
  end.

(** A message after [Message.__init__], oa/message.py:133-168: its text, its headers and what was found in it.  *)
Record loaded_mail := mkMail { lm_raw : str; lm_fields : list (str * str); lm_parts : loaded }.
(** oa/rules/header.py:128-238 on a message nothing was asked of before.  Simplification: a value whose decoding raises
    an unexpected exception counts as one that cannot be decoded. *)
Definition field_rule (addresses : str -> option (list (str * str))) (h : hrule) (x : loaded_mail) : outcome :=
  hrule_match (fun v => match decode_header codec header_parts v with Ok o => o | _ => None end) addresses h (mkH (raw_of (lm_fields x)) []).
(** What rules look at, oa/message.py:141-153.  MIME header rules are left open.  A meta rule cannot be matched before
    [postparsing]: its [_location] has no entry yet (oa/rules/meta.py:33-34,73-74). *)
Definition seen_by_rules (addresses : str -> option (list (str * str))) (mime : bool -> str -> loaded_mail -> list (option str)) : content loaded_mail :=
  mkContent (fun x => l_text (lm_parts x)) (fun x => l_raw_text (lm_parts x)) lm_raw (fun x => l_uris (lm_parts x)) (field_rule addresses) mime (fun _ m => (m, Raises)).
(** oa/message.py:133-168.  [None]: an exception. *)
Definition load_mail (raw : str) : option loaded_mail :=
  match message_from_string decode (translate_line_breaks raw), load_text udigit uword codec feed header_parts decode repair raw with
  | Some (Message _ fields _), Some l => Some (mkMail (translate_line_breaks raw) fields l)
  | _, _ => None
  end.

Variable addresses : str -> option (list (str * str)).                 (** see Model_Headers *)
Variable mime : bool -> str -> loaded_mail -> list (option str).
Context {A Y : Type}.
Variable arg : str -> ares A.
Variable evals : str -> option (list A -> option str -> msg loaded_mail -> msg loaded_mail * outcome).
Variable E : penv Y.
Variable y : Y.
Variable c : switches.
Variable order : list str -> list str.                                 (** see Model_Meta *)

(** oa/rules/parser.py:301-308: what class a rule is of. *)
Definition kind_in (table : results) (n : str) : Model_Meta.mrule :=
  match dget n table with
  | Some d => match dget ($"type") d, dget ($"value") d with
              | Some (AStr ty), Some (AStr v) => if streqb ty ($"meta") then Model_Meta.RMeta v else Model_Meta.RBase
              | _, _ => Model_Meta.RBase
              end
  | None => Model_Meta.RBase
  end.
(** The rules by class, for oa/rules/ruleset.py:329-339. *)
Definition kinds (table : results) (l : dict (rule loaded_mail)) : dict Model_Meta.mrule := map (fun e => (fst e, kind_in table (fst e))) l.
(** oa/rules/meta.py:73-74, once [postparsing] is through: the rule [n] of [t], which calls the rules of [rs].  Sub-rules
    only look at the message.  The fuel is more than the longest chain. *)
Definition meta_match (rs : ruleset loaded_mail) (t : Model_Meta.mtables) (n : str) (x : loaded_mail) : outcome :=
  let rules := rs_checked rs ++ rs_not_checked rs in
  match Model_Meta.mmatch t (fun s => match dget s rules with Some r => snd (r_match r (fresh_msg x)) | None => Raises end) (12 + length rules) n with
  | Some o => o
  | None => Raises
  end.
(** A rule with another [match]. oa/rules/meta.py:69-74 *)
Definition with_match (r : rule loaded_mail) (f : msg loaded_mail -> msg loaded_mail * outcome) : rule loaded_mail :=
  mkRule (r_name r) (r_kind r) (r_scores r) (r_score r) (r_desc r) (r_prio r) (r_tflags r) (r_eval r) f.
(** oa/rules/ruleset.py:331-339 on one table: [left] are the rules that stay. *)
Definition usable (rs : ruleset loaded_mail) (t : Model_Meta.mtables) (left : dict Model_Meta.mrule) (l : dict (rule loaded_mail)) : dict (rule loaded_mail) :=
  flat_map (fun e => match dget (fst e) left with
                     | Some Model_Meta.RBase => [e]
                     | Some (Model_Meta.RMeta _) => [(fst e, with_match (snd e) (reader (meta_match rs t (fst e))))]
                     | None => []
                     end) l.
(** oa/rules/ruleset.py:329-339.  [None]: an exception, when paranoid also for any invalid meta rule. *)
Definition finish (table : results) (rs : ruleset loaded_mail) : option (ruleset loaded_mail) :=
  match Model_Meta.call_postparsing order (Model_Meta.mkT (kinds table (rs_checked rs)) (kinds table (rs_not_checked rs))) with
  | Some (t, _) =>
      let rs' := mkRS (usable rs t (Model_Meta.t_checked t) (rs_checked rs)) (usable rs t (Model_Meta.t_not_checked t) (rs_not_checked rs)) in
      if e_paranoid E && (length (rs_checked rs' ++ rs_not_checked rs') <? length (rs_checked rs ++ rs_not_checked rs)) then None else Some rs'
  | None => None
  end.
(** oa/rules/parser.py:286-332: [parse_pad_rules(files).get_ruleset()].  [None]: an exception. *)
Definition read_rules (files : list str) : option (ruleset loaded_mail) :=
  match parse_files E files (mkP [] false y) with
  | PDone st =>
      match load_rules py_float searcher arg (seen_by_rules addresses mime) evals (e_paranoid E) c (p_results st) with
      | Loaded rs => finish (p_results st) rs
      | _ => None
      end
  | PRaise _ _ => None
  end.
(** oa/rules/ruleset.py:341-366, without plugins *)
Definition check (rs : ruleset loaded_mail) (m : loaded_mail) : msg loaded_mail := match_msg (rs_checked rs) [] [] (fresh_msg m).

(** The parts of the program the daemon uses, oa/server.py:56-113; reports, changed messages and learning are left
    out.  [R]: the rules and the required score. *)
Definition daemon (version : str) (show fmt1 : Q -> str) : Model_Server.engine (ruleset loaded_mail * Q) loaded_mail (msg loaded_mail) unit unit :=
  Model_Server.mkEngine version
    (fun _ text => match load_mail text with Some m => Model_Server.Ok m | None => Model_Server.Err Model_Server.EOther end)
    (fun r m => Model_Server.Ok (check (fst r) m))
    m_score snd (fun r => show (snd r)) fmt1 hit_names
    (fun _ _ => Model_Server.Err Model_Server.EOther) (fun _ _ _ => Model_Server.Err Model_Server.EOther)
    (fun _ _ _ _ _ => Model_Server.Ok tt) (fun _ _ _ _ _ => Model_Server.Ok tt) (fun _ => false) (fun r _ _ _ => Model_Server.Ok r).
End Program.
