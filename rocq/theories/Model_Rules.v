(** Model of oa/rules/base.py, oa/rules/ruleset.py (rule tables, matching,
    reports) and oa/plugins/short_circuit.py.  Definitions only. *)
From Verif Require Import PyStr PyDict.

(** Result of calling a rule: a Python value.  Only the kinds that rules return
    are distinguished.  For oa/rules/ruleset.py:353-361. *)
Inductive value :=
| VNone
| VBool (b : bool)
| VNum (q : Q)
| VStr (s : str).

(** Python truth value of a result ([if result:]).  For oa/rules/ruleset.py:353-361. *)
Definition truthy (v : value) : bool :=
  match v with
  | VNone => false
  | VBool b => b
  | VNum q => negb (Qeq_bool q 0%Q)
  | VStr s => match s with [] => false | _ => true end
  end.

(** What [rule.match(msg)] can do: return, raise [oa.errors.StopProcessing]
    (oa/errors.py:81), or raise any other [Exception]. *)
Inductive outcome :=
| Returns (v : value)
| Raises
| Stops.

(** The part of oa/message.py:130-168 [Message] that rule processing reads and
    writes: [score], [rules_checked], [rules_descriptions], [plugin_tags];
    everything else (headers, text, plugin private data) is [m_ext]. *)
Record msg (X : Type) := mkMsg {
  m_score : Q;
  m_checked : dict value;
  m_descs : dict str;
  m_tags : dict str;
  m_ext : X
}.
Arguments mkMsg {X}. Arguments m_score {X}. Arguments m_checked {X}.
Arguments m_descs {X}. Arguments m_tags {X}. Arguments m_ext {X}.

(** oa/rules/base.py:23-56 [BaseRule] instances.  [r_kind] is the class
    attribute [_rule_type]; [r_eval] is the eval function name of an
    oa/rules/eval_.py:27 [EvalRule]; [r_match] is the [match] method. [tflags]
    [None] and [[]] are both falsy and are both modelled by [[]]. *)
Record rule (X : Type) := mkRule {
  r_name : str;
  r_kind : str;
  r_scores : list Q;
  r_score : Q;
  r_desc : str;
  r_prio : Z;
  r_tflags : list str;
  r_eval : option str;
  r_match : msg X -> msg X * outcome
}.
Arguments mkRule {X}. Arguments r_name {X}. Arguments r_kind {X}.
Arguments r_scores {X}. Arguments r_score {X}. Arguments r_desc {X}.
Arguments r_prio {X}. Arguments r_tflags {X}. Arguments r_eval {X}.
Arguments r_match {X}.

(** Python [int(s)] on ASCII decimal text (surrounding blanks and a sign
    allowed; the underscore and non-ASCII digit forms are not modelled).
    For oa/rules/base.py:49-52. *)
Fixpoint digits_val (acc : Z) (s : str) : option Z :=
  match s with
  | [] => Some acc
  | c :: s' => if is_digit c then digits_val (10 * acc + Z.of_N (c - 48))%Z s' else None
  end.
(** For oa/rules/base.py:49-52. *)
Definition nat_val (s : str) : option Z :=
  match s with [] => None | _ => digits_val 0%Z s end.
(** For oa/rules/base.py:49-52. *)
Definition py_int (s : str) : option Z :=
  match strip s with
  | c :: s' => if N.eqb c 45 then option_map Z.opp (nat_val s')
               else if N.eqb c 43 then nat_val s'
               else nat_val (c :: s')
  | [] => None
  end.

Section Rules.
Context {X : Type}.
Notation msg := (msg X).
Notation rule := (rule X).

(** oa/rules/base.py:29,98: [name.startswith("__")] *)
Definition hidden_name (name : str) : bool := startswith ($"__") name.

(** oa/rules/base.py:29-37: choice of the score list. *)
Definition init_scores (name : str) (score : option (list Q)) (tflags : list str) : list Q :=
  if hidden_name name then [0%Q]
  else match score with
       | Some s => s
       | None => if mem_str ($"nice") tflags then [(-1)%Q] else [1%Q]
       end.

(** oa/rules/base.py:46-47 *)
Definition init_desc (desc : option str) : str :=
  match desc with Some d => d | None => $"No description available." end.

(** oa/rules/base.py:49-52: [int(priority)], 0 when not an integer.
    [None] = the default argument 0. *)
Definition init_prio (priority : option str) : Z :=
  match priority with
  | None => 0%Z
  | Some p => match py_int p with Some z => z | None => 0%Z end
  end.

(** oa/rules/base.py:27-56 [BaseRule.__init__].  [None] is [InvalidRule]
    (lines 41-44).  With the length checked, [_scores[0]] (line 56) exists. *)
Definition init_rule (name kind : str) (score : option (list Q)) (desc priority : option str)
    (tflags : list str) (ev : option str) (m : msg -> msg * outcome) : option rule :=
  let scores := init_scores name score tflags in
  match scores with
  | [s] => Some (mkRule name kind scores s (init_desc desc) (init_prio priority) tflags ev m)
  | [s; _; _; _] => Some (mkRule name kind scores s (init_desc desc) (init_prio priority) tflags ev m)
  | _ => None
  end.

(** The configuration switches read by [preprocess]
    (oa/conf.py:202-203,227,229). *)
Record switches := mkSwitches {
  use_bayes : bool;
  use_network : bool;
  autolearn : bool;
  user_config : bool
}.

(** For oa/rules/base.py:58-80. *)
Definition set_score (r : rule) (s : Q) : rule :=
  mkRule (r_name r) (r_kind r) (r_scores r) s (r_desc r) (r_prio r) (r_tflags r) (r_eval r) (r_match r).

(** oa/rules/base.py:15-20 [_ADVANCED_SCORING] *)
Definition advanced_score (bayes net : bool) (scores : list Q) (dflt : Q) : Q :=
  match bayes, net with
  | false, false => nth 0 scores dflt
  | false, true => nth 1 scores dflt
  | true, false => nth 2 scores dflt
  | true, true => nth 3 scores dflt
  end.

(** oa/rules/base.py:58-80 [BaseRule.preprocess].  The [nth] default is never
    used: the last line runs only when there are exactly four scores. *)
Definition preprocess (c : switches) (r : rule) : rule :=
  let fl f := mem_str f (r_tflags r) in
  if negb (use_network c) && fl ($"net") then set_score r 0%Q
  else if autolearn c && fl ($"noautolearn") then set_score r 0%Q
  else if negb (use_bayes c) && fl ($"learn") then set_score r 0%Q
  else if negb (user_config c) && fl ($"userconf") then set_score r 0%Q
  else if negb (length (r_scores r) =? 4) || Qeq_bool (r_score r) 0%Q then r
  else set_score r (advanced_score (use_bayes c) (use_network c) (r_scores r) (r_score r)).

(** oa/rules/base.py:96-104 [BaseRule.should_check] *)
Definition should_check (r : rule) : bool :=
  if hidden_name (r_name r) then false
  else if Qeq_bool (r_score r) 0%Q then false
  else true.

(** The two rule tables of oa/rules/ruleset.py:32-57 [RuleSet]. *)
Record ruleset := mkRS {
  rs_checked : dict rule;
  rs_not_checked : dict rule
}.
(** oa/rules/ruleset.py:32-57. *)
Definition empty_ruleset : ruleset := mkRS [] [].

(** oa/rules/ruleset.py:112-121 [RuleSet.add_rule] together with the
    oa/rules/eval_.py:53-68 [EvalRule.preprocess] lookup: [None] is the
    [InvalidRule] for an unknown eval function.  [evals] are the names in
    [ctxt.eval_rules]. *)
Definition add_rule (c : switches) (evals : list str) (rs : ruleset) (r : rule) : option ruleset :=
  let r' := preprocess c r in
  let ok := match r_eval r with None => true | Some e => mem_str e evals end in
  if negb ok then None
  else if should_check r'
       then Some (mkRS (dset (r_name r') r' (rs_checked rs)) (rs_not_checked rs))
       else Some (mkRS (rs_checked rs) (dset (r_name r') r' (rs_not_checked rs))).

(** oa/rules/ruleset.py:276-287 [RuleSet.get_rule]; [None] is [KeyError]. *)
Definition get_rule (rs : ruleset) (name : str) (checked_only : bool) : option rule :=
  match dget name (rs_checked rs) with
  | Some r => Some r
  | None => if checked_only then None else dget name (rs_not_checked rs)
  end.

(** oa/rules/parser.py:289-308: the loop of [get_ruleset] over the parsed rules
    in non-paranoid mode; a rule whose construction ([None]) or insertion fails
    is skipped. *)
Definition add_rules (c : switches) (evals : list str) (rules : list (option rule)) (rs : ruleset) : ruleset :=
  fold_left (fun acc ro => match ro with
                           | None => acc
                           | Some r => match add_rule c evals acc r with Some acc' => acc' | None => acc end
                           end) rules rs.

(** oa/rules/base.py:148-149 [BaseRule.__lt__] - the comparison [sorted] uses. *)
Definition rule_lt (a b : rule) : bool := Z.ltb (r_prio b) (r_prio a).

(** oa/rules/ruleset.py:291-292: [sorted(items, key=itemgetter(1))].  Python's
    sort is stable; modelled by stable insertion ([x] goes in front of the
    first element it is smaller than). *)
Fixpoint insert_item (x : str * rule) (l : list (str * rule)) : list (str * rule) :=
  match l with
  | [] => [x]
  | y :: l' => if rule_lt (snd x) (snd y) then x :: l else y :: insert_item x l'
  end.
(** oa/rules/ruleset.py:291-292. *)
Definition sort_checked (l : list (str * rule)) : list (str * rule) :=
  fold_left (fun acc x => insert_item x acc) l [].

(** oa/rules/eval_.py:70-77 [EvalRule.match]: every exception raised by the
    eval function, [StopProcessing] included, becomes the result [False]. *)
Definition eval_match (f : msg -> msg * outcome) (m : msg) : msg * outcome :=
  match f m with
  | (m1, Returns v) => (m1, Returns v)
  | (m1, Raises) => (m1, Returns (VBool false))
  | (m1, Stops) => (m1, Returns (VBool false))
  end.

(** oa/rules/ruleset.py:353-361: bookkeeping after one rule has returned. *)
Definition record (name : str) (r : rule) (m : msg) (v : value) : msg :=
  let '(descs, v') :=
    match v with
    | VStr s => (dset name s (m_descs m), VBool true)
    | _ => if truthy v then (dset name (r_desc r) (m_descs m), v) else (m_descs m, v)
    end in
  mkMsg (if truthy v' then (m_score m + r_score r)%Q else m_score m)
        (dset name v' (m_checked m)) descs (m_tags m) (m_ext m).

(** oa/rules/ruleset.py:343-364: the loop of [RuleSet.match]; the second
    component tells whether processing was stopped. *)
Fixpoint match_loop (rules : list (str * rule)) (m : msg) : msg * bool :=
  match rules with
  | [] => (m, false)
  | (name, r) :: rest =>
      match r_match r m with
      | (m1, Stops) => (m1, true)
      | (m1, Raises) => match_loop rest (record name r m1 (VBool false))
      | (m1, Returns v) => match_loop rest (record name r m1 v)
      end
  end.

(** oa/context.py:111-124,344-354: a hook calls the plugins in order until one
    inhibits the chain ([true]). *)
Fixpoint hook_chain (plugins : list (msg -> msg * bool)) (m : msg) : msg :=
  match plugins with
  | [] => m
  | p :: ps => match p m with
               | (m', true) => m'
               | (m', false) => hook_chain ps m'
               end
  end.

(** oa/rules/ruleset.py:341-366 [RuleSet.match]: the loop, then
    [hook_check_end] and [hook_auto_learn].  [checked] is the sorted table. *)
Definition match_msg (checked : dict rule) (check_end auto_learn : list (msg -> msg * bool)) (m : msg) : msg :=
  hook_chain auto_learn (hook_chain check_end (fst (match_loop checked m))).

(** oa/message.py:142-168: the state a new message starts with. *)
Definition fresh_msg (x : X) : msg := mkMsg 0%Q [] [] [] x.

(** oa/rules/ruleset.py:84-89,242-247 and oa/protocol/check.py: the hit names. *)
Definition hit_names (m : msg) : list str :=
  map fst (filter (fun e => truthy (snd e)) (m_checked m)).

(** oa/rules/ruleset.py:83-89: the _TESTS_ tag. *)
Definition tests_tag (m : msg) : str :=
  match hit_names m with [] => $"none" | l => join ($",") l end.

(** oa/rules/ruleset.py:244-257 [get_matched_report]; [fmt] is Python's [%s] on
    a number.  [None] is a [KeyError] (rule gone, or no description recorded). *)
Fixpoint report_lines (fmt : Q -> str) (rs : ruleset) (descs : dict str) (l : dict value) : option (list str) :=
  match l with
  | [] => Some []
  | (name, v) :: l' =>
      if truthy v then
        match get_rule rs name false, dget name descs, report_lines fmt rs descs l' with
        | Some r, Some d, Some rest =>
            Some (($"* " ++ fmt (r_score r) ++ $" " ++ r_name r ++ $" " ++ r_kind r ++ d) :: rest)
        | _, _, _ => None
        end
      else report_lines fmt rs descs l'
  end.
(** For oa/rules/ruleset.py:244-257. *)
Definition crlf : str := [13%N; 10%N].
(** oa/rules/ruleset.py:244-257. *)
Definition get_matched_report (fmt : Q -> str) (rs : ruleset) (m : msg) : option str :=
  option_map (fun ls => crlf ++ join crlf ls) (report_lines fmt rs (m_descs m) (m_checked m)).

(** ** oa/plugins/short_circuit.py *)

(** For oa/plugins/short_circuit.py:24-47. *)
Inductive sctype := SC_on | SC_ham | SC_spam.
(** For oa/plugins/short_circuit.py:24-47. *)
Definition sctype_name (t : sctype) : str :=
  match t with SC_on => $"on" | SC_ham => $"ham" | SC_spam => $"spam" end.

(** oa/plugins/short_circuit.py:24-47 [ShortCircuitRule.__call__].  [name] and
    [score] are those of the wrapped rule. *)
Definition sc_call (name : str) (score : Q) (t : sctype) (spam_score ham_score : Q)
    (inner : msg -> msg * outcome) (m : msg) : msg * outcome :=
  match inner m with
  | (m1, Returns v) =>
      if truthy v then
        let tags := dset ($"SC") (name ++ $" (" ++ sctype_name t ++ $")")
                   (dset ($"SCTYPE") (sctype_name t)
                   (dset ($"SCRULE") name (m_tags m1))) in
        let s1 := (m_score m1 + score)%Q in
        let s2 := match t with SC_spam => (s1 + spam_score)%Q | SC_ham => (s1 + ham_score)%Q | SC_on => s1 end in
        (mkMsg s2 (dset name v (m_checked m1)) (m_descs m1) tags (m_ext m1), Stops)
      else (m1, Returns v)
  | (m1, o) => (m1, o)
  end.

(** oa/plugins/short_circuit.py:104-105: [rule.match = new_method] *)
Definition sc_wrap (t : sctype) (spam_score ham_score : Q) (r : rule) : rule :=
  mkRule (r_name r) (r_kind r) (r_scores r) (r_score r) (r_desc r) (r_prio r) (r_tflags r) (r_eval r)
         (sc_call (r_name r) (r_score r) t spam_score ham_score (r_match r)).

(** oa/plugins/short_circuit.py:85-101: one configured value. [None] = ignored
    (malformed, "off" or unknown type). *)
Definition sc_parse (config : str) : option (str * sctype) :=
  match split_ws_max 1 config with
  | [name; t] => if streqb t ($"on") then Some (name, SC_on)
                 else if streqb t ($"ham") then Some (name, SC_ham)
                 else if streqb t ($"spam") then Some (name, SC_spam)
                 else None
  | _ => None
  end.

(** Replace a rule in the table it lives in (the Python code mutates the rule
    object found by [get_rule], oa/plugins/short_circuit.py:91-105). *)
Definition sc_apply (spam_score ham_score : Q) (rs : ruleset) (config : str) : ruleset :=
  match sc_parse config with
  | None => rs
  | Some (name, t) =>
      match dget name (rs_checked rs) with
      | Some r => mkRS (dset name (sc_wrap t spam_score ham_score r) (rs_checked rs)) (rs_not_checked rs)
      | None =>
          match dget name (rs_not_checked rs) with
          | Some r => mkRS (rs_checked rs) (dset name (sc_wrap t spam_score ham_score r) (rs_not_checked rs))
          | None => rs
          end
      end
  end.

(** oa/plugins/short_circuit.py:79-105 [ShortCircuit.finish_parsing_end] *)
Definition sc_finish (spam_score ham_score : Q) (configs : list str) (rs : ruleset) : ruleset :=
  fold_left (sc_apply spam_score ham_score) configs rs.

End Rules.
Arguments ruleset : clear implicits.
