(** Model of the construction of rules from the parsed table:
    oa/rules/{body,full,uri,header,meta,eval_}.py [get_rule] /
    [get_rule_kwargs], and of oa/rules/parser.py [get_ruleset].  Definitions
    only. *)
From Verif Require Import PyStr PyDict Model_Rules Model_Headers Model_Parser.

(** For oa/rules/eval_.py:11-14,37. *)
Definition is_alpha_ (c : char) : bool :=
  (N.leb 65 c && N.leb c 90) || (N.leb 97 c && N.leb c 122) || N.eqb c 95.
(** [\w] on ASCII text (Python's also has non-ASCII letters).
    For oa/rules/eval_.py:11-14,37. *)
Definition is_wordch (c : char) : bool := is_alpha_ c || is_digit c.

(** oa/rules/eval_.py:11-14,37: [name(args)] at the start of the text, [args]
    up to the last closing parenthesis.  The text has no line feed. *)
Definition eval_parse (s : str) : option (str * str) :=
  match s with
  | c :: _ =>
      if is_alpha_ c
      then let name := take_while is_wordch s in
           match drop_while is_wordch s with
           | 40%N :: r => match rsplit1 41%N r with
                          | Some (args, _) => Some (name, args)
                          | None => None
                          end
           | _ => None
           end
      else None
  | [] => None
  end.

(** oa/rules/eval_.py:82: [data['value'].lstrip('eval:').strip()] *)
Definition eval_text (value : str) : str := strip (lstrip_chars ($"eval:") value).

(** oa/rules/eval_.py:39-43: the arguments, evaluated one by one. *)
Definition eval_arg_texts (args : str) : list str :=
  match args with [] => [] | _ => split_char 44%N args end.

(** [eval] of one argument: a value, one of the exceptions turned into
    [InvalidRule] (oa/rules/eval_.py:44-49), or any other, e.g. [NameError]. *)
Inductive ares (A : Type) := AVal (a : A) | ABad | ACrash.
Arguments AVal {A}. Arguments ABad {A}. Arguments ACrash {A}.
(** For oa/rules/eval_.py:29-50,79-85. *)
Fixpoint eval_args {A} (ev : str -> ares A) (l : list str) : ares (list A) :=
  match l with
  | [] => AVal []
  | x :: l' => match ev x with
               | ABad => ABad
               | ACrash => ACrash
               | AVal a => match eval_args ev l' with
                           | AVal r => AVal (a :: r)
                           | ABad => ABad
                           | ACrash => ACrash
                           end
               end
  end.

(** The parts of a message that the rules look at.  oa/rules/body.py:19-26. *)
Record content (X : Type) := mkContent {
  ct_text : X -> str;                          (** [msg.text] *)
  ct_raw_text : X -> str;                      (** [msg.raw_text] *)
  ct_raw_msg : X -> str;                       (** [msg.raw_msg] *)
  ct_uris : X -> list str;                     (** [msg.uri_list] *)
  ct_header : hrule -> X -> outcome;           (** a header rule, Model_Headers *)
  ct_mime : bool -> str -> X -> list (option str);  (** raw?, [get_*_mime_header] *)
  ct_meta : str -> msg X -> msg X * outcome    (** a meta rule, Model_Meta *)
}.
Arguments mkContent {X}. Arguments ct_text {X}. Arguments ct_raw_text {X}.
Arguments ct_raw_msg {X}. Arguments ct_uris {X}. Arguments ct_header {X}.
Arguments ct_mime {X}. Arguments ct_meta {X}.

Section Build.
Context {X A : Type}.
Variable py_float : str -> option Q.
Variable re_compile : str -> reflags -> option (str -> bool).
Variable arg : str -> ares A.
Variable C : content X.
(** The registered eval functions, oa/context.py:130: [ctxt.eval_rules]. *)
Variable evals : str -> option (list A -> option str -> msg X -> msg X * outcome).

(** For oa/rules/parser.py:81-90,301-308. *)
Definition reader (f : X -> outcome) (m : msg X) : msg X * outcome := (m, f (m_ext m)).

(** oa/rules/uri.py:23-27 *)
Definition uri_match (search : str -> bool) (uris : list str) : outcome :=
  Returns (VBool (existsb search uris)).

(** [BaseRule.__init__] with the keyword arguments; [InvalidRule] otherwise.
    For oa/rules/parser.py:81-90,301-308. *)
Definition make (name kind : str) (k : kwargs) (use_prio : bool) (ev : option str) (mt : msg X -> msg X * outcome)
  : bres (rule X) :=
  match init_rule name kind (k_score k) (k_desc k) (if use_prio then k_prio k else None) (k_tflags k) ev mt with
  | Some r => BRule r
  | None => BInvalid
  end.

(** [perl2re(data["value"])] for the plain pattern rules.  For oa/rules/parser.py:81-90,301-308. *)
Definition pattern_rule (name kind : str) (k : kwargs) (value : str) (look : (str -> bool) -> X -> outcome)
  : bres (rule X) :=
  match perl2re re_compile value with
  | ReCrash => BCrash
  | ReInvalid => BInvalid
  | ReOk f => make name kind k true None (reader (look f))
  end.

(** oa/rules/header.py:18-40 [MimeHeaderRule.get_rule].  [None]: no rule is
    returned for an unknown modifier. *)
Definition mime_rule (name : str) (k : kwargs) (value : str) : bres (rule X) :=
  let v := strip value in
  let op := if contains ($"=~") v then Some false
            else if contains ($"!~") v then Some true else None in
  match op with
  | None => BInvalid
  | Some neg =>
      match split1_sub (if neg then $"!~" else $"=~") v with
      | None => BInvalid (* not reached *)
      | Some (hn, pattern) =>
          match perl2re re_compile pattern with
          | ReCrash => BCrash
          | ReInvalid => BInvalid
          | ReOk f =>
              let look raw h := fun x => values_match neg f (ct_mime C raw h x) in
              match rsplit1 58%N (strip hn) with
              | Some (h, md) => if streqb md ($"raw")
                                then make name ($"BODY: ") k false None (reader (look true (strip h)))
                                else BCrash
              | None => make name ($"BODY: ") k false None (reader (look false (strip hn)))
              end
          end
      end
  end.

(** oa/rules/eval_.py:29-50,79-85 *)
Definition eval_rule (name : str) (k : kwargs) (value : str) (target : option str) : bres (rule X) :=
  match init_rule name [] (k_score k) (k_desc k) (k_prio k) (k_tflags k) None (fun m : msg X => (m, Raises)) with
  | None => BInvalid
  | Some _ =>
      match eval_parse (eval_text value) with
      | None => BInvalid
      | Some (fn, args) =>
          match eval_args arg (eval_arg_texts args) with
          | ABad => BInvalid
          | ACrash => BCrash
          | AVal vs =>
              make name [] k true (Some fn)
                   (eval_match (fun m => match evals fn with
                                         | Some f => f vs target m
                                         | None => (m, Raises) (* rejected by [add_rule] *)
                                         end))
          end
      end
  end.

(** [rule_class.get_rule(name, data)], oa/rules/parser.py:81-90,301-308.  Rule
    types that come from plugins are not modelled ([BCrash]). *)
Definition build_rule (name : str) (data : dict attr) : bres (rule X) :=
  match dget ($"type") data, dget ($"value") data, get_rule_kwargs py_float data with
  | _, _, None => BCrash
  | Some (AStr ty), Some (AStr value), Some k =>
      if streqb ty ($"body") then pattern_rule name ($"BODY: ") k value (fun f x => Returns (VBool (f (ct_text C x))))
      else if streqb ty ($"rawbody") then pattern_rule name ($"RAW: ") k value (fun f x => Returns (VBool (f (ct_raw_text C x))))
      else if streqb ty ($"full") then pattern_rule name [] k value (fun f x => Returns (VBool (f (ct_raw_msg C x))))
      else if streqb ty ($"uri") then pattern_rule name ($"URI: ") k value (fun f x => uri_match f (ct_uris C x))
      else if streqb ty ($"header") then
        match header_rule re_compile value with
        | HOk h => make name [] k true None (reader (ct_header C h))
        | HNone => BCrash
        | HBadRegex => BInvalid
        | HCrash => BCrash
        end
      else if streqb ty ($"mimeheader") then mime_rule name k value
      else if streqb ty ($"meta") then make name [] k true None (ct_meta C value)
      else if streqb ty ($"eval") then
        eval_rule name k value (match dget ($"target") data with Some (AStr t) => Some t | _ => None end)
      else BCrash
  | _, _, _ => BCrash
  end.

(** oa/rules/eval_.py:53-68 through [add_rule]: an unknown eval function is an
    [InvalidRule]. *)
Definition checked_build (name : str) (data : dict attr) : bres (rule X) :=
  match build_rule name data with
  | BRule r => match r_eval r with
               | Some fn => match evals fn with Some _ => BRule r | None => BInvalid end
               | None => BRule r
               end
  | b => b
  end.

(** oa/rules/parser.py:286-313 [get_ruleset] up to [hook_parsing_end], and the
    sort of [post_parsing] (oa/rules/ruleset.py:291-292).  Meta rules that fail
    in [post_parsing] are the subject of Model_Meta. *)
Inductive load_res := Loaded (rs : ruleset X) | LoadInvalid | LoadCrash.
(** oa/rules/parser.py:286-313. *)
Definition load_rules (paranoid : bool) (c : switches) (table : results) : load_res :=
  match get_rules paranoid checked_build table with
  | GRules l =>
      let rs := fold_left (fun rs r => let r' := preprocess c r in
                  if should_check r' then mkRS (dset (r_name r') r' (rs_checked rs)) (rs_not_checked rs)
                  else mkRS (rs_checked rs) (dset (r_name r') r' (rs_not_checked rs))) l empty_ruleset in
      Loaded (mkRS (sort_checked (rs_checked rs)) (rs_not_checked rs))
  | GInvalidRule => LoadInvalid
  | GCrash => LoadCrash
  end.
End Build.
Arguments load_res : clear implicits.
