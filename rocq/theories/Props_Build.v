(** Property theorems about the rules a configuration produces: C58-C60. *)
From Verif Require Import PyStr PyDict Model_Rules Spec_Rules Model_Headers Model_Parser Model_Build Spec_Build Proofs_Build.

(** Small instances for the examples: scores are whole numbers, a compiled
    pattern searches its own text, arguments are kept as text. *)
Definition ex_float (s : str) : option Q := option_map inject_Z (py_int s).
Definition ex_re (p : str) (f : reflags) : option (str -> bool) := Some (fun t => contains p t).
Definition ex_arg (s : str) : ares str := AVal s.
Definition ex_content : content str :=
  mkContent (fun x => x) (fun x => x) (fun x => x) (fun x => [x]) (fun _ _ => Raises) (fun _ _ _ => []) (fun _ m => (m, Raises)).
Definition ex_evals (fn : str) : option (list str -> option str -> msg str -> msg str * outcome) :=
  if mem_str fn [$"check_it"; $"idate"] then Some (fun args _ m => (m, Returns (VBool (mem_str (m_ext m) args)))) else None.
Notation ex_build := (build_rule ex_float ex_re ex_arg ex_content ex_evals).

(** ** C58 *)
(** The attributes of a rule are the stated ones; without a score line the
    score is 1, or -1 for a rule flagged nice; sub-rules score 0 whatever is
    stated.  [r_score] is the score in force before the mode is applied. *)
Theorem C58_attributes_and_defaults :
  forall (X A : Type) py_float re_compile (arg : str -> ares A) (C : content X) evals name data (r : rule X),
  (silent_on data ($"tflags") \/ exists l, dget ($"tflags") data = Some (AList l)) ->
  (silent_on data ($"score") \/ exists raw, states data ($"score") raw) ->
  build_rule py_float re_compile arg C evals name data = BRule r ->
  r_name r = name /\
  scores_of py_float name data (r_scores r) /\ hd_error (r_scores r) = Some (r_score r) /\
  (length (r_scores r) = 1 \/ length (r_scores r) = 4) /\
  (forall g, In g (r_tflags r) <-> flagged data g) /\
  (forall raw, states data ($"describe") raw -> r_desc r = strip raw) /\
  (silent_on data ($"describe") -> r_desc r = $"No description available.") /\
  (silent_on data ($"priority") -> r_prio r = 0%Z) /\
  (forall raw, states data ($"priority") raw -> ~ states data ($"type") ($"mimeheader") ->
     r_prio r = match py_int (strip raw) with Some z => z | None => 0%Z end).
Proof. exact @built_attributes. Qed.
Print Assumptions C58_attributes_and_defaults.

(** The priority of a mimeheader rule is not taken over. *)
Theorem C58_mimeheader_priority_refuted :
  exists data r, states data ($"priority") ($"7") /\ ex_build ($"R") data = BRule r /\ r_prio r = 0%Z.
Proof.
  exists [($"type", AStr ($"mimeheader")); ($"value", AStr ($"Content-Type =~ /html/")); ($"priority", AStr ($"7"))].
  eexists. split; [reflexivity|]. split; [vm_compute; reflexivity|reflexivity].
Qed.
Print Assumptions C58_mimeheader_priority_refuted.

Example C58_example :
  let body ats := ex_build ($"R") ([($"type", AStr ($"body")); ($"value", AStr ($"/sale/"))] ++ ats) in
  (exists r, body [] = BRule r /\ r_score r = 1%Q /\ r_desc r = $"No description available.") /\
  (exists r, body [($"tflags", AList [$" nice"])] = BRule r /\ r_score r = (-1)%Q) /\
  (exists r, body [($"score", AStr ($" 2 3 4 5 ")); ($"priority", AStr ($"-10")); ($"describe", AStr ($"A sale"))] = BRule r /\
     r_scores r = [2%Q; 3%Q; 4%Q; 5%Q] /\ r_prio r = (-10)%Z /\ r_desc r = $"A sale") /\
  (exists r, ex_build ($"__R") [($"type", AStr ($"body")); ($"value", AStr ($"/sale/")); ($"score", AStr ($"9"))] = BRule r /\ r_score r = 0%Q).
Proof. repeat split; eexists; (split; [vm_compute; reflexivity|]); repeat split. Qed.

(** ** C59 *)
(** An eval rule calls the function it names with the arguments it lists; a
    failing function counts as no hit.  Missing for the full property: function
    names that begin with one of the letters e, v, a, l - see the refutation. *)
Theorem C59_eval_calls_named_function_partial :
  forall (X A : Type) py_float re_compile (arg : str -> ares A) (C : content X) evals
         name data fn args vs target (r : rule X),
  states data ($"type") ($"eval") -> states data ($"value") ($"eval:" ++ fn ++ $"(" ++ args ++ $")") ->
  (match target with Some t => states data ($"target") t | None => silent_on data ($"target") end) ->
  identifier fn -> (forall c t, fn = c :: t -> ~ In c ($"eval")) ->
  eval_args arg (eval_arg_texts args) = AVal vs ->
  build_rule py_float re_compile arg C evals name data = BRule r ->
  r_eval r = Some fn /\
  forall f, evals fn = Some f -> forall m,
    r_match r m = match f vs target m with
                  | (m', Returns v) => (m', Returns v)
                  | (m', _) => (m', Returns (VBool false))
                  end.
Proof. exact @eval_named. Qed.
Print Assumptions C59_eval_calls_named_function_partial.

(** eval:validate() calls idate(). *)
Theorem C59_eval_calls_named_function_refuted :
  exists r, ex_build ($"R") [($"type", AStr ($"eval")); ($"value", AStr ($"eval:validate()"))] = BRule r /\
            r_eval r = Some ($"idate").
Proof. eexists. split; [vm_compute; reflexivity|reflexivity]. Qed.
Print Assumptions C59_eval_calls_named_function_refuted.

(** An argument that contains a comma is torn apart, even inside quotes. *)
Theorem C59_comma_in_argument_refuted :
  forall a b : str, ~ In 44%N a -> ~ In 44%N b ->
    eval_arg_texts ($"'" ++ a ++ $"," ++ b ++ $"'") = [$"'" ++ a; b ++ $"'"].
Proof.
  intros a b Ha Hb. unfold eval_arg_texts.
  replace ($"'" ++ a ++ $"," ++ b ++ $"'") with (join [44%N] [$"'" ++ a; b ++ $"'"]) 
    by (rewrite join_cons_sep by discriminate; cbn [join]; rewrite <- app_assoc; reflexivity).
  rewrite split_char_join; [reflexivity|discriminate|].
  apply Forall_cons; [|apply Forall_cons; [|apply Forall_nil]]; intros H; apply in_app_iff in H as [H|H];
    try contradiction; vm_compute in H; intuition discriminate.
Qed.
Print Assumptions C59_comma_in_argument_refuted.

Example C59_example :
  identifier ($"check_it") /\
  exists r, ex_build ($"R") [($"type", AStr ($"eval")); ($"value", AStr ($"eval:check_it(a,b)"))] = BRule r /\
    r_match r (fresh_msg ($"b")) = (fresh_msg ($"b"), Returns (VBool true)).
Proof. split; [split; reflexivity|]. eexists. split; [vm_compute; reflexivity|reflexivity]. Qed.

(** ** C60 *)
(** End to end for rules that search a pattern (body, rawbody, full, uri): the
    score of a message is the sum over the entries of the configuration of what
    each of them adds; [adds] says what that is. *)
Theorem C60_score_follows_configuration :
  forall (X A : Type) py_float re_compile (arg : str -> ares A) (C : content X) evals c table rs x,
  NoDup (dkeys table) -> Forall (fun e => plain_entry py_float (fst e) (snd e)) table ->
  load_rules py_float re_compile arg C evals false c table = Loaded rs ->
  exists qs, Forall2 (fun e q => adds C re_compile py_float c x (fst e) (snd e) q) table qs /\
    (m_score (fst (match_loop (rs_checked rs) (fresh_msg x))) == total qs)%Q.
Proof. exact @configured_score. Qed.
Print Assumptions C60_score_follows_configuration.

(** What an entry adds is determined. *)
Theorem C60_adds_is_a_function :
  forall (X : Type) (C : content X) re_compile py_float c x name data q q',
  plain_entry py_float name data ->
  adds C re_compile py_float c x name data q -> adds C re_compile py_float c x name data q' -> q = q'.
Proof. exact @adds_det. Qed.
Print Assumptions C60_adds_is_a_function.

Definition ex60_table : results :=
  [($"SALE", [($"type", AStr ($"body")); ($"value", AStr ($"/sale/")); ($"score", AStr ($"3"))]);
   ($"OFFER", [($"type", AStr ($"full")); ($"value", AStr ($"/offer/"))]);
   ($"__SUB", [($"type", AStr ($"body")); ($"value", AStr ($"/sale/")); ($"score", AStr ($"9"))]);
   ($"NET", [($"type", AStr ($"uri")); ($"value", AStr ($"/sale/")); ($"tflags", AList [$"net"])]);
   ($"NICE", [($"type", AStr ($"rawbody")); ($"value", AStr ($"/sale/")); ($"tflags", AList [$"nice"])]);
   ($"LONE", [($"score", AStr ($"4"))])].
Example C60_example :
  NoDup (dkeys ex60_table) /\ Forall (fun e => plain_entry ex_float (fst e) (snd e)) ex60_table /\
  exists rs, load_rules ex_float ex_re ex_arg ex_content ex_evals false (mkSwitches true false false true) ex60_table = Loaded rs /\
    m_score (fst (match_loop (rs_checked rs) (fresh_msg ($"big sale now")))) = 2%Q.
Proof.
  split. { repeat constructor; simpl; intuition discriminate. }
  split.
  { unfold ex60_table.
    repeat first [apply Forall_nil | apply Forall_cons]; cbn [fst snd];
      (split; [first [left; reflexivity | right; eexists; eexists; split; [|split; reflexivity]; simpl; tauto]|];
       split; [first [left; reflexivity | right; eexists; reflexivity]|];
       split; [first [left; reflexivity | right; eexists; reflexivity]|];
       intros s0 s1 s2 s3 H; inversion H as [|raw qs Hn Hst HF| |]; subst; unfold states in Hst; cbn in Hst; try discriminate;
       injection Hst as <-; vm_compute in HF; inversion HF as [|? ? ? ? _ HF']; inversion HF'). }
  eexists. split; [vm_compute; reflexivity|vm_compute; reflexivity].
Qed.
