(** Properties of rule scoring and matching (C01-C04, C06-C09, C14, C55). *)
From Verif Require Import PyStr PyDict Model_Rules Spec_Rules Proofs_Rules.

(** A small concrete rule set used by the examples below: the message content is
    a text, a rule hits when the text contains its word. *)
Definition word_rule (name word : str) (score : Q) (prio : Z) : str * rule str :=
  (name, mkRule name [] [score] score ($"a word") prio [] None
     (fun m => (m, Returns (VBool (contains word (m_ext m)))))).
Definition bad_rule (name : str) (o : outcome) : str * rule str :=
  (name, mkRule name [] [3%Q] 3%Q ($"broken") 0 [] None (fun m => (m, o))).
Definition ex_rules : list (str * rule str) :=
  [word_rule ($"A") ($"buy") 2 5; bad_rule ($"B") Raises; word_rule ($"C") ($"now") (1 # 2) 0;
   bad_rule ($"D") (Returns (VStr ($"custom text"))); word_rule ($"E") ($"zzz") 7 (-1)%Z].
Definition ex_msg : msg str := fresh_msg ($"buy it now").

(** C01. The score after matching is the score before plus, in processing
    order, the scores of exactly the rules the message records as hit.  Any
    rules (they may keep plugin data, raise, stop the processing), any hooks
    that do not themselves change the score. *)
Theorem C01_score_is_sum_of_recorded_hits :
  forall (X : Type) (check_end auto_learn : list (msg X -> msg X * bool))
         (rules : dict (rule X)) (m : msg X),
    NoDup (dkeys rules) ->
    Forall (fun e => observer (snd e)) rules ->
    Forall observer_hook check_end -> Forall observer_hook auto_learn ->
    m_checked m = [] ->
    let m' := match_msg rules check_end auto_learn m in
    m_score m' =
    add_up (m_score m) (map (fun e => r_score (snd e)) (filter (fun e => recorded_hit m' (fst e)) rules)).
Proof. intros X; exact (@score_sum X). Qed.
Print Assumptions C01_score_is_sum_of_recorded_hits.

(** C01, for rules that only read the message: the hits are the rules whose
    outcome is a true value or a text, up to the first rule that stops the
    processing. *)
Theorem C01_score_from_outcomes :
  forall (X : Type) (outcome_of : rule X -> X -> outcome) (rules : dict (rule X)) (m : msg X),
    Forall (fun e => reads_only (snd e) (outcome_of (snd e))) rules ->
    let content := m_ext m in
    let processed := take_while (fun e => negb (is_stop (outcome_of (snd e) content))) rules in
    m_score (fst (match_loop rules m)) =
    add_up (m_score m)
      (map (fun e => r_score (snd e)) (filter (fun e => is_hit (outcome_of (snd e) content)) processed)).
Proof. intros X o rules m H. exact (proj2 (read_only_run o rules m H)). Qed.
Print Assumptions C01_score_from_outcomes.

Example C01_example :
  NoDup (dkeys ex_rules) /\ Forall (fun e => observer (snd e)) ex_rules /\
  m_score (match_msg ex_rules [] [] ex_msg) == (11 # 2) /\
  filter (fun e => recorded_hit (match_msg ex_rules [] [] ex_msg) (fst e)) ex_rules <> [].
Proof.
  repeat split; try (vm_compute; discriminate).
  - repeat constructor; vm_compute; intuition discriminate.
  - repeat constructor; intros m; repeat split; reflexivity.
Qed.

(** C02. Replacing every rule by one that reports "no hit" where the original
    raises gives exactly the same message. *)
Theorem C02_failing_rule_is_a_miss :
  forall (X : Type) (check_end auto_learn : list (msg X -> msg X * bool))
         (rules : dict (rule X)) (m : msg X),
    match_msg rules check_end auto_learn m =
    match_msg (map (fun e => (fst e,
                 mkRule (r_name (snd e)) (r_kind (snd e)) (r_scores (snd e)) (r_score (snd e))
                   (r_desc (snd e)) (r_prio (snd e)) (r_tflags (snd e)) (r_eval (snd e))
                   (fun m => match r_match (snd e) m with
                             | (m1, Raises) => (m1, Returns (VBool false))
                             | p => p
                             end))) rules)
      check_end auto_learn m.
Proof.
  intros X ce al rules m. unfold match_msg. f_equal. f_equal.
  exact (f_equal fst (eq_sym (mute_same rules m))).
Qed.
Print Assumptions C02_failing_rule_is_a_miss.

(** C02, on a single failing rule anywhere: it is recorded as a miss, and the
    score and everything recorded for the others is as if it were absent
    (rules that only read the message). *)
Theorem C02_failing_rule_contained :
  forall (X : Type) (outcome_of : rule X -> X -> outcome) (before after : list (str * rule X))
         (name : str) (r : rule X) (m : msg X),
    Forall (fun e => reads_only (snd e) (outcome_of (snd e))) (before ++ (name, r) :: after) ->
    NoDup (dkeys (before ++ (name, r) :: after)) -> m_checked m = [] ->
    outcome_of r (m_ext m) = Raises ->
    m_score (fst (match_loop (before ++ (name, r) :: after) m)) =
      m_score (fst (match_loop (before ++ after) m)) /\
    hit_names (fst (match_loop (before ++ (name, r) :: after) m)) =
      hit_names (fst (match_loop (before ++ after) m)).
Proof.
  intros X o before after name r m Hro Hnd Hc Hraise.
  assert (Hro2 : Forall (fun e => reads_only (snd e) (o (snd e))) (before ++ after)).
  { apply Forall_app in Hro as [H1 H2]. inversion H2; subst. apply Forall_app; auto. }
  assert (Hnd2 : NoDup (dkeys (before ++ after))).
  { unfold dkeys in *. rewrite map_app in *. simpl in Hnd. apply NoDup_remove_1 in Hnd. exact Hnd. }
  assert (Htw : forall (p q : str * rule X -> bool), p (name, r) = true -> q (name, r) = false ->
     filter q (take_while p (before ++ (name, r) :: after)) = filter q (take_while p (before ++ after))).
  { intros p q Hp Hq. clear -Hp Hq. induction before as [|e b IH]; simpl.
    - rewrite Hp. simpl. rewrite Hq. reflexivity.
    - destruct (p e); [|reflexivity]. simpl. rewrite IH. reflexivity. }
  split.
  - rewrite (proj2 (read_only_run o _ m Hro)), (proj2 (read_only_run o _ m Hro2)).
    rewrite Htw; [reflexivity|simpl; rewrite Hraise; reflexivity|simpl; rewrite Hraise; reflexivity].
  - rewrite (proj2 (read_only_checked o _ m Hnd ltac:(intros n _; rewrite Hc; intros []) Hro)).
    rewrite (proj2 (read_only_checked o _ m Hnd2 ltac:(intros n _; rewrite Hc; intros []) Hro2)).
    rewrite Htw; [reflexivity|simpl; rewrite Hraise; reflexivity|simpl; rewrite Hraise; reflexivity].
Qed.
Print Assumptions C02_failing_rule_contained.

(** C02: an eval rule never lets an exception of the eval function out. *)
Theorem C02_eval_rule_never_raises :
  forall (X : Type) (f : msg X -> msg X * outcome) (m : msg X),
    exists v, snd (eval_match f m) = Returns v /\
              (snd (f m) <> Returns v -> v = VBool false).
Proof.
  intros X f m. unfold eval_match. destruct (f m) as [m1 [v| |]]; simpl; eexists; split; eauto.
  intros H; congruence.
Qed.
Print Assumptions C02_eval_rule_never_raises.

Example C02_example :
  reads_only (snd (bad_rule ($"B") Raises)) (fun _ => Raises) /\
  hit_names (match_msg ex_rules [] [] ex_msg) = [$"A"; $"C"; $"D"].
Proof. split; [intros m; reflexivity|reflexivity]. Qed.

(** C03. The checking order: a permutation of the active rules, by falling
    priority, keeping the order of definition among equal priorities. *)
Theorem C03_priority_order :
  forall (X : Type) (active : dict (rule X)),
    Permutation (sort_checked active) active /\
    StronglySorted (fun a b => (r_prio (snd b) <= r_prio (snd a))%Z) (sort_checked active) /\
    forall p, filter (fun e => Z.eqb (r_prio (snd e)) p) (sort_checked active) =
              filter (fun e => Z.eqb (r_prio (snd e)) p) active.
Proof. intros X l. exact (conj (sort_perm l) (conj (sort_sorted l) (fun p => sort_stable p l))). Qed.
Print Assumptions C03_priority_order.

Example C03_example :
  dkeys (sort_checked [word_rule ($"low") [] 1 (-5)%Z; word_rule ($"d1") [] 1 0; word_rule ($"hi") [] 1 3;
                       word_rule ($"d2") [] 1 0]) = [$"hi"; $"d1"; $"d2"; $"low"].
Proof. reflexivity. Qed.

(** C04. Names recorded = names of the processed rules, in order; hit names =
    the names of the rules that hit, in order, each once. *)
Theorem C04_hit_list_is_exact :
  forall (X : Type) (outcome_of : rule X -> X -> outcome) (rules : dict (rule X)) (m : msg X),
    NoDup (dkeys rules) -> m_checked m = [] ->
    Forall (fun e => reads_only (snd e) (outcome_of (snd e))) rules ->
    let content := m_ext m in
    let processed := take_while (fun e => negb (is_stop (outcome_of (snd e) content))) rules in
    let m' := fst (match_loop rules m) in
    dkeys (m_checked m') = dkeys processed /\
    hit_names m' = dkeys (filter (fun e => is_hit (outcome_of (snd e) content)) processed) /\
    NoDup (hit_names m').
Proof.
  intros X o rules m Hnd Hc Hro content processed m'.
  destruct (read_only_checked o rules m Hnd ltac:(intros n _; rewrite Hc; intros []) Hro) as [H1 H2].
  unfold hit_names in H2 at 2. rewrite Hc in H1, H2. simpl in H1, H2.
  split; [exact H1|]. split; [exact H2|]. unfold m'. rewrite H2.
  assert (Hsub : forall (l : dict (rule X)) p, NoDup (dkeys l) -> NoDup (dkeys (filter p l))).
  { induction l as [|e l IH]; intros p Hn; simpl; [constructor|]. inversion Hn; subst.
    destruct (p e); [|auto]. simpl. constructor; [|auto]. intros Hi. apply H3.
    unfold dkeys in *. apply in_map_iff in Hi as [x [<- Hx]]. apply filter_In in Hx as [Hx _]. apply in_map; exact Hx. }
  apply Hsub. clear - Hnd.
  assert (Hpre : forall (l : dict (rule X)) p, NoDup (dkeys l) -> NoDup (dkeys (take_while p l))).
  { induction l as [|e l IH]; intros p Hn; simpl; [constructor|]. inversion Hn; subst.
    destruct (p e); [|constructor]. simpl. constructor; [|auto]. intros Hi. apply H1.
    unfold dkeys in *. apply in_map_iff in Hi as [x [<- Hx]].
    apply in_map. rewrite <- (take_drop_while p l). apply in_or_app; left; exact Hx. }
  apply Hpre; exact Hnd.
Qed.
Print Assumptions C04_hit_list_is_exact.

Example C04_example :
  tests_tag (match_msg ex_rules [] [] ex_msg) = $"A,C,D" /\
  dkeys (m_checked (match_msg ex_rules [] [] ex_msg)) = [$"A"; $"B"; $"C"; $"D"; $"E"].
Proof. split; reflexivity. Qed.

(** C06. Part of the property: it holds whenever the first of four scores is not
    zero.  Missing: the case of a zero first score, where it fails (below). *)
Theorem C06_mode_score_partial :
  forall (X : Type) (c : switches) (name kind : str) (scores : list Q) (desc prio : option str)
         (tflags : list str) (ev : option str) (mt : msg X -> msg X * outcome) (r : rule X),
    init_rule name kind (Some scores) desc prio tflags ev mt = Some r ->
    hidden_name name = false -> ~ switched_off c tflags ->
    (forall s0 s1 s2 s3, scores = [s0; s1; s2; s3] -> ~ s0 == 0) ->
    mode_score (use_bayes c) (use_network c) scores = Some (r_score (preprocess c r)).
Proof. intros X; exact (@effective_score X). Qed.
Print Assumptions C06_mode_score_partial.

(** C06: a list of scores is accepted exactly when it has one or four entries. *)
Theorem C06_wrong_number_of_scores_rejected :
  forall (X : Type) (name kind : str) (scores : list Q) (desc prio : option str)
         (tflags : list str) (ev : option str) (mt : msg X -> msg X * outcome),
    hidden_name name = false ->
    ((exists r, init_rule name kind (Some scores) desc prio tflags ev mt = Some r) <->
     length scores = 1 \/ length scores = 4).
Proof.
  intros X name kind scores desc prio tf ev mt Hh.
  pose proof (init_rule_lengths name kind (Some scores) desc prio tf ev mt) as H.
  unfold init_scores in H. rewrite Hh in H. exact H.
Qed.
Print Assumptions C06_wrong_number_of_scores_rejected.

(** C06 is false of the code: "score RULE 0 1 1 1" never counts, in any mode. *)
Theorem C06_mode_score_refuted :
  exists (scores : list Q) (c : switches) (r : rule unit),
    init_rule ($"RULE") [] (Some scores) None None [] None (fun m => (m, Returns (VBool true))) = Some r /\
    ~ switched_off c (r_tflags r) /\
    mode_score (use_bayes c) (use_network c) scores = Some 1%Q /\
    r_score (preprocess c r) = 0%Q /\ should_check (preprocess c r) = false.
Proof.
  exists [0%Q; 1%Q; 1%Q; 1%Q], (mkSwitches true true false true).
  eexists. split; [reflexivity|]. split; [|split; [|split]]; try reflexivity.
  unfold switched_off; simpl; tauto.
Qed.
Print Assumptions C06_mode_score_refuted.

Example C06_example :
  mode_score true false [1%Q; 2%Q; 3%Q; 4%Q] = Some 3%Q /\
  option_map (fun r => r_score (preprocess (mkSwitches true false false true) r))
    (init_rule (X:=unit) ($"R") [] (Some [1%Q; 2%Q; 3%Q; 4%Q]) None None [] None (fun m => (m, Raises))) = Some 3%Q.
Proof. split; reflexivity. Qed.

(** C07. Leaving out all rules whose name starts with "__" from any sequence of
    rule definitions does not change what is matched, and no such name is ever
    in the table of checked rules.  Missing: sub-rules that are short-circuited
    and asked for by a meta rule (C07_short_circuit_refuted, C244). *)
Theorem C07_subrules_are_silent_partial :
  forall (X : Type) (c : switches) (evals : list str) (defs : list (option (rule X)))
         (check_end auto_learn : list (msg X -> msg X * bool)) (m : msg X),
    let visible := filter (fun d => match d with
                                    | Some r => negb (startswith ($"__") (r_name r))
                                    | None => true end) defs in
    match_msg (sort_checked (rs_checked (add_rules c evals defs empty_ruleset))) check_end auto_learn m =
    match_msg (sort_checked (rs_checked (add_rules c evals visible empty_ruleset))) check_end auto_learn m /\
    forall n, In n (dkeys (rs_checked (add_rules c evals defs empty_ruleset))) -> startswith ($"__") n = false.
Proof.
  intros X c ev defs ce al m visible. split.
  - f_equal. f_equal. exact (add_rules_hidden c ev defs empty_ruleset empty_ruleset eq_refl).
  - intros n Hn. destruct (add_rules_inv c ev defs empty_ruleset empty_inv) as (_ & _ & Hf & _).
    unfold dkeys in Hn. apply in_map_iff in Hn as [[k r] [<- Hi]]. rewrite Forall_forall in Hf.
    destruct (Hf _ Hi) as [Hk Hs]. simpl in *. subst k. unfold should_check, hidden_name in Hs.
    destruct (startswith ($"__") (r_name r)); [discriminate|reflexivity].
Qed.
Print Assumptions C07_subrules_are_silent_partial.

Example C07_example :
  let sub := mkRule (X:=unit) ($"__SUB") [] [50%Q] 50%Q [] 0 [] None (fun m => (m, Returns (VBool true))) in
  let top := mkRule (X:=unit) ($"TOP") [] [2%Q] 2%Q [] 0 [] None (fun m => (m, Returns (VBool true))) in
  let rs := add_rules (mkSwitches true true false true) [] [Some sub; Some top] empty_ruleset in
  dkeys (rs_checked rs) = [$"TOP"] /\ dkeys (rs_not_checked rs) = [$"__SUB"] /\
  m_score (match_msg (sort_checked (rs_checked rs)) [] [] (fresh_msg tt)) == 2.
Proof. repeat split; reflexivity. Qed.

(** C08. A switched-off rule is not checked; one that is not switched off is
    checked exactly when it is visible and the score selected for it is not 0
    (the selection itself is C06, including its defect for a zero first score). *)
Theorem C08_flags_switch_rules_off :
  forall (X : Type) (c : switches) (r : rule X),
    switched_off c (r_tflags r) -> should_check (preprocess c r) = false.
Proof.
  intros X c r H. unfold should_check. rewrite (preprocess_off c r H).
  destruct (hidden_name _); reflexivity.
Qed.
Print Assumptions C08_flags_switch_rules_off.

Theorem C08_unflagged_rules_unaffected :
  forall (X : Type) (c : switches) (name kind : str) (scores : list Q) (desc prio : option str)
         (tflags : list str) (ev : option str) (mt : msg X -> msg X * outcome) (r : rule X) (s : Q),
    init_rule name kind (Some scores) desc prio tflags ev mt = Some r ->
    startswith ($"__") name = false -> ~ switched_off c tflags ->
    (forall s0 s1 s2 s3, scores = [s0; s1; s2; s3] -> ~ s0 == 0) ->
    mode_score (use_bayes c) (use_network c) scores = Some s ->
    (should_check (preprocess c r) = true <-> ~ s == 0).
Proof.
  intros X c name kind scores desc prio tf ev mt r s Hi Hh Hoff Hz Hms.
  rewrite (effective_score c _ _ _ _ _ _ _ _ _ Hi Hh Hoff Hz) in Hms. inversion Hms; subst s.
  unfold should_check. rewrite preprocess_name.
  destruct (init_rule_fields _ _ _ _ _ _ _ _ _ Hi) as (Hn & _). rewrite Hn. unfold hidden_name. rewrite Hh.
  destruct (Qeq_bool (r_score (preprocess c r)) 0) eqn:E.
  - apply Qeq_bool_iff in E. split; [discriminate|contradiction].
  - split; [|reflexivity]. intros _ Hq. apply Qeq_bool_iff in Hq. congruence.
Qed.
Print Assumptions C08_unflagged_rules_unaffected.

Example C08_example :
  switched_off (mkSwitches true false false true) [$"nice"; $"net"] /\
  ~ switched_off (mkSwitches true false false true) [$"nice"; $"learn"].
Proof. unfold switched_off; simpl; split; [left; auto|]. intuition discriminate. Qed.

(** C09. A short-circuited rule that hits stops everything after it; score =
    score reached so far + own score + bonus of its type.  Missing: meta rules
    that mention short-circuited rules (C09_meta_rules_refuted, C244). *)
Theorem C09_short_circuit_stops_partial :
  forall (X : Type) (spam_score ham_score : Q) (configs : list str) (rs : ruleset X)
         (m m1 m2 : msg X) (before after : list (str * rule X)) (n : str) (r : rule X) (t : sctype) (v : value),
    well_keyed (rs_checked rs) ->
    rs_checked rs = before ++ (n, r) :: after ->
    no_sc_hit configs before m ->
    match_loop before m = (m1, false) ->
    sc_setting configs n = Some t ->
    r_match r m1 = (m2, Returns v) -> truthy v = true ->
    let result := match_loop (rs_checked (sc_finish spam_score ham_score configs rs)) m in
    snd result = true /\
    m_score (fst result) == m_score m2 + r_score r + sc_bonus t spam_score ham_score /\
    m_checked (fst result) = dset n v (m_checked m2) /\
    m_descs (fst result) = m_descs m2 /\
    m_ext (fst result) = m_ext m2.
Proof. intros X sp ha configs rs m m1 m2 before after n r t v; exact (@sc_hit_stops X sp ha configs rs m m1 m2 before n r after t v). Qed.
Print Assumptions C09_short_circuit_stops_partial.

(** C09. If no short-circuited rule hits, the plugin makes no difference. *)
Theorem C09_no_short_circuit_hit_no_change_partial :
  forall (X : Type) (spam_score ham_score : Q) (configs : list str) (rs : ruleset X) (m : msg X),
    well_keyed (rs_checked rs) ->
    no_sc_hit configs (rs_checked rs) m ->
    match_loop (rs_checked (sc_finish spam_score ham_score configs rs)) m = match_loop (rs_checked rs) m.
Proof. intros X; exact (@sc_never_hits X). Qed.
Print Assumptions C09_no_short_circuit_hit_no_change_partial.

Example C09_example :
  let rs := mkRS ex_rules [] in
  let res := match_loop (rs_checked (sc_finish 100%Q (-100)%Q [$"NOPE spam"; $"C spam"; $"C ham"] rs)) ex_msg in
  sc_setting [$"NOPE spam"; $"C spam"; $"C ham"] ($"C") = Some SC_spam /\
  well_keyed (rs_checked rs) /\
  snd res = true /\ m_score (fst res) == 2 + (1 # 2) + 100 /\
  dkeys (m_checked (fst res)) = [$"A"; $"B"; $"C"].
Proof.
  repeat split; try reflexivity.
  - repeat constructor; vm_compute; intuition discriminate.
  - repeat constructor.
Qed.

(** C14. After any sequence of definitions with distinct names, each accepted
    rule is found by name with its effective score, in exactly one table, and
    is active exactly when it is visible with a non-zero effective score. *)
Theorem C14_rule_lookup :
  forall (X : Type) (c : switches) (evals : list str) (defs : list (option (rule X))) (r : rule X),
    NoDup (flat_map (fun d => match d with Some r => [r_name r] | None => [] end) defs) ->
    In (Some r) defs ->
    (forall e, r_eval r = Some e -> In e evals) ->
    let rs := add_rules c evals defs empty_ruleset in
    let effective := preprocess c r in
    get_rule rs (r_name r) false = Some effective /\
    (In (r_name r) (dkeys (rs_checked rs)) <->
       startswith ($"__") (r_name r) = false /\ ~ r_score effective == 0) /\
    (In (r_name r) (dkeys (rs_not_checked rs)) <-> ~ In (r_name r) (dkeys (rs_checked rs))) /\
    (get_rule rs (r_name r) true = Some effective <-> In (r_name r) (dkeys (rs_checked rs))).
Proof.
  intros X c ev defs r Hnd Hin Hev rs eff.
  assert (Hok : eval_ok ev r = true).
  { unfold eval_ok. destruct (r_eval r) as [e|]; [|reflexivity]. apply mem_str_In; apply Hev; reflexivity. }
  destruct (add_rules_lookup c ev defs r Hnd Hin Hok) as [H1 H2].
  fold rs in H1, H2. fold eff in H1, H2.
  assert (Hs : should_check eff = true <-> startswith ($"__") (r_name r) = false /\ ~ r_score eff == 0).
  { unfold should_check, eff. rewrite preprocess_name. unfold hidden_name.
    destruct (startswith ($"__") (r_name r)); [split; [discriminate|intros [H _]; discriminate]|].
    destruct (Qeq_bool (r_score (preprocess c r)) 0) eqn:E.
    - apply Qeq_bool_iff in E. split; [discriminate|intros [_ H]; contradiction].
    - split; [|reflexivity]. intros _. split; [reflexivity|]. intros Hq. apply Qeq_bool_iff in Hq; congruence. }
  unfold get_rule. rewrite H1, H2.
  assert (Hc : In (r_name r) (dkeys (rs_checked rs)) <-> should_check eff = true).
  { rewrite <- dhas_In. unfold dhas. rewrite H1. destruct (should_check eff); split; congruence. }
  assert (Hn : In (r_name r) (dkeys (rs_not_checked rs)) <-> should_check eff = false).
  { rewrite <- dhas_In. unfold dhas. rewrite H2. destruct (should_check eff); split; congruence. }
  rewrite Hc, Hn, <- Hs. destruct (should_check eff); repeat split; try congruence; try tauto.
Qed.
Print Assumptions C14_rule_lookup.

Example C14_example :
  let mk n s := mkRule (X:=unit) n [] [s] s [] 0 [] None (fun m => (m, Raises)) in
  let rs := add_rules (mkSwitches true true false true) [] [Some (mk ($"A") 1%Q); None; Some (mk ($"__B") 1%Q); Some (mk ($"C") 0%Q)] empty_ruleset in
  dkeys (rs_checked rs) = [$"A"] /\ dkeys (rs_not_checked rs) = [$"__B"; $"C"].
Proof. split; reflexivity. Qed.

(** C55. Part of the property: for rules that leave the bookkeeping to the
    engine, a report can always be made and has one line per hit.  Missing:
    short-circuited rules (below). *)
Theorem C55_report_has_one_line_per_hit_partial :
  forall (X : Type) (fmt : Q -> str) (rs : ruleset X) (m : msg X),
    Forall (fun e => observer (snd e)) (rs_checked rs) -> m_checked m = [] ->
    let m' := fst (match_loop (rs_checked rs) m) in
    exists lines, get_matched_report fmt rs m' = Some (crlf ++ join crlf lines) /\
                  length lines = length (hit_names m').
Proof.
  intros X fmt rs m Hobs Hc m'.
  destruct (descs_cover_loop (rs_checked rs) m Hobs) as [Hd _].
  { rewrite Hc; constructor. }
  { intros n v Hi; rewrite Hc in Hi; destruct Hi. }
  fold m' in Hd.
  assert (Hk : forall n, In n (dkeys (m_checked m')) -> In n (dkeys (rs_checked rs))).
  { intros n Hn. destruct (in_dec str_eq_dec n (dkeys (rs_checked rs))) as [H|H]; [exact H|].
    exfalso. pose proof (match_loop_checked_other (rs_checked rs) m n Hobs H) as He. fold m' in He.
    rewrite Hc in He. simpl in He. apply dget_None in He. contradiction. }
  destruct (report_lines_ok fmt rs (m_descs m') (m_checked m')) as [ls [E El]].
  { intros n v Hi Hv. split; [apply (Hd n v Hi Hv)|].
    unfold get_rule. assert (Hin : In n (dkeys (rs_checked rs))).
    { apply Hk. unfold dkeys. apply in_map_iff. exists (n, v); auto. }
    apply dhas_In in Hin. unfold dhas in Hin. destruct (dget n (rs_checked rs)); congruence. }
  exists ls. unfold get_matched_report. rewrite E. split; [reflexivity|].
  unfold hit_names. rewrite map_length. exact El.
Qed.
Print Assumptions C55_report_has_one_line_per_hit_partial.

(** C55 is false of the code with short-circuiting: the rule that stopped the
    processing has no recorded description, and making the report fails. *)
Theorem C55_report_refuted :
  exists (rs : ruleset str) (configs : list str) (m : msg str),
    well_keyed (rs_checked rs) /\
    let rs' := sc_finish 100%Q (-100)%Q configs rs in
    let m' := fst (match_loop (rs_checked rs') m) in
    hit_names m' <> [] /\ forall fmt, get_matched_report fmt rs' m' = None.
Proof.
  exists (mkRS [word_rule ($"C") ($"now") 1 0] []), [$"C on"], ex_msg.
  split; [split; [repeat constructor; intros []|repeat constructor]|].
  split; [vm_compute; discriminate|]. intros fmt. reflexivity.
Qed.
Print Assumptions C55_report_refuted.

Example C55_example :
  exists t, get_matched_report (fun _ => $"s") (mkRS ex_rules []) (match_msg ex_rules [] [] ex_msg) = Some t.
Proof. eexists; vm_compute; reflexivity. Qed.
