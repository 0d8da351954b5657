(** Lemmas about rule scoring and matching. *)
From Verif Require Import PyStr PyDict Model_Rules Spec_Rules.

Section P.
Context {X : Type}.
Notation msg := (msg X).
Notation rule := (rule X).

(** ** record *)
Lemma record_checked name (r : rule) (m : msg) v :
  m_checked (record name r m v) =
  dset name (match v with VStr _ => VBool true | _ => v end) (m_checked m).
Proof. unfold record. destruct v; try reflexivity; simpl; [destruct b|destruct (Qeq_bool q 0) eqn:E; simpl; rewrite ?E]; reflexivity. Qed.

Lemma record_score name (r : rule) (m : msg) v :
  m_score (record name r m v) =
  if is_hit (Returns v) then (m_score m + r_score r)%Q else m_score m.
Proof. unfold record. destruct v; try reflexivity; simpl; [destruct b|destruct (Qeq_bool q 0) eqn:E; simpl; rewrite ?E]; reflexivity. Qed.

Lemma record_ext name (r : rule) (m : msg) v : m_ext (record name r m v) = m_ext m.
Proof. unfold record. destruct v; try reflexivity; simpl; [destruct b|destruct (Qeq_bool q 0) eqn:E; simpl; rewrite ?E]; reflexivity. Qed.

Lemma record_descs name (r : rule) (m : msg) v :
  m_descs (record name r m v) =
  match v with
  | VStr s => dset name s (m_descs m)
  | _ => if truthy v then dset name (r_desc r) (m_descs m) else m_descs m
  end.
Proof. unfold record. destruct v; try reflexivity; simpl; [destruct b|destruct (Qeq_bool q 0) eqn:E; simpl; rewrite ?E]; reflexivity. Qed.

Definition recorded_value (v : value) : value := match v with VStr _ => VBool true | _ => v end.
Lemma truthy_recorded v : truthy (recorded_value v) = is_hit (Returns v).
Proof. destruct v; reflexivity. Qed.

(** One turn of the loop as "the value that gets recorded, if any". *)
Definition out_value (o : outcome) : option value :=
  match o with Returns v => Some v | Raises => Some (VBool false) | Stops => None end.

Lemma match_loop_cons name (r : rule) rest m :
  match_loop ((name, r) :: rest) m =
  let '(m1, o) := r_match r m in
  match out_value o with
  | Some v => match_loop rest (record name r m1 v)
  | None => (m1, true)
  end.
Proof. simpl. destruct (r_match r m) as [m1 [v| |]]; reflexivity. Qed.

Lemma match_loop_app a b (m : msg) :
  match_loop (a ++ b) m =
  match match_loop a m with
  | (m1, true) => (m1, true)
  | (m1, false) => match_loop b m1
  end.
Proof.
  revert m; induction a as [|[n r] a IH]; intros m; [reflexivity|].
  cbn [app]. rewrite !match_loop_cons. destruct (r_match r m) as [m1 o].
  destruct (out_value o); [apply IH|reflexivity].
Qed.

(** Names of later rules are not recorded by earlier ones. *)
Lemma match_loop_checked_other rules (m : msg) n :
  Forall (fun e => observer (snd e)) rules ->
  ~ In n (dkeys rules) ->
  dget n (m_checked (fst (match_loop rules m))) = dget n (m_checked m).
Proof.
  revert m; induction rules as [|[k r] rules IH]; intros m Hobs Hn; [reflexivity|].
  inversion Hobs as [|? ? Hr Hrest]; subst. rewrite match_loop_cons.
  pose proof (Hr m) as Hm; cbv zeta in Hm; cbn [snd] in Hm. destruct (r_match r m) as [m1 o]. simpl in Hm. destruct Hm as (_ & Hc & _).
  simpl in Hn. destruct (out_value o); simpl.
  - rewrite IH by tauto. rewrite record_checked, dget_dset_other by tauto. rewrite Hc; reflexivity.
  - rewrite Hc; reflexivity.
Qed.

(** C01: the final score from the recorded hits. *)
Lemma score_sum_loop rules (m : msg) :
  NoDup (dkeys rules) -> Forall (fun e => observer (snd e)) rules ->
  (forall n, In n (dkeys rules) -> dget n (m_checked m) = None) ->
  let m' := fst (match_loop rules m) in
  m_score m' = add_up (m_score m) (map (fun e => r_score (snd e)) (filter (fun e => recorded_hit m' (fst e)) rules)).
Proof.
  revert m; induction rules as [|[k r] rules IH]; intros m Hnd Hobs Hfresh; [reflexivity|].
  inversion Hobs as [|? ? Hr Hrest]; subst. inversion Hnd as [|? ? Hk Hnd']; subst.
  rewrite match_loop_cons. pose proof (Hr m) as Hm; cbv zeta in Hm; cbn [snd] in Hm.
  destruct (r_match r m) as [m1 o]. simpl in Hm. destruct Hm as (Hs & Hc & _).
  destruct (out_value o) as [v|] eqn:Eo.
  - set (m2 := record k r m1 v) in *.
    assert (Hf2 : forall n, In n (dkeys rules) -> dget n (m_checked m2) = None).
    { intros n Hi. unfold m2. rewrite record_checked, dget_dset_other.
      - rewrite Hc. apply Hfresh; right; exact Hi.
      - intros ->; contradiction. }
    specialize (IH m2 Hnd' Hrest Hf2). cbv zeta in IH |- *.
    set (m' := fst (match_loop rules m2)) in *. cbn [filter map fst].
    assert (Hrec : recorded_hit m' k = is_hit (Returns v)).
    { unfold recorded_hit, m'. rewrite match_loop_checked_other by assumption.
      unfold m2. rewrite record_checked, dget_dset_same. apply truthy_recorded. }
    rewrite Hrec, IH. unfold m2. rewrite record_score.
    destruct (is_hit (Returns v)); simpl; rewrite Hs; reflexivity.
  - simpl. destruct o; try discriminate. cbn [filter map fst snd].
    rewrite Hs. assert (Hz : forall e, In e ((k, r) :: rules) -> recorded_hit m1 (fst e) = false).
    { intros e He. unfold recorded_hit. rewrite Hc.
      rewrite Hfresh; [reflexivity|]. apply in_map with (f := fst) in He. exact He. }
    pose proof (Hz (k, r) (or_introl eq_refl)) as Hz0. cbn [fst] in Hz0. rewrite Hz0.
    assert (Hf : filter (fun e => recorded_hit m1 (fst e)) rules = []).
    { assert (Hz' : forall e, In e rules -> recorded_hit m1 (fst e) = false) by (intros e He; apply Hz; right; exact He).
      clear - Hz'. induction rules as [|e rules IH]; [reflexivity|]. simpl.
      rewrite Hz' by (left; reflexivity). apply IH. intros e' He; apply Hz'; right; exact He. }
    rewrite Hf. reflexivity.
Qed.

Lemma hook_chain_observer hs (m : msg) :
  Forall observer_hook hs ->
  m_score (hook_chain hs m) = m_score m /\ m_checked (hook_chain hs m) = m_checked m /\
  m_descs (hook_chain hs m) = m_descs m.
Proof.
  revert m; induction hs as [|h hs IH]; intros m Hh; simpl; [auto|].
  inversion Hh as [|? ? H1 H2]; subst. specialize (H1 m). destruct (h m) as [m1 b]. simpl in H1.
  destruct b; [exact H1|]. destruct (IH m1 H2) as (-> & -> & ->). exact H1.
Qed.

Lemma match_msg_observer ce al rules (m : msg) :
  Forall observer_hook ce -> Forall observer_hook al ->
  m_score (match_msg rules ce al m) = m_score (fst (match_loop rules m)) /\
  m_checked (match_msg rules ce al m) = m_checked (fst (match_loop rules m)) /\
  m_descs (match_msg rules ce al m) = m_descs (fst (match_loop rules m)).
Proof.
  intros H1 H2. unfold match_msg.
  destruct (hook_chain_observer al (hook_chain ce (fst (match_loop rules m))) H2) as (-> & -> & ->).
  apply hook_chain_observer; exact H1.
Qed.

Lemma score_sum ce al rules (m : msg) :
  NoDup (dkeys rules) -> Forall (fun e => observer (snd e)) rules ->
  Forall observer_hook ce -> Forall observer_hook al ->
  m_checked m = [] ->
  let m' := match_msg rules ce al m in
  m_score m' = add_up (m_score m) (map (fun e => r_score (snd e)) (filter (fun e => recorded_hit m' (fst e)) rules)).
Proof.
  intros Hnd Ho H1 H2 Hc. destruct (match_msg_observer ce al rules m H1 H2) as (Hs & Hk & _).
  simpl. rewrite Hs. rewrite score_sum_loop by (auto; rewrite Hc; reflexivity).
  unfold recorded_hit. rewrite Hk. reflexivity.
Qed.

(** Read-only rules: everything as a function of the outcomes. *)
Definition not_stopped (p : (str * rule) * outcome) : bool := negb (is_stop (snd p)).

Lemma read_only_run (outs : rule -> X -> outcome) rules (m : msg) :
  Forall (fun e => reads_only (snd e) (outs (snd e))) rules ->
  let processed := take_while (fun e => negb (is_stop (outs (snd e) (m_ext m)))) rules in
  let m' := fst (match_loop rules m) in
  m_ext m' = m_ext m /\
  m_score m' = add_up (m_score m) (map (fun e => r_score (snd e)) (filter (fun e => is_hit (outs (snd e) (m_ext m))) processed)).
Proof.
  revert m; induction rules as [|[k r] rules IH]; intros m Hro; [split; reflexivity|].
  inversion Hro as [|? ? Hr Hrest]; subst. simpl in Hr.
  rewrite match_loop_cons, (Hr m). cbn [take_while snd].
  destruct (outs r (m_ext m)) as [v| |] eqn:Eo; cbn [out_value is_stop negb filter snd].
  - specialize (IH (record k r m v) Hrest). cbv zeta in IH. rewrite record_ext in IH.
    destruct IH as [He Hs]. split; [exact He|]. rewrite Hs, record_score, Eo.
    destruct (is_hit (Returns v)); reflexivity.
  - specialize (IH (record k r m (VBool false)) Hrest). cbv zeta in IH. rewrite record_ext in IH.
    destruct IH as [He Hs]. split; [exact He|]. rewrite Hs, record_score, Eo. reflexivity.
  - split; reflexivity.
Qed.

Lemma read_only_checked (outs : rule -> X -> outcome) rules (m : msg) :
  NoDup (dkeys rules) -> (forall n, In n (dkeys rules) -> ~ In n (dkeys (m_checked m))) ->
  Forall (fun e => reads_only (snd e) (outs (snd e))) rules ->
  let processed := take_while (fun e => negb (is_stop (outs (snd e) (m_ext m)))) rules in
  let m' := fst (match_loop rules m) in
  dkeys (m_checked m') = dkeys (m_checked m) ++ dkeys processed /\
  hit_names m' = hit_names m ++ dkeys (filter (fun e => is_hit (outs (snd e) (m_ext m))) processed).
Proof.
  revert m; induction rules as [|[k r] rules IH]; intros m Hnd Hf Hro.
  - simpl. rewrite !app_nil_r. split; reflexivity.
  - inversion Hro as [|? ? Hr Hrest]; subst. inversion Hnd as [|? ? Hk Hnd']; subst. simpl in Hr.
    rewrite match_loop_cons, (Hr m). cbn [take_while snd].
    assert (Hstep : forall v, out_value (outs r (m_ext m)) = Some v ->
      dkeys (m_checked (record k r m v)) = dkeys (m_checked m) ++ [k] /\
      hit_names (record k r m v) = hit_names m ++ (if is_hit (outs r (m_ext m)) then [k] else [])).
    { intros v Hv. unfold hit_names. rewrite record_checked.
      rewrite dset_new by (apply Hf; left; reflexivity). split; [unfold dkeys; apply map_app|].
      rewrite filter_app, map_app. f_equal. cbn [filter snd map].
      change (match v with VStr _ => VBool true | _ => v end) with (recorded_value v).
      rewrite truthy_recorded.
      destruct (outs r (m_ext m)); inversion Hv; subst; [destruct (is_hit (Returns v))|]; reflexivity. }
    assert (Hgo : forall v, out_value (outs r (m_ext m)) = Some v -> is_stop (outs r (m_ext m)) = false).
    { intros v. destruct (outs r (m_ext m)); simpl; congruence. }
    destruct (out_value (outs r (m_ext m))) as [v|] eqn:Eo.
    + destruct (Hstep v eq_refl) as [Hk1 Hh1]. rewrite (Hgo v eq_refl). cbn [negb filter snd].
      assert (Hf' : forall n, In n (dkeys rules) -> ~ In n (dkeys (m_checked (record k r m v)))).
      { intros n Hi. rewrite Hk1, in_app_iff. intros [H|[->|[]]]; [|contradiction].
        apply (Hf n); [right; exact Hi|exact H]. }
      specialize (IH (record k r m v) Hnd' Hf' Hrest). cbv zeta in IH. rewrite record_ext in IH.
      destruct IH as [H1 H2]. split.
      * rewrite H1, Hk1, <- app_assoc. reflexivity.
      * rewrite H2, Hh1, <- app_assoc. destruct (is_hit (outs r (m_ext m))); reflexivity.
    + destruct (outs r (m_ext m)); try discriminate. simpl. rewrite !app_nil_r. split; reflexivity.
Qed.

(** C02 *)
Definition mute (r : rule) : rule :=
  mkRule (r_name r) (r_kind r) (r_scores r) (r_score r) (r_desc r) (r_prio r) (r_tflags r) (r_eval r)
    (fun m => match r_match r m with (m1, Raises) => (m1, Returns (VBool false)) | p => p end).

Lemma mute_same rules (m : msg) :
  match_loop (map (fun e => (fst e, mute (snd e))) rules) m = match_loop rules m.
Proof.
  revert m; induction rules as [|[k r] rules IH]; intros m; [reflexivity|].
  cbn [map fst snd]. rewrite !match_loop_cons. cbn [mute r_match].
  assert (Hrec : forall m1 v, record k (mute r) m1 v = record k r m1 v) by reflexivity.
  destruct (r_match r m) as [m1 [v| |]]; cbn [out_value]; rewrite ?Hrec; [apply IH|apply IH|reflexivity].
Qed.

(** ** sorting *)
Lemma insert_perm x l : Permutation (insert_item (X:=X) x l) (x :: l).
Proof.
  induction l as [|y l IH]; simpl; [reflexivity|].
  destruct (rule_lt (snd x) (snd y)); [reflexivity|].
  rewrite IH. apply perm_swap.
Qed.

Lemma sort_perm_aux l acc :
  Permutation (fold_left (fun a x => insert_item (X:=X) x a) l acc) (l ++ acc).
Proof.
  revert acc; induction l as [|x l IH]; intros acc; simpl; [reflexivity|].
  rewrite IH, insert_perm. symmetry. apply Permutation_middle.
Qed.

Lemma sort_perm l : Permutation (sort_checked (X:=X) l) l.
Proof. unfold sort_checked. rewrite sort_perm_aux, app_nil_r. reflexivity. Qed.

Definition prio_ge (a b : str * rule) : Prop := (r_prio (snd b) <= r_prio (snd a))%Z.

Lemma insert_sorted x l : StronglySorted prio_ge l -> StronglySorted prio_ge (insert_item x l).
Proof.
  induction l as [|y l IH]; simpl; intros H; [repeat constructor|].
  inversion H as [|? ? Hs Hf]; subst.
  unfold rule_lt. destruct (Z.ltb_spec (r_prio (snd y)) (r_prio (snd x))) as [Hlt|Hge].
  - constructor; [exact H|]. constructor; [unfold prio_ge; lia|].
    eapply Forall_impl; [|exact Hf]. unfold prio_ge; intros a Ha; lia.
  - constructor; [apply IH; exact Hs|].
    rewrite Forall_forall in *. intros z Hz.
    apply (Permutation_in _ (insert_perm x l)) in Hz. destruct Hz as [<-|Hz]; [unfold prio_ge; lia|auto].
Qed.

Lemma sort_sorted l : StronglySorted prio_ge (sort_checked l).
Proof.
  unfold sort_checked. assert (H : StronglySorted prio_ge []) by constructor.
  revert H. generalize (@nil (str * rule)). induction l as [|x l IH]; intros acc H; simpl; [exact H|].
  apply IH, insert_sorted, H.
Qed.

Lemma insert_stable p x (l : list (str * rule)) :
  StronglySorted prio_ge l ->
  filter (fun e => Z.eqb (r_prio (snd e)) p) (insert_item x l) =
  filter (fun e => Z.eqb (r_prio (snd e)) p) l ++ filter (fun e => Z.eqb (r_prio (snd e)) p) [x].
Proof.
  induction l as [|y l IH]; intros Hs; [reflexivity|].
  inversion Hs as [|? ? Hs' Hf]; subst. cbn [insert_item].
  unfold rule_lt. destruct (Z.ltb_spec (r_prio (snd y)) (r_prio (snd x))) as [Hlt|Hge].
  - cbn [filter]. destruct (Z.eqb_spec (r_prio (snd x)) p) as [Hx|Hx].
    + subst p. destruct (Z.eqb_spec (r_prio (snd y)) (r_prio (snd x))) as [He|He]; [lia|].
      assert (H0 : filter (fun e => Z.eqb (r_prio (snd e)) (r_prio (snd x))) l = []).
      { clear IH Hs Hs'. induction l as [|z l IHl]; [reflexivity|]. inversion Hf as [|? ? H1 H2]; subst.
        simpl. unfold prio_ge in H1. destruct (Z.eqb_spec (r_prio (snd z)) (r_prio (snd x))); [lia|]. apply IHl; exact H2. }
      rewrite H0. reflexivity.
    + rewrite app_nil_r. reflexivity.
  - cbn [filter] in IH |- *. rewrite (IH Hs').
    destruct (Z.eqb (r_prio (snd y)) p); reflexivity.
Qed.

Lemma sort_stable p (l : list (str * rule)) :
  filter (fun e => Z.eqb (r_prio (snd e)) p) (sort_checked l) =
  filter (fun e => Z.eqb (r_prio (snd e)) p) l.
Proof.
  unfold sort_checked.
  assert (H : StronglySorted prio_ge []) by constructor.
  change (filter (fun e => Z.eqb (r_prio (snd e)) p) l) with
    (filter (fun e : str * rule => Z.eqb (r_prio (snd e)) p) [] ++ filter (fun e => Z.eqb (r_prio (snd e)) p) l).
  revert H. generalize (@nil (str * rule)). induction l as [|x l IH]; intros acc H.
  - rewrite app_nil_r; reflexivity.
  - cbn [fold_left]. rewrite IH by (apply insert_sorted; exact H). rewrite insert_stable by exact H.
    rewrite <- app_assoc. f_equal. cbn [filter]. destruct (Z.eqb (r_prio (snd x)) p); reflexivity.
Qed.

(** ** scores *)
Lemma init_rule_lengths name kind score desc prio tf ev m :
  (exists r : rule, init_rule name kind score desc prio tf ev m = Some r) <->
  length (init_scores name score tf) = 1 \/ length (init_scores name score tf) = 4.
Proof.
  unfold init_rule. destruct (init_scores name score tf) as [|a [|b [|c [|d [|e l]]]]]; simpl;
    (split; [intros [r H]; try discriminate; auto|intros [H|H]; try discriminate; eauto]).
Qed.

Lemma init_rule_fields name kind score desc prio tf ev m (r : rule) :
  init_rule name kind score desc prio tf ev m = Some r ->
  r_name r = name /\ r_scores r = init_scores name score tf /\ r_tflags r = tf /\
  r_match r = m /\ r_prio r = init_prio prio /\ r_desc r = init_desc desc /\ r_eval r = ev /\
  hd_error (r_scores r) = Some (r_score r).
Proof.
  unfold init_rule. destruct (init_scores name score tf) as [|a [|b [|c [|d [|e l]]]]]; intros H; inversion H; subst; simpl; auto 10.
Qed.

Lemma preprocess_name c (r : rule) : r_name (preprocess c r) = r_name r.
Proof. unfold preprocess. repeat match goal with |- context [if ?b then _ else _] => destruct b end; reflexivity. Qed.

(** The branches of [preprocess] that switch a rule off, as one test. *)
Lemma switched_off_bool c tf :
  switched_off c tf <->
  (negb (use_network c) && mem_str ($"net") tf) || (autolearn c && mem_str ($"noautolearn") tf) ||
  (negb (use_bayes c) && mem_str ($"learn") tf) || (negb (user_config c) && mem_str ($"userconf") tf) = true.
Proof.
  unfold switched_off. rewrite <- !mem_str_In.
  destruct (use_network c), (autolearn c), (use_bayes c), (user_config c),
    (mem_str ($"net") tf), (mem_str ($"noautolearn") tf), (mem_str ($"learn") tf), (mem_str ($"userconf") tf);
    simpl; intuition congruence.
Qed.

Lemma preprocess_off c (r : rule) : switched_off c (r_tflags r) -> r_score (preprocess c r) = 0%Q.
Proof.
  rewrite switched_off_bool. unfold preprocess.
  destruct (negb (use_network c) && mem_str ($"net") (r_tflags r)); [reflexivity|].
  destruct (autolearn c && mem_str ($"noautolearn") (r_tflags r)); [reflexivity|].
  destruct (negb (use_bayes c) && mem_str ($"learn") (r_tflags r)); [reflexivity|].
  destruct (negb (user_config c) && mem_str ($"userconf") (r_tflags r)); [reflexivity|discriminate].
Qed.

Lemma preprocess_on c (r : rule) : ~ switched_off c (r_tflags r) ->
  preprocess c r =
  if negb (length (r_scores r) =? 4) || Qeq_bool (r_score r) 0 then r
  else set_score r (advanced_score (use_bayes c) (use_network c) (r_scores r) (r_score r)).
Proof.
  rewrite switched_off_bool. unfold preprocess.
  destruct (negb (use_network c) && mem_str ($"net") (r_tflags r)); [simpl; congruence|].
  destruct (autolearn c && mem_str ($"noautolearn") (r_tflags r)); [simpl; congruence|].
  destruct (negb (use_bayes c) && mem_str ($"learn") (r_tflags r)); [simpl; congruence|].
  destruct (negb (user_config c) && mem_str ($"userconf") (r_tflags r)); [simpl; congruence|reflexivity].
Qed.

(** Effective score of a freshly configured, visible rule. *)
Lemma effective_score c name kind scores desc prio tf ev mt (r : rule) :
  init_rule name kind (Some scores) desc prio tf ev mt = Some r ->
  hidden_name name = false -> ~ switched_off c tf ->
  (forall s0 s1 s2 s3, scores = [s0; s1; s2; s3] -> ~ s0 == 0) ->
  mode_score (use_bayes c) (use_network c) scores = Some (r_score (preprocess c r)).
Proof.
  intros Hi Hh Hoff Hz. destruct (init_rule_fields _ _ _ _ _ _ _ _ _ Hi) as (Hn & Hs & Ht & _ & _ & _ & _ & Hhd).
  rewrite preprocess_on by (rewrite Ht; exact Hoff).
  unfold init_scores in Hs. rewrite Hh in Hs. rewrite Hs in Hhd.
  assert (Hl : length scores = 1 \/ length scores = 4).
  { assert (He : exists r0 : rule, init_rule name kind (Some scores) desc prio tf ev mt = Some r0) by eauto.
    apply init_rule_lengths in He. unfold init_scores in He. rewrite Hh in He. exact He. }
  rewrite Hs. destruct scores as [|a [|b [|d [|e [|f l]]]]]; simpl in Hl; try (exfalso; lia).
  - simpl in *. congruence.
  - simpl in Hhd. inversion Hhd as [Ha].
    assert (Hne : Qeq_bool a 0 = false).
    { destruct (Qeq_bool a 0) eqn:E; [|reflexivity]. apply Qeq_bool_iff in E. exfalso; eapply Hz; [reflexivity|exact E]. }
    simpl. rewrite <- Ha, Hne. simpl. destruct (use_bayes c), (use_network c); reflexivity.
Qed.

(** A zero first score sticks whatever the mode. *)
Lemma zero_first_score_sticks c name kind s1 s2 s3 desc prio tf ev mt (r : rule) :
  init_rule name kind (Some [0%Q; s1; s2; s3]) desc prio tf ev mt = Some r ->
  r_score (preprocess c r) = 0%Q.
Proof.
  intros Hi. destruct (init_rule_fields _ _ _ _ _ _ _ _ _ Hi) as (_ & Hs & Ht & _ & _ & _ & _ & Hhd).
  assert (H0 : r_score r = 0%Q).
  { rewrite Hs in Hhd. unfold init_scores in Hhd. destruct (hidden_name name); simpl in Hhd; congruence. }
  unfold preprocess. rewrite H0. change (Qeq_bool 0 0) with true. rewrite orb_true_r.
  repeat match goal with |- context [if ?b then _ else _] => destruct b end; (reflexivity || exact H0).
Qed.

Lemma preprocess_match c (r : rule) : r_match (preprocess c r) = r_match r.
Proof. unfold preprocess. repeat match goal with |- context [if ?b then _ else _] => destruct b end; reflexivity. Qed.

(** ** add_rule histories *)
Definition eval_ok (evals : list str) (r : rule) : bool :=
  match r_eval r with None => true | Some e => mem_str e evals end.

Lemma add_rules_cons c ev ro rules (rs : ruleset X) :
  add_rules c ev (ro :: rules) rs =
  add_rules c ev rules (match ro with
                        | None => rs
                        | Some r => match add_rule c ev rs r with Some rs' => rs' | None => rs end
                        end).
Proof. reflexivity. Qed.

Lemma add_rules_app c ev l1 l2 (rs : ruleset X) :
  add_rules c ev (l1 ++ l2) rs = add_rules c ev l2 (add_rules c ev l1 rs).
Proof. unfold add_rules. apply fold_left_app. Qed.

Lemma should_check_hidden (r : rule) : hidden_name (r_name r) = true -> should_check r = false.
Proof. intros H. unfold should_check. rewrite H. reflexivity. Qed.

(** Dropping hidden rules does not change the active table. *)
Lemma add_rules_hidden c ev rules (rs rs' : ruleset X) :
  rs_checked rs = rs_checked rs' ->
  rs_checked (add_rules c ev rules rs) =
  rs_checked (add_rules c ev (filter (fun ro => match ro with Some r => negb (hidden_name (r_name r)) | None => true end) rules) rs').
Proof.
  revert rs rs'; induction rules as [|ro rules IH]; intros rs rs' H; [exact H|].
  cbn [filter]. destruct ro as [r|].
  - destruct (hidden_name (r_name r)) eqn:Eh; cbn [negb]; rewrite !add_rules_cons.
    + apply IH. unfold add_rule. rewrite should_check_hidden by (rewrite preprocess_name; exact Eh).
      destruct (negb _); simpl; exact H.
    + apply IH. unfold add_rule. destruct (negb _); [exact H|].
      destruct (should_check (preprocess c r)); simpl; rewrite H; reflexivity.
  - rewrite !add_rules_cons. apply IH; exact H.
Qed.

(** Invariant of the two tables. *)
Definition tables_inv (rs : ruleset X) : Prop :=
  NoDup (dkeys (rs_checked rs)) /\ NoDup (dkeys (rs_not_checked rs)) /\
  Forall (fun e => r_name (snd e) = fst e /\ should_check (snd e) = true) (rs_checked rs) /\
  Forall (fun e => r_name (snd e) = fst e /\ should_check (snd e) = false) (rs_not_checked rs).

Lemma Forall_dset (P : str * rule -> Prop) k r d :
  Forall P d -> P (k, r) -> Forall P (dset k r d).
Proof.
  induction d as [|[k' r'] d IH]; simpl; intros Hf Hp; [repeat constructor; exact Hp|].
  inversion Hf; subst. destruct (streqb_spec k k') as [->|Hn]; constructor; auto.
Qed.

Lemma add_rule_inv c ev (rs rs' : ruleset X) r :
  tables_inv rs -> add_rule c ev rs r = Some rs' -> tables_inv rs'.
Proof.
  intros (H1 & H2 & H3 & H4). unfold add_rule. destruct (negb _); [discriminate|].
  destruct (should_check (preprocess c r)) eqn:E; intros H; inversion H; subst; unfold tables_inv; simpl.
  - repeat split; auto using dset_NoDup. apply Forall_dset; auto.
  - repeat split; auto using dset_NoDup. apply Forall_dset; auto.
Qed.

Lemma add_rules_inv c ev rules (rs : ruleset X) : tables_inv rs -> tables_inv (add_rules c ev rules rs).
Proof.
  revert rs; induction rules as [|[r|] rules IH]; intros rs H; [exact H| |].
  - rewrite !add_rules_cons. apply IH. destruct (add_rule c ev rs r) eqn:E; [|exact H].
    eapply add_rule_inv; eauto.
  - rewrite !add_rules_cons. apply IH; exact H.
Qed.

Lemma empty_inv : tables_inv empty_ruleset.
Proof. unfold tables_inv; simpl; repeat split; constructor. Qed.

Definition names_of (rules : list (option rule)) : list str :=
  flat_map (fun ro => match ro with Some r => [r_name r] | None => [] end) rules.

(** Rules with other names leave a name's entries alone. *)
Lemma add_rule_other c ev (rs rs' : ruleset X) r n :
  add_rule c ev rs r = Some rs' -> r_name r <> n ->
  dget n (rs_checked rs') = dget n (rs_checked rs) /\ dget n (rs_not_checked rs') = dget n (rs_not_checked rs).
Proof.
  unfold add_rule. destruct (negb _); [discriminate|].
  destruct (should_check (preprocess c r)); intros H Hn; inversion H; subst; simpl;
    rewrite preprocess_name, dget_dset_other by exact Hn; auto.
Qed.

Lemma add_rules_other c ev rules (rs : ruleset X) n :
  ~ In n (names_of rules) ->
  dget n (rs_checked (add_rules c ev rules rs)) = dget n (rs_checked rs) /\
  dget n (rs_not_checked (add_rules c ev rules rs)) = dget n (rs_not_checked rs).
Proof.
  revert rs; induction rules as [|[r|] rules IH]; intros rs Hn; [auto| |].
  - rewrite !add_rules_cons. simpl in Hn.
    destruct (add_rule c ev rs r) as [rs'|] eqn:E.
    + destruct (IH rs') as [-> ->]; [tauto|]. eapply add_rule_other; [exact E|tauto].
    + apply IH; tauto.
  - rewrite !add_rules_cons. apply IH; exact Hn.
Qed.

Lemma add_rules_lookup c ev rules r :
  NoDup (names_of rules) -> In (Some r) rules -> eval_ok ev r = true ->
  let rs := add_rules c ev rules empty_ruleset in
  dget (r_name r) (rs_checked rs) = (if should_check (preprocess c r) then Some (preprocess c r) else None) /\
  dget (r_name r) (rs_not_checked rs) = (if should_check (preprocess c r) then None else Some (preprocess c r)).
Proof.
  intros Hnd Hin Hok. apply in_split in Hin as (l1 & l2 & ->).
  unfold names_of in Hnd. rewrite flat_map_app in Hnd. simpl in Hnd.
  fold (names_of l1) in Hnd. fold (names_of l2) in Hnd.
  assert (Hn1 : ~ In (r_name r) (names_of l1) /\ ~ In (r_name r) (names_of l2)).
  { split; intros Hi; apply NoDup_remove_2 in Hnd; apply Hnd; apply in_or_app; [left|right]; exact Hi. }
  destruct Hn1 as [Hn1 Hn2]. cbv zeta. rewrite add_rules_app.
  destruct (add_rules_other c ev l1 empty_ruleset _ Hn1) as [E1 E2].
  set (rs1 := add_rules c ev l1 empty_ruleset) in *.
  rewrite !add_rules_cons.
  assert (Ha : add_rule c ev rs1 r = Some (if should_check (preprocess c r)
     then mkRS (dset (r_name r) (preprocess c r) (rs_checked rs1)) (rs_not_checked rs1)
     else mkRS (rs_checked rs1) (dset (r_name r) (preprocess c r) (rs_not_checked rs1)))).
  { unfold add_rule. unfold eval_ok in Hok. rewrite Hok. simpl. rewrite preprocess_name.
    destruct (should_check (preprocess c r)); reflexivity. }
  rewrite Ha. destruct (add_rules_other c ev l2 (if should_check (preprocess c r)
     then mkRS (dset (r_name r) (preprocess c r) (rs_checked rs1)) (rs_not_checked rs1)
     else mkRS (rs_checked rs1) (dset (r_name r) (preprocess c r) (rs_not_checked rs1))) _ Hn2) as [-> ->].
  destruct (should_check (preprocess c r)); simpl; rewrite dget_dset_same; auto.
Qed.

(** ** short-circuit *)
Definition sc_wrapped (sp ha : Q) (configs : list str) (r : rule) : rule :=
  fold_left (fun r c => match sc_parse c with
                        | Some (n, t) => if streqb n (r_name r) then sc_wrap t sp ha r else r
                        | None => r
                        end) configs r.

Lemma sc_wrapped_cons sp ha c configs r :
  sc_wrapped sp ha (c :: configs) r =
  sc_wrapped sp ha configs (match sc_parse c with
                            | Some (n, t) => if streqb n (r_name r) then sc_wrap t sp ha r else r
                            | None => r
                            end).
Proof. reflexivity. Qed.

Lemma sc_wrapped_fields sp ha configs r :
  r_name (sc_wrapped sp ha configs r) = r_name r /\ r_score (sc_wrapped sp ha configs r) = r_score r /\
  r_desc (sc_wrapped sp ha configs r) = r_desc r /\ r_prio (sc_wrapped sp ha configs r) = r_prio r.
Proof.
  revert r; induction configs as [|c configs IH]; intros r; [simpl; auto|].
  rewrite sc_wrapped_cons.
  destruct (sc_parse c) as [[n t]|]; [|apply IH].
  destruct (streqb n (r_name r)); [|apply IH]. destruct (IH (sc_wrap t sp ha r)) as (-> & -> & -> & ->). auto.
Qed.

Lemma sc_call_absorbs name s t1 t2 sp ha f (m : msg) :
  sc_call name s t2 sp ha (sc_call name s t1 sp ha f) m = sc_call name s t1 sp ha f m.
Proof.
  unfold sc_call. destruct (f m) as [m1 [v| |]]; [|reflexivity|reflexivity].
  destruct (truthy v) eqn:E; [reflexivity|]. rewrite E; reflexivity.
Qed.

Lemma sc_call_ext name s t sp ha f g (m : msg) :
  f m = g m -> sc_call name s t sp ha f m = sc_call name s t sp ha g m.
Proof. intros H. unfold sc_call. rewrite H. reflexivity. Qed.

Lemma sc_wrapped_already sp ha configs r t f (m : msg) :
  (forall m, r_match r m = sc_call (r_name r) (r_score r) t sp ha f m) ->
  r_match (sc_wrapped sp ha configs r) m = sc_call (r_name r) (r_score r) t sp ha f m.
Proof.
  revert r; induction configs as [|c configs IH]; intros r H; [apply H|].
  rewrite sc_wrapped_cons.
  destruct (sc_parse c) as [[n t2]|]; [|apply IH; exact H].
  destruct (streqb n (r_name r)); [|apply IH; exact H].
  change (r_name r) with (r_name (sc_wrap t2 sp ha r)).
  change (r_score r) with (r_score (sc_wrap t2 sp ha r)).
  apply IH. intros m'. cbn [sc_wrap r_match r_name r_score].
  rewrite (sc_call_ext _ _ _ _ _ _ _ m' (H m')). apply sc_call_absorbs.
Qed.

Lemma sc_wrapped_match sp ha configs r (m : msg) :
  r_match (sc_wrapped sp ha configs r) m =
  match sc_setting configs (r_name r) with
  | Some t => sc_call (r_name r) (r_score r) t sp ha (r_match r) m
  | None => r_match r m
  end.
Proof.
  revert r; induction configs as [|c configs IH]; intros r; [reflexivity|].
  rewrite sc_wrapped_cons.
  unfold sc_setting; cbn [find]. destruct (sc_parse c) as [[n t]|] eqn:Ec; [|apply IH].
  destruct (streqb n (r_name r)) eqn:En; [|apply IH].
  rewrite Ec. cbn [option_map snd].
  change (r_name r) with (r_name (sc_wrap t sp ha r)) at 1.
  change (r_score r) with (r_score (sc_wrap t sp ha r)) at 1.
  apply sc_wrapped_already. intros m'; reflexivity.
Qed.

Lemma dset_map_existing (f : rule -> rule) k r (d : dict rule) :
  NoDup (dkeys d) -> dget k d = Some r ->
  dset k (f r) d = map (fun e => (fst e, if streqb k (fst e) then f (snd e) else snd e)) d.
Proof.
  induction d as [|[k' r'] d IH]; intros Hnd Hg; [discriminate|].
  simpl in *. inversion Hnd; subst. destruct (streqb_spec k k') as [->|Hn].
  - inversion Hg; subst. rewrite ?streqb_refl. f_equal.
    assert (Hall : forall e, In e d -> (fst e, if streqb k' (fst e) then f (snd e) else snd e) = e).
    { intros [k2 r2] Hi. simpl. destruct (streqb_spec k' k2) as [->|]; [|reflexivity].
      exfalso. apply H1. change (In k2 (map fst d)). apply in_map_iff. exists (k2, r2); auto. }
    clear - Hall. induction d as [|e d IHd]; [reflexivity|]. simpl.
    rewrite Hall by (left; reflexivity). f_equal. apply IHd. intros e' He; apply Hall; right; exact He.
  - f_equal. apply IH; assumption.
Qed.

Lemma map_wrap_none (n : str) t sp ha (d : dict rule) :
  Forall (fun e => r_name (snd e) = fst e) d -> dget n d = None ->
  map (fun e => (fst e, if streqb n (r_name (snd e)) then sc_wrap t sp ha (snd e) else snd e)) d = d.
Proof.
  induction d as [|[k r] d IH]; intros Hf Hg; [reflexivity|]. inversion Hf as [|? ? Hk Hf']; subst. simpl in *.
  rewrite Hk. destruct (streqb n k); [discriminate|]. f_equal. apply IH; assumption.
Qed.

Lemma well_keyed_map (f : rule -> rule) (d : dict rule) :
  (forall r, r_name (f r) = r_name r) -> well_keyed d ->
  well_keyed (map (fun e => (fst e, f (snd e))) d).
Proof.
  intros Hf [H1 H2]. split.
  - unfold dkeys. rewrite map_map. simpl. exact H1.
  - rewrite Forall_map. simpl. eapply Forall_impl; [|exact H2]. intros e He. simpl. rewrite Hf. exact He.
Qed.

Lemma sc_finish_checked sp ha configs (rs : ruleset X) :
  well_keyed (rs_checked rs) ->
  rs_checked (sc_finish sp ha configs rs) =
  map (fun e => (fst e, sc_wrapped sp ha configs (snd e))) (rs_checked rs).
Proof.
  revert rs; induction configs as [|c configs IH]; intros rs Hk.
  - simpl. clear. induction (rs_checked rs) as [|[k r] d IHd]; [reflexivity|]. simpl. congruence.
  - change (sc_finish sp ha (c :: configs) rs) with (sc_finish sp ha configs (sc_apply sp ha rs c)).
    assert (Hone : rs_checked (sc_apply sp ha rs c) =
      map (fun e => (fst e, match sc_parse c with
                            | Some (n, t) => if streqb n (r_name (snd e)) then sc_wrap t sp ha (snd e) else snd e
                            | None => snd e end)) (rs_checked rs)).
    { unfold sc_apply. destruct (sc_parse c) as [[n t]|].
      - destruct Hk as [Hnd Hf]. destruct (dget n (rs_checked rs)) as [r|] eqn:Eg; simpl.
        + rewrite (dset_map_existing (sc_wrap t sp ha) n r) by assumption.
          apply map_ext_in. intros e He. rewrite Forall_forall in Hf. rewrite (Hf e He). reflexivity.
        + rewrite map_wrap_none by assumption.
          destruct (dget n (rs_not_checked rs)); reflexivity.
      - clear. induction (rs_checked rs) as [|[k r] d IHd]; [reflexivity|]. simpl. congruence. }
    rewrite IH.
    + rewrite Hone, map_map. apply map_ext. intros e. cbn [fst snd]. f_equal.
    + rewrite Hone. apply (well_keyed_map (fun r => match sc_parse c with
                            | Some (n, t) => if streqb n (r_name r) then sc_wrap t sp ha r else r
                            | None => r end)); [|exact Hk].
      intros r. destruct (sc_parse c) as [[n t]|]; [|reflexivity]. destruct (streqb n (r_name r)); reflexivity.
Qed.

Lemma record_wrapped sp ha configs k r (m : msg) v :
  record k (sc_wrapped sp ha configs r) m v = record k r m v.
Proof.
  destruct (sc_wrapped_fields sp ha configs r) as (_ & Hs & Hd & _).
  unfold record. rewrite Hs, Hd. reflexivity.
Qed.

Lemma sc_no_hit_same sp ha configs (rules : list (str * rule)) (m : msg) :
  Forall (fun e => r_name (snd e) = fst e) rules ->
  no_sc_hit configs rules m ->
  match_loop (map (fun e => (fst e, sc_wrapped sp ha configs (snd e))) rules) m = match_loop rules m.
Proof.
  revert m; induction rules as [|[k r] rules IH]; intros m Hf Hno; [reflexivity|].
  inversion Hf as [|? ? Hk Hf']; subst. simpl in Hk. cbn [map fst snd].
  rewrite !match_loop_cons.
  assert (Hm : r_match (sc_wrapped sp ha configs r) m = r_match r m).
  { rewrite sc_wrapped_match, Hk. destruct (sc_setting configs k) as [t|] eqn:Es; [|reflexivity].
    pose proof (Hno [] k r rules eq_refl) as H0. rewrite Es in H0. specialize (H0 ltac:(discriminate)).
    simpl in H0. unfold sc_call. destruct (r_match r m) as [m1 [v| |]]; [|reflexivity|reflexivity].
    simpl in H0. rewrite H0. reflexivity. }
  rewrite Hm. destruct (r_match r m) as [m1 o] eqn:Em. destruct (out_value o) as [v|] eqn:Eo; [|reflexivity].
  rewrite record_wrapped. apply IH; [exact Hf'|].
  intros a n r2 b -> Hset. specialize (Hno ((k, r) :: a) n r2 b eq_refl Hset).
  rewrite match_loop_cons, Em, Eo in Hno. exact Hno.
Qed.

Lemma no_sc_hit_prefix configs (a b : list (str * rule)) (m : msg) :
  no_sc_hit configs (a ++ b) m -> no_sc_hit configs a m.
Proof. intros H a1 n r b1 -> Hs. apply (H a1 n r (b1 ++ b)); [rewrite <- app_assoc; reflexivity|exact Hs]. Qed.

Lemma sc_hit_stops sp ha configs (rs : ruleset X) (m m1 m2 : msg) pre n r post t v :
  well_keyed (rs_checked rs) ->
  rs_checked rs = pre ++ (n, r) :: post ->
  no_sc_hit configs pre m ->
  match_loop pre m = (m1, false) ->
  sc_setting configs n = Some t ->
  r_match r m1 = (m2, Returns v) -> truthy v = true ->
  let res := match_loop (rs_checked (sc_finish sp ha configs rs)) m in
  snd res = true /\
  m_score (fst res) == m_score m2 + r_score r + sc_bonus t sp ha /\
  m_checked (fst res) = dset n v (m_checked m2) /\
  m_descs (fst res) = m_descs m2 /\ m_ext (fst res) = m_ext m2.
Proof.
  intros Hk Hsplit Hno Hpre Hset Hm Hv.
  assert (Hf : Forall (fun e => r_name (snd e) = fst e) pre /\ r_name r = n).
  { destruct Hk as [_ Hf]. rewrite Hsplit in Hf. apply Forall_app in Hf as [H1 H2].
    inversion H2; subst. auto. }
  destruct Hf as [Hf Hn].
  cbv zeta. rewrite sc_finish_checked by exact Hk. rewrite Hsplit, map_app, match_loop_app.
  rewrite sc_no_hit_same by assumption. rewrite Hpre. cbn [map fst snd].
  rewrite match_loop_cons, sc_wrapped_match, Hn, Hset. unfold sc_call. rewrite Hm, Hv.
  cbn [out_value fst snd m_score m_checked m_descs m_ext]. repeat split; try reflexivity.
  destruct t; simpl; [rewrite Qplus_0_r|..]; reflexivity.
Qed.

Lemma sc_never_hits sp ha configs (rs : ruleset X) (m : msg) :
  well_keyed (rs_checked rs) ->
  no_sc_hit configs (rs_checked rs) m ->
  match_loop (rs_checked (sc_finish sp ha configs rs)) m = match_loop (rs_checked rs) m.
Proof.
  intros Hk Hno. rewrite sc_finish_checked by exact Hk. apply sc_no_hit_same; [apply Hk|exact Hno].
Qed.

(** ** reports *)
Definition descs_cover (m : msg) : Prop :=
  forall n v, In (n, v) (m_checked m) -> truthy v = true -> dget n (m_descs m) <> None.

Lemma descs_cover_loop rules (m : msg) :
  Forall (fun e => observer (snd e)) rules -> NoDup (dkeys (m_checked m)) ->
  descs_cover m ->
  descs_cover (fst (match_loop rules m)) /\ NoDup (dkeys (m_checked (fst (match_loop rules m)))).
Proof.
  revert m; induction rules as [|[k r] rules IH]; intros m Hobs Hnd Hc; [auto|].
  inversion Hobs as [|? ? Hr Hrest]; subst. rewrite match_loop_cons.
  pose proof (Hr m) as Hm; cbv zeta in Hm; cbn [snd] in Hm.
  destruct (r_match r m) as [m1 o]. simpl in Hm. destruct Hm as (_ & Hch & Hd).
  destruct (out_value o) as [v|] eqn:Eo.
  - apply IH; [exact Hrest| |].
    + rewrite record_checked, Hch. apply dset_NoDup; exact Hnd.
    + intros n w Hi Hw. rewrite record_descs, Hd.
      rewrite record_checked, Hch in Hi.
      apply In_dget in Hi; [|apply dset_NoDup; exact Hnd].
      rewrite dget_dset in Hi. destruct (streqb_spec k n) as [->|Hn].
      * inversion Hi; subst w. change (truthy (recorded_value v) = true) in Hw.
        rewrite truthy_recorded in Hw. destruct v; simpl in Hw |- *; try discriminate;
          [rewrite Hw|rewrite Hw|]; rewrite dget_dset_same; discriminate.
      * apply dget_In in Hi. specialize (Hc n w Hi Hw).
        assert (Ho : forall s, dget n (dset k s (m_descs m)) = dget n (m_descs m)) by (intros s; apply dget_dset_other; exact Hn).
        destruct v; simpl; rewrite ?Ho; try exact Hc; [destruct b|destruct (Qeq_bool q 0)]; simpl; rewrite ?Ho; exact Hc.
  - simpl. unfold descs_cover. rewrite Hch, Hd. auto.
Qed.

Lemma report_lines_ok fmt (rs : ruleset X) descs l :
  (forall n v, In (n, v) l -> truthy v = true -> dget n descs <> None /\ get_rule rs n false <> None) ->
  exists ls, report_lines fmt rs descs l = Some ls /\
    length ls = length (filter (fun e => truthy (snd e)) l).
Proof.
  induction l as [|[n v] l IH]; intros H; [exists []; auto|].
  simpl. destruct IH as [ls [E El]]; [intros n' v' Hi; apply H; right; exact Hi|].
  destruct (truthy v) eqn:Ev.
  - destruct (H n v (or_introl eq_refl) Ev) as [Hd Hr].
    destruct (get_rule rs n false); [|congruence]. destruct (dget n descs); [|congruence].
    rewrite E. eexists; split; [reflexivity|]. simpl. congruence.
  - exists ls; auto.
Qed.

End P.
