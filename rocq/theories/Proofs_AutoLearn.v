(** Proofs about auto-learning. *)
From Verif Require Import PyStr PyDict Model_AutoLearn Spec_AutoLearn.
From Coq Require Import Lqa.

Lemma valid_spec t : valid_test t = true <-> ~ (t_score t == 0)%Q /\ counts t = true.
Proof.
  unfold valid_test, counts, flag. rewrite !Bool.andb_true_iff, !Bool.negb_true_iff. split.
  - intros [[H1 H2] H3]. split; [|auto]. intros E. apply Qeq_bool_iff in E. congruence.
  - intros [H1 [H2 H3]]. split; [split; [|exact H2]|exact H3]. destruct (Qeq_bool (t_score t) 0) eqn:E; [|reflexivity].
    apply Qeq_bool_iff in E. contradiction.
Qed.
Lemma sum_skip f n t l : valid_test t = false -> (sum_of f ((n, t) :: l) == sum_of f l)%Q.
Proof.
  intros V. change (sum_of f ((n, t) :: l)) with ((if counts t && f t then t_score t else 0) + sum_of f l)%Q. destruct (counts t) eqn:C; cbn [andb]; [|ring].
  assert (E : (t_score t == 0)%Q). { destruct (Qeq_dec (t_score t) 0) as [E|N]; [exact E|]. rewrite (proj2 (valid_spec t)) in V; [discriminate|auto]. }
  destruct (f t); [rewrite E|]; ring.
Qed.
Lemma sum_take f n t l : valid_test t = true -> (sum_of f ((n, t) :: l) == (if f t then t_score t else 0) + sum_of f l)%Q.
Proof. intros V. apply valid_spec in V. destruct V as [_ C].
  change (sum_of f ((n, t) :: l)) with ((if counts t && f t then t_score t else 0) + sum_of f l)%Q. rewrite C. reflexivity. Qed.

Lemma add_tests_spec l : forall p p', add_tests l p = Some p' ->
  (p_header p' == p_header p + sum_of header_test l)%Q /\ (p_body p' == p_body p + sum_of body_test l)%Q /\
  (p_learn p' == p_learn p + sum_of (flag "learn") l)%Q /\ (p_points p' == p_points p + all_points l)%Q /\
  (p_forced p' = true <-> p_forced p = true \/ forced l).
Proof.
  induction l as [|[n t] l IH]; intros p p' H; cbn [add_tests] in H.
  - injection H as <-. unfold all_points, sum_of. cbn [fold_right]. repeat (split; [ring|]). split; [auto|]. intros [H|(n & t & [] & _)]. exact H.
  - destruct (valid_test t) eqn:V.
    + destruct (add_test t p) as [p1|] eqn:A; [|discriminate]. destruct (IH p1 p' H) as (I1 & I2 & I3 & I4 & I5).
      unfold all_points in *. rewrite !sum_take by exact V. rewrite I1, I2, I3, I4.
      unfold add_test in A. destruct (t_type t) as [ty|] eqn:Ty; [|discriminate].
      assert (FT : forall x, of_type x t = streqb ty ($ x)) by (intros x; unfold of_type; rewrite Ty; reflexivity).
      assert (FR : forced ((n, t) :: l) <-> (flag "learn" t = false /\ flag "autolearn_force" t = true) \/ forced l).
      { apply valid_spec in V. destruct V as [V1 V2]. split.
        - intros (n' & t' & [E|Hi] & F); [injection E as <- <-; left; tauto|right; exists n', t'; tauto].
        - intros [[F1 F2]|(n' & t' & Hi & F)]; [exists n, t; repeat split; auto; left; reflexivity|exists n', t'; split; [right; exact Hi|exact F]]. }
      unfold header_test, body_test in *. rewrite !FT. rewrite I5, FR. clear I1 I2 I3 I4 I5 FR.
      unfold flag in *. destruct (mem_str ($"learn") (t_tflags t)); injection A as <-; cbn [p_header p_body p_learn p_points p_forced negb];
        destruct (streqb ty ($"header")), (streqb ty ($"body")), (streqb ty ($"uri")), (streqb ty ($"meta")),
          (mem_str ($"net") (t_tflags t)); cbn [orb andb negb];
        (split; [ring|]); (split; [ring|]); (split; [ring|]); (split; [ring|]); rewrite ?Bool.orb_true_iff; intuition discriminate.
    + destruct (IH p p' H) as (I1 & I2 & I3 & I4 & I5). unfold all_points in *. rewrite !sum_skip by exact V.
      repeat (split; [assumption|]). rewrite I5. split; intros [F|F]; auto; right.
      * destruct F as (n' & t' & Hi & F). exists n', t'. split; [right; exact Hi|exact F].
      * destruct F as (n' & t' & [E|Hi] & F1 & F2 & F3); [|exists n', t'; auto]. injection E as <- <-. exfalso.
        rewrite (proj2 (valid_spec t)) in V; [discriminate|auto].
Qed.
Lemma add_tests_total l : forall p, (forall n t, In (n, t) l -> valid_test t = true -> t_type t <> None) -> add_tests l p <> None.
Proof.
  induction l as [|[n t] l IH]; intros p H; cbn [add_tests]; [discriminate|].
  assert (H' : forall n t, In (n, t) l -> valid_test t = true -> t_type t <> None) by (intros n' t' Hi; apply (H n' t'); right; exact Hi).
  destruct (valid_test t) eqn:V; [|apply IH; exact H']. unfold add_test.
  destruct (t_type t) eqn:T; [|exfalso; exact (H n t (or_introl eq_refl) V T)]. destruct (mem_str _ _); apply IH; exact H'.
Qed.

Lemma lt_spec a b : lt a b = true <-> (a < b)%Q.
Proof. unfold lt. rewrite Bool.negb_true_iff. split; intros H; [apply Qnot_le_lt; intros C; apply Qle_bool_iff in C; congruence|].
  destruct (Qle_bool b a) eqn:E; [|reflexivity]. apply Qle_bool_iff in E. lra. Qed.
Lemma nlt_spec a b : negb (lt a b) = true <-> (b <= a)%Q.
Proof. unfold lt. rewrite Bool.negb_involutive. apply Qle_bool_iff. Qed.
Lemma nle_spec a b : negb (Qle_bool a b) = true <-> (b < a)%Q.
Proof. apply (lt_spec b a). Qed.

Lemma learn_spam c bayes tests score :
  discriminator c bayes tests score = Some (Some LearnSpam) <->
  bayes = true /\ spam_evidence c tests score /\ (forall n t, In (n, t) tests -> valid_test t = true -> t_type t <> None) /\
  (al_on_error c = true -> dhas ($"BAYES_99") tests = false).
Proof.
  assert (TY : forall l p p', add_tests l p = Some p' -> forall n t, In (n, t) l -> valid_test t = true -> t_type t <> None).
  { induction l as [|[n t] l IH]; intros p p' A n' t' Hi V; [destruct Hi|]. cbn [add_tests] in A. destruct Hi as [E|Hi].
    - injection E as -> ->. rewrite V in A. unfold add_test in A. destruct (t_type t'); [discriminate|]. discriminate A.
    - destruct (valid_test t); [destruct (add_test t p) as [q|]; [|discriminate]|]; eapply IH; eassumption. }
  unfold discriminator. destruct (add_tests tests (mkPoints 0 0 0 0 false)) as [p|] eqn:A.
  - pose proof (TY _ _ _ A) as T. apply add_tests_spec in A. cbn [p_header p_body p_learn p_points p_forced] in A.
    destruct A as (A1 & A2 & A3 & A4 & A5). rewrite Qplus_0_l in A1, A2, A3, A4.
    assert (EV : (thinks_spam c p = true /\ should_learn c tests p score = true) <-> spam_evidence c tests score /\ (al_on_error c = true -> dhas ($"BAYES_99") tests = false)).
    { unfold should_learn, spam_evidence, bayes_agrees. rewrite <- A1, <- A2, <- A3, <- A4. unfold thinks_spam.
      destruct (Qle_bool (al_spam c) (p_points p)) eqn:S.
      - apply Qle_bool_iff in S. rewrite !Bool.andb_true_iff, !nlt_spec, nle_spec. unfold minimum.
        destruct (p_forced p) eqn:Fo.
        + assert (Fd : forced tests) by (destruct A5 as [A5 _]; destruct (A5 eq_refl); [discriminate|assumption]).
          destruct (al_on_error c), (dhas ($"BAYES_99") tests); cbn [andb negb]; intuition (try discriminate).
        + assert (Fd : ~ forced tests) by (intros F; assert (false = true) by (apply A5; auto); discriminate).
          destruct (al_on_error c), (dhas ($"BAYES_99") tests); cbn [andb negb]; intuition (try discriminate).
      - split; [intros [C _]; discriminate|]. intros [[E _] _]. apply Qle_bool_iff in E. congruence. }
    split.
    + intros H. destruct (should_learn c tests p score) eqn:SL; [|discriminate]. destruct bayes; [|discriminate]. cbn [andb] in H.
      destruct (thinks_spam c p) eqn:TS; [|discriminate]. destruct (proj1 EV (conj eq_refl eq_refl)) as [E1 E2].
      split; [reflexivity|]. split; [exact E1|]. split; [exact T|exact E2].
    + intros (-> & E1 & _ & E2). destruct (proj2 EV (conj E1 E2)) as [E3 E4]. rewrite E3, E4. reflexivity.
  - split; [discriminate|]. intros (_ & _ & T & _). exfalso. exact (add_tests_total tests _ T A).
Qed.
Lemma never_ham c bayes tests score : discriminator c bayes tests score <> Some (Some LearnHam).
Proof.
  unfold discriminator. destruct (add_tests tests _) as [p|]; [|discriminate].
  destruct (should_learn c tests p score && bayes); [|discriminate]. destruct (thinks_spam c p); discriminate.
Qed.
