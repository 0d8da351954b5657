(** Auto-learning: theorems for C41. *)
From Verif Require Import PyStr PyDict Model_AutoLearn Spec_AutoLearn Proofs_AutoLearn.
From Coq Require Import Lqa Bool.

(** ** C41 *)
(** A message that hit every rule is learned as spam exactly if Bayes is loaded, the
    evidence of its hits is sufficient and (when only errors are to be learned) the
    rule BAYES_99 is not among them.  Missing: messages that did not hit every rule,
    and learning as ham - see the refutations. *)
Theorem C41_spam_partial : forall c bayes tests names score,
  (forall n t, In (n, t) tests -> mem_str n names = true) ->
  (forall n t, In (n, t) tests -> t_type t <> None) ->
  discriminator c bayes tests score = Some (Some LearnSpam) <->
  bayes = true /\ spam_evidence c (hit_tests names tests) score /\
  (al_on_error c = true -> dhas ($"BAYES_99") (hit_tests names tests) = false).
Proof.
  intros c bayes tests names score Hall Hty.
  assert (E : hit_tests names tests = tests).
  { unfold hit_tests. clear Hty. induction tests as [|[n t] l IH]; [reflexivity|]. cbn [filter fst]. rewrite (Hall n t (or_introl eq_refl)).
    f_equal. apply IH. intros n' t' Hi. apply (Hall n' t'). right. exact Hi. }
  rewrite E, learn_spam. split; [tauto|]. intros (H1 & H2 & H3). split; [exact H1|]. split; [exact H2|]. split; [|exact H3].
  intros n t Hi _. exact (Hty n t Hi).
Qed.
Print Assumptions C41_spam_partial.

(** Given the sums, learning is advised exactly if the message is fit to be learned as spam or as ham and (when only
    errors are to be learned) the rule BAYES_99 or BAYES_00 is not in force. *)
Theorem C41_should_learn : forall c tests header body learn points force score,
  should_learn c tests (mkPoints header body learn points force) score = true <->
  fit_as_spam c header body learn points force score /\ (al_on_error c = true -> ~ In ($"BAYES_99") (map fst tests)) \/
  fit_as_ham c learn points score /\ (al_on_error c = true -> ~ In ($"BAYES_00") (map fst tests)).
Proof.
  intros c tests h b le pt fo score. unfold should_learn, bayes_agrees, thinks_spam, thinks_ham, lt, minimum, fit_as_spam, fit_as_ham. cbn [p_points p_header p_body p_learn p_forced].
  assert (LB : forall x y, negb (Qle_bool x y) = true <-> (y < x)%Q) by (intros x y; rewrite negb_true_iff; rewrite <- not_true_iff_false, Qle_bool_iff; apply Qnot_le_lt || split; [apply Qnot_le_lt|apply Qlt_not_le]).
  assert (NN : forall x y, negb (negb (Qle_bool x y)) = true <-> (x <= y)%Q) by (intros x y; rewrite negb_involutive; apply Qle_bool_iff).
  assert (HB : forall k, negb (al_on_error c && dhas k tests) = true <-> (al_on_error c = true -> ~ In k (map fst tests))).
  { intros k. rewrite negb_true_iff, andb_false_iff, <- !not_true_iff_false, dhas_In. unfold dkeys. destruct (al_on_error c); intuition. }
  destruct (Qle_bool (al_spam c) pt) eqn:S.
  - apply Qle_bool_iff in S. rewrite !andb_true_iff, !NN, LB, HB. split.
    + intros H. left. tauto.
    + intros [H|[[H _] _]]; [tauto|]. exfalso. revert H. apply Qle_not_lt, S.
  - assert (S' : (pt < al_spam c)%Q) by (apply LB; rewrite S; reflexivity). destruct (Qle_bool (al_nonspam c) pt) eqn:N; cbn [negb andb].
    + split; [discriminate|]. apply Qle_bool_iff in N. intros [[[H _] _]|[(_ & H & _) _]]; exfalso; revert H; [apply Qlt_not_le, S'|apply Qle_not_lt, N].
    + assert (N' : (pt < al_nonspam c)%Q) by (apply LB; rewrite N; reflexivity). rewrite !andb_true_iff, NN, LB, HB. split; [intros H; right; tauto|].
      intros [[[H _] _]|H]; [exfalso; revert H; apply Qlt_not_le, S'|tauto].
Qed.
Print Assumptions C41_should_learn.
Example C41_should_learn_case : fit_as_ham (mkAL (1#10) 12 true 5) 0 0 2 /\ should_learn (mkAL (1#10) 12 true 5) [($"BAYES_99", mkTest (Some ($"body")) 6 [])] (mkPoints 0 0 0 0 false) 2 = true /\
  should_learn (mkAL (1#10) 12 true 5) [($"BAYES_00", mkTest (Some ($"body")) 6 [])] (mkPoints 0 0 0 0 false) 2 = false.
Proof. repeat split; vm_compute; reflexivity || discriminate. Qed.

(** What is summed up are the scores of all rules, not of those that hit: a message
    that hit one body rule of 6 points, has no header points and is half as high as
    the threshold is learned as spam. *)
Definition ex_tests : dict test :=
  [($"BODY_1", mkTest (Some ($"body")) 6 []); ($"HEAD_1", mkTest (Some ($"header")) 6 []); ($"HEAD_2", mkTest (Some ($"header")) 1 [$"noautolearn"])].
Definition ex_conf : al_conf := mkAL (1#10) 12 false 5.
Theorem C41_hits_ignored_refuted : exists c tests names score,
  score = sum_of (fun _ => true) (hit_tests names tests) /\ discriminator c true tests score = Some (Some LearnSpam) /\
  (all_points (hit_tests names tests) < al_spam c)%Q /\ (sum_of header_test (hit_tests names tests) < 3)%Q.
Proof.
  exists ex_conf, ex_tests, [$"BODY_1"]. eexists. split; [reflexivity|]. repeat split; vm_compute; reflexivity.
Qed.
Print Assumptions C41_hits_ignored_refuted.
(** No message is ever learned as ham. *)
Theorem C41_ham_never_learned_refuted : forall c bayes tests score, discriminator c bayes tests score <> Some (Some LearnHam).
Proof. exact never_ham. Qed.
Print Assumptions C41_ham_never_learned_refuted.
(** A single scored rule of a class without [rule_type] makes auto-learning fail for
    every message. *)
Theorem C41_uri_detail_refuted : forall c bayes n score t tests, t_type t = None -> valid_test t = true ->
  discriminator c bayes ((n, t) :: tests) score = None.
Proof. intros c bayes n score t tests T V. unfold discriminator. cbn [add_tests]. rewrite V. unfold add_test. rewrite T. reflexivity. Qed.
Print Assumptions C41_uri_detail_refuted.
Example C41_example :
  discriminator ex_conf true ex_tests 13 = Some (Some LearnSpam) /\ discriminator ex_conf true ex_tests 5 = Some None /\
  spam_evidence ex_conf (hit_tests [$"BODY_1"; $"HEAD_1"; $"HEAD_2"] ex_tests) 13.
Proof.
  split; [reflexivity|]. split; [reflexivity|]. split; [vm_compute; discriminate|]. split; [reflexivity|]. split; [vm_compute; discriminate|].
  right. split; [|split; vm_compute; discriminate].
  intros (n & t & [H | [H | [H | []]]] & _ & _ & _ & F); injection H as <- <-; discriminate.
Qed.
