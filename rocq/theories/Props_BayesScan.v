(** Bayes classification: theorems for C43, C75, C76. *)
From Coq Require Import Lqa Sorting.Sorted Sorting.Permutation.
From Verif Require Import PyStr PyDict Model_BayesScan Spec_BayesScan Proofs_BayesScan.

(** ** C43 *)
Theorem C43_probability : forall hapaxes ns nn t p,
  counted t -> (0 < ns)%Z -> (0 < nn)%Z -> token_prob hapaxes ns nn t = Some p -> (0 < p)%Q /\ (p < 1)%Q.
Proof. exact prob_bounds. Qed.
Print Assumptions C43_probability.
(** It is the mean of the relative frequency in spam, weighted by the number of
    messages with the token, and of 0.538 with weight 0.03. *)
Theorem C43_weighted_frequency : forall hapaxes ns nn t p,
  counted t -> (0 < ns)%Z -> (0 < nn)%Z -> token_prob hapaxes ns nn t = Some p ->
  (p == weighted_mean (3 # 100) (538 # 1000) (inject_Z (r_spam t + r_ham t)) (ratio (r_spam t) ns (r_ham t) nn))%Q.
Proof. exact prob_formula. Qed.
Print Assumptions C43_weighted_frequency.
Theorem C43_defined : forall hapaxes ns nn t,
  (exists p, token_prob hapaxes ns nn t = Some p) <-> ((if hapaxes then 1 else 2) <= r_spam t + r_ham t)%Z.
Proof. exact prob_defined. Qed.
Print Assumptions C43_defined.
(** With the same number of messages, more of them spam means a higher probability;
    with the same counts, a smaller share of the spam means a lower one. *)
Theorem C43_grows_partial : forall hapaxes ns nn t t' p p',
  counted t -> counted t' -> (0 < ns)%Z -> (0 < nn)%Z ->
  (r_spam t + r_ham t = r_spam t' + r_ham t')%Z -> (r_spam t < r_spam t')%Z ->
  token_prob hapaxes ns nn t = Some p -> token_prob hapaxes ns nn t' = Some p' -> (p < p')%Q.
Proof. exact prob_mono. Qed.
Print Assumptions C43_grows_partial.
Theorem C43_share : forall hapaxes ns ns' nn t p p',
  (0 < r_spam t)%Z -> (0 < r_ham t)%Z -> (0 < ns)%Z -> (ns < ns')%Z -> (0 < nn)%Z ->
  token_prob hapaxes ns nn t = Some p -> token_prob hapaxes ns' nn t = Some p' -> (p' < p)%Q.
Proof. exact prob_corpus. Qed.
Print Assumptions C43_share.
(** One more spam message with the token and no more ham can lower it, in a corpus
    with much more spam than ham. *)
Theorem C43_grows_refuted : exists ns nn t t' p p',
  r_ham t = r_ham t' /\ (r_spam t < r_spam t')%Z /\ (0 < ns)%Z /\ (0 < nn)%Z /\
  token_prob true ns nn t = Some p /\ token_prob true ns nn t' = Some p' /\ (p' < p)%Q.
Proof.
  exists 200000%Z, 200%Z, (mkRow [] 0 1 0), (mkRow [] 1 1 0). do 2 eexists.
  split; [reflexivity|]. split; [reflexivity|]. split; [reflexivity|]. split; [reflexivity|]. split; [reflexivity|]. split; [reflexivity|].
  vm_compute. reflexivity.
Qed.
Print Assumptions C43_grows_refuted.
(** Without any spam or ham the computation fails (this needs a minimum of 0 for
    them). *)
Theorem C43_empty_corpus_refuted : forall combine hapaxes mins minh ns nn rows,
  ns = 0%Z \/ nn = 0%Z -> (mins <= ns)%Z -> (minh <= nn)%Z -> scan combine true true false hapaxes mins minh ns nn rows = ScanRaises.
Proof.
  intros combine hapaxes mins minh ns nn rows H H1 H2. unfold scan. cbn [negb].
  destruct (Z.ltb_spec ns mins); [lia|]. destruct (Z.ltb_spec nn minh); [lia|]. unfold compute_probs.
  destruct H as [-> | ->]; [reflexivity|]. rewrite orb_true_r. reflexivity.
Qed.
Print Assumptions C43_empty_corpus_refuted.
Example C43_example : exists p,
  counted (mkRow ($"cash") 3 1 0) /\ token_prob false 300 200 (mkRow ($"cash") 3 1 0) = Some p /\ (66 # 100 < p)%Q /\ (p < 67 # 100)%Q.
Proof. eexists. split; [split; discriminate|]. split; [reflexivity|]. split; vm_compute; reflexivity. Qed.

(** ** C75 *)
(** With at most 150 known tokens the score combines exactly the probabilities that
    are far enough from 1/2.  Missing: messages with more known tokens. *)
Theorem C75_score_partial : forall combine hapaxes mins minh ns nn rows,
  NoDup (map r_token rows) -> length rows <= 150 -> ns <> 0%Z -> nn <> 0%Z -> (mins <= ns)%Z -> (minh <= nn)%Z ->
  exists l touched, Permutation l (filter strong (own_probs hapaxes ns nn rows)) /\
    scan combine true true false hapaxes mins minh ns nn rows = match l with [] => NoScore | _ => Score (combine ns nn l) touched end.
Proof. exact scan_few. Qed.
Print Assumptions C75_score_partial.
(** When there are at least 150 known tokens that say nothing, there is no score,
    however many others say "spam": the weakest 150 are looked at, not the
    strongest. *)
Theorem C75_weakest_tokens_refuted : forall combine hapaxes mins minh ns nn rows,
  NoDup (map r_token rows) -> ns <> 0%Z -> nn <> 0%Z ->
  150 <= length (filter (fun p => negb (strong p)) (own_probs hapaxes ns nn rows)) ->
  scan combine true true false hapaxes mins minh ns nn rows = NoScore.
Proof. exact scan_weak. Qed.
Print Assumptions C75_weakest_tokens_refuted.
Definition numbered (n : nat) : list str := map (fun k => repeat 97%N k) (seq 1 n).
Example C75_weakest_example :
  let rows := map (fun t => mkRow t 1 1 0) (numbered 150) ++ map (fun t => mkRow (98%N :: t) 99 0 0) (numbered 60) in
  150 <= length (filter (fun p => negb (strong p)) (own_probs true 200 200 rows)) /\
  length (filter strong (own_probs true 200 200 rows)) = 60.
Proof. split; [apply Nat.leb_le|]; vm_compute; reflexivity. Qed.

(** Every token is given its own probability if all have one ... *)
Theorem C75_own_probability_partial : forall hapaxes ns nn rows,
  NoDup (map r_token rows) -> (forall t, In t rows -> exists p, token_prob hapaxes ns nn t = Some p) ->
  forall t, In t rows -> exists p, token_prob hapaxes ns nn t = Some p /\
    dget (r_token t) (assign rows (map (token_prob hapaxes ns nn) rows)) = Some (mkInfo p (r_spam t) (r_ham t) (r_atime t)).
Proof. exact assign_own. Qed.
Print Assumptions C75_own_probability_partial.
(** ... but after a rare token, every token is given the probability of the next. *)
Theorem C75_own_probability_refuted : exists rows t p q,
  In t rows /\ NoDup (map r_token rows) /\ token_prob false 200 200 t = Some p /\ (strong p = true) /\ (p < (1 # 2))%Q /\
  option_map i_prob (dget (r_token t) (assign rows (map (token_prob false 200 200) rows))) = Some q /\ (1 # 2 < q)%Q.
Proof.
  exists [mkRow ($"rare") 1 0 0; mkRow ($"meeting") 0 50 0; mkRow ($"viagra") 50 0 0], (mkRow ($"meeting") 0 50 0). do 2 eexists.
  split; [right; left; reflexivity|]. split; [repeat constructor; vm_compute; intuition discriminate|].
  split; [reflexivity|]. split; [reflexivity|]. split; [reflexivity|]. split; [reflexivity|]. reflexivity.
Qed.
Print Assumptions C75_own_probability_refuted.
(** Too little training, a disabled or ignoring configuration: no score. *)
Theorem C75_unavailable : forall combine learner bayes ignored hapaxes mins minh ns nn rows,
  learner = false \/ bayes = false \/ ignored = true \/ (ns < mins)%Z \/ (nn < minh)%Z ->
  scan combine learner bayes ignored hapaxes mins minh ns nn rows = NoScore.
Proof.
  intros combine learner bayes ignored hapaxes mins minh ns nn rows H. unfold scan.
  destruct learner; [|reflexivity]. destruct ignored; [reflexivity|]. destruct bayes; [|reflexivity]. cbn [negb].
  destruct (Z.ltb_spec ns mins); [reflexivity|]. destruct (Z.ltb_spec nn minh); [reflexivity|].
  destruct H as [H | [H | [H | [H | H]]]]; try discriminate; lia.
Qed.
Print Assumptions C75_unavailable.

(** ** C76 *)
(** Of rules for successive ranges exactly one hits a score within them, and none
    another one. *)
Theorem C76_one_range : forall b bounds q, increasing (b :: bounds) -> ~ (q == 0)%Q ->
  let hit r := check_bayes true true true (Some q) (fst r) (Some (snd r)) in
  ((b < q)%Q /\ (q <= last bounds b)%Q -> length (filter hit (ranges (b :: bounds))) = 1) /\
  (~ ((b < q)%Q /\ (q <= last bounds b)%Q) -> filter hit (ranges (b :: bounds)) = []).
Proof.
  intros b bounds q Hi H0. split.
  - intros [H1 H2]. exact (ranges_one q H0 bounds b Hi H1 H2).
  - intros H. destruct (Qlt_le_dec b q) as [L|L]; [|exact (ranges_below q b bounds Hi L)].
    destruct (Qlt_le_dec (last bounds b) q) as [L2|L2]; [exact (ranges_above q bounds b Hi L2)|]. exfalso. auto.
Qed.
Print Assumptions C76_one_range.
(** Without a score, or switched off, no rule hits. *)
Theorem C76_no_hit : forall learner bayes rules score lo hi,
  learner = false \/ bayes = false \/ rules = false \/ score = None -> check_bayes learner bayes rules score lo hi = false.
Proof.
  intros learner bayes rules score lo hi H. unfold check_bayes. destruct learner; [|reflexivity]. destruct bayes; [|reflexivity]. destruct rules; [|reflexivity].
  destruct H as [H | [H | [H | ->]]]; try discriminate. reflexivity.
Qed.
Print Assumptions C76_no_hit.
Example C76_example : increasing [0; 5 # 100; 95 # 100; 1]%Q /\
  map (fun r => check_bayes true true true (Some (95 # 100)) (fst r) (Some (snd r))) (ranges [0; 5 # 100; 95 # 100; 1]%Q) = [false; true; false].
Proof. split; [|reflexivity]. repeat constructor. Qed.
