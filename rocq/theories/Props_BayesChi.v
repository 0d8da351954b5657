(** C44: the combined score. *)
From Coq Require Import Reals List ZArith Lra Lia Sorting.Permutation.
From Verif Require Import Model_BayesChi Spec_BayesChi Proofs_BayesChi.
Import ListNotations.
Local Open Scope R_scope.

(** For a trained corpus and probabilities strictly between 0 and 1 the combination is
    defined and is Fisher's: the rescaling of tiny products does not change it. *)
Theorem C44_combination : forall frexp ns nn probs,
  is_frexp frexp -> (0 < ns)%Z -> (0 < nn)%Z -> Forall probability probs ->
  combine frexp ns nn probs = Some (fisher ns nn probs).
Proof. exact combine_fisher. Qed.
Print Assumptions C44_combination.

(** It is a probability. *)
Theorem C44_probability : forall frexp ns nn probs q,
  is_frexp frexp -> (0 < ns)%Z -> (0 < nn)%Z -> Forall probability probs ->
  combine frexp ns nn probs = Some q -> 0 < q < 1.
Proof.
  intros frexp ns nn probs q F H1 H2 Hp E. rewrite (combine_fisher frexp ns nn probs F H1 H2 Hp) in E. injection E as <-.
  exact (fisher_bounds ns nn probs H1 H2 Hp).
Qed.
Print Assumptions C44_probability.

(** It does not depend on the order of the tokens. *)
Theorem C44_order : forall frexp ns nn l m,
  is_frexp frexp -> (0 < ns)%Z -> (0 < nn)%Z -> Forall probability l -> Permutation l m ->
  combine frexp ns nn l = combine frexp ns nn m.
Proof.
  intros frexp ns nn l m F H1 H2 Hp P. rewrite (combine_fisher frexp ns nn l F H1 H2 Hp).
  rewrite (combine_fisher frexp ns nn m F H1 H2); [|eapply Permutation_Forall; eassumption]. f_equal. exact (fisher_perm ns nn l m P).
Qed.
Print Assumptions C44_order.

(** Exchanging spam and ham complements it. *)
Theorem C44_complement : forall frexp ns nn probs q,
  is_frexp frexp -> (0 < ns)%Z -> (0 < nn)%Z -> Forall probability probs ->
  combine frexp ns nn probs = Some q -> combine frexp nn ns (map (fun p => 1 - p) probs) = Some (1 - q).
Proof.
  intros frexp ns nn probs q F H1 H2 Hp E. rewrite (combine_fisher frexp ns nn probs F H1 H2 Hp) in E. injection E as <-.
  rewrite combine_fisher; [f_equal; apply fisher_complement | exact F | exact H2 | exact H1 |].
  apply Forall_map. eapply Forall_impl; [|exact Hp]. unfold probability. cbn. intros. lra.
Qed.
Print Assumptions C44_complement.

(** Raising the probability of any token does not lower it. *)
Theorem C44_monotone : forall frexp ns nn l m q r,
  is_frexp frexp -> (0 < ns)%Z -> (0 < nn)%Z -> Forall probability l -> Forall probability m -> Forall2 Rle l m ->
  combine frexp ns nn l = Some q -> combine frexp ns nn m = Some r -> q <= r.
Proof.
  intros frexp ns nn l m q r F H1 H2 Hl Hm M E1 E2.
  rewrite (combine_fisher frexp ns nn l F H1 H2 Hl) in E1. rewrite (combine_fisher frexp ns nn m F H1 H2 Hm) in E2.
  injection E1 as <-. injection E2 as <-. exact (fisher_mono ns nn l m H1 H2 Hl Hm M).
Qed.
Print Assumptions C44_monotone.

(** 1/2 for no evidence.  Missing: a corpus with as much spam as ham, or none at all, is
    assumed. *)
Theorem C44_no_evidence_partial : forall frexp n,
  is_frexp frexp -> (0 <= n)%Z -> combine frexp n n [] = Some (1 / 2).
Proof.
  intros frexp n F H. destruct (Z.eq_dec n 0) as [-> | Hn]; [cbn; f_equal; lra|].
  assert (0 < n)%Z by lia. rewrite combine_fisher by (try assumption; constructor). f_equal. rewrite fisher_nil by assumption.
  rewrite plus_IZR. assert (0 < IZR n) by (apply IZR_lt; lia). field. lra.
Qed.
Print Assumptions C44_no_evidence_partial.

(** In general no evidence gives the share of ham, not of spam, in the corpus. *)
Theorem C44_no_evidence_refuted : forall frexp ns nn,
  is_frexp frexp -> (0 < ns)%Z -> (0 < nn)%Z -> combine frexp ns nn [] = Some (IZR nn / IZR (ns + nn)).
Proof. intros frexp ns nn F H1 H2. rewrite combine_fisher by (try assumption; constructor). f_equal. exact (fisher_nil ns nn H1 H2). Qed.
Print Assumptions C44_no_evidence_refuted.

(** A token whose probability is exactly 0 or 1 makes the computation fail. *)
Theorem C44_certain_token : forall frexp ns nn probs,
  is_frexp frexp -> (ns + nn <> 0)%Z -> In 0 probs \/ In 1 probs -> combine frexp ns nn probs = None.
Proof. exact combine_certain. Qed.
Print Assumptions C44_certain_token.

(** Non-vacuity: a function like [math.frexp] exists, and one token at 3/4 with balanced
    training gives 5/8. *)
Example C44_frexp : is_frexp frexp_ex.
Proof. exact frexp_ex_ok. Qed.
Example C44_one : combine frexp_ex 1 1 [3 / 4] = Some (5 / 8).
Proof.
  rewrite combine_fisher; [|exact frexp_ex_ok|lia|lia|repeat constructor; lra].
  f_equal. unfold fisher, tail. cbn [map product fold_right length Nat.sub sum_f_R0 pow fact Z.add Pos.add INR].
  rewrite !Ropp_involutive, !exp_ln by lra. field.
Qed.
Example C44_order_matters_not : combine frexp_ex 3 5 [1 / 4; 2 / 3] = combine frexp_ex 3 5 [2 / 3; 1 / 4].
Proof. apply C44_order; [exact frexp_ex_ok | lia | lia | repeat constructor; lra | apply perm_swap]. Qed.
