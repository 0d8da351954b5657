(** Proofs about the chi-squared combiner. *)
From Coq Require Import Reals List ZArith Lra Lia Psatz Sorting.Permutation.
From Verif Require Import Model_BayesChi Spec_BayesChi.
Import ListNotations.
Local Open Scope R_scope.

Lemma fact_pos i : 0 < INR (fact i).
Proof. apply lt_0_INR, lt_O_fact. Qed.

(** The terms of the sum. *)
Definition term (m : R) (i : nat) : R := m ^ i / INR (fact i).
Lemma term_S m i : term m (S i) = term m i * (m / INR (S i)).
Proof.
  unfold term. rewrite fact_simpl, mult_INR, <- tech_pow_Rmult.
  pose proof (fact_pos i). assert (0 < INR (S i)) by (apply lt_0_INR; lia). field. split; lra.
Qed.
Lemma term_nonneg m i : 0 <= m -> 0 <= term m i.
Proof. intros H. unfold term. apply Rmult_le_pos; [apply pow_le, H|]. apply Rlt_le, Rinv_0_lt_compat, fact_pos. Qed.

Lemma sum_loop m e n : forall k,
  fold_left (fun (acc : R * R) (i : nat) => let t := snd acc * (m / INR i) in (fst acc + t, t)) (seq (S k) n)
    (e * sum_f_R0 (term m) k, e * term m k) = (e * sum_f_R0 (term m) (n + k), e * term m (n + k)).
Proof.
  induction n as [|n IH]; intros k; [reflexivity|]. cbn [seq fold_left fst snd].
  replace (e * sum_f_R0 (term m) k + e * term m k * (m / INR (S k))) with (e * sum_f_R0 (term m) (S k))
    by (cbn [sum_f_R0]; rewrite term_S; ring).
  replace (e * term m k * (m / INR (S k))) with (e * term m (S k)) by (rewrite term_S; ring).
  rewrite IH. replace (n + S k)%nat with (S n + k)%nat by lia. reflexivity.
Qed.

Lemma tail_le_1 k m : 0 <= m -> tail k m <= 1.
Proof.
  intros H. unfold tail. rewrite <- (exp_0). replace 0 with (- m + m) by ring. rewrite exp_plus.
  apply Rmult_le_compat_l; [apply Rlt_le, exp_pos|].
  unfold exp at 1. destruct (exist_exp m) as [l Hl]. cbn [proj1_sig]. 
  apply sum_incr with (An := fun i => m ^ i / INR (fact i)).
  - unfold exp_in, infinite_sum in Hl. intros eps He. destruct (Hl eps He) as [N0 HN]. exists N0. intros n Hn.
    replace (sum_f_R0 (fun i => m ^ i / INR (fact i)) n) with (sum_f_R0 (fun i => / INR (fact i) * m ^ i) n); [exact (HN n Hn)|].
    apply sum_eq. intros i _. unfold Rdiv. ring.
  - intros n. exact (term_nonneg m n H).
Qed.
Lemma tail_pos k m : 0 <= m -> 0 < tail k m.
Proof.
  intros H. unfold tail. apply Rmult_lt_0_compat; [apply exp_pos|].
  induction (k - 1)%nat as [|n IH]; [cbn; lra|]. rewrite tech5. pose proof (term_nonneg m (S n) H). unfold term in *. lra.
Qed.

Lemma chi2Q_tail m k : 0 <= m -> chi2Q (2 * m) k = tail k m.
Proof.
  intros H. unfold chi2Q. replace (2 * m / 2) with m by field.
  pose proof (sum_loop m (exp (- m)) (k - 1) 0) as L. cbn [sum_f_R0] in L.
  replace (exp (- m) * term m 0) with (exp (- m)) in L by (unfold term; cbn; field).
  rewrite L. cbn [fst]. rewrite Nat.add_0_r. change (exp (- m) * sum_f_R0 (term m) (k - 1)) with (tail k m).
  apply Rmin_left, tail_le_1, H.
Qed.

(** ** The products *)
Definition value (x : R * Z) : R := fst x * powerRZ 2 (snd x).
Lemma rescale_value frexp x e : is_frexp frexp -> 0 < x -> value (rescale frexp x e) = x * powerRZ 2 e /\ 0 < fst (rescale frexp x e).
Proof.
  intros F H. unfold rescale. destruct (Rlt_dec x tiny); [|split; [reflexivity|exact H]].
  destruct (proj2 F x H) as [E B]. destruct (frexp x) as [m k]. cbn [fst snd] in *. unfold value. cbn [fst snd]. split; [|lra].
  rewrite powerRZ_add by lra. rewrite E. ring.
Qed.
Lemma products_value frexp probs : is_frexp frexp -> Forall probability probs -> forall s h, 0 < fst s -> 0 < fst h ->
  let '(s', h') := products frexp probs s h in
  value s' = value s * product (map (fun p => 1 - p) probs) /\ value h' = value h * product probs /\ 0 < fst s' /\ 0 < fst h'.
Proof.
  intros F. induction probs as [|p l IH]; intros Hp s h Hs Hh.
  - cbn [products map product fold_right]. rewrite !Rmult_1_r. auto.
  - inversion Hp as [|? ? [P0 P1] Hl]; subst. cbn [products].
    destruct (rescale_value frexp (fst s * (1 - p)) (snd s) F) as [E1 Q1]; [nra|].
    destruct (rescale_value frexp (fst h * p) (snd h) F) as [E2 Q2]; [nra|].
    specialize (IH Hl _ _ Q1 Q2). destruct (products frexp l _ _) as [s' h']. destruct IH as (I1 & I2 & I3 & I4).
    cbn [map product fold_right]. rewrite I1, I2, E1, E2. unfold value, product. split; [ring|]. split; [ring|]. split; assumption.
Qed.

Lemma product_pos l : Forall (fun p => 0 < p) l -> 0 < product l.
Proof. induction l as [|p l IH]; intros H; [cbn; lra|]. inversion H; subst. cbn. apply Rmult_lt_0_compat; auto. Qed.
Lemma product_le_1 l : Forall (fun p => 0 < p <= 1) l -> product l <= 1.
Proof.
  induction l as [|p l IH]; intros H; [cbn; lra|]. inversion H as [|? ? [H1 H2] Hl]; subst. specialize (IH Hl). change (p * product l <= 1).
  assert (0 < product l) by (apply product_pos; eapply Forall_impl; [|exact Hl]; cbn; intros ? [? ?]; assumption). nra.
Qed.

(** The share of a class times the product lies in (0, 1]. *)
Lemma weighted_unit a b l : (0 < a)%Z -> (0 <= b)%Z -> Forall (fun p => 0 < p <= 1) l -> 0 < IZR a / IZR (a + b) * product l <= 1.
Proof.
  intros Ha Hb Hl. assert (0 < IZR a) by (apply IZR_lt; lia). assert (0 <= IZR b) by (apply IZR_le; lia). rewrite plus_IZR.
  assert (0 < IZR a / (IZR a + IZR b)) by (apply Rdiv_lt_0_compat; lra).
  assert (IZR a / (IZR a + IZR b) <= 1) by (apply Rmult_le_reg_r with (IZR a + IZR b); [lra|]; unfold Rdiv; rewrite Rmult_assoc, Rinv_l by lra; lra).
  assert (0 < product l) by (apply product_pos; eapply Forall_impl; [|exact Hl]; cbn; intros ? [? ?]; assumption).
  pose proof (product_le_1 l Hl). split; [nra|]. nra.
Qed.
Lemma neg_ln_nonneg x : 0 < x <= 1 -> 0 <= - ln x.
Proof. intros [H1 H2]. destruct H2 as [H2 | ->]; [pose proof (ln_increasing x 1 H1 H2) as L; rewrite ln_1 in L; lra|]. rewrite ln_1. lra. Qed.

Lemma probs_unit l : Forall probability l -> Forall (fun p => 0 < p <= 1) l /\ Forall (fun p => 0 < p <= 1) (map (fun p => 1 - p) l).
Proof.
  intros H. split; [eapply Forall_impl; [|exact H]; intros p [? ?]; lra|]. apply Forall_map. eapply Forall_impl; [|exact H]. intros p [? ?]. cbn. lra.
Qed.

Lemma ln_value x e : 0 < x -> ln x + IZR e * ln 2 = ln (x * powerRZ 2 e).
Proof.
  intros H. assert (0 < powerRZ 2 e) by (apply powerRZ_lt; lra). rewrite ln_mult by assumption. f_equal.
  rewrite powerRZ_Rpower by lra. unfold Rpower. rewrite ln_exp. reflexivity.
Qed.

Lemma combine_fisher frexp ns nn probs : is_frexp frexp -> (0 < ns)%Z -> (0 < nn)%Z -> Forall probability probs ->
  combine frexp ns nn probs = Some (fisher ns nn probs).
Proof.
  intros F H1 H2 Hp. unfold combine. destruct (Z.eqb_spec (ns + nn) 0); [lia|].
  destruct (probs_unit probs Hp) as [U1 U2].
  pose proof (weighted_unit ns nn _ H1 (Z.lt_le_incl _ _ H2) U2) as W1.
  pose proof (weighted_unit nn ns _ H2 (Z.lt_le_incl _ _ H1) U1) as W2. rewrite (Z.add_comm nn ns) in W2.
  assert (B1 : 0 < IZR ns / IZR (ns + nn)) by (apply Rdiv_lt_0_compat; apply IZR_lt; lia).
  assert (B2 : 0 < IZR nn / IZR (ns + nn)) by (apply Rdiv_lt_0_compat; apply IZR_lt; lia).
  pose proof (products_value frexp probs F Hp (IZR ns / IZR (ns + nn), 0%Z) (IZR nn / IZR (ns + nn), 0%Z) B1 B2) as P.
  destruct (products frexp probs _ _) as [s h]. destruct P as (P1 & P2 & P3 & P4). unfold value in P1, P2. cbn [fst snd powerRZ] in P1, P2.
  unfold log. destruct (Rlt_dec 0 (fst s)); [|contradiction]. destruct (Rlt_dec 0 (fst h)); [|contradiction].
  rewrite !ln_value by assumption. rewrite P1, P2, !Rmult_1_r. unfold fisher. f_equal.
  replace (-2 * ln (IZR ns / IZR (ns + nn) * product (map (fun p => 1 - p) probs))) with
    (2 * - ln (IZR ns / IZR (ns + nn) * product (map (fun p => 1 - p) probs))) by ring.
  replace (-2 * ln (IZR nn / IZR (ns + nn) * product probs)) with (2 * - ln (IZR nn / IZR (ns + nn) * product probs)) by ring.
  rewrite !chi2Q_tail by (apply neg_ln_nonneg; assumption). field.
Qed.

Lemma fisher_bounds ns nn probs : (0 < ns)%Z -> (0 < nn)%Z -> Forall probability probs -> 0 < fisher ns nn probs < 1.
Proof.
  intros H1 H2 Hp. destruct (probs_unit probs Hp) as [U1 U2].
  pose proof (weighted_unit ns nn _ H1 (Z.lt_le_incl _ _ H2) U2) as W1.
  pose proof (weighted_unit nn ns _ H2 (Z.lt_le_incl _ _ H1) U1) as W2. rewrite (Z.add_comm nn ns) in W2.
  apply neg_ln_nonneg in W1, W2. unfold fisher.
  pose proof (tail_le_1 (length probs) _ W1). pose proof (tail_le_1 (length probs) _ W2).
  pose proof (tail_pos (length probs) _ W1). pose proof (tail_pos (length probs) _ W2). lra.
Qed.

Lemma product_perm l m : Permutation l m -> product l = product m.
Proof. intros P. unfold product. induction P; cbn; [reflexivity | rewrite IHP; reflexivity | ring | congruence]. Qed.
Lemma fisher_perm ns nn l m : Permutation l m -> fisher ns nn l = fisher ns nn m.
Proof.
  intros P. unfold fisher. cbv zeta. rewrite (Permutation_length P), (product_perm l m P).
  rewrite (product_perm _ _ (Permutation_map (fun p => 1 - p) P)). reflexivity.
Qed.
Lemma fisher_complement ns nn l : fisher nn ns (map (fun p => 1 - p) l) = 1 - fisher ns nn l.
Proof.
  unfold fisher. rewrite map_length, map_map. rewrite (map_ext (fun x => 1 - (1 - x)) (fun x => x)) by (intros; ring). rewrite map_id, (Z.add_comm nn ns). field.
Qed.

(** ** Monotonicity *)
Lemma deriv_sum k m : derivable_pt_lim (fun x => sum_f_R0 (term x) (S k)) m (sum_f_R0 (term m) k).
Proof.
  assert (T : forall i, derivable_pt_lim (fun x => term x (S i)) m (term m i)).
  { intros i. unfold term.
    replace (m ^ i / INR (fact i)) with ((INR (S i) * m ^ pred (S i)) * / INR (fact (S i)) + m ^ S i * 0).
    - unfold Rdiv. apply (derivable_pt_lim_mult (fun x => x ^ S i) (fct_cte (/ INR (fact (S i))))).
      + apply derivable_pt_lim_pow.
      + apply derivable_pt_lim_const.
    - cbn [pred]. rewrite fact_simpl, mult_INR. pose proof (fact_pos i). assert (0 < INR (S i)) by (apply lt_0_INR; lia). field. split; lra. }
  induction k as [|k IH].
  - cbn [sum_f_R0]. replace (term m 0) with (0 + term m 0) by ring.
    apply (derivable_pt_lim_plus (fun x => term x 0) (fun x => term x 1)); [|apply T].
    unfold term. cbn [pow]. apply (derivable_pt_lim_const (1 / INR (fact 0))).
  - change (fun x => sum_f_R0 (term x) (S (S k))) with (fun x => sum_f_R0 (term x) (S k) + term x (S (S k))).
    cbn [sum_f_R0] in *. apply (derivable_pt_lim_plus (fun x => sum_f_R0 (term x) k + term x (S k)) (fun x => term x (S (S k)))); [exact IH|apply T].
Qed.
Definition surv (k : nat) (x : R) : R := exp (- x) * sum_f_R0 (term x) k.
Lemma deriv_surv k m : derivable_pt_lim (surv k) m (- (exp (- m) * term m k)).
Proof.
  assert (E : derivable_pt_lim (fun x => exp (- x)) m (- exp (- m))).
  { replace (- exp (- m)) with (exp (- m) * - 1) by ring.
    apply (derivable_pt_lim_comp (fun x => - x) exp); [|apply derivable_pt_lim_exp].
    apply (derivable_pt_lim_opp id m 1). apply derivable_pt_lim_id. }
  destruct k as [|k].
  - unfold surv. cbn [sum_f_R0]. replace (- (exp (- m) * term m 0)) with (- exp (- m) * term m 0 + exp (- m) * 0) by ring.
    apply (derivable_pt_lim_mult (fun x => exp (- x)) (fun x => term x 0)); [exact E|]. unfold term. cbn [pow]. apply (derivable_pt_lim_const (1 / INR (fact 0))).
  - replace (- (exp (- m) * term m (S k))) with (- exp (- m) * sum_f_R0 (term m) (S k) + exp (- m) * sum_f_R0 (term m) k) by (cbn [sum_f_R0]; ring).
    apply (derivable_pt_lim_mult (fun x => exp (- x)) (fun x => sum_f_R0 (term x) (S k))); [exact E|apply deriv_sum].
Qed.
Lemma surv_decreasing k x y : 0 <= x -> x <= y -> surv k y <= surv k x.
Proof.
  intros Hx [H | ->]; [|lra].
  assert (D : forall c, derivable_pt (surv k) c) by (intros c; exists (- (exp (- c) * term c k)); apply deriv_surv).
  destruct (MVT_cor1 (surv k) x y (fun c => D c) H) as (c & E & [C1 C2]).
  assert (V : derive_pt (surv k) c (D c) = - (exp (- c) * term c k)) by (apply derive_pt_eq_0, deriv_surv).
  rewrite V in E. pose proof (exp_pos (- c)). assert (0 <= term c k) by (apply term_nonneg; lra).
  assert (0 <= exp (- c) * term c k * (y - x)) by (apply Rmult_le_pos; [apply Rmult_le_pos; lra | lra]). lra.
Qed.
Lemma tail_decreasing k x y : 0 <= x -> x <= y -> tail k y <= tail k x.
Proof. exact (surv_decreasing (k - 1) x y). Qed.

Lemma product_mono l m : Forall (fun p => 0 < p) l -> Forall2 Rle l m -> product l <= product m.
Proof.
  intros H F. induction F as [|p q l m Hpq F IH]; [lra|]. inversion H; subst. change (p * product l <= q * product m). specialize (IH ltac:(assumption)).
  assert (0 < product l) by (apply product_pos; assumption). nra.
Qed.
Lemma Forall2_length' {A B} (P : A -> B -> Prop) l m : Forall2 P l m -> length l = length m.
Proof. induction 1; cbn; congruence. Qed.

Lemma fisher_mono ns nn l m : (0 < ns)%Z -> (0 < nn)%Z -> Forall probability l -> Forall probability m -> Forall2 Rle l m ->
  fisher ns nn l <= fisher ns nn m.
Proof.
  intros H1 H2 Hl Hm F. destruct (probs_unit l Hl) as [U1 U2]. destruct (probs_unit m Hm) as [V1 V2].
  pose proof (weighted_unit ns nn _ H1 (Z.lt_le_incl _ _ H2) U2) as W1.
  pose proof (weighted_unit nn ns _ H2 (Z.lt_le_incl _ _ H1) U1) as W2. rewrite (Z.add_comm nn ns) in W2.
  pose proof (weighted_unit ns nn _ H1 (Z.lt_le_incl _ _ H2) V2) as X1.
  pose proof (weighted_unit nn ns _ H2 (Z.lt_le_incl _ _ H1) V1) as X2. rewrite (Z.add_comm nn ns) in X2.
  assert (P1 : product l <= product m) by (apply product_mono; [eapply Forall_impl; [|exact Hl]; intros ? [? ?]; assumption | exact F]).
  assert (P2 : product (map (fun p => 1 - p) m) <= product (map (fun p => 1 - p) l)).
  { apply product_mono; [apply Forall_map; eapply Forall_impl; [|exact Hm]; intros ? [? ?]; lra|].
    clear -F. induction F; cbn; constructor; [lra|assumption]. }
  assert (B1 : 0 < IZR ns / IZR (ns + nn)) by (apply Rdiv_lt_0_compat; apply IZR_lt; lia).
  assert (B2 : 0 < IZR nn / IZR (ns + nn)) by (apply Rdiv_lt_0_compat; apply IZR_lt; lia).
  assert (L : forall x y, 0 < x -> x <= y -> - ln y <= - ln x).
  { intros x y Hx [Hxy | ->]; [|lra]. pose proof (ln_increasing x y Hx Hxy). lra. }
  unfold fisher. rewrite <- (Forall2_length' _ _ _ F).
  assert (T1 := tail_decreasing (length l) (- ln (IZR nn / IZR (ns + nn) * product m)) (- ln (IZR nn / IZR (ns + nn) * product l)) (neg_ln_nonneg _ X2)).
  assert (T2 := tail_decreasing (length l) (- ln (IZR ns / IZR (ns + nn) * product (map (fun p => 1 - p) l))) (- ln (IZR ns / IZR (ns + nn) * product (map (fun p => 1 - p) m))) (neg_ln_nonneg _ W1)).
  assert (T1' := T1 ltac:(apply L; [apply W2 | nra])). assert (T2' := T2 ltac:(apply L; [apply X1 | nra])). lra.
Qed.

(** Without evidence. *)
Lemma fisher_nil ns nn : (0 < ns)%Z -> (0 < nn)%Z -> fisher ns nn [] = IZR nn / IZR (ns + nn).
Proof.
  intros H1 H2. assert (0 < IZR ns) by (apply IZR_lt; lia). assert (0 < IZR nn) by (apply IZR_lt; lia).
  assert (B1 : 0 < IZR ns / IZR (ns + nn)) by (apply Rdiv_lt_0_compat; apply IZR_lt; lia).
  assert (B2 : 0 < IZR nn / IZR (ns + nn)) by (apply Rdiv_lt_0_compat; apply IZR_lt; lia).
  unfold fisher, tail. cbn [map product fold_right length Nat.sub sum_f_R0 pow fact]. rewrite !Rmult_1_r, !Ropp_involutive, !exp_ln by assumption.
  rewrite plus_IZR. cbn. field. lra.
Qed.

(** A certain token. *)
Lemma rescale_0 frexp e : is_frexp frexp -> fst (rescale frexp 0 e) = 0.
Proof. intros [F _]. unfold rescale. destruct (Rlt_dec 0 tiny); [rewrite F|]; reflexivity. Qed.
Lemma products_0 frexp l : is_frexp frexp -> forall s h,
  (fst s = 0 -> fst (fst (products frexp l s h)) = 0) /\ (fst h = 0 -> fst (snd (products frexp l s h)) = 0).
Proof.
  intros F. induction l as [|p l IH]; intros s h; [split; intros E; exact E|]. cbn [products]. split; intros E; rewrite E, Rmult_0_l.
  - apply IH, rescale_0, F.
  - apply IH, rescale_0, F.
Qed.
Lemma combine_certain frexp ns nn probs : is_frexp frexp -> (ns + nn <> 0)%Z -> In 0 probs \/ In 1 probs -> combine frexp ns nn probs = None.
Proof.
  intros F Hn H. unfold combine. destruct (Z.eqb_spec (ns + nn) 0); [contradiction|].
  assert (K : forall s h, fst (fst (products frexp probs s h)) = 0 \/ fst (snd (products frexp probs s h)) = 0).
  { induction probs as [|p l IH]; intros s h; [destruct H as [[] | []]|]. cbn [products].
    destruct H as [[-> | H] | [-> | H]].
    - right. apply (products_0 frexp l F). rewrite Rmult_0_r. apply rescale_0, F.
    - apply IH. left. exact H.
    - left. apply (products_0 frexp l F). replace (fst s * (1 - 1)) with 0 by ring. apply rescale_0, F.
    - apply IH. right. exact H. }
  specialize (K (IZR ns / IZR (ns + nn), 0%Z) (IZR nn / IZR (ns + nn), 0%Z)). destruct (products frexp probs _ _) as [s h]. cbn [fst snd] in K.
  unfold log. destruct K as [K | K]; rewrite K.
  - destruct (Rlt_dec 0 0); [lra|]. reflexivity.
  - destruct (Rlt_dec 0 0); [lra|]. destruct (Rlt_dec 0 (fst s)); reflexivity.
Qed.

(** [math.frexp] exists. *)
Definition frexp_ex (x : R) : R * Z :=
  if Rlt_dec 0 x then let e := up (ln x / ln 2) in (x * powerRZ 2 (- e), e) else (0, 0%Z).
Lemma frexp_ex_ok : is_frexp frexp_ex.
Proof.
  assert (L2 : 0 < ln 2) by (rewrite <- ln_1; apply ln_increasing; lra).
  split; [unfold frexp_ex; destruct (Rlt_dec 0 0); [lra|reflexivity]|].
  intros x Hx. unfold frexp_ex. destruct (Rlt_dec 0 x); [|contradiction]. cbn [fst snd].
  destruct (archimed (ln x / ln 2)) as [A1 A2]. set (e := up (ln x / ln 2)) in *. clearbody e.
  split; [rewrite Rmult_assoc, <- powerRZ_add by lra; replace (- e + e)%Z with 0%Z by lia; cbn; ring|].
  assert (E : x * powerRZ 2 (- e) = exp (ln x - IZR e * ln 2)).
  { rewrite powerRZ_Rpower by lra. unfold Rpower, Rminus. rewrite exp_plus, exp_ln by exact Hx. f_equal. f_equal. rewrite opp_IZR. ring. }
  rewrite E.
  assert (M : ln x = ln x / ln 2 * ln 2) by (field; lra).
  split.
  - replace (1 / 2) with (exp (- ln 2)) by (rewrite exp_Ropp, exp_ln by lra; lra).
    assert (- ln 2 <= ln x - IZR e * ln 2) as [G | G] by nra; [left; apply exp_increasing, G | rewrite G; right; reflexivity].
  - rewrite <- exp_0 at 1. apply exp_increasing. nra.
Qed.
