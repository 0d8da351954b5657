(** Proofs about the token report and the ignored addresses. *)
From Coq Require Import Reals Lra Psatz Sorting.Permutation.
From Verif Require Import PyStr PyDict PyRe Model_BayesScan Spec_BayesScan Proofs_BayesScan Proofs_PyRe Model_BayesReport Spec_BayesReport.

(** ** The distance *)
Section Root.
Local Open Scope R_scope.
(** The sign of a quadratic with one positive root. *)
Lemma quadratic a b c k : 0 < a -> c < 0 -> 0 <= k ->
  (a * (k * k) + b * k + c <= 0 <-> k <= (- b + sqrt (b * b - 4 * a * c)) / (2 * a)).
Proof.
  intros Ha Hc Hk. set (D := b * b - 4 * a * c). assert (HD : 0 <= D) by (unfold D; nra).
  pose proof (sqrt_pos D) as Hs. pose proof (sqrt_sqrt D HD) as Hss. set (s := sqrt D) in *.
  assert (s * s = b * b - 4 * a * c) as Hq by exact Hss.
  assert (Hac : a * c < 0) by nra.
  assert (Hb : - s < b < s) by (split; apply Rnot_le_lt; intros F; nra).
  assert (E : 4 * a * (a * (k * k) + b * k + c) = (2 * a * k + b - s) * (2 * a * k + b + s)) by nra.
  assert (P : 0 < 2 * a * k + b + s) by nra.
  assert (X : k <= (- b + s) / (2 * a) <-> 2 * a * k + b - s <= 0).
  { split; intros H.
    - apply (Rmult_le_compat_l (2 * a)) in H; [|lra]. replace (2 * a * ((- b + s) / (2 * a))) with (- b + s) in H by (field; lra). lra.
    - apply (Rmult_le_reg_l (2 * a)); [lra|]. replace (2 * a * ((- b + s) / (2 * a))) with (- b + s) by (field; lra). lra. }
  rewrite X. split; intros H; nra.
Qed.

Lemma disc_nonneg a b c : 0 < a -> c < 0 -> 0 <= b * b - 4 * a * c.
Proof. intros. assert (a * c < 0) by nra. nra. Qed.

(** How far the own class of a token explains it: [Na] messages of the other class, the
    token in [k] of them; [Nb] messages of its own, the token in [nb] of them. *)
Definition own (sx' Na Nb nb k : R) : R := (sx' + (nb + k) * (nb * Na / (k * Nb + nb * Na))) / (3 / 100 + nb + k).

Lemma own_root sx sx' Na Nb nb k : sx + sx' = 3 / 100 -> sx < 3 / 100 -> sx < 154 / 1000 * (3 / 100 + nb) -> 0 < Na -> 0 < Nb -> 0 < nb -> 0 <= k ->
  let p := 5 / 10 - 346 / 1000 in
  let a := Nb * (1 - p) in
  let b := Nb * (sx + nb * (1 - p) - p * (30 / 1000)) - p * Na * nb in
  let c := Na * nb * (sx - p * (30 / 1000 + nb)) in
  (1 - p <= own sx' Na Nb nb k <-> k <= (- b + sqrt (b * b - 4 * a * c)) / (2 * a)).
Proof.
  intros Hx Hx' Hc Ha Hb Hn Hk p a b c.
  rewrite <- quadratic; [|unfold a, p; nra| |exact Hk].
  2:{ unfold c. assert (0 < Na * nb) by nra. assert (sx - p * (30 / 1000 + nb) < 0) by (unfold p; lra). nra. }
  assert (P1 : 0 < k * Nb + nb * Na) by nra. assert (P2 : 0 < 3 / 100 + nb + k) by lra.
  unfold own. set (g := k * Nb + nb * Na) in *. set (h := 3 / 100 + nb + k) in *.
  assert (Q : (sx' + (nb + k) * (nb * Na / g)) / h = (sx' * g + (nb + k) * (nb * Na)) / (g * h)) by (field; lra).
  rewrite Q. assert (P3 : 0 < g * h) by nra.
  assert (X : 1 - p <= (sx' * g + (nb + k) * (nb * Na)) / (g * h) <-> (1 - p) * (g * h) <= sx' * g + (nb + k) * (nb * Na)).
  { split; intros H.
    - apply (Rmult_le_compat_r (g * h)) in H; [|lra]. unfold Rdiv in H. rewrite (Rmult_assoc _ (/ _)), Rinv_l, Rmult_1_r in H by lra. exact H.
    - apply (Rmult_le_reg_r (g * h)); [exact P3|]. unfold Rdiv. rewrite (Rmult_assoc _ (/ _)), Rinv_l, Rmult_1_r by lra. exact H. }
  rewrite X. assert (Y : (1 - p) * (g * h) - (sx' * g + (nb + k) * (nb * Na)) = a * (k * k) + b * k + c).
  { unfold g, h, a, b, c. replace sx' with (3 / 100 - sx) by lra. unfold p. field. }
  lra.
Qed.

(** The integral part. *)
Lemma Int_part_spec x : IZR (Int_part x) <= x < IZR (Int_part x) + 1.
Proof. pose proof (base_Int_part x) as [H1 H2]. lra. Qed.
Lemma Int_part_ge x : 1 <= x -> (1 <= Int_part x)%Z.
Proof. intros H. pose proof (Int_part_spec x) as [_ H2]. assert (IZR 0 < IZR (Int_part x)) by (simpl; lra). apply lt_IZR in H0. lia. Qed.

(** What the last lines compute from the root. *)
Lemma rounding r na : 0 <= na ->
  let dd := 1 - / 10 ^ 6 + r - na in
  let d := if Rlt_dec dd 1 then 1%Z else Int_part dd in
  (1 <= d)%Z /\ r < na + IZR d + / 10 ^ 6 /\ (d = 1%Z \/ forall k : Z, (k < d)%Z -> na + IZR k <= r).
Proof.
  intros Hn dd d. assert (E : 0 < / 10 ^ 6) by (apply Rinv_0_lt_compat; lra).
  unfold d. destruct (Rlt_dec dd 1) as [L | L].
  - split; [lia|]. split; [unfold dd in L; simpl; lra | left; reflexivity].
  - assert (G : 1 <= dd) by lra. pose proof (Int_part_ge dd G) as H1. pose proof (Int_part_spec dd) as [H2 H3].
    split; [exact H1|]. split; [unfold dd in *; lra|]. right. intros k Hk.
    assert (K : (k + 1 <= Int_part dd)%Z) by lia. apply IZR_le in K. rewrite plus_IZR in K. unfold dd in *. lra.
Qed.
End Root.

Section Distance.
Local Open Scope R_scope.
Lemma ratio_eq Ns Nn x y : 0 < Ns -> 0 < Nn -> 0 <= x -> 0 <= y -> 0 < x + y ->
  x / Ns / (x / Ns + y / Nn) = x * Nn / (y * Ns + x * Nn).
Proof. intros. assert (0 < y * Ns + x * Nn) by (destruct (Rle_lt_or_eq_dec 0 x); [assumption| |]; nra). field. repeat split; try lra. Qed.
Lemma chance_ham q Ns Nn x y : 0 < IZR Ns -> 0 < IZR Nn -> 0 <= x -> 0 < y ->
  chance q Ns Nn x y = 1 - own (3 / 100 - 3 / 100 * q) (IZR Ns) (IZR Nn) y x.
Proof.
  intros H1 H2 Hx Hy. unfold chance. cbv zeta. rewrite ratio_eq by lra. unfold own.
  assert (0 < x * IZR Nn + y * IZR Ns) by nra. field. repeat split; lra.
Qed.
Lemma chance_spam q Ns Nn x y : 0 < IZR Ns -> 0 < IZR Nn -> 0 < x -> 0 <= y ->
  chance q Ns Nn x y = own (3 / 100 * q) (IZR Nn) (IZR Ns) x y.
Proof.
  intros H1 H2 Hx Hy. unfold chance. cbv zeta. rewrite ratio_eq by lra. unfold own.
  assert (0 < y * IZR Ns + x * IZR Nn) by nra. field. repeat split; lra.
Qed.
Lemma lt_div a b c : 0 < c -> a * c < b -> a < b / c.
Proof. intros Hc H. apply (Rmult_lt_reg_r c); [exact Hc|]. unfold Rdiv. rewrite Rmult_assoc, Rinv_l by lra. lra. Qed.
Lemma div_lt a b c : 0 < c -> b < a * c -> b / c < a.
Proof. intros Hc H. apply (Rmult_lt_reg_r c); [exact Hc|]. unfold Rdiv. rewrite Rmult_assoc, Rinv_l by lra. lra. Qed.
Lemma chance_no_ham Ns Nn x : 0 < IZR Ns -> 0 < IZR Nn -> 1 <= x -> 5 / 10 < chance prior Ns Nn x 0.
Proof.
  intros H1 H2 Hx. unfold chance, prior. cbv zeta. rewrite ratio_eq by lra.
  replace (x * IZR Nn / (0 * IZR Ns + x * IZR Nn)) with 1 by (field; lra).
  apply lt_div; lra.
Qed.
Lemma chance_no_spam Ns Nn y : 0 < IZR Ns -> 0 < IZR Nn -> 1 <= y -> chance prior Ns Nn 0 y < 5 / 10.
Proof.
  intros H1 H2 Hx. unfold chance, prior. cbv zeta. rewrite ratio_eq by lra.
  replace (0 * IZR Nn / (y * IZR Ns + 0 * IZR Nn)) with 0 by (field; nra).
  apply div_lt; lra.
Qed.

Section Token.
Variable hapaxes : bool.
Variables Ns Nn ns nn : Z.
Hypothesis Pns : (0 < Ns)%Z.
Hypothesis Pnn : (0 < Nn)%Z.
Hypothesis Ps : (0 <= ns)%Z.
Hypothesis Pn : (0 <= nn)%Z.
Hypothesis Pc : ((if hapaxes then 1 else 2) <= ns + nn)%Z.
Let p0 := chance prior Ns Nn (IZR ns) (IZR nn).
Let d := declassification_distance hapaxes Ns Nn ns nn p0.

Lemma guards : forall X, (if ((ns =? 0) && (nn =? 0))%Z then 0%Z else if negb hapaxes && (ns + nn <? 2)%Z then 0%Z
  else if ((Ns =? 0) || (Nn =? 0))%Z then 0%Z else X) = X.
Proof.
  intros X. assert (E1 : ((ns =? 0) && (nn =? 0))%Z = false).
  { apply andb_false_iff. rewrite !Z.eqb_neq. destruct hapaxes; lia. }
  assert (E2 : negb hapaxes && (ns + nn <? 2)%Z = false).
  { destruct hapaxes; [reflexivity|]. apply Z.ltb_ge. exact Pc. }
  assert (E3 : ((Ns =? 0) || (Nn =? 0))%Z = false) by (apply orb_false_iff; rewrite !Z.eqb_neq; lia).
  rewrite E1, E2, E3. reflexivity.
Qed.

Lemma distance_neutral : ~ hammy_chance p0 -> ~ spammy_chance p0 -> d = 0%Z.
Proof.
  unfold hammy_chance, spammy_chance. intros H1 H2. unfold d, declassification_distance. rewrite guards.
  destruct (Rlt_dec (Rabs (p0 - 5 / 10)) (346 / 1000)) as [L | L]; [reflexivity|]. exfalso. apply L. apply Rabs_def1; lra.
Qed.

Lemma distance_hammy : hammy_chance p0 ->
  (1 <= d)%Z /\ (forall k, (0 <= k < d)%Z -> hammy_chance (chance prior Ns Nn (IZR (ns + k)) (IZR nn))) /\
  ~ hammy_chance (chance prior Ns Nn (IZR (ns + d) + / 10 ^ 6) (IZR nn)).
Proof.
  unfold hammy_chance. intros H.
  assert (Q1 : 0 < IZR Ns) by (apply IZR_lt; lia). assert (Q2 : 0 < IZR Nn) by (apply IZR_lt; lia).
  assert (Q3 : 0 <= IZR ns) by (apply IZR_le; lia).
  assert (Zn : (0 < nn)%Z).
  { destruct (Z.eq_dec nn 0) as [E|E]; [|lia]. exfalso. subst p0.
    assert (1 <= IZR ns) by (apply IZR_le; destruct hapaxes; lia).
    rewrite E in H. pose proof (chance_no_ham Ns Nn (IZR ns) Q1 Q2 H0). lra. }
  assert (Q4 : 1 <= IZR nn) by (apply IZR_le; lia).
  assert (Sx : forall k, 0 <= k -> (5 / 10 - 346 / 1000 >= chance prior Ns Nn k (IZR nn) <->
    k <= (let p := 5 / 10 - 346 / 1000 in let sx := 538 / 1000 * (30 / 1000) in
      let a := IZR Nn * (1 - p) in
      let b := IZR Nn * (sx + IZR nn * (1 - p) - p * (30 / 1000)) - p * IZR Ns * IZR nn in
      let c := IZR Ns * IZR nn * (sx - p * (30 / 1000 + IZR nn)) in
      (- b + sqrt (b * b - 4 * a * c)) / (2 * a)))).
  { intros k Hk. rewrite chance_ham by lra. cbv zeta.
    rewrite <- (own_root (538 / 1000 * (30 / 1000)) (3 / 100 - 3 / 100 * prior) (IZR Ns) (IZR Nn) (IZR nn) k); unfold prior; try lra. }
  cbv zeta in Sx.
  assert (Dq : d = let p := 5 / 10 - 346 / 1000 in let sx := 538 / 1000 * (30 / 1000) in
      let a := IZR Nn * (1 - p) in
      let b := IZR Nn * (sx + IZR nn * (1 - p) - p * (30 / 1000)) - p * IZR Ns * IZR nn in
      let c := IZR Ns * IZR nn * (sx - p * (30 / 1000 + IZR nn)) in
      let r := (- b + sqrt (b * b - 4 * a * c)) / (2 * a) in
      if Rlt_dec (1 - / 10 ^ 6 + r - IZR ns) 1 then 1%Z else Int_part (1 - / 10 ^ 6 + r - IZR ns)).
  { unfold d, declassification_distance. rewrite guards.
    destruct (Rlt_dec (Rabs (p0 - 5 / 10)) (346 / 1000)) as [L | L]; [apply Rabs_def2 in L; lra|].
    destruct (Rgt_dec p0 (5 / 10)) as [G | G]; [lra|]. cbv zeta.
    match goal with |- context [Rlt_dec ?x 0] => destruct (Rlt_dec x 0) as [N | N] end; [|reflexivity].
    exfalso. revert N. apply Rle_not_lt.
    set (p := 5 / 10 - 346 / 1000). set (sx := 538 / 1000 * (30 / 1000)).
    assert (0 < IZR Nn * (1 - p)) by (unfold p; nra).
    assert (sx - p * (30 / 1000 + IZR nn) < 0) by (unfold p, sx; lra).
    assert (0 < IZR Ns * IZR nn) by nra.
    assert (IZR Ns * IZR nn * (sx - p * (30 / 1000 + IZR nn)) < 0) by nra. apply disc_nonneg; assumption. }
  cbv zeta in Dq.
  match type of Dq with context [1 - / 10 ^ 6 + ?r - IZR ns] => set (rt := r) in * end.
  destruct (rounding rt (IZR ns) Q3) as (R1 & R2 & R3). rewrite <- Dq in R1, R2, R3.
  split; [exact R1|]. split.
  - intros k Hk. rewrite plus_IZR. apply Rge_le, Sx; [assert (0 <= IZR k) by (apply IZR_le; lia); lra|].
    destruct R3 as [R3 | R3]; [|apply R3; lia]. assert (k = 0%Z) by lia. subst k. rewrite Rplus_0_r. apply Sx; [exact Q3|]. apply Rle_ge. exact H.
  - intros X. apply Rle_ge in X. apply Sx in X; rewrite plus_IZR in *; [lra|].
    assert (0 <= IZR d) by (apply IZR_le; lia). assert (0 < / 10 ^ 6) by (apply Rinv_0_lt_compat; lra). lra.
Qed.

Lemma distance_spammy : spammy_chance p0 ->
  (1 <= d)%Z /\ (forall k, (0 <= k < d)%Z -> spammy_chance (chance prior Ns Nn (IZR ns) (IZR (nn + k)))) /\
  ~ spammy_chance (chance (1 - prior) Ns Nn (IZR ns) (IZR (nn + d) + / 10 ^ 6)) /\
  (d = 1%Z \/ forall k, (0 <= k < d)%Z -> spammy_chance (chance (1 - prior) Ns Nn (IZR ns) (IZR (nn + k)))).
Proof.
  unfold spammy_chance. intros H.
  assert (Q1 : 0 < IZR Ns) by (apply IZR_lt; lia). assert (Q2 : 0 < IZR Nn) by (apply IZR_lt; lia).
  assert (Q3 : 0 <= IZR nn) by (apply IZR_le; lia).
  assert (Zn : (0 < ns)%Z).
  { destruct (Z.eq_dec ns 0) as [E|E]; [|lia]. exfalso. subst p0.
    assert (1 <= IZR nn) by (apply IZR_le; destruct hapaxes; lia).
    rewrite E in H. pose proof (chance_no_spam Ns Nn (IZR nn) Q1 Q2 H0). lra. }
  assert (Q4 : 1 <= IZR ns) by (apply IZR_le; lia).
  assert (Sx : forall k, 0 <= k -> (5 / 10 + 346 / 1000 <= chance (1 - prior) Ns Nn (IZR ns) k <->
    k <= (let p := 5 / 10 - 346 / 1000 in let sx := 538 / 1000 * (30 / 1000) in
      let a := IZR Ns * (1 - p) in
      let b := IZR Ns * (sx + IZR ns * (1 - p) - p * (30 / 1000)) - p * IZR Nn * IZR ns in
      let c := IZR Nn * IZR ns * (sx - p * (30 / 1000 + IZR ns)) in
      (- b + sqrt (b * b - 4 * a * c)) / (2 * a)))).
  { intros k Hk. rewrite chance_spam by lra. cbv zeta.
    rewrite <- (own_root (538 / 1000 * (30 / 1000)) (3 / 100 * (1 - prior)) (IZR Nn) (IZR Ns) (IZR ns) k); unfold prior; try lra. }
  cbv zeta in Sx.
  assert (Dq : d = let p := 5 / 10 - 346 / 1000 in let sx := 538 / 1000 * (30 / 1000) in
      let a := IZR Ns * (1 - p) in
      let b := IZR Ns * (sx + IZR ns * (1 - p) - p * (30 / 1000)) - p * IZR Nn * IZR ns in
      let c := IZR Nn * IZR ns * (sx - p * (30 / 1000 + IZR ns)) in
      let r := (- b + sqrt (b * b - 4 * a * c)) / (2 * a) in
      if Rlt_dec (1 - / 10 ^ 6 + r - IZR nn) 1 then 1%Z else Int_part (1 - / 10 ^ 6 + r - IZR nn)).
  { unfold d, declassification_distance. rewrite guards.
    destruct (Rlt_dec (Rabs (p0 - 5 / 10)) (346 / 1000)) as [L | L]; [apply Rabs_def2 in L; lra|].
    destruct (Rgt_dec p0 (5 / 10)) as [G | G]; [|lra]. cbv zeta.
    match goal with |- context [Rlt_dec ?x 0] => destruct (Rlt_dec x 0) as [N | N] end; [|reflexivity].
    exfalso. revert N. apply Rle_not_lt.
    set (p := 5 / 10 - 346 / 1000). set (sx := 538 / 1000 * (30 / 1000)).
    assert (0 < IZR Ns * (1 - p)) by (unfold p; nra).
    assert (sx - p * (30 / 1000 + IZR ns) < 0) by (unfold p, sx; lra).
    assert (0 < IZR Nn * IZR ns) by nra.
    assert (IZR Nn * IZR ns * (sx - p * (30 / 1000 + IZR ns)) < 0) by nra. apply disc_nonneg; assumption. }
  cbv zeta in Dq.
  match type of Dq with context [1 - / 10 ^ 6 + ?r - IZR nn] => set (rt := r) in * end.
  destruct (rounding rt (IZR nn) Q3) as (R1 & R2 & R3). rewrite <- Dq in R1, R2, R3.
  split; [exact R1|]. split.
  - intros k Hk. destruct (Z.eq_dec k 0) as [-> | Nk]; [rewrite Z.add_0_r; exact H|].
    destruct R3 as [R3 | R3]; [lia|]. assert (K : 0 <= IZR k) by (apply IZR_le; lia).
    assert (L : 5 / 10 + 346 / 1000 <= chance (1 - prior) Ns Nn (IZR ns) (IZR (nn + k))) by (rewrite plus_IZR; apply Sx; [lra|]; apply R3; lia).
    eapply Rle_trans; [exact L|]. rewrite plus_IZR. rewrite !chance_spam by lra. unfold own, Rdiv.
    apply Rmult_le_compat_r; [left; apply Rinv_0_lt_compat; lra|]. unfold prior. lra.
  - split.
    + intros X. apply Sx in X; rewrite plus_IZR in *; [lra|].
      assert (0 <= IZR d) by (apply IZR_le; lia). assert (0 < / 10 ^ 6) by (apply Rinv_0_lt_compat; lra). lra.
    + destruct R3 as [R3 | R3]; [left; exact R3|]. right. intros k Hk. rewrite plus_IZR.
      assert (K : 0 <= IZR k) by (apply IZR_le; lia). apply Sx; [lra|]. apply R3. lia.
Qed.
End Token.

Lemma distance_short : let d := declassification_distance true 3 100 1 0 (chance prior 3 100 1 0) in
  spammy_chance (chance prior 3 100 1 0) /\ d = 6%Z /\ spammy_chance (chance prior 3 100 1 (0 + 6)) .
Proof.
  assert (P : forall q y, 0 <= y -> chance q 3 100 1 y = own (3 / 100 * q) 100 3 1 y) by (intros; apply chance_spam; lra).
  assert (E : 0 < / 10 ^ 6 < / 10 ^ 5) by (split; [apply Rinv_0_lt_compat; lra | apply Rinv_lt_contravar; lra]).
  assert (F : / 10 ^ 6 = 1 / 1000000) by lra.
  intros d. assert (S0 : spammy_chance (chance prior 3 100 1 0)) by (rewrite P by lra; unfold spammy_chance, own, prior; lra).
  split; [exact S0|].
  destruct (distance_spammy true 3 100 1 0) as (H1 & H2 & H3 & H4); try lia; [exact S0|].
  fold d in H1, H2, H3, H4.
  split; [|rewrite P by lra; unfold spammy_chance, own, prior; lra].
  assert (L : (d <= 6)%Z).
  { destruct (Z_le_gt_dec d 6) as [L | L]; [exact L|]. exfalso. destruct H4 as [H4 | H4]; [lia|].
    specialize (H4 6%Z ltac:(lia)). cbn [Z.add] in H4. rewrite P in H4 by lra. unfold spammy_chance, own, prior in H4. lra. }
  assert (C : d = 1%Z \/ d = 2%Z \/ d = 3%Z \/ d = 4%Z \/ d = 5%Z \/ d = 6%Z) by lia.
  destruct C as [C|[C|[C|[C|[C|C]]]]]; [..|exact C]; exfalso; apply H3; rewrite C; cbn [Z.add]; rewrite F; rewrite P by lra; unfold spammy_chance, own, prior; lra.
Qed.
End Distance.

(** ** The counts *)
Lemma filter_split {A} (f : A -> bool) l : length (filter (fun x => negb (f x)) l) + length (filter f l) = length l.
Proof. induction l as [|x l IH]; [reflexivity|]. cbn [filter length]. destruct (f x); cbn [negb length]; lia. Qed.
Lemma filter_filter {A} (f g : A -> bool) l : filter f (filter g l) = filter (fun x => g x && f x) l.
Proof. induction l as [|x l IH]; [reflexivity|]. cbn [filter]. destruct (g x); cbn [filter andb]; [destruct (f x)|]; rewrite IH; reflexivity. Qed.
Lemma filter_ext_len {A} (f g : A -> bool) l : (forall x, f x = g x) -> length (filter f l) = length (filter g l).
Proof. intros H. erewrite filter_ext by exact H. reflexivity. Qed.
Lemma filter_le {A} (f : A -> bool) l : length (filter f l) <= length l.
Proof. pose proof (filter_split f l). lia. Qed.

Lemma halves pw : length (hammy pw) + length (spammy pw) = length (used pw).
Proof. unfold hammy, spammy. apply filter_split. Qed.
Lemma used_length pw : length (used pw) <= length pw.
Proof.
  unfold used, candidates. etransitivity; [apply filter_le|]. rewrite firstn_length. etransitivity; [apply Nat.le_min_r|].
  rewrite (Permutation_length (sort_perm pw)). reflexivity.
Qed.
Lemma assign_keys l : forall d, NoDup (dkeys d) ->
  let d' := fold_left (fun d e => dset (r_token (fst e)) (mkInfo (snd e) (r_spam (fst e)) (r_ham (fst e)) (r_atime (fst e))) d) l d in
  NoDup (dkeys d') /\ incl (dkeys d') (dkeys d ++ map (fun e => r_token (fst e)) l).
Proof.
  induction l as [|e l IH]; intros d Hd; cbn [fold_left map].
  - rewrite app_nil_r. split; [exact Hd | apply incl_refl].
  - destruct (IH (dset (r_token (fst e)) (mkInfo (snd e) (r_spam (fst e)) (r_ham (fst e)) (r_atime (fst e))) d)) as (H1 & H2); [apply dset_NoDup; exact Hd|].
    split; [exact H1|]. intros k Hk. apply H2 in Hk. apply in_app_iff in Hk. rewrite in_app_iff. cbn [In]. destruct Hk as [Hk | Hk]; [|tauto].
    rewrite dkeys_dset in Hk. destruct (dhas (r_token (fst e)) d); [tauto|]. apply in_app_iff in Hk. cbn [In] in Hk. tauto.
Qed.
Lemma zip_fst_incl {A B} (l : list A) : forall m : list B, incl (map fst (zip l m)) l.
Proof. induction l as [|x l IH]; intros [|y m]; cbn [zip map fst]; try apply incl_nil_l. apply incl_cons; [left; reflexivity|]. apply incl_tl, IH. Qed.
Lemma assign_length msgtokens rows probs : incl (map r_token rows) (dkeys msgtokens : list str) -> length (assign rows probs) <= length (msgtokens : dict str).
Proof.
  intros H. unfold assign. destruct (assign_keys (zip rows (not_none probs)) [] ltac:(constructor)) as (H1 & H2). cbn [dkeys map app] in H2.
  set (d := fold_left _ _ _) in *. replace (length d) with (length (dkeys d)) by (unfold dkeys; apply map_length).
  replace (length msgtokens) with (length (dkeys msgtokens)) by (unfold dkeys; apply map_length).
  apply NoDup_incl_length; [exact H1|]. intros k Hk. apply H2 in Hk. apply H. apply in_map_iff in Hk. destruct Hk as (e & <- & He).
  apply in_map. apply (zip_fst_incl rows (not_none probs)). apply in_map. exact He.
Qed.

Definition consistent (l : locals) : Prop :=
  (0 <= l_count l - l_learned l)%Z /\ (0 <= l_learned l - Z.of_nat (length (l_hammy l)) - Z.of_nat (length (l_spammy l)))%Z.
Lemma scan_consistent ul ub ig hp mins minh ns nn msgtokens rows touch : incl (map r_token rows) (dkeys msgtokens) ->
  consistent (fst (scan_locals ul ub ig hp mins minh ns nn msgtokens rows touch)).
Proof.
  intros H. assert (F : consistent fresh) by (split; cbn; lia). unfold scan_locals.
  destruct ul; [|exact F]. cbn [negb]. destruct ig; [exact F|]. destruct ub; [|exact F]. cbn [negb].
  destruct (ns <? mins)%Z; [exact F|]. destruct (nn <? minh)%Z; [exact F|].
  unfold compute_probs. destruct ((ns =? 0) || (nn =? 0))%Z; [exact F|].
  pose proof (assign_length msgtokens rows (map (token_prob hp ns nn) rows) H) as L.
  set (pw := assign rows (map (token_prob hp ns nn) rows)) in *. pose proof (halves pw) as P. pose proof (used_length pw) as U.
  assert (X : forall o, consistent (mkLocals (Z.of_nat (length msgtokens)) (Z.of_nat (length pw)) (map (token_info msgtokens) (hammy pw)) (map (token_info msgtokens) (spammy pw)) o)).
  { intros o. split; cbn [l_count l_learned l_hammy l_spammy]; rewrite ?map_length; lia. }
  destruct pw as [|x pw'] eqn:E; [exact F|]. rewrite <- E in *. destruct (used pw); [apply X|]. destruct touch; apply X.
Qed.

Lemma hammy_sig (k : str) i : significant (k, i) && negb (Qle_bool (1 # 2) (i_prob i)) = hammy_prob (i_prob i).
Proof.
  rewrite strong_significant. unfold strong, hammy_prob. set (p := i_prob i).
  destruct (Qle_bool (1 # 2) p) eqn:A, (Qle_bool p ((1 # 2) - (346 # 1000))) eqn:B, (Qle_bool ((1 # 2) + (346 # 1000)) p) eqn:C; try reflexivity; exfalso;
  repeat match goal with
  | H : Qle_bool _ _ = true |- _ => apply Qle_bool_iff in H
  | H : Qle_bool ?a ?b = false |- _ => assert (~ (a <= b)%Q) by (rewrite <- Qle_bool_iff, H; discriminate); clear H
  end; Lqa.lra.
Qed.
Lemma spammy_sig (k : str) i : significant (k, i) && Qle_bool (1 # 2) (i_prob i) = spammy_prob (i_prob i).
Proof.
  rewrite strong_significant. unfold strong, spammy_prob. set (p := i_prob i).
  destruct (Qle_bool (1 # 2) p) eqn:A, (Qle_bool p ((1 # 2) - (346 # 1000))) eqn:B, (Qle_bool ((1 # 2) + (346 # 1000)) p) eqn:C; try reflexivity; exfalso;
  repeat match goal with
  | H : Qle_bool _ _ = true |- _ => apply Qle_bool_iff in H
  | H : Qle_bool ?a ?b = false |- _ => assert (~ (a <= b)%Q) by (rewrite <- Qle_bool_iff, H; discriminate); clear H
  end; Lqa.lra.
Qed.

Lemma count_probs (f : str * info -> bool) (g : Q -> bool) pw : (forall k i, f (k, i) = g (i_prob i)) ->
  length (filter f pw) = length (filter g (map (fun e => i_prob (snd e)) pw)).
Proof. intros H. rewrite <- (filter_probs f g pw H), map_length. reflexivity. Qed.

Lemma scan_counts hp mins minh ns nn msgtokens rows touch :
  NoDup (map r_token rows) -> length rows <= 150 -> ns <> 0%Z -> nn <> 0%Z -> (mins <= ns)%Z -> (minh <= nn)%Z -> own_probs hp ns nn rows <> [] ->
  let l := fst (scan_locals true true false hp mins minh ns nn msgtokens rows touch) in
  l_count l = Z.of_nat (length msgtokens) /\ l_learned l = Z.of_nat (length (own_probs hp ns nn rows)) /\
  Z.of_nat (length (l_hammy l)) = how_many hammy_prob (own_probs hp ns nn rows) /\
  Z.of_nat (length (l_spammy l)) = how_many spammy_prob (own_probs hp ns nn rows).
Proof.
  intros Hn Hl H1 H2 H3 H4 H5. unfold scan_locals. cbn [negb].
  destruct (Z.ltb_spec ns mins); [lia|]. destruct (Z.ltb_spec nn minh); [lia|].
  unfold compute_probs. destruct (Z.eqb_spec ns 0); [contradiction|]. destruct (Z.eqb_spec nn 0); [contradiction|]. cbn [orb].
  pose proof (assign_probs rows hp ns nn Hn) as A. set (pw := assign rows (map (token_prob hp ns nn) rows)) in *.
  assert (L : length pw = length (own_probs hp ns nn rows)) by (rewrite <- A, map_length; reflexivity).
  assert (U : Permutation (used pw) (filter significant pw)).
  { apply used_all. rewrite L. etransitivity; [apply not_none_length|]. rewrite map_length. exact Hl. }
  assert (Ph : Z.of_nat (length (hammy pw)) = how_many hammy_prob (own_probs hp ns nn rows)).
  { unfold hammy, how_many. f_equal. rewrite (perm_filter_length _ _ _ U), filter_filter, <- A. apply count_probs. intros k i. apply hammy_sig. }
  assert (Psp : Z.of_nat (length (spammy pw)) = how_many spammy_prob (own_probs hp ns nn rows)).
  { unfold spammy, how_many. f_equal. rewrite (perm_filter_length _ _ _ U), filter_filter, <- A. apply count_probs. intros k i. apply spammy_sig. }
  assert (X : forall o, let l := mkLocals (Z.of_nat (length msgtokens)) (Z.of_nat (length pw)) (map (token_info msgtokens) (hammy pw)) (map (token_info msgtokens) (spammy pw)) o in
    l_count l = Z.of_nat (length msgtokens) /\ l_learned l = Z.of_nat (length (own_probs hp ns nn rows)) /\
    Z.of_nat (length (l_hammy l)) = how_many hammy_prob (own_probs hp ns nn rows) /\
    Z.of_nat (length (l_spammy l)) = how_many spammy_prob (own_probs hp ns nn rows)).
  { intros o. cbn [l_count l_learned l_hammy l_spammy]. rewrite !map_length, L. auto. }
  destruct pw as [|x pw'] eqn:E; [cbn in L; destruct (own_probs hp ns nn rows); [contradiction|discriminate]|].
  rewrite <- E in *. destruct (used pw); [apply X|]. destruct touch; apply X.
Qed.

(** ** The lists *)
Section Lists.
Variable fixed3 : Q -> str.
Variable float_str : Z -> str.
Variable int_str : Z -> str.
Variable py_int : str -> option Z.
Variable set_order : list str -> list str.
Notation report := (bayes_report_make_list fixed3 float_str int_str py_int set_order).
Notation args := (token_args fixed3 float_str int_str).

Lemma all_some_map {A B} (f : A -> option B) (g : A -> B) l : (forall x, In x l -> f x = Some (g x)) -> all_some (map f l) = Some (map g l).
Proof. induction l as [|x l IH]; intros H; cbn [map all_some]; [reflexivity|]. rewrite (H x) by (left; reflexivity). rewrite IH by (intros; apply H; right; assumption). reflexivity. Qed.

Lemma args_get hp ns nh t :
  dget ($"t") (args hp ns nh t) = Some (t_word t) /\ dget ($"p") (args hp ns nh t) = Some (fixed3 (t_prob t)) /\
  dget ($"D") (args hp ns nh t) = Some (float_str (declassification_distance hp ns nh (t_spam t) (t_ham t) (Q2R (t_prob t)))) /\
  dget ($"a") (args hp ns nh t) = None.
Proof. unfold token_args. destruct (lt (t_prob t) (1 # 2)); repeat split; reflexivity. Qed.

Lemma format_missing a n f : In (Field n) f -> dget n a = None -> format_with a f = None.
Proof.
  intros H Hn. induction f as [|x f IH]; [destruct H|]. destruct H as [-> | H].
  - cbn [format_with]. rewrite Hn. reflexivity.
  - specialize (IH H). destruct x; cbn [format_with]; rewrite IH; [reflexivity|]. destruct (dget name a); reflexivity.
Qed.
Definition compact_text (hp : bool) (ns nh : Z) (t : tinfo) : str :=
  fixed3 (t_prob t) ++ $"-" ++ float_str (declassification_distance hp ns nh (t_spam t) (t_ham t) (Q2R (t_prob t))) ++ $"--" ++ t_word t.
Lemma format_default hp ns nh t : format_with (args hp ns nh t) default_format = Some (compact_text hp ns nh t).
Proof.
  destruct (args_get hp ns nh t) as (A & B & C & _). unfold default_format, format_with. rewrite A, B, C. unfold compact_text. rewrite app_nil_r. reflexivity.
Qed.
Lemma format_short hp ns nh t : format_with (args hp ns nh t) [Field ($"t")] = Some (t_word t).
Proof. destruct (args_get hp ns nh t) as (A & _). cbn [format_with]. rewrite A, app_nil_r. reflexivity. Qed.

Lemma min_zero n (l : list tinfo) : l <> [] -> n <> 0%Z -> (Z.min n (Z.of_nat (length l)) =? 0)%Z = false.
Proof. intros H Hn. apply Z.eqb_neq. destruct l; [contradiction|]. cbn [length]. lia. Qed.

Lemma report_default hp ns nh l : l <> [] -> py_int ($"5") = Some 5%Z ->
  report hp (Some (ns, nh)) l None = Some (join ($", ") (set_order (nodup str_eq_dec (map (compact_text hp ns nh) l)))).
Proof.
  intros Hl Hi. unfold bayes_report_make_list. destruct l as [|x l0] eqn:E; [contradiction|]. rewrite <- E in *.
  change (split_char 44%N ($"5,,")) with [$"5"; []; []]. cbv iota. rewrite Hi, min_zero by (assumption || discriminate).
  rewrite (all_some_map _ (compact_text hp ns nh)) by (intros; apply format_default). reflexivity.
Qed.
Lemma report_short hp ns nh l limit n : l <> [] -> ~ In 44%N limit -> py_int limit = Some n -> n <> 0%Z ->
  report hp (Some (ns, nh)) l (Some (limit ++ $",short,")) = Some (join ($", ") (set_order (nodup str_eq_dec (map t_word l)))).
Proof.
  intros Hl Hc Hi Hn. unfold bayes_report_make_list. destruct l as [|x l0] eqn:E; [contradiction|]. rewrite <- E in *.
  assert (Sp : split_char 44%N (limit ++ $",short,") = [limit; $"short"; []]).
  { clear -Hc. induction limit as [|c r IH]; [reflexivity|]. cbn [app split_char]. destruct (N.eqb_spec c 44); [exfalso; apply Hc; left; assumption|].
    rewrite IH by (intros F; apply Hc; right; exact F). reflexivity. }
  assert (Tx : match limit ++ $",short," with c :: r => c :: r | [] => $"5,," end = limit ++ $",short,") by (destruct limit; reflexivity).
  rewrite Tx, Sp. cbv iota. change (dget ($"short") formats) with (Some [Field ($"t")]). cbv iota.
  change (match $"short" with [] => Some default_format | _ :: _ => Some [Field $"t"] end) with (Some [Field $"t"]). cbv iota.
  rewrite Hi, min_zero by assumption. rewrite (all_some_map _ t_word) by (intros; apply format_short). reflexivity.
Qed.

Lemma end_ok hp l : py_int ($"5") = Some 5%Z -> (l_corpus l = None -> l_hammy l = [] /\ l_spammy l = []) ->
  exists h s, report hp (l_corpus l) (l_hammy l) None = Some h /\ report hp (l_corpus l) (l_spammy l) None = Some s.
Proof.
  intros Hi Hc. assert (X : forall t, (l_corpus l = None -> t = []) -> exists h, report hp (l_corpus l) t None = Some h).
  { intros t Ht. destruct t as [|x t0] eqn:E; [eexists; reflexivity|]. rewrite <- E in *. destruct (l_corpus l) as [[ns nh]|]; [|rewrite Ht in E by reflexivity; discriminate].
    eexists. apply report_default; [rewrite E; discriminate | exact Hi]. }
  destruct (X (l_hammy l)) as (h & Hh); [tauto|]. destruct (X (l_spammy l)) as (s & Hs); [tauto|]. exists h, s. auto.
Qed.
End Lists.

Lemma used_split pw : used pw = [] -> hammy pw = [] /\ spammy pw = [].
Proof. intros H. unfold hammy, spammy. rewrite H. split; reflexivity. Qed.

Lemma scan_corpus ul ub ig hp mins minh ns nn msgtokens rows :
  let l := fst (scan_locals ul ub ig hp mins minh ns nn msgtokens rows true) in l_corpus l = None -> l_hammy l = [] /\ l_spammy l = [].
Proof.
  unfold scan_locals. destruct ul; [|cbn; auto]. cbn [negb]. destruct ig; [cbn; auto|]. destruct ub; [|cbn; auto]. cbn [negb].
  destruct (ns <? mins)%Z; [cbn; auto|]. destruct (nn <? minh)%Z; [cbn; auto|]. unfold compute_probs.
  destruct ((ns =? 0) || (nn =? 0))%Z; [cbn; auto|]. set (pw := assign _ _).
  destruct pw as [|x pw'] eqn:E; [cbn; auto|]. rewrite <- E. destruct (used pw) eqn:U; [|discriminate].
  apply used_split in U. destruct U as [-> ->]. cbn. auto.
Qed.

(** A failing update. *)
Lemma scan_failed ul ub ig hp mins minh ns nn msgtokens rows : ns <> 0%Z -> nn <> 0%Z ->
  let r := scan_locals ul ub ig hp mins minh ns nn msgtokens rows false in
  snd r = true -> l_corpus (fst r) = None /\ (l_hammy (fst r) <> [] \/ l_spammy (fst r) <> []).
Proof.
  intros H1 H2. unfold scan_locals. destruct ul; [|discriminate]. cbn [negb]. destruct ig; [discriminate|]. destruct ub; [|discriminate]. cbn [negb].
  destruct (ns <? mins)%Z; [discriminate|]. destruct (nn <? minh)%Z; [discriminate|]. unfold compute_probs.
  destruct (Z.eqb_spec ns 0); [contradiction|]. destruct (Z.eqb_spec nn 0); [contradiction|]. cbn [orb].
  set (pw := assign _ _). destruct pw as [|x pw'] eqn:E; [discriminate|]. rewrite <- E. pose proof (halves pw) as P.
  destruct (used pw) as [|u us] eqn:U; [discriminate|]. intros _. cbn [fst l_corpus l_hammy l_spammy]. split; [reflexivity|].
  cbn [length] in P. destruct (hammy pw); [|left; discriminate]. destruct (spammy pw); [discriminate|]. right. discriminate.
Qed.

(** ** Ignored addresses *)
Definition entry_tok (c : char) : tok := if N.eqb c 46 then TDot else TLit c.
Definition entry_item (c : char) : item := (if N.eqb c 46 then None else Some c, QOne).
Lemma entry_tokens e : address_entry e -> re_tokens e = Some (map entry_tok e).
Proof.
  induction 1 as [|c e Hc He IH]; [reflexivity|]. cbn [re_tokens map]. rewrite IH. unfold entry_tok.
  destruct (N.eqb_spec c 92); [unfold entry_char in Hc; lia|]. destruct (N.eqb_spec c 46); [reflexivity|].
  destruct (N.eqb_spec c 42); [unfold entry_char in Hc; lia|]. destruct (N.eqb_spec c 63); [unfold entry_char in Hc; lia|].
  replace (mem_char c re_special) with false; [reflexivity|]. symmetry. apply not_true_is_false. unfold mem_char. rewrite existsb_exists.
  intros (y & Hy & Q). apply N.eqb_eq in Q. subst y. vm_compute in Hy. unfold entry_char in Hc. lia.
Qed.
Lemma entry_items e : re_items (map entry_tok e) = Some (map entry_item e).
Proof.
  induction e as [|c e IH]; [reflexivity|]. cbn [map]. unfold entry_tok at 1. unfold entry_item at 1. destruct (N.eqb c 46).
  - cbn [re_items]. destruct e as [|d e']; [reflexivity|]. cbn [map] in *. unfold entry_tok in *. destruct (N.eqb d 46); rewrite IH; reflexivity.
  - cbn [re_items]. destruct e as [|d e']; [reflexivity|]. cbn [map] in *. unfold entry_tok in *. destruct (N.eqb d 46); rewrite IH; reflexivity.
Qed.
Lemma entry_den e : forall w, den (map entry_item e) w <-> dotted e w.
Proof.
  induction e as [|c e IH]; intros w; cbn [map den].
  - split; [intros ->; constructor | intros H; inversion H; reflexivity].
  - split.
    + intros (a & b & -> & H & D). unfold entry_item, item_lang in H. cbn [fst snd] in H. destruct H as (d & -> & H). constructor; [|apply IH; exact D].
      destruct (N.eqb_spec c 46) as [E|E]; cbn [atom_ok] in H; [right; split; [exact E|]; apply N.eqb_neq, negb_true_iff; exact H | left; apply N.eqb_eq; exact H].
    + intros H. inversion H as [|c' d e' b Hd Hb]; subst. exists [d], b. split; [reflexivity|]. split; [|apply IH; exact Hb].
      unfold entry_item, item_lang. cbn [fst snd]. exists d. split; [reflexivity|]. destruct (N.eqb_spec c 46) as [E|E]; cbn [atom_ok].
      * apply negb_true_iff, N.eqb_neq. destruct Hd as [-> | (_ & Hd)]; [subst c; discriminate | exact Hd].
      * apply N.eqb_eq. destruct Hd as [-> | (F & _)]; [reflexivity | contradiction].
Qed.
Lemma entry_search e a : address_entry e -> exists b, re_search e a = Some b /\ (b = true <-> exists x w y, a = x ++ w ++ y /\ dotted e w).
Proof.
  intros H. unfold re_search, re_compile. rewrite (entry_tokens e H), entry_items. cbn [option_map]. eexists. split; [reflexivity|].
  rewrite search_items_den. setoid_rewrite entry_den. reflexivity.
Qed.
Lemma any_entry_ok es a : Forall address_entry es -> exists b, any_entry es a = Some b /\ (b = true <-> part_listed es [a]).
Proof.
  induction 1 as [|e es He Hs IH]; cbn [any_entry].
  - exists false. split; [reflexivity|]. split; [discriminate|]. intros (e & a' & x & w & y & [] & _).
  - destruct (entry_search e a He) as (b & -> & Hb). destruct b.
    + exists true. split; [reflexivity|]. split; [|reflexivity]. intros _. destruct (proj1 Hb eq_refl) as (x & w & y & E & D). exists e, a, x, w, y. cbn [In]. auto.
    + destruct IH as (b & -> & Hb'). exists b. split; [reflexivity|]. rewrite Hb'. split; intros (e' & a' & x & w & y & I & J & E & D).
      * exists e', a', x, w, y. cbn [In] in *. auto.
      * destruct I as [<- | I]; [|exists e', a', x, w, y; auto]. exfalso. destruct J as [<- | []].
        assert (F : false = true) by (apply Hb; exists x, w, y; auto). discriminate.
Qed.
Lemma list_ok es addrs : Forall address_entry es -> exists b, check_address_in_list addrs es = Some b /\ (b = true <-> part_listed es addrs).
Proof.
  intros H. induction addrs as [|a r IH]; cbn [check_address_in_list].
  - exists false. split; [reflexivity|]. split; [discriminate|]. intros (e & a' & x & w & y & _ & [] & _).
  - destruct (any_entry_ok es a H) as (b & -> & Hb). destruct b.
    + exists true. split; [reflexivity|]. split; [|reflexivity]. intros _. destruct (proj1 Hb eq_refl) as (e & a' & x & w & y & I & [<- | []] & E & D).
      exists e, a, x, w, y. cbn [In]. auto.
    + destruct IH as (b & -> & Hb'). exists b. split; [reflexivity|]. rewrite Hb'. split; intros (e' & a' & x & w & y & I & J & E & D).
      * exists e', a', x, w, y. cbn [In] in *. auto.
      * destruct J as [<- | J]; [|exists e', a', x, w, y; auto]. exfalso.
        assert (F : false = true) by (apply Hb; exists e', a, x, w, y; cbn [In]; auto). discriminate.
Qed.
Lemma star_raises e a : re_search (42%N :: e) a = None.
Proof.
  unfold re_search, re_compile. cbn [re_tokens]. change (N.eqb 42 92) with false. change (N.eqb 42 46) with false. change (N.eqb 42 42) with true. cbv iota.
  destruct (re_tokens e); reflexivity.
Qed.
