(** Proofs about the classifier. *)
From Coq Require Import Lqa Sorting.Sorted Sorting.Permutation Qfield.
From Verif Require Import PyStr PyDict Model_BayesScan Spec_BayesScan.

Lemma inj_pos z : (0 < z)%Z -> (0 < inject_Z z)%Q.
Proof. intros H. change 0%Q with (inject_Z 0). rewrite <- Zlt_Qlt. exact H. Qed.
Lemma inj_nonneg z : (0 <= z)%Z -> (0 <= inject_Z z)%Q.
Proof. intros H. change 0%Q with (inject_Z 0). rewrite <- Zle_Qle. exact H. Qed.

(** Positive weights of the two frequencies. *)
Lemma denom_pos s n ns nn : (0 <= s)%Z -> (0 <= n)%Z -> (1 <= s + n)%Z -> (0 < ns)%Z -> (0 < nn)%Z -> (0 < n * ns + s * nn)%Z.
Proof. intros. destruct (Z.eq_dec s 0) as [-> | ?]; nia. Qed.

Lemma prob_formula hapaxes ns nn t p :
  counted t -> (0 < ns)%Z -> (0 < nn)%Z -> token_prob hapaxes ns nn t = Some p ->
  (p == weighted_mean (3 # 100) (538 # 1000) (inject_Z (r_spam t + r_ham t)) (ratio (r_spam t) ns (r_ham t) nn))%Q.
Proof.
  intros [Hs Hn] H1 H2. unfold token_prob. set (s := r_spam t) in *. set (n := r_ham t) in *.
  destruct (Z.leb_spec (if hapaxes then 1 else 2) (s + n)) as [Hk|]; [|discriminate]. intros H. injection H as <-.
  assert (Hk1 : (1 <= s + n)%Z) by (destruct hapaxes; lia).
  pose proof (inj_pos _ (denom_pos s n ns nn Hs Hn Hk1 H1 H2)) as Hd.
  assert (Hkp : (0 < inject_Z (s + n))%Q) by (apply inj_pos; lia).
  pose proof (inj_pos _ H1) as Q1. pose proof (inj_pos _ H2) as Q2.
  unfold weighted_mean, ratio, FW_S_DOT_X, FW_S_CONSTANT.
  rewrite inject_Z_plus, !inject_Z_mult in Hd.
  assert (E : (inject_Z (s * nn) / inject_Z (n * ns + s * nn) ==
              inject_Z s / inject_Z ns / (inject_Z s / inject_Z ns + inject_Z n / inject_Z nn))%Q).
  { rewrite inject_Z_plus, !inject_Z_mult.
    assert (E : (inject_Z s / inject_Z ns + inject_Z n / inject_Z nn == (inject_Z s * inject_Z nn + inject_Z n * inject_Z ns) / (inject_Z ns * inject_Z nn))%Q)
      by (field; split; lra).
    rewrite E. field. repeat split; lra. }
  rewrite E. set (k := inject_Z (s + n)) in *. set (r := (inject_Z s / inject_Z ns / _)%Q).
  assert ((3 # 100) + k > 0)%Q by lra. field. lra.
Qed.

Lemma ratio_bounds s n ns nn : (0 <= s)%Z -> (0 <= n)%Z -> (1 <= s + n)%Z -> (0 < ns)%Z -> (0 < nn)%Z ->
  (0 <= inject_Z (s * nn) / inject_Z (n * ns + s * nn) <= 1)%Q.
Proof.
  intros Hs Hn Hk H1 H2. pose proof (inj_pos _ (denom_pos s n ns nn Hs Hn Hk H1 H2)) as Hd.
  split.
  - apply Qle_shift_div_l; [exact Hd|]. rewrite Qmult_0_l. apply inj_nonneg. nia.
  - apply Qle_shift_div_r; [exact Hd|]. rewrite Qmult_1_l, <- Zle_Qle. nia.
Qed.

Lemma prob_bounds hapaxes ns nn t p :
  counted t -> (0 < ns)%Z -> (0 < nn)%Z -> token_prob hapaxes ns nn t = Some p -> (0 < p)%Q /\ (p < 1)%Q.
Proof.
  intros [Hs Hn] H1 H2. unfold token_prob. set (s := r_spam t) in *. set (n := r_ham t) in *.
  destruct (Z.leb_spec (if hapaxes then 1 else 2) (s + n)) as [Hk|]; [|discriminate]. intros H. injection H as <-.
  assert (Hk1 : (1 <= s + n)%Z) by (destruct hapaxes; lia).
  destruct (ratio_bounds s n ns nn Hs Hn Hk1 H1 H2) as [R0 R1]. set (r := (inject_Z (s * nn) / inject_Z (n * ns + s * nn))%Q) in *.
  assert (Hkp : (0 < inject_Z (s + n))%Q) by (apply inj_pos; lia). set (k := inject_Z (s + n)) in *.
  unfold FW_S_DOT_X, FW_S_CONSTANT. assert (D : (0 < (3 # 100) + k)%Q) by lra. assert (0 <= k * r)%Q by nra. assert (k * r <= k)%Q by nra.
  split; [apply Qlt_shift_div_l | apply Qlt_shift_div_r]; try exact D; lra.
Qed.

Lemma prob_defined hapaxes ns nn t :
  (exists p, token_prob hapaxes ns nn t = Some p) <-> ((if hapaxes then 1 else 2) <= r_spam t + r_ham t)%Z.
Proof.
  unfold token_prob. destruct (Z.leb_spec (if hapaxes then 1 else 2) (r_spam t + r_ham t)) as [H|H].
  - split; [auto|]. intros _. eexists. reflexivity.
  - split; [intros [p E]; discriminate|]. lia.
Qed.

(** The ratio decides when the number of occurrences is the same. *)
Lemma prob_ratio_mono hapaxes ns nn t ns' nn' t' p p' :
  (r_spam t + r_ham t = r_spam t' + r_ham t')%Z ->
  (inject_Z (r_spam t * nn) / inject_Z (r_ham t * ns + r_spam t * nn) <
   inject_Z (r_spam t' * nn') / inject_Z (r_ham t' * ns' + r_spam t' * nn'))%Q ->
  token_prob hapaxes ns nn t = Some p -> token_prob hapaxes ns' nn' t' = Some p' -> (p < p')%Q.
Proof.
  intros E R. unfold token_prob. rewrite <- E.
  destruct (Z.leb_spec (if hapaxes then 1 else 2) (r_spam t + r_ham t)) as [Hk|]; [|discriminate]. intros H H'. injection H as <-. injection H' as <-.
  assert (Hkp : (0 < inject_Z (r_spam t + r_ham t))%Q) by (apply inj_pos; destruct hapaxes; lia).
  set (k := inject_Z (r_spam t + r_ham t)) in *. set (r := (inject_Z (r_spam t * nn) / _)%Q) in *. set (r' := (inject_Z (r_spam t' * nn') / _)%Q) in *.
  unfold FW_S_DOT_X, FW_S_CONSTANT. assert (D : (0 < (3 # 100) + k)%Q) by lra.
  apply Qmult_lt_r with ((3 # 100) + k)%Q; [exact D|]. unfold Qdiv. rewrite <- !Qmult_assoc, !(Qmult_comm (/ _)), !Qmult_inv_r by lra. nra.
Qed.
Lemma frac_lt a b c d : (0 < b)%Z -> (0 < d)%Z -> (a * d < c * b)%Z -> (inject_Z a / inject_Z b < inject_Z c / inject_Z d)%Q.
Proof.
  intros Hb Hd H. pose proof (inj_pos _ Hb) as Qb. pose proof (inj_pos _ Hd) as Qd.
  apply Qlt_shift_div_r; [exact Qb|]. setoid_replace (inject_Z c / inject_Z d * inject_Z b)%Q with ((inject_Z c * inject_Z b) / inject_Z d)%Q by (field; lra).
  apply Qlt_shift_div_l; [exact Qd|]. rewrite <- !inject_Z_mult, <- Zlt_Qlt. lia.
Qed.

Lemma prob_mono hapaxes ns nn t t' p p' :
  counted t -> counted t' -> (0 < ns)%Z -> (0 < nn)%Z ->
  (r_spam t + r_ham t = r_spam t' + r_ham t')%Z -> (r_spam t < r_spam t')%Z ->
  token_prob hapaxes ns nn t = Some p -> token_prob hapaxes ns nn t' = Some p' -> (p < p')%Q.
Proof.
  intros [Hs Hn] [Hs' Hn'] H1 H2 E L D D'. refine (prob_ratio_mono _ _ _ _ _ _ _ _ _ E _ D D').
  assert (K : (1 <= r_spam t + r_ham t)%Z).
  { assert (X : exists p, token_prob hapaxes ns nn t = Some p) by eauto. apply prob_defined in X. destruct hapaxes; lia. }
  apply frac_lt; [apply denom_pos; lia | apply denom_pos; lia |].
  assert (X : (r_spam t * r_ham t' < r_spam t' * r_ham t)%Z).
  { assert (r_ham t' < r_ham t)%Z by lia. assert (0 < r_spam t')%Z by lia. nia. }
  assert (0 < ns * nn)%Z by nia. nia.
Qed.

Lemma prob_corpus hapaxes ns ns' nn t p p' :
  (0 < r_spam t)%Z -> (0 < r_ham t)%Z -> (0 < ns)%Z -> (ns < ns')%Z -> (0 < nn)%Z ->
  token_prob hapaxes ns nn t = Some p -> token_prob hapaxes ns' nn t = Some p' -> (p' < p)%Q.
Proof.
  intros Hs Hn H1 H2 H3 D D'. refine (prob_ratio_mono _ _ _ _ _ _ _ _ _ eq_refl _ D' D).
  apply frac_lt; [nia | nia |]. assert (0 < r_ham t * (r_spam t * nn))%Z by nia. nia.
Qed.

(** ** Sorting *)
Lemma insert_perm e l : Permutation (insert e l) (e :: l).
Proof.
  induction l as [|x l IH]; [reflexivity|]. cbn [insert]. destruct (Qle_bool (strength (snd e)) (strength (snd x))); [reflexivity|].
  rewrite IH. apply perm_swap.
Qed.
Lemma sort_perm l : Permutation (sort l) l.
Proof.
  induction l as [|e l IH]; [reflexivity|]. change (sort (e :: l)) with (insert e (sort l)). rewrite insert_perm, IH. reflexivity.
Qed.
Definition weaker (a b : str * info) : Prop := (strength (snd a) <= strength (snd b))%Q.
Lemma insert_sorted e l : StronglySorted weaker l -> StronglySorted weaker (insert e l).
Proof.
  induction l as [|x l IH]; intros H; [repeat constructor|]. cbn [insert].
  destruct (Qle_bool (strength (snd e)) (strength (snd x))) eqn:E.
  - constructor; [exact H|]. apply Qle_bool_iff in E. constructor; [exact E|].
    apply StronglySorted_inv in H. destruct H as [_ H]. eapply Forall_impl; [|exact H]. intros y Hy. unfold weaker in *. lra.
  - apply StronglySorted_inv in H. destruct H as [H1 H2]. constructor; [apply IH, H1|].
    rewrite Forall_forall in *. intros y Hy. apply (Permutation_in _ (insert_perm e l)) in Hy. destruct Hy as [<- | Hy]; [|exact (H2 y Hy)].
    unfold weaker. destruct (Qlt_le_dec (strength (snd x)) (strength (snd e))) as [L|L]; [apply Qlt_le_weak, L|].
    apply Qle_bool_iff in L. congruence.
Qed.
Lemma sort_sorted l : StronglySorted weaker (sort l).
Proof. induction l as [|e l IH]; [constructor|]. exact (insert_sorted e _ IH). Qed.

Lemma significant_mono a b : weaker a b -> significant a = true -> significant b = true.
Proof.
  unfold significant, weaker. intros W H. apply Qle_bool_iff in H. apply Qle_bool_iff. lra.
Qed.
(** In a sorted list the tokens that are not significant come first. *)
Lemma weak_first l : StronglySorted weaker l ->
  filter significant l = skipn (length (filter (fun e => negb (significant e)) l)) l /\
  filter (fun e => negb (significant e)) l = firstn (length (filter (fun e => negb (significant e)) l)) l.
Proof.
  induction l as [|x l IH]; intros H; [split; reflexivity|]. apply StronglySorted_inv in H. destruct H as [H1 H2]. cbn [filter].
  destruct (significant x) eqn:E; cbn [negb].
  - assert (F : forall y, In y l -> significant y = true).
    { rewrite Forall_forall in H2. intros y Hy. exact (significant_mono x y (H2 y Hy) E). }
    assert (Z : filter (fun e => negb (significant e)) l = []).
    { clear -F. induction l as [|y l IH]; [reflexivity|]. cbn [filter]. rewrite (F y (or_introl eq_refl)). cbn [negb]. apply IH. intros z Hz. apply F. right. exact Hz. }
    rewrite Z. cbn [length skipn firstn]. split; [|reflexivity]. f_equal.
    clear -F. induction l as [|y l IH]; [reflexivity|]. cbn [filter]. rewrite (F y (or_introl eq_refl)). f_equal. apply IH. intros z Hz. apply F. right. exact Hz.
  - destruct (IH H1) as [I1 I2]. cbn [length skipn firstn]. split; [exact I1 | f_equal; exact I2].
Qed.

Lemma perm_filter_length {A} (f : A -> bool) l m : Permutation l m -> length (filter f l) = length (filter f m).
Proof.
  intros P. induction P; cbn [filter]; try destruct (f x); try destruct (f y); cbn [length]; lia.
Qed.
Lemma perm_filter {A} (f : A -> bool) l m : Permutation l m -> Permutation (filter f l) (filter f m).
Proof.
  intros P. induction P; cbn [filter].
  - reflexivity.
  - destruct (f x); [constructor|]; exact IHP.
  - destruct (f x), (f y); try reflexivity. apply perm_swap.
  - etransitivity; eassumption.
Qed.

Lemma used_none pw : N_SIGNIFICANT_TOKENS <= length (filter (fun e => negb (significant e)) pw) -> used pw = [].
Proof.
  intros H. unfold used, candidates. rewrite <- (perm_filter_length _ _ _ (sort_perm pw)) in H.
  destruct (weak_first _ (sort_sorted pw)) as [_ W]. set (k := length (filter (fun e => negb (significant e)) (sort pw))) in *.
  assert (F : firstn N_SIGNIFICANT_TOKENS (sort pw) = firstn N_SIGNIFICANT_TOKENS (filter (fun e => negb (significant e)) (sort pw))).
  { rewrite W. rewrite firstn_firstn. rewrite Nat.min_l by exact H. reflexivity. }
  rewrite F. clear. generalize N_SIGNIFICANT_TOKENS as m. induction (sort pw) as [|x l IH]; intros m; [destruct m; reflexivity|].
  cbn [filter]. destruct (significant x) eqn:E; cbn [negb]; [apply IH|]. destruct m as [|m]; [reflexivity|]. cbn [firstn filter]. rewrite E. apply IH.
Qed.

Lemma used_all pw : length pw <= N_SIGNIFICANT_TOKENS -> Permutation (used pw) (filter significant pw).
Proof.
  intros H. unfold used, candidates. rewrite firstn_all2 by (rewrite (Permutation_length (sort_perm pw)); exact H).
  apply perm_filter, sort_perm.
Qed.

(** ** Probabilities and tokens *)
Lemma zip_length {A B} (l : list A) (m : list B) : length (zip l m) = Nat.min (length l) (length m).
Proof. revert m. induction l as [|x l IH]; intros [|y m]; cbn; try reflexivity. rewrite IH. reflexivity. Qed.
Lemma map_snd_zip {A B} (l : list A) (m : list B) : length m <= length l -> map snd (zip l m) = m.
Proof. revert m. induction l as [|x l IH]; intros [|y m] H; cbn in *; try reflexivity; [lia|]. f_equal. apply IH. lia. Qed.
Lemma map_fst_zip {A B} (l : list A) (m : list B) : length m <= length l -> map fst (zip l m) = firstn (length m) l.
Proof. revert m. induction l as [|x l IH]; intros [|y m] H; cbn in *; try reflexivity. f_equal. apply IH. lia. Qed.
Lemma not_none_length {A} (l : list (option A)) : length (not_none l) <= length l.
Proof. unfold not_none in *. induction l as [|[x|] l IH]; cbn [flat_map app length] in *; lia. Qed.

Definition info_of (e : row * Q) : str * info := (r_token (fst e), mkInfo (snd e) (r_spam (fst e)) (r_ham (fst e)) (r_atime (fst e))).
Lemma dset_append {V} k (v : V) d : ~ In k (dkeys d) -> dset k v d = d ++ [(k, v)].
Proof.
  induction d as [|[k' v'] d IH]; intros H; [reflexivity|]. cbn [dset]. destruct (streqb_spec k k') as [-> | Hk].
  - exfalso. apply H. left. reflexivity.
  - cbn [app]. f_equal. apply IH. intros Hi. apply H. right. exact Hi.
Qed.
Lemma assign_list l : forall d, NoDup (map (fun e => r_token (fst e)) l) ->
  (forall e, In e l -> ~ In (r_token (fst e)) (dkeys d)) ->
  fold_left (fun d e => dset (r_token (fst e)) (mkInfo (snd e) (r_spam (fst e)) (r_ham (fst e)) (r_atime (fst e))) d) l d = d ++ map info_of l.
Proof.
  induction l as [|e l IH]; intros d Hn Hd; [rewrite app_nil_r; reflexivity|]. cbn [fold_left map]. inversion Hn as [|? ? H1 H2]; subst.
  rewrite dset_append by (apply Hd; left; reflexivity). rewrite IH; [|exact H2|].
  - rewrite <- app_assoc. reflexivity.
  - intros x Hx Hi. unfold dkeys in Hi. rewrite map_app in Hi. apply in_app_or in Hi. destruct Hi as [Hi | [Hi | []]].
    + exact (Hd x (or_intror Hx) Hi).
    + cbn [fst] in Hi. apply H1. rewrite Hi. apply in_map_iff. exists x. auto.
Qed.
Lemma firstn_NoDup {A} n : forall l : list A, NoDup l -> NoDup (firstn n l).
Proof.
  induction n as [|n IH]; intros [|x l] H; cbn; try constructor; inversion H as [|? ? H1 H2]; subst.
  - intros Hi. apply H1. rewrite <- (firstn_skipn n l). apply in_or_app. left. exact Hi.
  - exact (IH l H2).
Qed.
Lemma assign_eq rows probs : NoDup (map r_token rows) -> length (not_none probs) <= length rows ->
  assign rows probs = map info_of (zip rows (not_none probs)).
Proof.
  intros Hn Hl. unfold assign. rewrite assign_list; [reflexivity| |intros ? ? []].
  rewrite <- map_map, map_fst_zip by exact Hl. rewrite <- firstn_map. apply firstn_NoDup, Hn.
Qed.

Lemma strong_significant k i : significant (k, i) = strong (i_prob i).
Proof.
  unfold significant, strength, strong, MIN_PROB_STRENGTH, Qabs'. cbn [snd]. set (p := i_prob i).
  destruct (Qle_bool 0 (p - (1 # 2))) eqn:E.
  - apply Qle_bool_iff in E. destruct (Qle_bool (346 # 1000) (p - (1 # 2))) eqn:F; symmetry.
    + apply orb_true_iff. left. apply Qle_bool_iff in F. apply Qle_bool_iff. lra.
    + apply orb_false_iff. split; apply not_true_is_false; intros G; apply Qle_bool_iff in G;
        [assert (346 # 1000 <= p - (1 # 2))%Q as X by lra; apply Qle_bool_iff in X; congruence | lra].
  - assert (p - (1 # 2) < 0)%Q as L by (apply Qnot_le_lt; intros L; apply Qle_bool_iff in L; congruence).
    destruct (Qle_bool (346 # 1000) (- (p - (1 # 2)))) eqn:F; symmetry.
    + apply orb_true_iff. right. apply Qle_bool_iff in F. apply Qle_bool_iff. lra.
    + apply orb_false_iff. split; apply not_true_is_false; intros G; apply Qle_bool_iff in G;
        [lra | assert (346 # 1000 <= - (p - (1 # 2)))%Q as X by lra; apply Qle_bool_iff in X; congruence].
Qed.
Lemma filter_probs f (g : Q -> bool) (l : dict info) : (forall k i, f (k, i) = g (i_prob i)) ->
  map (fun e => i_prob (snd e)) (filter f l) = filter g (map (fun e => i_prob (snd e)) l).
Proof.
  intros H. induction l as [|[k i] l IH]; [reflexivity|]. cbn [filter map snd]. rewrite H. destruct (g (i_prob i)); cbn [map snd]; rewrite IH; reflexivity.
Qed.
Lemma assign_probs rows hapaxes ns nn : NoDup (map r_token rows) ->
  map (fun e => i_prob (snd e)) (assign rows (map (token_prob hapaxes ns nn) rows)) = own_probs hapaxes ns nn rows.
Proof.
  intros Hn. assert (L : length (not_none (map (token_prob hapaxes ns nn) rows)) <= length rows)
    by (etransitivity; [apply not_none_length|]; rewrite map_length; reflexivity).
  rewrite assign_eq by assumption. rewrite map_map. cbn [info_of snd i_prob]. exact (map_snd_zip _ _ L).
Qed.

Section Scan.
Variable combine : Z -> Z -> list Q -> Q.
Lemma scan_few hapaxes mins minh ns nn rows :
  NoDup (map r_token rows) -> length rows <= N_SIGNIFICANT_TOKENS -> ns <> 0%Z -> nn <> 0%Z -> (mins <= ns)%Z -> (minh <= nn)%Z ->
  exists l touched, Permutation l (filter strong (own_probs hapaxes ns nn rows)) /\
    scan combine true true false hapaxes mins minh ns nn rows = match l with [] => NoScore | _ => Score (combine ns nn l) touched end.
Proof.
  intros Hn Hl H1 H2 H3 H4. unfold scan. cbn [negb].
  destruct (Z.ltb_spec ns mins); [lia|]. destruct (Z.ltb_spec nn minh); [lia|].
  unfold compute_probs. destruct (Z.eqb_spec ns 0); [contradiction|]. destruct (Z.eqb_spec nn 0); [contradiction|]. cbn [orb].
  set (pw := assign rows (map (token_prob hapaxes ns nn) rows)).
  assert (P : Permutation (map (fun e => i_prob (snd e)) (used pw)) (filter strong (own_probs hapaxes ns nn rows))).
  { rewrite <- assign_probs by exact Hn. fold pw. rewrite <- (filter_probs significant strong pw strong_significant).
    apply Permutation_map, used_all. unfold pw.
    rewrite <- (map_length (fun e => i_prob (snd e))), assign_probs by exact Hn. etransitivity; [apply not_none_length|]. rewrite map_length. exact Hl. }
  exists (map (fun e => i_prob (snd e)) (used pw)), (map fst (used pw)). split; [exact P|].
  destruct pw as [|x pw'] eqn:E; [reflexivity|]. rewrite <- E in *. destruct (used pw) as [|y u]; reflexivity.
Qed.

Lemma scan_weak hapaxes mins minh ns nn rows :
  NoDup (map r_token rows) -> ns <> 0%Z -> nn <> 0%Z ->
  N_SIGNIFICANT_TOKENS <= length (filter (fun p => negb (strong p)) (own_probs hapaxes ns nn rows)) ->
  scan combine true true false hapaxes mins minh ns nn rows = NoScore.
Proof.
  intros Hn H1 H2 Hw. unfold scan. cbn [negb]. destruct (ns <? mins)%Z; [reflexivity|]. destruct (nn <? minh)%Z; [reflexivity|].
  unfold compute_probs. destruct (Z.eqb_spec ns 0); [contradiction|]. destruct (Z.eqb_spec nn 0); [contradiction|]. cbn [orb].
  rewrite used_none; [destruct (assign rows _); reflexivity|].
  rewrite <- assign_probs in Hw by exact Hn.
  rewrite <- (filter_probs (fun e => negb (significant e)) (fun p => negb (strong p))) in Hw; [rewrite map_length in Hw; exact Hw|].
  intros k i. rewrite strong_significant. reflexivity.
Qed.
End Scan.

Lemma not_none_all {A B} (f : A -> option B) l : (forall x, In x l -> exists y, f x = Some y) ->
  exists m, not_none (map f l) = m /\ length m = length l /\ Forall2 (fun x y => f x = Some y) l m.
Proof.
  induction l as [|x l IH]; intros H; [exists []; repeat split; constructor|].
  destruct (H x (or_introl eq_refl)) as [y Hy]. destruct IH as (m & H1 & H2 & H3); [intros z Hz; apply H; right; exact Hz|].
  exists (y :: m). cbn [map not_none flat_map]. rewrite Hy. cbn [app length]. split; [f_equal; exact H1|]. split; [lia|]. constructor; assumption.
Qed.
Lemma Forall2_zip {A B} (R : A -> B -> Prop) l m : Forall2 R l m -> forall x, In x l -> exists y, In (x, y) (zip l m) /\ R x y.
Proof.
  intros F. induction F as [|a b l m H F IH]; intros x; [intros []|]. intros [<- | Hi].
  - exists b. split; [left; reflexivity|exact H].
  - destruct (IH x Hi) as (y & H1 & H2). exists y. split; [right; exact H1|exact H2].
Qed.
Lemma assign_own hapaxes ns nn rows :
  NoDup (map r_token rows) -> (forall t, In t rows -> exists p, token_prob hapaxes ns nn t = Some p) ->
  forall t, In t rows -> exists p, token_prob hapaxes ns nn t = Some p /\
    dget (r_token t) (assign rows (map (token_prob hapaxes ns nn) rows)) = Some (mkInfo p (r_spam t) (r_ham t) (r_atime t)).
Proof.
  intros Hn Hd t Ht. destruct (not_none_all _ _ Hd) as (m & Em & Lm & F).
  assert (L : length (not_none (map (token_prob hapaxes ns nn) rows)) <= length rows) by (rewrite Em, Lm; reflexivity).
  rewrite assign_eq by assumption. rewrite Em. destruct (Forall2_zip _ _ _ F t Ht) as (p & Hi & Hp). exists p. split; [exact Hp|].
  assert (N : NoDup (dkeys (map info_of (zip rows m)))).
  { unfold dkeys. rewrite map_map. cbn [info_of fst]. rewrite <- (map_map fst r_token), map_fst_zip by (rewrite Lm; reflexivity).
    rewrite <- firstn_map. apply firstn_NoDup, Hn. }
  apply in_map with (f := info_of) in Hi. unfold info_of at 1 in Hi. cbn [fst snd] in Hi.
  revert Hi N. generalize (map info_of (zip rows m)) as d. clear. induction d as [|[k v] d IH]; intros Hi N; [destruct Hi|].
  cbn [dget]. destruct (streqb_spec (r_token t) k) as [<- | Hk].
  - destruct Hi as [Hi | Hi]; [injection Hi as ->; reflexivity|]. exfalso. inversion N as [|? ? H1 _]; subst. apply H1.
    apply in_map_iff. eexists. split; [|exact Hi]. reflexivity.
  - destruct Hi as [Hi | Hi]; [injection Hi as Hk2 _; exfalso; apply Hk; symmetry; exact Hk2|]. inversion N; subst. auto.
Qed.

(** ** Ranges *)
Lemma lt_spec a b : lt a b = true <-> (a < b)%Q.
Proof.
  unfold lt. rewrite negb_true_iff. split; intros H.
  - apply Qnot_le_lt. intros L. apply Qle_bool_iff in L. congruence.
  - apply not_true_is_false. intros L. apply Qle_bool_iff in L. lra.
Qed.
Lemma lt_false a b : lt a b = false <-> (b <= a)%Q.
Proof. unfold lt. rewrite negb_false_iff. apply Qle_bool_iff. Qed.

Definition hits (q : Q) (r : Q * Q) : bool := check_bayes true true true (Some q) (fst r) (Some (snd r)).
Lemma hits_spec q lo hi : hits q (lo, hi) = true <-> ~ (q == 0)%Q /\ (lo < q)%Q /\ (q <= hi)%Q.
Proof.
  unfold hits, check_bayes. cbn [negb fst snd]. rewrite !andb_true_iff, negb_true_iff, lt_spec, Qle_bool_iff. split.
  - intros [[H1 H2] H3]. split; [|auto]. intros E. apply Qeq_bool_iff in E. congruence.
  - intros (H1 & H2 & H3). split; [split|]; auto. apply not_true_is_false. intros E. apply Qeq_bool_iff in E. exact (H1 E).
Qed.

Lemma ranges_below q b l : increasing (b :: l) -> (q <= b)%Q -> filter (hits q) (ranges (b :: l)) = [].
Proof.
  revert b. induction l as [|c l IH]; intros b Hi Hq; [reflexivity|]. change (ranges (b :: c :: l)) with ((b, c) :: ranges (c :: l)).
  apply StronglySorted_inv in Hi. destruct Hi as [Hi Hf]. inversion Hf as [|? ? Hbc _]; subst. cbn [filter].
  destruct (hits q (b, c)) eqn:E; [apply hits_spec in E; lra|]. apply IH; [exact Hi|lra].
Qed.
Lemma ranges_one q : ~ (q == 0)%Q -> forall l b, increasing (b :: l) -> (b < q)%Q ->
  (q <= last l b)%Q -> length (filter (hits q) (ranges (b :: l))) = 1.
Proof.
  intros H0. induction l as [|c l IH]; intros b Hi Hb Hl; [cbn [last] in Hl; lra|].
  change (ranges (b :: c :: l)) with ((b, c) :: ranges (c :: l)). pose proof Hi as Hi'. apply StronglySorted_inv in Hi. destruct Hi as [Hi Hf].
  cbn [filter]. destruct (hits q (b, c)) eqn:E.
  - apply hits_spec in E. destruct E as (_ & _ & E). cbn [length]. rewrite ranges_below by assumption. reflexivity.
  - assert (c < q)%Q as Hc.
    { apply Qnot_le_lt. intros L. apply not_true_iff_false in E. apply E. apply hits_spec. auto. }
    apply IH; [exact Hi | exact Hc |].
    destruct l as [|d l]; [cbn [last] in *; exact Hl|]. assert (X : forall l (x y d : Q), last (d :: l) x = last (d :: l) y).
    { clear. induction l as [|e l IH]; intros x y d; [reflexivity|]. cbn [last]. apply (IH x y). }
    change (last (c :: d :: l) b) with (last (d :: l) b) in Hl. rewrite (X l c b). exact Hl.
Qed.
Lemma ranges_above q l : forall b, increasing (b :: l) -> (last l b < q)%Q -> filter (hits q) (ranges (b :: l)) = [].
Proof.
  assert (X : forall l (x y d : Q), last (d :: l) x = last (d :: l) y).
  { clear. induction l as [|e l IH]; intros x y d; [reflexivity|]. cbn [last]. apply (IH x y). }
  induction l as [|c l IH]; intros b Hi Hl; [reflexivity|].
  change (ranges (b :: c :: l)) with ((b, c) :: ranges (c :: l)). apply StronglySorted_inv in Hi. destruct Hi as [Hi Hf].
  assert (L : (last l c < q)%Q).
  { destruct l as [|d l]; [exact Hl|]. change (last (c :: d :: l) b) with (last (d :: l) b) in Hl. rewrite (X l c b). exact Hl. }
  assert (C : (c <= last l c)%Q).
  { destruct l as [|d l]; [apply Qle_refl|]. apply StronglySorted_inv in Hi. destruct Hi as [_ Hi]. rewrite Forall_forall in Hi.
    apply Qlt_le_weak, Hi. clear. revert c d. induction l as [|e l IH]; intros c d; [left; reflexivity|]. right. change (last (d :: e :: l) c) with (last (e :: l) c). apply IH. }
  cbn [filter]. destruct (hits q (b, c)) eqn:E; [apply hits_spec in E; lra|]. apply IH; assumption.
Qed.
