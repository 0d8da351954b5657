(** The matcher finds exactly what the expression says. *)
From Verif Require Import PyStr Regexp Spec_Regexp Proofs_Regexp.
From Coq Require Import Lia.

Section Lang.
Variable udigit uword : char -> bool.
Notation ways := (ways udigit uword).
Notation reads := (reads udigit uword).

Definition sound (f : state -> list state) (P : str -> str -> str -> Prop) : Prop :=
  forall st st' w, In st' (f st) -> ext st st' w -> P (s_before st) w (s_after st').
Definition moves (f : state -> list state) : Prop := forall st st', In st' (f st) -> exists w, ext st st' w.
Definition complete (f : state -> list state) (P : str -> str -> str -> Prop) : Prop :=
  forall b w a k, P b w a -> exists k', In (mkS (rev w ++ b) a k') (f (mkS b (w ++ a) k)).

Lemma repeats_sound f P g n : moves f -> sound f P -> forall lo hi st st' w, In st' (repeats f g n lo hi st) -> ext st st' w ->
  at_most lo hi -> exists m, lo <= m /\ at_most m hi /\ times P m (s_before st) w (s_after st').
Proof.
  intros M S0. induction n as [|n IH]; intros lo hi st st' w H X L.
  - assert (E : lo = 0 /\ st' = st).
    { destruct hi as [[|h]|], lo as [|lo]; cbn in H, L; try lia; try (destruct H as [<-|[]]; auto); destruct H. }
    destruct E as [-> ->]. rewrite (ext_det _ _ _ _ X (ext_refl st)). exists 0. split; [lia|]. split; [destruct hi; cbn; lia|reflexivity].
  - assert (Z : hi = Some 0 \/ hi <> Some 0) by (destruct hi as [[|h]|]; [left; reflexivity|right; discriminate|right; discriminate]).
    destruct Z as [->|Z].
    { cbn in H, L. destruct H as [<-|[]]. rewrite (ext_det _ _ _ _ X (ext_refl st)). exists 0. split; [lia|]. split; [cbn; lia|reflexivity]. }
    set (dec := match hi with Some (S h) => Some h | _ => hi end).
    assert (Step : forall l s1, at_most (S l) hi -> In s1 (f st) -> In st' (repeats f g n l dec s1) -> exists m, S l <= m /\ at_most m hi /\ times P m (s_before st) w (s_after st')).
    { intros l s1 Hl H1 H2. destruct (M _ _ H1) as [u U]. assert (V : exists v, ext s1 st' v).
      { clear - H2 M. revert H2. assert (R : forall a b, reach f a b -> exists v, ext a b v).
        { intros a b R. induction R as [a|a b c Hb R [v V]]; [exists []; apply ext_refl|]. destruct (M _ _ Hb) as [u U]. exists (u ++ v). eapply ext_trans; eauto. }
        intros H2. apply R. eapply repeats_reach. exact H2. }
      destruct V as [v V]. pose proof (ext_det _ _ _ _ X (ext_trans _ _ _ _ _ U V)) as ->.
      destruct (IH l dec s1 st' v H2 V) as (m & M1 & M2 & M3).
      - unfold dec. destruct hi as [[|h]|]; cbn in *; [congruence|lia|exact I].
      - exists (S m). split; [lia|]. split; [unfold dec in M2; destruct hi as [[|h]|]; cbn in *; [congruence|lia|exact I]|].
        cbn [times]. exists u, v. split; [reflexivity|]. split.
        + pose proof (S0 _ _ _ H1 U) as Q. destruct V as [V _]. rewrite V in Q. exact Q.
        + destruct U as [_ U]. rewrite <- U. exact M3. }
    assert (One : forall s1, In s1 (f st) -> In st' (repeats f g n 0 dec s1) -> exists m, 0 <= m /\ at_most m hi /\ times P m (s_before st) w (s_after st')).
    { intros s1 H1 H2. destruct (Step 0 s1) as (m & A & B & C); auto. { destruct hi as [[|h]|]; cbn; [congruence|lia|exact I]. } exists m. split; [lia|auto]. }
    assert (Here : st' = st -> exists m, 0 <= m /\ at_most m hi /\ times P m (s_before st) w (s_after st')).
    { intros ->. rewrite (ext_det _ _ _ _ X (ext_refl st)). exists 0. split; [lia|]. split; [destruct hi; cbn; lia|reflexivity]. }
    destruct lo as [|lo].
    + assert (K : st' = st \/ exists s1, In s1 (f st) /\ In st' (repeats f g n 0 dec s1)).
      { assert (H' : In st' (if g then flat_map (repeats f g n 0 dec) (filter (progress st) (f st)) ++ [st] else st :: flat_map (repeats f g n 0 dec) (filter (progress st) (f st)))).
        { destruct hi as [[|h]|]; [congruence|exact H|exact H]. }
        destruct g.
        - apply in_app_or in H' as [H'|[<-|[]]]; [|auto]. apply in_flat_map in H' as (s1 & A & B). apply filter_In in A as [A _]. eauto.
        - destruct H' as [<-|H']; [auto|]. apply in_flat_map in H' as (s1 & A & B). apply filter_In in A as [A _]. eauto. }
      destruct K as [K|(s1 & A & B)]; [auto|eauto].
    + assert (H' : In st' (flat_map (repeats f g n lo dec) (f st))) by (destruct hi as [[|h]|]; [congruence|exact H|exact H]).
      apply in_flat_map in H' as (s1 & A & B). eapply Step; eauto.
Qed.

Lemma repeats_complete f P g : complete f P -> forall n fuel lo hi b w a k, times P n b w a -> lo <= n -> at_most n hi ->
  lo + length w <= fuel -> exists k', In (mkS (rev w ++ b) a k') (repeats f g fuel lo hi (mkS b (w ++ a) k)).
Proof.
  intros C. induction n as [|n IH]; intros fuel lo hi b w a k T L Hh F.
  - cbn in T. subst w. assert (lo = 0) by lia. subst lo. exists k. cbn [rev app].
    destruct hi as [[|h]|]; destruct fuel; cbn [repeats]; try (left; reflexivity); destruct g; cbn; auto; apply in_or_app; right; left; reflexivity.
  - cbn [times] in T. destruct T as (u & v & -> & Pu & T). destruct (C _ _ _ k Pu) as [k1 I1]. rewrite app_assoc in I1.
    set (dec := match hi with Some (S h) => Some h | _ => hi end).
    assert (Hd : at_most n dec) by (unfold dec; destruct hi as [[|h]|]; cbn in *; [lia|lia|exact I]).
    assert (Hz : hi <> Some 0) by (intros ->; cbn in Hh; lia).
    rewrite app_length in F. destruct lo as [|lo].
    + destruct u as [|c u].
      { cbn [rev app] in *. apply (IH fuel 0 hi b v a k T); [lia|destruct hi; cbn in *; [lia|exact I]|cbn in F; lia]. }
      destruct fuel as [|fuel]; [cbn in F; lia|]. destruct (IH fuel 0 dec _ _ _ k1 T) as [k' I2]; [lia|exact Hd|cbn in F; lia|].
      exists k'. rewrite rev_app_distr, <- app_assoc.
      assert (K : In (mkS (rev v ++ rev (c :: u) ++ b) a k') (flat_map (repeats f g fuel 0 dec) (filter (progress (mkS b (((c :: u) ++ v) ++ a) k)) (f (mkS b (((c :: u) ++ v) ++ a) k))))).
      { apply in_flat_map. eexists. split; [|exact I2]. apply filter_In. split; [rewrite <- app_assoc; rewrite app_assoc; exact I1|].
        unfold progress. cbn [s_after]. rewrite <- app_assoc, (app_length (c :: u)). cbn [length]. apply negb_true_iff, Nat.eqb_neq. lia. }
      destruct hi as [[|h]|]; [congruence| |]; cbn [repeats]; fold dec; (destruct g; [apply in_or_app; left|right]; exact K).
    + destruct fuel as [|fuel]; [lia|]. destruct (IH fuel lo dec _ _ _ k1 T) as [k' I2]; [lia|exact Hd|lia|].
      exists k'. rewrite rev_app_distr, <- app_assoc.
      assert (K : In (mkS (rev v ++ rev u ++ b) a k') (flat_map (repeats f g fuel lo dec) (f (mkS b ((u ++ v) ++ a) k)))).
      { apply in_flat_map. eexists. split; [exact I1|exact I2]. }
      destruct hi as [[|h]|]; [congruence| |]; cbn [repeats]; exact K.
Qed.

(** Bounds in order, as [re] demands. *)
Fixpoint ordered (r : re) : bool :=
  match r with
  | Cat p q | Alt p q => ordered p && ordered q
  | Rep _ lo hi p => match hi with Some h => lo <=? h | None => true end && ordered p
  | Grp _ p | Ahead _ p | Behind _ p => ordered p
  | _ => true
  end.
Lemma word_at_iff s : word_at uword s = true <-> exists c t, s = c :: t /\ is_w uword c = true.
Proof.
  destruct s as [|c t]; cbn; split.
  - discriminate.
  - intros (c & t & E & _). discriminate.
  - intros H. exists c, t. auto.
  - intros (c' & t' & E & H). injection E as <- <-. exact H.
Qed.
Lemma boundary_iff b a : xorb (word_at uword b) (word_at uword a) = true <-> boundary uword b a.
Proof.
  unfold boundary. rewrite <- !word_at_iff. destruct (word_at uword b), (word_at uword a); cbn; intuition congruence.
Qed.
Lemma at_end_iff s : at_end s = true <-> s = [] \/ s = [10%N].
Proof.
  destruct s as [|c [|d s]]; cbn.
  - tauto.
  - rewrite andb_true_r, N.eqb_eq. split; [intros ->; auto|intros [H|H]; [discriminate|injection H as ->; reflexivity]].
  - rewrite andb_false_r. split; [discriminate|intros [H|H]; discriminate].
Qed.
Lemma nonempty_iff {A} (l : list A) : nonempty l = true <-> exists x, In x l.
Proof. destruct l as [|x l]; cbn; split; try discriminate; [intros [x []]|intros _; exists x; auto|reflexivity]. Qed.

Definition exact (r : re) : Prop := forall b w a k, reads r b w a <-> exists k', In (mkS (rev w ++ b) a k') (ways r (mkS b (w ++ a) k)).
Lemma exact_sound r : exact r -> sound (ways r) (reads r).
Proof.
  intros E [b s k] [b' s' k'] w H [X1 X2]. cbn in X1, X2. subst s b'. cbn. apply (E b w s' k). exists k'. exact H.
Qed.
Lemma exact_complete r : exact r -> complete (ways r) (reads r).
Proof. intros E b w a k H. apply (E b w a k). exact H. Qed.
Lemma ways_moves r : moves (ways r).
Proof. intros st st' H. apply ways_ext in H. exact H. Qed.
(** A test without characters *)
Lemma guard_exact (t : bool) (Q : Prop) b w a k : (t = true <-> Q) ->
  (w = [] /\ Q) <-> exists k', In (mkS (rev w ++ b) a k') (guard t (mkS b (w ++ a) k)).
Proof.
  intros H. split.
  - intros [-> q]. apply H in q. rewrite q. exists k. left. reflexivity.
  - intros [k' I]. apply guard_In in I as [-> E]. injection E as E1 E2 _. assert (w = []); [|subst; split; [reflexivity|apply H; reflexivity]].
    destruct w as [|c w]; [reflexivity|]. apply (f_equal (@length N)) in E2. rewrite app_length in E2. cbn in E2. lia.
Qed.

Theorem ways_reads r : ordered r = true -> exact r.
Proof.
  induction r as [|ci neg l| |p IHp q IHq|p IHp q IHq|g lo hi p IH|n p IH| | |neg|neg p IH|neg p IH]; intros O b w a k; cbn [ordered] in O.
  - cbn. split.
    + intros ->. exists k. left. reflexivity.
    + intros [k' [E|[]]]. injection E as E1 E2 _. destruct w as [|c w]; [reflexivity|]. apply (f_equal (@length N)) in E2. rewrite app_length in E2. cbn in E2. lia.
  - cbn [Spec_Regexp.reads Regexp.ways]. split.
    + intros (c & -> & H). exists k. unfold step. cbn [s_after s_before s_caps app rev]. rewrite H. left. reflexivity.
    + intros [k' I]. apply step_In in I as (c & H & X & _). exists c. split; [|exact H].
      assert (Y : ext (mkS b (w ++ a) k) (mkS (rev w ++ b) a k') w) by (split; reflexivity). exact (ext_det _ _ _ _ Y X).
  - cbn [Spec_Regexp.reads Regexp.ways]. split.
    + intros (c & -> & H). exists k. unfold step. cbn [s_after s_before s_caps app rev]. apply N.eqb_neq in H. rewrite H. left. reflexivity.
    + intros [k' I]. apply step_In in I as (c & H & X & _). exists c. split; [|apply negb_true_iff, N.eqb_neq in H; exact H].
      assert (Y : ext (mkS b (w ++ a) k) (mkS (rev w ++ b) a k') w) by (split; reflexivity). exact (ext_det _ _ _ _ Y X).
  - apply andb_true_iff in O as [O1 O2]. specialize (IHp O1). specialize (IHq O2). cbn [Spec_Regexp.reads Regexp.ways]. split.
    + intros (u & v & -> & H1 & H2). apply (IHp _ _ _ k) in H1 as [k1 H1]. apply (IHq _ _ _ k1) in H2 as [k2 H2]. exists k2. apply in_flat_map.
      eexists. split; [rewrite <- app_assoc; exact H1|]. rewrite rev_app_distr, <- app_assoc. exact H2.
    + intros [k' I]. apply in_flat_map in I as ([b1 s1 k1] & I1 & I2). destruct (ways_ext _ _ _ _ _ I1) as [u U]. destruct (ways_ext _ _ _ _ _ I2) as [v V].
      assert (Y : ext (mkS b (w ++ a) k) (mkS (rev w ++ b) a k') w) by (split; reflexivity). pose proof (ext_det _ _ _ _ Y (ext_trans _ _ _ _ _ U V)) as ->.
      exists u, v. split; [reflexivity|]. destruct U as [U1 U2], V as [V1 V2]. cbn in *. subst b1 s1. split.
      * apply (IHp _ _ _ k). exists k1. rewrite app_assoc. exact I1.
      * apply (IHq _ _ _ k1). exists k'. rewrite rev_app_distr, <- app_assoc in I2. exact I2.
  - apply andb_true_iff in O as [O1 O2]. specialize (IHp O1). specialize (IHq O2). cbn [Spec_Regexp.reads Regexp.ways]. split.
    + intros [H|H]; [apply (IHp _ _ _ k) in H as [k1 H]|apply (IHq _ _ _ k) in H as [k1 H]]; exists k1; apply in_or_app; auto.
    + intros [k' I]. apply in_app_or in I as [I|I]; [left; apply (IHp _ _ _ k)|right; apply (IHq _ _ _ k)]; eauto.
  - apply andb_true_iff in O as [O1 O2]. specialize (IH O2). cbn [Spec_Regexp.reads Regexp.ways s_after]. split.
    + intros (n & L & U & T). apply (repeats_complete (ways p) (reads p) g (exact_complete p IH) n); auto. rewrite app_length. lia.
    + intros [k' I]. apply (repeats_sound (ways p) (reads p) g _ (ways_moves p) (exact_sound p IH) lo hi _ _ w) in I; [exact I|split; reflexivity|].
      destruct hi; cbn; [apply Nat.leb_le, O1|exact Logic.I].
  - specialize (IH O). cbn [Spec_Regexp.reads Regexp.ways]. rewrite (IH b w a k). split.
    + intros [k' I]. eexists. apply in_map_iff. eexists. split; [|exact I]. reflexivity.
    + intros [k' I]. apply in_map_iff in I as ([b1 s1 k1] & E & I). cbn in E. injection E as -> -> _. exists k1. exact I.
  - cbn [Spec_Regexp.reads Regexp.ways s_before]. apply guard_exact. destruct b; split; congruence.
  - cbn [Spec_Regexp.reads Regexp.ways s_after]. destruct w as [|c w].
    + apply (guard_exact _ _ b [] a k). apply at_end_iff.
    + split; [intros [H _]; discriminate|]. intros [k' I]. apply guard_In in I as [_ E]. injection E as _ E2 _. apply (f_equal (@length N)) in E2. cbn [app length] in E2. rewrite app_length in E2. lia.
  - assert (T : forall Q : Prop, (xorb neg (xorb (word_at uword b) (word_at uword a)) = true <-> Q) -> (w = [] /\ Q) <-> exists k', In (mkS (rev w ++ b) a k') (ways (Wordb neg) (mkS b (w ++ a) k))).
    { intros Q HQ. cbn [Regexp.ways s_after s_before]. destruct w as [|c w]; [apply (guard_exact _ _ b [] a k), HQ|].
      split; [intros [H _]; discriminate|]. intros [k' I]. apply guard_In in I as [_ E]. injection E as _ E2 _. apply (f_equal (@length N)) in E2. cbn [app length] in E2. rewrite app_length in E2. lia. }
    destruct neg; cbn [Spec_Regexp.reads]; apply T.
    + rewrite <- boundary_iff. destruct (xorb (word_at uword b) (word_at uword a)); cbn; split; congruence.
    + rewrite <- boundary_iff. destruct (xorb (word_at uword b) (word_at uword a)); cbn; tauto.
  - specialize (IH O).
    assert (A : nonempty (ways p (mkS b a k)) = true <-> exists u v, a = u ++ v /\ reads p b u v).
    { rewrite nonempty_iff. split.
      - intros [[b1 s1 k1] I]. destruct (ways_ext _ _ _ _ _ I) as [u [U1 U2]]. cbn in U1, U2. subst. exists u, s1. split; [reflexivity|]. apply (IH _ _ _ k). exists k1. exact I.
      - intros (u & v & -> & H). apply (IH _ _ _ k) in H as [k1 H]. eexists. exact H. }
    assert (T : forall Q : Prop, (xorb neg (nonempty (ways p (mkS b a k))) = true <-> Q) -> (w = [] /\ Q) <-> exists k', In (mkS (rev w ++ b) a k') (ways (Ahead neg p) (mkS b (w ++ a) k))).
    { intros Q HQ. cbn [Regexp.ways]. destruct w as [|c w]; [apply (guard_exact _ _ b [] a k), HQ|].
      split; [intros [H _]; discriminate|]. intros [k' I]. apply guard_In in I as [_ E]. injection E as _ E2 _. apply (f_equal (@length N)) in E2. cbn [app length] in E2. rewrite app_length in E2. lia. }
    destruct neg; cbn [Spec_Regexp.reads]; apply T.
    + rewrite <- A. destruct (nonempty (ways p (mkS b a k))); cbn; split; congruence.
    + rewrite <- A. destruct (nonempty (ways p (mkS b a k))); cbn; tauto.
  - specialize (IH O).
    set (t := match b with c :: b' => existsb (fun st' => match s_after st' with [] => true | _ => false end) (ways p (mkS b' [c] [])) | [] => false end).
    assert (A : t = true <-> exists c t, b = c :: t /\ reads p t [c] []).
    { unfold t. destruct b as [|c b']; [split; [discriminate|intros (c & t' & E & _); discriminate]|]. rewrite existsb_exists. split.
      - intros ([b1 s1 k1] & I & E). cbn in E. destruct s1; [|discriminate]. destruct (ways_ext _ _ _ _ _ I) as [u [U1 U2]]. cbn in U1, U2. rewrite app_nil_r in U1. subst.
        exists c, b'. split; [reflexivity|]. apply (IH _ _ _ []). exists k1. exact I.
      - intros (c' & t' & E & H). injection E as <- <-. apply (IH _ _ _ []) in H as [k1 H]. eexists. split; [exact H|reflexivity]. }
    assert (T : forall Q : Prop, (xorb neg t = true <-> Q) -> (w = [] /\ Q) <-> exists k', In (mkS (rev w ++ b) a k') (ways (Behind neg p) (mkS b (w ++ a) k))).
    { intros Q HQ. cbn [Regexp.ways s_before]. fold t. apply guard_exact, HQ. }
    destruct neg; cbn [Spec_Regexp.reads]; apply T.
    + rewrite <- A. destruct t; cbn; split; congruence.
    + rewrite <- A. destruct t; cbn; tauto.
Qed.

Theorem search_reads r s : ordered r = true -> matched (re_search udigit uword r s) = true <-> found udigit uword r s.
Proof.
  intros O. rewrite search_iff. unfold found. split.
  - intros (u & v & [b1 s1 k1] & -> & I). destruct (ways_ext _ _ _ _ _ I) as [w [X1 X2]]. cbn in X1, X2. subst. exists u, w, s1. split; [reflexivity|].
    apply (ways_reads r O _ _ _ []). eexists. exact I.
  - intros (b & w & a & -> & H). apply (ways_reads r O _ _ _ []) in H as [k I]. exists b, (w ++ a). eexists. split; [reflexivity|exact I].
Qed.
Theorem match_reads r s : ordered r = true -> matched (re_match udigit uword r s) = true <-> found_first udigit uword r s.
Proof.
  intros O. unfold found_first. split.
  - intros H. destruct (re_match udigit uword r s) as [[b1 s1 k1]|] eqn:E; [|discriminate]. apply match_In in E.
    destruct (ways_ext _ _ _ _ _ E) as [w [X1 X2]]. cbn in X1, X2. subst. exists w, s1. split; [reflexivity|]. apply (ways_reads r O _ _ _ []). eexists. exact E.
  - intros (w & a & -> & H). apply (ways_reads r O _ _ _ []) in H as [k I]. destruct (re_match udigit uword r (w ++ a)) eqn:E; [reflexivity|].
    apply match_None in E. rewrite E in I. destruct I.
Qed.
End Lang.
