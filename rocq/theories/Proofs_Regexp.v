(** General facts about the matcher of Regexp.v. *)
From Verif Require Import PyStr Regexp.

Lemma flat_map_hd {A B} (f : A -> list B) a l b m :
  f a = b :: m -> exists m', flat_map f (a :: l) = b :: m'.
Proof. intros H. simpl. rewrite H. simpl. eexists; reflexivity. Qed.

Section Facts.
Variable udigit uword : char -> bool.
Notation ways := (ways udigit uword).
Notation class_in := (class_in udigit uword).

(** ** Positions *)
Definition ext (st st' : state) (w : str) : Prop :=
  s_after st = w ++ s_after st' /\ s_before st' = rev w ++ s_before st.
Lemma ext_refl st : ext st st [].
Proof. split; reflexivity. Qed.
Lemma ext_trans a b c v w : ext a b v -> ext b c w -> ext a c (v ++ w).
Proof.
  intros [H1 H2] [H3 H4]. split.
  - rewrite H1, H3, app_assoc. reflexivity.
  - rewrite H4, H2, rev_app_distr, app_assoc. reflexivity.
Qed.
Lemma ext_consumed a b w : ext a b w -> consumed a b = w.
Proof.
  intros [H _]. unfold consumed. rewrite H, app_length.
  replace (length w + length (s_after b) - length (s_after b)) with (length w) by lia.
  rewrite firstn_app, Nat.sub_diag, firstn_all. apply app_nil_r.
Qed.
Lemma ext_det a b v w : ext a b v -> ext a b w -> v = w.
Proof. intros H1 H2. rewrite <- (ext_consumed _ _ _ H1). apply ext_consumed, H2. Qed.
Definition whole (st : state) : str := rev (s_before st) ++ s_after st.
Lemma ext_whole a b w : ext a b w -> whole b = whole a.
Proof. intros [H1 H2]. unfold whole. rewrite H1, H2, rev_app_distr, rev_involutive, <- app_assoc. reflexivity. Qed.

(** ** Repetitions *)
Inductive reach (f : state -> list state) : state -> state -> Prop :=
| reach_refl st : reach f st st
| reach_step a b c : In b (f a) -> reach f b c -> reach f a c.

Lemma repeats_reach f g n : forall lo hi st st', In st' (repeats f g n lo hi st) -> reach f st st'.
Proof.
  induction n as [|n IH]; intros lo hi st st' H; cbn [repeats] in H.
  - destruct hi as [[|h]|], lo; destruct H as [<-|[]] || destruct H; constructor.
  - assert (K : forall l k s, In st' (flat_map (repeats f g n l k) s) -> (forall x, In x s -> In x (f st)) -> reach f st st').
    { intros l k s Hin Hs. apply in_flat_map in Hin as (x & Hx & Hin). eapply reach_step; [apply Hs, Hx|]. eapply IH, Hin. }
    assert (L : forall l k, In st' (flat_map (repeats f g n l k) (filter (progress st) (f st))) -> reach f st st').
    { intros l k Hin. eapply K; [exact Hin|]. intros x Hx. apply filter_In in Hx. tauto. }
    destruct hi as [[|h]|].
    + destruct H as [<-|[]]. constructor.
    + destruct lo; [|eapply K; [exact H|auto]].
      destruct g; [apply in_app_or in H as [H|[<-|[]]]|destruct H as [<-|H]]; try constructor; eapply L, H.
    + destruct lo; [|eapply K; [exact H|auto]].
      destruct g; [apply in_app_or in H as [H|[<-|[]]]|destruct H as [<-|H]]; try constructor; eapply L, H.
Qed.
(** At least one round when one is asked for. *)
Lemma repeats_first f g n lo hi st st' :
  In st' (repeats f g n (S lo) hi st) -> hi <> Some 0 -> exists st1, In st1 (f st) /\ reach f st1 st'.
Proof.
  intros H Hh. destruct n as [|n]; cbn [repeats] in H.
  - destruct hi as [[|h]|]; [congruence|destruct H|destruct H].
  - assert (K : exists k, In st' (flat_map (repeats f g n lo k) (f st))).
    { destruct hi as [[|h]|]; [congruence|exists (Some h)|exists None]; exact H. }
    destruct K as [k K]. apply in_flat_map in K as (x & Hx & K). exists x. split; [exact Hx|]. eapply repeats_reach, K.
Qed.

Lemma guard_In b st st' : In st' (guard b st) -> b = true /\ st' = st.
Proof. destruct b; cbn; [intros [<-|[]]; auto|intros []]. Qed.
Lemma step_In p st st' : In st' (step p st) ->
  exists c, p c = true /\ ext st st' [c] /\ s_caps st' = s_caps st.
Proof.
  unfold step. destruct (s_after st) as [|c r] eqn:E; [intros []|]. destruct (p c) eqn:Ep; [|intros []].
  intros [<-|[]]. exists c. split; [exact Ep|]. split; [|reflexivity]. split; cbn; [exact E|reflexivity].
Qed.

Theorem ways_ext r : forall st st', In st' (ways r st) -> exists w, ext st st' w.
Proof.
  induction r as [|ci neg l| |a IHa b IHb|a IHa b IHb|g lo hi r IH|n r IH| | |neg|neg r IH|neg r IH];
    intros st st' H; cbn [Regexp.ways] in H.
  - destruct H as [<-|[]]. exists []. apply ext_refl.
  - apply step_In in H as (c & _ & H & _). eauto.
  - apply step_In in H as (c & _ & H & _). eauto.
  - apply in_flat_map in H as (x & Hx & H). destruct (IHa _ _ Hx) as [v Hv]. destruct (IHb _ _ H) as [w Hw].
    exists (v ++ w). eapply ext_trans; eauto.
  - apply in_app_or in H as [H|H]; eauto.
  - apply repeats_reach in H. induction H as [|a b c Hab Hbc IH']; [exists []; apply ext_refl|].
    destruct (IH _ _ Hab) as [v Hv]. destruct IH' as [w Hw]. exists (v ++ w). eapply ext_trans; eauto.
  - apply in_map_iff in H as (x & <- & Hx). destruct (IH _ _ Hx) as [w [H1 H2]]. exists w. split; assumption.
  - apply guard_In in H as [_ ->]. exists []. apply ext_refl.
  - apply guard_In in H as [_ ->]. exists []. apply ext_refl.
  - apply guard_In in H as [_ ->]. exists []. apply ext_refl.
  - apply guard_In in H as [_ ->]. exists []. apply ext_refl.
  - apply guard_In in H as [_ ->]. exists []. apply ext_refl.
Qed.

(** ** What a match consumes *)
Section Only.
Variable P : char -> Prop.
(** [ok ci neg l]: every character of the class has the property *)
Variable ok : bool -> bool -> list item -> bool.
Hypothesis ok_class : forall ci neg l c, ok ci neg l = true -> class_in ci neg l c = true -> P c.
Fixpoint only (r : re) : bool :=
  match r with
  | Chr ci neg l => ok ci neg l
  | Dot => false
  | Cat a b | Alt a b => only a && only b
  | Rep _ _ _ a | Grp _ a => only a
  | _ => true
  end.
Lemma ways_only r : only r = true -> forall st st' w, In st' (ways r st) -> ext st st' w -> Forall P w.
Proof.
  assert (Z : forall st w, ext st st w -> Forall P w).
  { intros st w H. rewrite (ext_det _ _ _ _ H (ext_refl st)). constructor. }
  induction r as [|ci neg l| |a IHa b IHb|a IHa b IHb|g lo hi r IH|n r IH| | |neg|neg r IH|neg r IH];
    intros Ho st st' w H He; cbn [Regexp.ways only] in *.
  - destruct H as [<-|[]]. eauto.
  - apply step_In in H as (c & Hc & H & _). rewrite (ext_det _ _ _ _ He H). constructor; [|constructor]. eapply ok_class; eauto.
  - discriminate.
  - apply andb_true_iff in Ho as [Ho1 Ho2]. apply in_flat_map in H as (x & Hx & H).
    destruct (ways_ext _ _ _ Hx) as [v Hv]. destruct (ways_ext _ _ _ H) as [u Hu].
    rewrite (ext_det _ _ _ _ He (ext_trans _ _ _ _ _ Hv Hu)). apply Forall_app. split; [eapply IHa|eapply IHb]; eauto.
  - apply andb_true_iff in Ho as [Ho1 Ho2]. apply in_app_or in H as [H|H]; [eapply IHa|eapply IHb]; eauto.
  - apply repeats_reach in H. revert w He. induction H as [|a b c Hab Hbc IH']; intros w He; [eauto|].
    destruct (ways_ext _ _ _ Hab) as [v Hv].
    assert (Hu : exists u, ext b c u).
    { clear - Hbc. induction Hbc as [|a b c H _ IH]; [exists []; apply ext_refl|].
      destruct (ways_ext _ _ _ H) as [v Hv]. destruct IH as [u Hu]. eexists. eapply ext_trans; eauto. }
    destruct Hu as [u Hu]. rewrite (ext_det _ _ _ _ He (ext_trans _ _ _ _ _ Hv Hu)). apply Forall_app.
    split; [eapply IH|eapply IH']; eauto.
  - apply in_map_iff in H as (x & <- & Hx). eapply IH; [exact Ho|exact Hx|exact He].
  - apply guard_In in H as [_ ->]. eauto.
  - apply guard_In in H as [_ ->]. eauto.
  - apply guard_In in H as [_ ->]. eauto.
  - apply guard_In in H as [_ ->]. eauto.
  - apply guard_In in H as [_ ->]. eauto.
Qed.

(** Every match consumes some character with the property. *)
Fixpoint needs (r : re) : bool :=
  match r with
  | Chr ci neg l => ok ci neg l
  | Cat a b => needs a || needs b
  | Alt a b => needs a && needs b
  | Rep _ (S _) hi a => match hi with Some 0 => false | _ => needs a end
  | Grp _ a => needs a
  | _ => false
  end.
Lemma ways_needs r : needs r = true -> forall st st' w, In st' (ways r st) -> ext st st' w -> Exists P w.
Proof.
  induction r as [|ci neg l| |a IHa b IHb|a IHa b IHb|g lo hi r IH|n r IH| | |neg|neg r IH|neg r IH];
    intros Ho st st' w H He; cbn [Regexp.ways needs] in *; try discriminate.
  - apply step_In in H as (c & Hc & H & _). rewrite (ext_det _ _ _ _ He H). constructor. eapply ok_class; eauto.
  - apply in_flat_map in H as (x & Hx & H).
    destruct (ways_ext _ _ _ Hx) as [v Hv]. destruct (ways_ext _ _ _ H) as [u Hu].
    rewrite (ext_det _ _ _ _ He (ext_trans _ _ _ _ _ Hv Hu)). apply Exists_app.
    apply orb_true_iff in Ho as [Ho|Ho]; [left; eapply IHa|right; eapply IHb]; eauto.
  - apply andb_true_iff in Ho as [Ho1 Ho2]. apply in_app_or in H as [H|H]; [eapply IHa|eapply IHb]; eauto.
  - destruct lo as [|lo]; [discriminate|].
    assert (Hh : hi <> Some 0) by (intros ->; discriminate).
    apply repeats_first in H as (x & Hx & H); [|exact Hh].
    assert (Hn : needs r = true) by (destruct hi as [[|h]|]; [congruence|exact Ho|exact Ho]).
    destruct (ways_ext _ _ _ Hx) as [v Hv].
    assert (Hu : exists u, ext x st' u).
    { clear - H. induction H as [|a b c H _ IH]; [exists []; apply ext_refl|].
      destruct (ways_ext _ _ _ H) as [v Hv]. destruct IH as [u Hu]. eexists. eapply ext_trans; eauto. }
    destruct Hu as [u Hu]. rewrite (ext_det _ _ _ _ He (ext_trans _ _ _ _ _ Hv Hu)). apply Exists_app. left.
    eapply IH; eauto.
  - apply in_map_iff in H as (x & <- & Hx). eapply IH; [exact Ho|exact Hx|exact He].
Qed.
End Only.

(** ** Groups *)
(** Every group of the expression that can take part in a match satisfies [Q]. *)
Fixpoint groups_ok (Q : nat -> re -> bool) (r : re) : bool :=
  match r with
  | Cat a b | Alt a b => groups_ok Q a && groups_ok Q b
  | Rep _ _ _ a => groups_ok Q a
  | Grp n a => Q n a && groups_ok Q a
  | _ => true
  end.
Definition seg (st : state) (w : str) : Prop := exists x y, whole st = x ++ w ++ y.
(** A group is either an old one, or a piece of the text, consumed by a group of the expression *)
Lemma ways_caps Q r : groups_ok Q r = true -> forall st st' n w, In st' (ways r st) -> In (n, w) (s_caps st') ->
  In (n, w) (s_caps st) \/
  (seg st w /\ exists a s1 s2, Q n a = true /\ In s2 (ways a s1) /\ ext s1 s2 w).
Proof.
  induction r as [|ci neg l| |a IHa b IHb|a IHa b IHb|g lo hi r IH|k r IH| | |neg|neg r IH|neg r IH];
    intros Ho st st' n w H Hw; cbn [Regexp.ways groups_ok] in *.
  - destruct H as [<-|[]]. auto.
  - apply step_In in H as (c & _ & _ & E). rewrite E in Hw. auto.
  - apply step_In in H as (c & _ & _ & E). rewrite E in Hw. auto.
  - apply andb_true_iff in Ho as [Ho1 Ho2]. apply in_flat_map in H as (x & Hx & H).
    destruct (IHb Ho2 _ _ _ _ H Hw) as [K|[K1 K2]].
    + destruct (IHa Ho1 _ _ _ _ Hx K) as [L|[L1 L2]]; auto.
    + right. split; [|exact K2]. destruct (ways_ext _ _ _ Hx) as [v Hv]. unfold seg in *. rewrite <- (ext_whole _ _ _ Hv). exact K1.
  - apply andb_true_iff in Ho as [Ho1 Ho2]. apply in_app_or in H as [H|H]; [eapply IHa|eapply IHb]; eauto.
  - apply repeats_reach in H. induction H as [|a b c Hab Hbc IH']; [auto|].
    destruct (IH' Hw) as [K|[K1 K2]].
    + eapply IH; eauto.
    + right. split; [|exact K2]. destruct (ways_ext _ _ _ Hab) as [v Hv]. unfold seg in *. rewrite <- (ext_whole _ _ _ Hv). exact K1.
  - apply andb_true_iff in Ho as [Ho1 Ho2]. apply in_map_iff in H as (x & <- & Hx). cbn [s_caps] in Hw.
    destruct Hw as [E|Hw]; [|eapply IH; eauto].
    destruct (ways_ext _ _ _ Hx) as [v Hv]. rewrite (ext_consumed _ _ _ Hv) in E. injection E as -> ->.
    right. split.
    + exists (rev (s_before st)), (s_after x). unfold whole. destruct Hv as [-> _]. reflexivity.
    + eauto 6.
  - apply guard_In in H as [_ ->]. auto.
  - apply guard_In in H as [_ ->]. auto.
  - apply guard_In in H as [_ ->]. auto.
  - apply guard_In in H as [_ ->]. auto.
  - apply guard_In in H as [_ ->]. auto.
Qed.
Definition no_groups : re -> bool := groups_ok (fun _ _ => false).
Lemma ways_same_caps r : no_groups r = true -> forall st st', In st' (ways r st) -> s_caps st' = s_caps st.
Proof.
  unfold no_groups.
  induction r as [|ci neg l| |a IHa b IHb|a IHa b IHb|g lo hi r IH|k r IH| | |neg|neg r IH|neg r IH];
    intros Ho st st' H; cbn [Regexp.ways groups_ok] in *.
  - destruct H as [<-|[]]. auto.
  - apply step_In in H as (c & _ & _ & E). exact E.
  - apply step_In in H as (c & _ & _ & E). exact E.
  - apply andb_true_iff in Ho as [Ho1 Ho2]. apply in_flat_map in H as (x & Hx & H).
    rewrite (IHb Ho2 _ _ H). eauto.
  - apply andb_true_iff in Ho as [Ho1 Ho2]. apply in_app_or in H as [H|H]; eauto.
  - apply repeats_reach in H. induction H as [|a b c Hab Hbc IH']; [auto|]. rewrite IH'. eauto.
  - discriminate.
  - apply guard_In in H as [_ ->]. auto.
  - apply guard_In in H as [_ ->]. auto.
  - apply guard_In in H as [_ ->]. auto.
  - apply guard_In in H as [_ ->]. auto.
  - apply guard_In in H as [_ ->]. auto.
Qed.
Lemma group_In n l w : group n l = Some w -> In (n, w) l.
Proof.
  induction l as [|[k v] l IH]; [discriminate|]. cbn. destruct (Nat.eqb_spec k n) as [->|H]; [|auto].
  intros [= ->]. auto.
Qed.

(** ** The first way *)
Definition first (r : re) (st st' : state) : Prop := exists l, ways r st = st' :: l.
Lemma first_cat a b st st1 st2 : first a st st1 -> first b st1 st2 -> first (Cat a b) st st2.
Proof.
  intros [l H] [m K]. unfold first. cbn [Regexp.ways]. rewrite H. destruct (flat_map_hd (ways b) st1 l st2 m K) as [m' ->]. eauto.
Qed.
Lemma first_alt_l a b st st1 : first a st st1 -> first (Alt a b) st st1.
Proof. intros [l H]. unfold first. cbn [Regexp.ways]. rewrite H. cbn. eauto. Qed.
Lemma first_alt_r a b st st1 : ways a st = [] -> first b st st1 -> first (Alt a b) st st1.
Proof. intros H [l K]. unfold first. cbn [Regexp.ways]. rewrite H, K. cbn. eauto. Qed.
Lemma first_grp n r st st1 w : first r st st1 -> ext st st1 w ->
  first (Grp n r) st (mkS (s_before st1) (s_after st1) ((n, w) :: s_caps st1)).
Proof. intros [l H] He. unfold first. cbn [Regexp.ways]. rewrite H. cbn. rewrite (ext_consumed _ _ _ He). eauto. Qed.
Lemma first_chr ci neg l b c r k : class_in ci neg l c = true -> first (Chr ci neg l) (mkS b (c :: r) k) (mkS (c :: b) r k).
Proof. intros H. unfold first. cbn [Regexp.ways]. unfold step. cbn [s_after s_before s_caps]. rewrite H. eauto. Qed.
Lemma first_some r st : ways r st <> [] -> exists st', first r st st'.
Proof. unfold first. destruct (ways r st) as [|x l]; [congruence|]. eauto. Qed.
(** A tail without groups: it is enough that it can match. *)
Lemma first_tail r st st1 : no_groups r = true -> In st1 (ways r st) -> exists st', first r st st' /\ s_caps st' = s_caps st.
Proof.
  intros Hn H. destruct (first_some r st) as [st' Hf]; [intros E; rewrite E in H; exact H|].
  exists st'. split; [exact Hf|]. eapply ways_same_caps; [exact Hn|]. destruct Hf as [l ->]. left. reflexivity.
Qed.
Lemma ways_chr ci neg l b c r k : class_in ci neg l c = true -> ways (Chr ci neg l) (mkS b (c :: r) k) = [mkS (c :: b) r k].
Proof. intros H. cbn [Regexp.ways]. unfold step. cbn [s_after s_before s_caps]. rewrite H. reflexivity. Qed.
(** A greedy run of a class takes all it can. *)
Lemma run_first ci neg l : forall w n b x t k, Forall (fun c => class_in ci neg l c = true) w ->
  (match x with c :: _ => class_in ci neg l c = false | [] => t = [] end) -> length w <= n ->
  exists m, repeats (ways (Chr ci neg l)) true n 0 None (mkS b (w ++ x ++ t) k) = mkS (rev w ++ b) (x ++ t) k :: m.
Proof.
  induction w as [|c w IH]; intros n b x t k Hw Hx Hn.
  - cbn [app rev]. destruct n as [|n]; cbn [repeats]; [eauto|].
    destruct x as [|c x]; cbn [app].
    + subst t. cbn. eauto.
    + cbn [Regexp.ways]. unfold step. cbn [s_after]. rewrite Hx. cbn. eauto.
  - inversion Hw as [|? ? Hc Hw']; subst. cbn [length] in Hn. destruct n as [|n]; [lia|]. cbn [repeats].
    cbn [app]. rewrite (ways_chr ci neg l b c (w ++ x ++ t) k Hc). cbn [filter].
    unfold progress at 1. cbn [s_after length].
    replace (length (w ++ x ++ t) =? S (length (w ++ x ++ t))) with false by (symmetry; apply Nat.eqb_neq; lia).
    cbn [negb]. destruct (IH n (c :: b) x t k Hw' Hx ltac:(lia)) as [m Hm].
    destruct (flat_map_hd (repeats (ways (Chr ci neg l)) true n 0 None) _ [] _ _ Hm) as [m' Hm'].
    rewrite Hm'. cbn [rev app]. rewrite <- app_assoc. cbn. eauto.
Qed.
Lemma star_first ci neg l w b x t k : Forall (fun c => class_in ci neg l c = true) w ->
  (match x with c :: _ => class_in ci neg l c = false | [] => t = [] end) ->
  first (Rep true 0 None (Chr ci neg l)) (mkS b (w ++ x ++ t) k) (mkS (rev w ++ b) (x ++ t) k).
Proof.
  intros Hw Hx. unfold first. cbn [Regexp.ways]. apply run_first; [exact Hw|exact Hx|]. cbn [s_after]. rewrite app_length. lia.
Qed.
Lemma plus_first ci neg l w b x t k : w <> [] -> Forall (fun c => class_in ci neg l c = true) w ->
  (match x with c :: _ => class_in ci neg l c = false | [] => t = [] end) ->
  first (Rep true 1 None (Chr ci neg l)) (mkS b (w ++ x ++ t) k) (mkS (rev w ++ b) (x ++ t) k).
Proof.
  intros Hne Hw Hx. destruct w as [|c w]; [congruence|]. inversion Hw as [|? ? Hc Hw']; subst.
  unfold first. change (ways (Rep true 1 None (Chr ci neg l))) with
    (fun st => repeats (ways (Chr ci neg l)) true (1 + length (s_after st)) 1 None st).
  cbn [s_after Nat.add repeats app]. rewrite (ways_chr ci neg l b c (w ++ x ++ t) k Hc).
  destruct (run_first ci neg l w (length (c :: w ++ x ++ t)) (c :: b) x t k Hw' Hx) as [m Hm]; [cbn [length]; rewrite app_length; lia|].
  destruct (flat_map_hd (repeats (ways (Chr ci neg l)) true (length (c :: w ++ x ++ t)) 0 None) _ [] _ _ Hm) as [m' Hm'].
  rewrite Hm'. cbn [rev]. rewrite <- app_assoc. cbn. eauto.
Qed.
(** An optional character that is there, or not. *)
Lemma opt_first ci neg l b c r k : class_in ci neg l c = true ->
  first (Rep true 0 (Some 1) (Chr ci neg l)) (mkS b (c :: r) k) (mkS (c :: b) r k).
Proof.
  intros H. unfold first. cbn [Regexp.ways s_after length Nat.add repeats]. unfold step. cbn [s_after]. rewrite H.
  cbn [filter s_before s_caps]. unfold progress. cbn [s_after length].
  replace (length r =? S (length r)) with false by (symmetry; apply Nat.eqb_neq; lia). cbn [negb flat_map app].
  destruct (length r); cbn; eauto.
Qed.
Lemma opt_none ci neg l b r k : (match r with c :: _ => class_in ci neg l c = false | [] => True end) ->
  ways (Rep true 0 (Some 1) (Chr ci neg l)) (mkS b r k) = [mkS b r k].
Proof.
  intros H. cbn [Regexp.ways s_after length Nat.add]. destruct r as [|c r]; cbn [length repeats]; [reflexivity|].
  unfold step. cbn [s_after]. rewrite H. reflexivity.
Qed.

(** ** Existence of a way *)
Lemma in_cat a b st st1 st2 : In st1 (ways a st) -> In st2 (ways b st1) -> In st2 (ways (Cat a b) st).
Proof. intros H K. cbn [Regexp.ways]. apply in_flat_map. eauto. Qed.
Lemma in_alt_l a b st st1 : In st1 (ways a st) -> In st1 (ways (Alt a b) st).
Proof. intros H. cbn [Regexp.ways]. apply in_or_app. auto. Qed.
Lemma in_alt_r a b st st1 : In st1 (ways b st) -> In st1 (ways (Alt a b) st).
Proof. intros H. cbn [Regexp.ways]. apply in_or_app. auto. Qed.
Lemma in_chr ci neg l b c r k : class_in ci neg l c = true -> In (mkS (c :: b) r k) (ways (Chr ci neg l) (mkS b (c :: r) k)).
Proof. intros H. destruct (first_chr ci neg l b c r k H) as [m ->]. left. reflexivity. Qed.
Lemma first_in r st st' : first r st st' -> In st' (ways r st).
Proof. intros [l ->]. left. reflexivity. Qed.

(** A lazy run before something that does not match earlier. *)
Lemma lazy_run K : forall w n b t k st', ~ In 10%N w -> length w <= n ->
  (forall u c v, w = u ++ c :: v -> ways K (mkS (rev u ++ b) (c :: v ++ t) k) = []) ->
  first K (mkS (rev w ++ b) t k) st' ->
  exists m, flat_map (ways K) (repeats (ways Dot) false n 0 None (mkS b (w ++ t) k)) = st' :: m.
Proof.
  induction w as [|c w IH]; intros n b t k st' Hw Hn Hno [l Hf].
  - cbn [app rev] in *. destruct n as [|n]; cbn [repeats flat_map]; rewrite Hf; cbn; eauto.
  - cbn [length] in Hn. destruct n as [|n]; [lia|]. cbn [repeats app].
    assert (E : ways Dot (mkS b (c :: w ++ t) k) = [mkS (c :: b) (w ++ t) k]).
    { cbn [Regexp.ways]. unfold step. cbn [s_after s_before s_caps].
      destruct (N.eqb_spec c 10) as [->|_]; [exfalso; apply Hw; left; reflexivity|reflexivity]. }
    rewrite E. cbn [filter]. unfold progress at 1. cbn [s_after length].
    replace (length (w ++ t) =? S (length (w ++ t))) with false by (symmetry; apply Nat.eqb_neq; lia). cbn [negb flat_map app].
    pose proof (Hno [] c w eq_refl) as H0. cbn [rev app] in H0. rewrite H0. cbn [app]. rewrite app_nil_r. apply IH.
    + intros H. apply Hw. right. exact H.
    + lia.
    + intros u d v ->. specialize (Hno (c :: u) d v eq_refl). cbn [rev] in Hno. rewrite <- app_assoc in Hno. exact Hno.
    + exists l. cbn [rev] in Hf. rewrite <- app_assoc in Hf. exact Hf.
Qed.
Lemma lazy_first K w b t k st' : ~ In 10%N w ->
  (forall u c v, w = u ++ c :: v -> ways K (mkS (rev u ++ b) (c :: v ++ t) k) = []) ->
  first K (mkS (rev w ++ b) t k) st' ->
  first (Cat (Rep false 0 None Dot) K) (mkS b (w ++ t) k) st'.
Proof.
  intros Hw Hno Hf. unfold first. change (ways (Cat (Rep false 0 None Dot) K) (mkS b (w ++ t) k)) with
    (flat_map (ways K) (repeats (ways Dot) false (0 + length (w ++ t)) 0 None (mkS b (w ++ t) k))).
  apply lazy_run; auto. rewrite app_length. lia.
Qed.
(** A greedy run of anything to the end of the line, followed by what matches at the last place [w]. *)
Lemma greedy_run K : forall w n b t k st', ~ In 10%N w -> ~ In 10%N t -> length w + length t <= n ->
  (forall u v, t = u ++ v -> u <> [] -> ways K (mkS (rev u ++ rev w ++ b) v k) = []) ->
  first K (mkS (rev w ++ b) t k) st' ->
  exists m, flat_map (ways K) (repeats (ways Dot) true n 0 None (mkS b (w ++ t) k)) = st' :: m.
Proof.
  assert (E : forall b c r k, c <> 10%N -> ways Dot (mkS b (c :: r) k) = [mkS (c :: b) r k]).
  { intros b c r k H. cbn [Regexp.ways]. unfold step. cbn [s_after s_before s_caps].
    destruct (N.eqb_spec c 10) as [->|_]; [congruence|reflexivity]. }
  assert (One : forall n b c r k, c <> 10%N -> repeats (ways Dot) true (S n) 0 None (mkS b (c :: r) k) =
     repeats (ways Dot) true n 0 None (mkS (c :: b) r k) ++ [mkS b (c :: r) k]).
  { intros n b c r k H. cbn [repeats]. rewrite E by exact H. cbn [filter]. unfold progress at 1. cbn [s_after length].
    replace (length r =? S (length r)) with false by (symmetry; apply Nat.eqb_neq; lia). cbn [negb flat_map app]. rewrite app_nil_r. reflexivity. }
  assert (Z : forall t n b k, ~ In 10%N t -> length t <= n ->
    (forall u v, t = u ++ v -> ways K (mkS (rev u ++ b) v k) = []) ->
    flat_map (ways K) (repeats (ways Dot) true n 0 None (mkS b t k)) = []).
  { induction t as [|c t IH]; intros n b k Ht Hn Hno.
    - pose proof (Hno [] [] eq_refl) as H0. cbn [rev app] in H0. destruct n as [|n]; cbn; rewrite H0; reflexivity.
    - cbn [length] in Hn. destruct n as [|n]; [lia|]. rewrite One by (intros ->; apply Ht; left; reflexivity).
      pose proof (Hno [] (c :: t) eq_refl) as H0. cbn [rev app] in H0.
      rewrite flat_map_app. cbn [flat_map]. rewrite H0, IH; [reflexivity| |lia|].
      + intros H. apply Ht. right. exact H.
      + intros u v ->. specialize (Hno (c :: u) v eq_refl). cbn [rev] in Hno. rewrite <- app_assoc in Hno. exact Hno. }
  induction w as [|c w IH]; intros n b t k st' Hw Ht Hn Hno [l Hf].
  - cbn [app rev] in *. destruct t as [|c t].
    + destruct n as [|n]; cbn [repeats]; [|change (ways Dot (mkS b [] k)) with (@nil state); cbn [filter flat_map app]]; cbn [flat_map]; rewrite Hf; cbn; eauto.
    + cbn [length Nat.add] in Hn. destruct n as [|n]; [lia|]. rewrite One by (intros ->; apply Ht; left; reflexivity).
      rewrite flat_map_app. rewrite Z; [|intros H; apply Ht; right; exact H|lia|].
      * cbn [flat_map app]. rewrite Hf. cbn. eauto.
      * intros u v ->. specialize (Hno (c :: u) v eq_refl ltac:(discriminate)). cbn [rev] in Hno. rewrite <- app_assoc in Hno. exact Hno.
  - cbn [length Nat.add] in Hn. destruct n as [|n]; [lia|]. cbn [app]. rewrite One by (intros ->; apply Hw; left; reflexivity).
    rewrite flat_map_app. destruct (IH n (c :: b) t k st') as [m Hm]; auto.
    + intros H. apply Hw. right. exact H.
    + lia.
    + intros u v E' Hu. specialize (Hno u v E' Hu). cbn [rev] in Hno. rewrite <- app_assoc in Hno. exact Hno.
    + exists l. cbn [rev] in Hf. rewrite <- app_assoc in Hf. exact Hf.
    + rewrite Hm. cbn [app]. eauto.
Qed.
Lemma greedy_first K w b t k st' : ~ In 10%N w -> ~ In 10%N t ->
  (forall u v, t = u ++ v -> u <> [] -> ways K (mkS (rev u ++ rev w ++ b) v k) = []) ->
  first K (mkS (rev w ++ b) t k) st' ->
  first (Cat (Rep true 0 None Dot) K) (mkS b (w ++ t) k) st'.
Proof.
  intros Hw Ht Hno Hf. unfold first. change (ways (Cat (Rep true 0 None Dot) K) (mkS b (w ++ t) k)) with
    (flat_map (ways K) (repeats (ways Dot) true (0 + length (w ++ t)) 0 None (mkS b (w ++ t) k))).
  apply greedy_run; auto. rewrite app_length. lia.
Qed.
(** All of a line can be skipped. *)
Lemma dots_in w b t k : ~ In 10%N w -> In (mkS (rev w ++ b) t k) (ways (Rep true 0 None Dot) (mkS b (w ++ t) k)).
Proof.
  intros Hw. cbn [Regexp.ways s_after Nat.add]. change (step (fun c => negb (N.eqb c 10))) with (ways Dot).
  assert (G : forall n, length w <= n -> In (mkS (rev w ++ b) t k) (repeats (ways Dot) true n 0 None (mkS b (w ++ t) k))).
  { revert b Hw. induction w as [|c w IH]; intros b Hw n Hn.
    - cbn [app rev]. destruct n as [|n]; cbn [repeats]; [left; reflexivity|]. apply in_or_app. right. left. reflexivity.
    - cbn [length] in Hn. destruct n as [|n]; [lia|]. cbn [repeats app]. apply in_or_app. left. apply in_flat_map.
      exists (mkS (c :: b) (w ++ t) k). split.
      + apply filter_In. split.
        * cbn [Regexp.ways]. unfold step. cbn [s_after s_before s_caps].
          destruct (N.eqb_spec c 10) as [->|_]; [exfalso; apply Hw; left; reflexivity|left; reflexivity].
        * unfold progress. cbn [s_after length]. apply negb_true_iff, Nat.eqb_neq. lia.
      + cbn [rev]. rewrite <- app_assoc. apply IH; [intros H; apply Hw; right; exact H|lia]. }
  apply G. rewrite app_length. lia.
Qed.

(** ** The three uses of a pattern *)
Lemma match_first r s st : first r (mkS [] s []) st -> re_match udigit uword r s = Some st.
Proof. intros [l H]. unfold re_match. rewrite H. reflexivity. Qed.
Lemma match_In r s st : re_match udigit uword r s = Some st -> In st (ways r (mkS [] s [])).
Proof. unfold re_match. destruct (ways r (mkS [] s [])); [discriminate|]. intros [= ->]. left. reflexivity. Qed.
Lemma match_None r s : re_match udigit uword r s = None <-> ways r (mkS [] s []) = [].
Proof. unfold re_match. destruct (ways r (mkS [] s [])); cbn; split; congruence. Qed.
Lemma search_In r : forall s b st, search_from udigit uword r b s = Some st ->
  exists u v, s = u ++ v /\ In st (ways r (mkS (rev u ++ b) v [])).
Proof.
  induction s as [|c s IH]; intros b st H; cbn [search_from] in H.
  - destruct (ways r (mkS b [] [])) as [|x l] eqn:E; [discriminate|]. injection H as ->. exists [], []. split; [reflexivity|].
    cbn. rewrite E. left. reflexivity.
  - destruct (ways r (mkS b (c :: s) [])) as [|x l] eqn:E.
    + destruct (IH _ _ H) as (u & v & -> & K). exists (c :: u), v. split; [reflexivity|]. cbn [rev]. rewrite <- app_assoc. exact K.
    + injection H as ->. exists [], (c :: s). split; [reflexivity|]. cbn. rewrite E. left. reflexivity.
Qed.
Lemma search_some r : forall u v b st, In st (ways r (mkS (rev u ++ b) v [])) ->
  matched (search_from udigit uword r b (u ++ v)) = true.
Proof.
  induction u as [|c u IH]; intros v b st H; cbn [app rev] in *.
  - destruct v as [|c v]; cbn [search_from]; destruct (ways r _); try (destruct H); reflexivity.
  - cbn [search_from]. destruct (ways r (mkS b (c :: u ++ v) [])); [|reflexivity]. eapply IH. rewrite <- app_assoc in H. exact H.
Qed.
Lemma search_iff r s : matched (re_search udigit uword r s) = true <->
  exists u v st, s = u ++ v /\ In st (ways r (mkS (rev u) v [])).
Proof.
  unfold re_search. split.
  - destruct (search_from udigit uword r [] s) as [st|] eqn:E; [|discriminate]. intros _.
    apply search_In in E as (u & v & -> & K). rewrite app_nil_r in K. eauto.
  - intros (u & v & st & -> & K). eapply search_some. rewrite app_nil_r. exact K.
Qed.
Lemma findall_In r : forall n b s w, In w (findall_from udigit uword r n b s) ->
  exists u v st, s = u ++ v /\ In st (ways r (mkS (rev u ++ b) v [])) /\ ext (mkS (rev u ++ b) v []) st w.
Proof.
  induction n as [|n IH]; intros b s w H; cbn [findall_from] in H; [destruct H|].
  assert (Next : forall c s', s = c :: s' -> In w (findall_from udigit uword r n (c :: b) s') ->
    exists u v st, s = u ++ v /\ In st (ways r (mkS (rev u ++ b) v [])) /\ ext (mkS (rev u ++ b) v []) st w).
  { intros c s' -> K. destruct (IH _ _ _ K) as (u & v & st & -> & A & B). exists (c :: u), v, st.
    cbn [rev]. rewrite <- app_assoc. auto. }
  destruct (ways r (mkS b s [])) as [|st l] eqn:E.
  - destruct s as [|c s']; [destruct H|]. eauto.
  - assert (Hst : In st (ways r (mkS b s []))) by (rewrite E; left; reflexivity).
    destruct (ways_ext r _ _ Hst) as [v Hv]. rewrite (ext_consumed _ _ _ Hv) in H.
    assert (Here : w = v -> exists u v st, s = u ++ v /\ In st (ways r (mkS (rev u ++ b) v [])) /\ ext (mkS (rev u ++ b) v []) st w).
    { intros ->. exists [], s, st. auto. }
    destruct v as [|c v].
    + destruct H as [<-|H]; [auto|]. destruct s as [|c s']; [destruct H|]. eauto.
    + destruct H as [<-|H]; [auto|]. destruct Hv as [H1 H2]. cbn in H1, H2. rewrite H2 in H.
      destruct (IH _ _ _ H) as (u & v' & st' & E' & A & B). rewrite E' in H1.
      exists ((c :: v) ++ u), v', st'. rewrite rev_app_distr, <- !app_assoc. cbn [rev]. rewrite <- !app_assoc in *. cbn [app] in *.
      split; [exact H1|]. auto.
Qed.
End Facts.
