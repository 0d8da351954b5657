(** Proofs about tag replacement. *)
From Coq Require Import Lia Wf_nat.
From Verif Require Import PyStr PyDict Proofs_PyRe Model_Tags Spec_Tags.

Lemma tag_shape_cons t : tag_shape t -> exists body, t = 60%N :: body ++ [62%N] /\ body <> [] /\ ~ In 60%N body /\ ~ In 62%N body.
Proof. intros [b [-> H]]. now exists b. Qed.
Lemma tag_shape_ne t : tag_shape t -> t <> [].
Proof. intros H. apply tag_shape_cons in H as [b [-> _]]. discriminate. Qed.

(** A prefix that ends before a bracket of a following tag. *)
Lemma prefix_before_angle body : ~ In 60%N body -> forall c rest b,
  c ++ 60%N :: rest = body ++ 62%N :: b -> exists b', c = body ++ 62%N :: b'.
Proof.
  induction body as [|x body IH]; intros Hn c rest b E; destruct c as [|y c]; cbn [app] in E.
  - discriminate.
  - injection E as -> E. now exists c.
  - injection E as <- E. exfalso. apply Hn. now left.
  - injection E as -> E. destruct (IH (fun h => Hn (or_intror h)) c rest b E) as [b' ->]. now exists b'.
Qed.
(** No occurrence of a tag reaches from a text into a tag behind it. *)
Lemma no_straddle t u c rest a b : tag_shape t -> tag_shape u -> c ++ u ++ rest = a ++ t ++ b ->
  length a < length c -> exists b', c = a ++ t ++ b'.
Proof.
  intros Ht Hu E Hl. apply tag_shape_cons in Ht as [bt [-> [_ [Hn _]]]]. apply tag_shape_cons in Hu as [bu [-> _]].
  revert c E Hl. induction a as [|x a IH]; intros [|y c] E Hl; cbn [length] in Hl; try lia; cbn [app] in *.
  - injection E as -> E. rewrite <- !app_assoc in E. cbn [app] in E.
    destruct (prefix_before_angle bt Hn c _ b E) as [b' ->]. exists b'. now rewrite <- app_assoc.
  - injection E as -> E. destruct (IH c E ltac:(lia)) as [b' ->]. now exists b'.
Qed.
(** Nor from a tag into what is behind it. *)
Lemma tag_prefix t u r r' : tag_shape t -> tag_shape u -> t ++ r = u ++ r' -> t = u.
Proof.
  intros Ht Hu E. apply tag_shape_cons in Ht as [b [-> [_ [_ H1]]]]. apply tag_shape_cons in Hu as [b' [-> [_ [_ H2]]]].
  cbn [app] in E. injection E as E. f_equal. rewrite <- !app_assoc in E. cbn [app] in E. revert b' H2 E.
  induction b as [|x b IH]; intros [|y b'] H2 E; cbn [app] in *.
  - reflexivity.
  - injection E as E1 E2. exfalso. apply H2. now left.
  - injection E as E1 E2. exfalso. apply H1. now left.
  - injection E as E1 E2. subst y. f_equal. apply IH; [intros h; apply H1; now right|intros h; apply H2; now right|exact E2].
Qed.

Lemma contains_false t s : contains t s = false <-> forall a b, s <> a ++ t ++ b.
Proof.
  split.
  - intros H a b ->. assert (contains t (a ++ t ++ b) = true) by (apply contains_app; now exists a, b). congruence.
  - intros H. destruct (contains t s) eqn:E; [|reflexivity]. apply contains_app in E as [a [b E]]. now apply H in E.
Qed.

(** ** Removing a tag *)
Lemma replace_chunk t r c rest : tag_shape t -> (forall a b, c <> a ++ t ++ b) ->
  replace t r (c ++ t ++ rest) = c ++ r ++ replace t r rest.
Proof.
  intros Ht. induction c as [|x c IH]; intros H.
  - cbn [app]. pose proof (tag_shape_ne t Ht). destruct t as [|y t]; [congruence|]. apply replace_hit.
  - cbn [app]. rewrite replace_step; [|now apply tag_shape_ne|].
    + rewrite IH; [reflexivity|]. intros a b ->. now apply (H (x :: a) b).
    + destruct (startswith t (x :: c ++ t ++ rest)) eqn:E; [|reflexivity]. apply startswith_app in E as [z E].
      destruct (no_straddle t t (x :: c) rest [] z Ht Ht E) as [b' E']; [cbn; lia|]. now apply (H [] b') in E'.
Qed.
Lemma replace_last t r c : tag_shape t -> (forall a b, c <> a ++ t ++ b) -> replace t r c = c.
Proof.
  intros Ht. induction c as [|x c IH]; intros H.
  - pose proof (tag_shape_ne t Ht). now destruct t.
  - rewrite replace_step; [|now apply tag_shape_ne|].
    + f_equal. apply IH. intros a b ->. now apply (H (x :: a) b).
    + destruct (startswith t (x :: c)) eqn:E; [|reflexivity]. apply startswith_app in E as [z E]. now apply (H [] z) in E.
Qed.
Lemma join_two sep (w v : str) l : join sep (w :: v :: l) = w ++ sep ++ join sep (v :: l).
Proof. reflexivity. Qed.
Lemma removed_replace t s s' : tag_shape t -> removed t s s' -> replace t [] s = s'.
Proof.
  intros Ht [chunks [Hne [-> [Hc ->]]]]. destruct chunks as [|c l]; [congruence|]. clear Hne. revert c Hc.
  induction l as [|d l IH]; intros c Hc.
  - cbn [join concat]. rewrite app_nil_r. apply replace_last; [exact Ht|]. intros a b. apply Hc. now left.
  - rewrite join_two, replace_chunk; [|exact Ht|intros a b; apply Hc; now left]. cbn [app]. cbn [concat]. f_equal.
    apply IH. intros x a b Hx. apply Hc. now right.
Qed.
Lemma first_occurrence t s : tag_shape t -> (exists a b, s = a ++ t ++ b) -> exists a b, s = a ++ t ++ b /\ forall x y, a <> x ++ t ++ y.
Proof.
  intros Ht. induction s as [|c s IH]; intros [a [b E]].
  - pose proof (tag_shape_ne t Ht). destruct a, t; try discriminate. congruence.
  - destruct (startswith t (c :: s)) eqn:Es.
    + apply startswith_app in Es as [b' E']. exists [], b'. split; [exact E'|]. intros x y H.
      pose proof (tag_shape_ne t Ht). destruct x, t; try discriminate. congruence.
    + destruct a as [|a0 a]; [assert (startswith t (c :: s) = true) by (apply startswith_app; now exists b); congruence|].
      injection E as <- E. destruct IH as [a' [b' [E' Hm]]]; [now exists a, b|]. exists (c :: a'), b'. split; [now rewrite E'|].
      intros [|x0 x] y H.
      * assert (startswith t (c :: s) = true); [|congruence]. rewrite E'. change (c :: a' ++ t ++ b') with ((c :: a') ++ t ++ b'). rewrite H.
        apply startswith_app. exists (y ++ t ++ b'). cbn [app]. now rewrite <- app_assoc.
      * injection H as _ H. now apply Hm in H.
Qed.
Lemma removed_exists t : tag_shape t -> forall s, exists s', removed t s s'.
Proof.
  intros Ht s. induction s as [s IH] using (induction_ltof1 _ (@length N)).
  destruct (contains t s) eqn:E.
  - apply contains_app in E. destruct (first_occurrence t s Ht E) as [a [b [Es Ha]]].
    destruct (IH b) as [b' [chunks [Hne [Hj [Hc Hb]]]]].
    { unfold ltof. rewrite Es, !app_length. pose proof (tag_shape_ne t Ht). destruct t; [congruence|]. cbn. lia. }
    exists (a ++ b'), (a :: chunks). repeat split.
    + discriminate.
    + destruct chunks as [|d l]; [congruence|]. rewrite join_two, <- Hj. exact Es.
    + intros c x y [<-|Hin]; [apply Ha|now apply Hc].
    + now rewrite Hb.
  - exists s, [s]. repeat split; [discriminate| |now cbn; rewrite app_nil_r].
    intros c a b [<-|[]]. now apply contains_false.
Qed.
Lemma meta_removed_fun defs : forall s vs s', tags_ok defs -> meta_removed defs s vs s' -> get_metatags defs s = (vs, s').
Proof.
  intros s vs s' Hok H. induction H as [s|tag v defs s vs s' Ha H IH|tag v defs s s1 vs s' Hf Hr H IH]; cbn [get_metatags].
  - reflexivity.
  - rewrite (proj2 (contains_false tag s) Ha). apply IH. intros t Ht. apply Hok. now right.
  - assert (contains tag s = true) as -> by now apply contains_app.
    rewrite (removed_replace tag s s1); [|apply Hok; now left|exact Hr]. rewrite IH; [reflexivity|]. intros t Ht. apply Hok. now right.
Qed.
Lemma meta_removed_exists defs : tags_ok defs -> forall s, exists vs s', meta_removed defs s vs s'.
Proof.
  induction defs as [|[tag v] defs IH]; intros Hok s.
  - exists [], s. constructor.
  - assert (Hok' : tags_ok defs) by (intros t Ht; apply Hok; now right).
    destruct (contains tag s) eqn:E.
    + destruct (removed_exists tag (Hok tag (or_introl eq_refl)) s) as [s1 H1]. destruct (IH Hok' s1) as [vs [s' H]].
      exists (v ++ vs), s'. apply (MR_found tag v defs s s1 vs s'); [now apply contains_app|exact H1|exact H].
    + destruct (IH Hok' s) as [vs [s' H]]. exists vs, s'. apply MR_absent; [now apply contains_false|exact H].
Qed.

(** ** Splitting *)
Lemma take_while_all (p : char -> bool) a x b : (forall c, In c a -> p c = true) -> p x = false ->
  take_while p (a ++ x :: b) = a /\ drop_while p (a ++ x :: b) = x :: b.
Proof.
  intros Ha Hx. induction a as [|c a IH]; cbn [app take_while drop_while]; [now rewrite Hx|].
  rewrite (Ha c (or_introl eq_refl)). destruct IH as [-> ->]; [intros d Hd; apply Ha; now right|]. now split.
Qed.
Lemma tag_at_hit t r : tag_shape t -> tag_at (t ++ r) = Some t.
Proof.
  intros H. apply tag_shape_cons in H as [body [-> [Hne [H1 H2]]]]. cbn [app]. unfold tag_at.
  change (N.eqb 60 60) with true. cbn [app].
  assert (Hp : forall c, In c body -> negb (angle c) = true).
  { intros c Hc. unfold angle. destruct (N.eqb_spec c 60) as [->|]; [contradiction|]. destruct (N.eqb_spec c 62) as [->|]; [contradiction|]. reflexivity. }
  destruct (take_while_all (fun x => negb (angle x)) body 62%N r Hp eq_refl) as [E1 E2].
  rewrite <- app_assoc. cbn [app]. rewrite E1, E2. destruct body; [congruence|]. reflexivity.
Qed.
Lemma take_while_forall {A} (p : A -> bool) s x : In x (take_while p s) -> p x = true.
Proof. induction s as [|c s IH]; cbn [take_while]; [easy|]. destruct (p c) eqn:E; [|easy]. intros [<-|H]; auto. Qed.
Lemma tag_at_Some s t : tag_at s = Some t -> tag_shape t /\ exists r, s = t ++ r.
Proof.
  unfold tag_at. destruct s as [|c r]; [discriminate|]. destruct (N.eqb_spec c 60) as [->|]; [|discriminate].
  pose proof (take_drop_while (fun x => negb (angle x)) r) as E. pose proof (take_while_forall (fun x => negb (angle x)) r) as Hp.
  destruct (take_while _ r) as [|b body]; [discriminate|]. destruct (drop_while _ r) as [|d r']; [discriminate|].
  destruct (N.eqb_spec d 62) as [->|]; [|discriminate]. intros H. injection H as <-. split.
  - exists (b :: body). repeat split; [discriminate|..]; intros Hin; apply Hp in Hin; discriminate.
  - exists r'. rewrite <- E. cbn [app]. now rewrite <- app_assoc.
Qed.
Lemma split_skip t : forall r cur, split_tags (t ++ r) (length t) cur = split_tags r 0 cur.
Proof. induction t as [|c t IH]; intros r cur; [reflexivity|]. cbn [app length split_tags]. apply IH. Qed.
Lemma split_hit t r cur : tag_shape t -> split_tags (t ++ r) 0 cur = rev cur :: t :: split_tags r 0 [].
Proof.
  intros H. pose proof (tag_at_hit t r H) as E. destruct t as [|c t]; [now apply tag_shape_ne in H|].
  cbn [app] in *. cbn [split_tags]. rewrite E. cbn [length]. rewrite Nat.sub_succ, Nat.sub_0_r, split_skip. reflexivity.
Qed.
Lemma split_miss c r cur : tag_at (c :: r) = None -> split_tags (c :: r) 0 cur = split_tags r 0 (c :: cur).
Proof. intros H. cbn [split_tags]. now rewrite H. Qed.
Lemma split_head s k : forall cur, exists x l, split_tags s k cur = (rev cur ++ x) :: l.
Proof.
  revert k. induction s as [|c s IH]; intros k cur; cbn [split_tags].
  - exists [], []. now rewrite app_nil_r.
  - destruct k; [|apply IH]. destruct (tag_at (c :: s)) as [t|]; [exists [], (t :: split_tags s (length t - 1) []); now rewrite app_nil_r|].
    destruct (IH 0 (c :: cur)) as [x [l ->]]. exists (c :: x), l. cbn [rev]. now rewrite <- app_assoc.
Qed.

Section Put.
Variables (tags : dict str) (pre inter post : str).
Hypothesis tags_shape : tags_ok tags.
Definition val (t : str) : str := match dget t tags with Some v => v | None => [] end.
Definition pieces_ok (l : list (str * str)) : Prop := Forall (fun p => In (fst p) (dkeys tags) /\ plain tags (snd p)) l.

Lemma plain_not_key s : plain tags s -> dget s tags = None.
Proof. intros H. apply dget_None. intros Hin. apply (H s [] [] Hin). now rewrite app_nil_r. Qed.
Lemma plain_part a b c : plain tags (a ++ b ++ c) -> plain tags b.
Proof. intros H t x y Ht ->. apply (H t (a ++ x) (y ++ c) Ht). now rewrite <- !app_assoc. Qed.
Lemma key_get t : In t (dkeys tags) -> dget t tags = Some (val t) /\ dhas t tags = true.
Proof.
  intros H. unfold val. split; [|now apply dhas_In]. destruct (dget t tags) eqn:E; [reflexivity|]. now apply dget_None in E.
Qed.
(** A tag at the front of a text followed by defined tags lies in the text. *)
Lemma tag_inside c text l t : pieces_ok l -> tag_at ((c :: text) ++ written l) = Some t -> exists text', c :: text = t ++ text'.
Proof.
  intros Hl H. apply tag_at_Some in H as [Ht [r E]]. destruct l as [|[u v] l].
  - cbn [written] in E. rewrite app_nil_r in E. now exists r.
  - inversion Hl as [|? ? [Hu _] _]; subst. cbn [fst] in Hu. cbn [written] in E.
    destruct (no_straddle t u (c :: text) (v ++ written l) [] r Ht (tags_shape u Hu) E) as [b' E']; [cbn; lia|]. now exists b'.
Qed.
Lemma inter_test text l : plain tags text -> pieces_ok l ->
  (match split_tags (text ++ written l) 0 [] with [] :: next :: _ => if dhas next tags then inter else [] | _ => [] end)
  = match text, l with [], _ :: _ => inter | _, _ => [] end.
Proof.
  intros Hp Hl. destruct text as [|c text].
  - cbn [app]. destruct l as [|[u v] l]; [reflexivity|]. inversion Hl as [|? ? [Hu _] _]; subst. cbn [fst] in Hu. cbn [written].
    rewrite split_hit by now apply tags_shape. cbn [rev]. now rewrite (proj2 (key_get u Hu)).
  - destruct (tag_at ((c :: text) ++ written l)) as [t|] eqn:E.
    + destruct (tag_inside c text l t Hl E) as [text' Et]. apply tag_at_Some in E as [Ht _]. rewrite Et, <- app_assoc, split_hit by exact Ht.
      cbn [rev]. assert (dhas t tags = false) as ->; [|now destruct l].
      apply dhas_notIn. intros Hin. apply (Hp t [] text' Hin). exact Et.
    + cbn [app] in *. rewrite split_miss by exact E. destruct (split_head (text ++ written l) 0 [c]) as [x [m ->]]. now destruct l.
Qed.
Lemma put_split : forall n text l cur, length text + length (written l) <= n ->
  plain tags (rev cur ++ text) -> pieces_ok l ->
  put_tags tags pre inter post (split_tags (text ++ written l) 0 cur) = rev cur ++ text ++ expanded val pre inter post l.
Proof.
  induction n as [n IH] using lt_wf_ind. intros text l cur Hn Hp Hl.
  assert (Hcur : dget (rev cur) tags = None). { apply plain_not_key. intros t a b Ht E. apply (Hp t a (b ++ text) Ht). now rewrite E, <- !app_assoc. }
  destruct text as [|c text].
  - cbn [app]. destruct l as [|[u v] l].
    + cbn [written split_tags put_tags expanded]. rewrite Hcur, !app_nil_r. reflexivity.
    + inversion Hl as [|? ? [Hu Hv] Hl']; subst. cbn [fst snd] in *. cbn [written] in *. rewrite split_hit by now apply tags_shape.
      cbn [put_tags]. rewrite Hcur, (proj1 (key_get u Hu)), (inter_test v l Hv Hl'). f_equal. cbn [expanded].
      rewrite (IH (length v + length (written l))) with (cur := []); [|..|exact Hv|exact Hl']; [now rewrite <- !app_assoc| |lia].
      cbn [length app] in Hn. rewrite !app_length in Hn. pose proof (tag_shape_ne u (tags_shape u Hu)). destruct u; [congruence|]. cbn [length] in Hn. lia.
  - destruct (tag_at ((c :: text) ++ written l)) as [t|] eqn:E.
    + destruct (tag_inside c text l t Hl E) as [text' Et]. apply tag_at_Some in E as [Ht _]. rewrite Et in *. rewrite <- app_assoc, split_hit by exact Ht.
      cbn [put_tags]. rewrite Hcur.
      assert (dget t tags = None) as ->. { apply plain_not_key. apply (plain_part (rev cur) t text'). exact Hp. }
      rewrite app_length in Hn. pose proof (tag_shape_ne t Ht). assert (1 <= length t) by (destruct t; [congruence|cbn; lia]).
      rewrite (IH (length text' + length (written l))) with (cur := []); [|lia|lia| |exact Hl].
      * cbn [rev app]. now rewrite <- !app_assoc.
      * cbn [rev app]. apply (plain_part (rev cur ++ t) text' []). now rewrite app_nil_r, <- app_assoc.
    + cbn [app] in *. rewrite split_miss by exact E. cbn [length] in Hn.
      rewrite (IH (length text + length (written l))) with (cur := c :: cur); [|lia|lia| |exact Hl].
      * cbn [rev]. now rewrite <- !app_assoc.
      * cbn [rev]. now rewrite <- app_assoc.
Qed.
Theorem put_expanded text l : plain tags text -> pieces_ok l ->
  put_tags tags pre inter post (split_tags (text ++ written l) 0 []) = text ++ expanded val pre inter post l.
Proof. intros Hp Hl. now apply (put_split _ text l [] (le_n _)). Qed.

(** Every text is such a pattern. *)
Lemma first_key s : plain tags s \/ exists a t b, s = a ++ t ++ b /\ In t (dkeys tags) /\ plain tags a.
Proof.
  induction s as [|c s IH].
  - left. intros t a b Ht E. apply tags_shape, tag_shape_ne in Ht. destruct a, t; try discriminate. congruence.
  - destruct (existsb (fun t => startswith t (c :: s)) (dkeys tags)) eqn:E.
    + apply existsb_exists in E as [t [Ht E]]. apply startswith_app in E as [b E]. right. exists [], t, b. repeat split; auto.
      intros u x y Hu Ex. apply tags_shape, tag_shape_ne in Hu. destruct x, u; try discriminate. congruence.
    + assert (Hno : forall t b, In t (dkeys tags) -> c :: s <> t ++ b).
      { intros t b Ht Eb. assert (existsb (fun t => startswith t (c :: s)) (dkeys tags) = true); [|congruence].
        apply existsb_exists. exists t. split; [exact Ht|]. apply startswith_app. now exists b. }
      destruct IH as [H|[a [t [b [Es [Ht Ha]]]]]].
      * left. intros t [|x a] b Ht Eb; [now apply (Hno t b Ht)|]. injection Eb as _ Eb. now apply (H t a b Ht).
      * right. exists (c :: a), t, b. repeat split; [now rewrite Es|exact Ht|].
        intros u [|x y] z Hu Eb; [|injection Eb as _ Eb; now apply (Ha u y z Hu)].
        cbn [app] in Eb. apply (Hno u (z ++ t ++ b) Hu). rewrite Es. change (c :: a ++ t ++ b) with ((c :: a) ++ t ++ b). rewrite Eb. now rewrite <- app_assoc.
Qed.
Theorem pattern_exists : forall s, exists text l, s = text ++ written l /\ plain tags text /\ pieces_ok l.
Proof.
  intros s. induction s as [s IH] using (induction_ltof1 _ (@length N)). destruct (first_key s) as [H|[a [t [b [Es [Ht Ha]]]]]].
  - exists s, []. repeat split; [now cbn; rewrite app_nil_r|exact H|constructor].
  - destruct (IH b) as [text [l [Eb [Hp Hl]]]].
    { unfold ltof. rewrite Es, !app_length. pose proof (tag_shape_ne t (tags_shape t Ht)). destruct t; [congruence|]. cbn. lia. }
    exists a, ((t, text) :: l). repeat split; [now cbn [written]; rewrite <- Eb|exact Ha|]. constructor; [now split|exact Hl].
Qed.
End Put.

Theorem replace_tags_spec pre inter post tags s pv s1 iv s2 qv text l :
  tags_ok pre -> tags_ok inter -> tags_ok post -> tags_ok tags ->
  meta_removed pre s pv s1 -> meta_removed inter s1 iv s2 -> meta_removed post s2 qv (text ++ written l) ->
  plain tags text -> (forall tag t, In (tag, t) l -> In tag (dkeys tags) /\ plain tags t) ->
  replace_tags pre inter post tags s =
  text ++ expanded (fun t => match dget t tags with Some v => v | None => [] end) pv iv qv l.
Proof.
  intros H1 H2 H3 H4 M1 M2 M3 Hp Hl. unfold replace_tags.
  rewrite (meta_removed_fun _ _ _ _ H1 M1), (meta_removed_fun _ _ _ _ H2 M2), (meta_removed_fun _ _ _ _ H3 M3).
  apply put_expanded; [exact H4|exact Hp|]. apply Forall_forall. intros [tag t] Hin. now apply Hl.
Qed.
Theorem replace_tags_total pre inter post tags s : tags_ok pre -> tags_ok inter -> tags_ok post -> tags_ok tags ->
  exists pv s1 iv s2 qv text l, meta_removed pre s pv s1 /\ meta_removed inter s1 iv s2 /\
    meta_removed post s2 qv (text ++ written l) /\ plain tags text /\
    (forall tag t, In (tag, t) l -> In tag (dkeys tags) /\ plain tags t).
Proof.
  intros H1 H2 H3 H4. destruct (meta_removed_exists pre H1 s) as [pv [s1 M1]]. destruct (meta_removed_exists inter H2 s1) as [iv [s2 M2]].
  destruct (meta_removed_exists post H3 s2) as [qv [s3 M3]]. destruct (pattern_exists tags H4 s3) as [text [l [-> [Hp Hl]]]].
  exists pv, s1, iv, s2, qv, text, l. repeat split; auto; unfold pieces_ok in Hl; rewrite Forall_forall in Hl; now apply (Hl (tag, t)).
Qed.

(** ** Definitions *)
Lemma last_defines_snoc lines line name value :
  last_defines (lines ++ [line]) name value <->
  split_ws_max 1 line = [name; value] \/ ((forall v, split_ws_max 1 line <> [name; v]) /\ last_defines lines name value).
Proof.
  split.
  - intros [before [l [after [E [Hl Ha]]]]]. destruct after as [|y after _] using rev_ind.
    + apply app_inj_tail in E as [_ ->]. now left.
    + rewrite app_comm_cons, app_assoc in E. apply app_inj_tail in E as [-> ->]. right. split.
      * intros v. apply Ha. apply in_or_app. right. now left.
      * exists before, l, after. repeat split; auto. intros x v Hx. apply Ha. apply in_or_app. now left.
  - intros [H|[Hn [before [l [after [-> [Hl Ha]]]]]]].
    + exists lines, line, []. split; [reflexivity|]. split; [exact H|]. intros l v [].
    + exists before, l, (after ++ [line]). repeat split; [now rewrite <- app_assoc|exact Hl|].
      intros x v Hx. apply in_app_or in Hx as [Hx|[<-|[]]]; [now apply Ha|apply Hn].
Qed.
Theorem prepare_spec start stop which lines name value :
  let full := start ++ (if streqb which ($"tag") then [] else which ++ $" ") ++ name ++ stop in
  dget full (prepare_tags start stop which lines) = Some value <-> last_defines lines name value.
Proof.
  intros full. unfold prepare_tags. set (extra := if streqb which ($"tag") then [] else which ++ $" ") in *.
  set (step := fun (d : dict str) (line : str) => _). revert value.
  induction lines as [|line lines IH] using rev_ind; intros value.
  - split; [discriminate|]. intros [b [l [a [E _]]]]. now destruct b.
  - rewrite fold_left_app. cbn [fold_left]. rewrite last_defines_snoc, <- IH. unfold step at 1.
    destruct (split_ws_max 1 line) as [|x [|y [|z w]]]; try (split; [intros H; right; split; [intros v; discriminate|exact H]|intros [H|[_ H]]; [discriminate|exact H]]).
    rewrite dget_dset. destruct (streqb_spec (start ++ extra ++ x ++ stop) full) as [E|E].
    + assert (x = name) as ->. { unfold full in E. apply app_inv_head in E. apply app_inv_head in E. now apply app_inv_tail in E. }
      split; [intros H; injection H as ->; now left|]. intros [H|[H _]]; [now injection H as ->|]. now destruct (H y).
    + assert (x <> name). { intros ->. apply E. reflexivity. }
      split; [intros H'; right; split; [congruence|exact H']|]. intros [H'|[_ H']]; [congruence|exact H'].
Qed.
Lemma dkeys_dget {V} k (d : dict V) : In k (dkeys d) -> exists v, dget k d = Some v.
Proof. intros H. destruct (dget k d) eqn:E; [eauto|]. now apply dget_None in E. Qed.
Theorem prepare_keys start stop which lines t :
  In t (dkeys (prepare_tags start stop which lines)) ->
  exists name, t = start ++ (if streqb which ($"tag") then [] else which ++ $" ") ++ name ++ stop /\ exists value, last_defines lines name value.
Proof.
  unfold prepare_tags. set (extra := if streqb which ($"tag") then [] else which ++ $" ") in *.
  set (step := fun (d : dict str) (line : str) => _).
  assert (K : forall l d, In t (dkeys (fold_left step l d)) -> In t (dkeys d) \/ exists name, t = start ++ extra ++ name ++ stop).
  { induction l as [|line l IH]; intros d H; [now left|]. cbn [fold_left] in H. destruct (IH _ H) as [H'|H']; [|now right].
    unfold step in H'. destruct (split_ws_max 1 line) as [|x [|y [|z w]]]; try now left.
    apply dkeys_dget in H' as [v H']. rewrite dget_dset in H'. destruct (streqb_spec (start ++ extra ++ x ++ stop) t) as [<-|]; [right; now exists x|].
    left. apply dget_In in H'. now apply (in_map fst) in H'. }
  intros H. destruct (K lines [] H) as [[]|[name ->]]. exists name. split; [reflexivity|].
  apply dkeys_dget in H as [v H]. exists v. now apply (prepare_spec start stop which lines name v).
Qed.

(** ** The rules listed *)
Lemma replace_rules_spec f names : forall results out, NoDup names -> replace_rules f names results = Some out ->
  forall n, dget n out = match dget n results with
                         | Some (Some v) => Some (Some (if mem_str n names then f v else v))
                         | x => x
                         end.
Proof.
  induction names as [|m rest IH]; intros results out Hnd H n; cbn [replace_rules] in H.
  - injection H as <-. destruct (dget n results) as [[v|]|]; reflexivity.
  - inversion Hnd as [|? ? Hm Hnd']; subst. change (mem_str n (m :: rest)) with (streqb n m || mem_str n rest).
    destruct (dget m results) as [[v|]|] eqn:E; [|discriminate|].
    + rewrite (IH _ _ Hnd' H n), dget_dset. destruct (streqb_spec m n) as [<-|Hne].
      * rewrite E, streqb_refl. apply mem_str_notIn in Hm. rewrite Hm. reflexivity.
      * assert (streqb n m = false) as -> by (apply streqb_neq; congruence). reflexivity.
    + rewrite (IH _ _ Hnd' H n). destruct (streqb_spec n m) as [->|]; [now rewrite E|reflexivity].
Qed.
Lemma replace_rules_fail f names : forall results, replace_rules f names results = None <-> exists n, In n names /\ dget n results = Some None.
Proof.
  induction names as [|m rest IH]; intros results; cbn [replace_rules].
  - split; [discriminate|]. intros [n [[] _]].
  - destruct (dget m results) as [[v|]|] eqn:E.
    + rewrite IH. split; intros [n [Hn H]].
      * rewrite dget_dset in H. destruct (streqb m n) eqn:Em; [discriminate|]. exists n. split; [now right|exact H].
      * exists n. destruct Hn as [->|Hn]; [congruence|]. split; [exact Hn|]. rewrite dget_dset. destruct (streqb_spec m n) as [<-|]; [congruence|exact H].
    + split; [|reflexivity]. intros _. exists m. split; [now left|exact E].
    + rewrite IH. split; intros [n [Hn H]]; exists n; (split; [|exact H]); [now right|]. destruct Hn as [->|Hn]; [congruence|exact Hn].
Qed.

Lemma first_word_nonempty line name value : split_ws_max 1 line = [name; value] -> name <> [].
Proof.
  cbn [split_ws_max]. destruct (drop_while is_space line) as [|c t] eqn:E; [discriminate|].
  apply drop_while_head in E. cbn [take_while]. rewrite E. cbn [negb]. intros H. injection H as <- _. discriminate.
Qed.
Lemma prepare_ok which lines : (which = $"tag" \/ (~ In 60%N which /\ ~ In 62%N which)) ->
  (forall name value, last_defines lines name value -> ~ In 60%N name /\ ~ In 62%N name) ->
  tags_ok (prepare_tags ($"<") ($">") which lines).
Proof.
  intros Hw Hn t Ht. apply prepare_keys in Ht as [name [-> [value Hv]]]. destruct (Hn name value Hv) as [H1 H2].
  assert (Hne : name <> []). { destruct Hv as [b [l [a [_ [Hl _]]]]]. now apply first_word_nonempty in Hl. }
  destruct (streqb_spec which ($"tag")) as [_|Hne'].
  - exists name. now repeat split.
  - destruct Hw as [Hw|[H3 H4]]; [contradiction|]. exists (which ++ $" " ++ name). rewrite <- !app_assoc. repeat split.
    + destruct which; discriminate.
    + intros H. apply in_app_or in H as [H|[H|H]]; [contradiction|discriminate|contradiction].
    + intros H. apply in_app_or in H as [H|[H|H]]; [contradiction|discriminate|contradiction].
Qed.
