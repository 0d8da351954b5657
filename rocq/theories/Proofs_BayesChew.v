(** Proofs about Model_BayesChew. *)
From Verif Require Import PyStr Regexp Spec_Regexp RegexpSub Model_Received Model_MimeEval Model_BayesChew Spec_BayesChew Proofs_Regexp Proofs_RegexpLang Proofs_RegexpSub.
From Coq Require Import Lia.
Open Scope nat_scope.

(** ** Words between blanks *)
Lemma words_aux_app s : forall t cur c, is_space c = true -> words_aux (s ++ c :: t) cur = words_aux s cur ++ words_aux t [].
Proof.
  induction s as [|x s IH]; intros t cur c H; cbn [app words_aux].
  - rewrite H. destruct cur; reflexivity.
  - destruct (is_space x); [|apply IH; exact H]. destruct cur; [apply IH; exact H|]. cbn [app]. f_equal. apply IH. exact H.
Qed.
Lemma words_blank_l w t : forallb is_space w = true -> words (w ++ t) = words t.
Proof. unfold words. induction w as [|c w IH]; cbn; [reflexivity|]. intros H. apply andb_true_iff in H as [-> H]. apply IH. exact H. Qed.
Lemma words_blank_mid p w t : w <> [] -> forallb is_space w = true -> words (p ++ w ++ t) = words p ++ words t.
Proof.
  intros N H. destruct w as [|c w]; [congruence|]. cbn [forallb] in H. apply andb_true_iff in H as [C H]. cbn [app]. unfold words. rewrite words_aux_app by exact C.
  f_equal. apply words_blank_l. exact H.
Qed.
Lemma break_space c : is_break c = true -> is_space c = true.
Proof.
  intros H. unfold is_break in H. apply existsb_exists in H as (x & X & E). apply N.eqb_eq in E. subst x. cbn [In] in X. repeat (destruct X as [<-|X]; [reflexivity|]). destruct X.
Qed.
Lemma words_lines s : forall cur cr, (cr = true -> cur = []) -> flat_map words (lines_aux s cur cr) = words (rev cur ++ s).
Proof.
  induction s as [|c s IH]; intros cur cr H; cbn [lines_aux].
  - rewrite app_nil_r. destruct cur; [reflexivity|]. cbn [flat_map]. apply app_nil_r.
  - destruct (cr && N.eqb c 10) eqn:E.
    + apply andb_true_iff in E as [E1 E2]. rewrite (H E1). apply N.eqb_eq in E2. subst c. rewrite IH by discriminate. reflexivity.
    + destruct (is_break c) eqn:B.
      * cbn [flat_map]. rewrite IH by reflexivity. cbn [rev app]. unfold words. rewrite (words_aux_app (rev cur) s [] c (break_space c B)). reflexivity.
      * rewrite IH by discriminate. cbn [rev]. rewrite <- app_assoc. reflexivity.
Qed.

(** ** Rows *)
Lemma split_first {A} (c : A) b y r z : ~ In c r -> b ++ c :: y = r ++ c :: z -> (b = r /\ y = z) \/ exists b', b = r ++ c :: b' /\ z = b' ++ c :: y.
Proof.
  revert b. induction r as [|x r IH]; intros b N E; cbn [app] in E.
  - destruct b as [|d b]; cbn [app] in E; injection E; [intros ->; auto|]. intros <- ->. right. exists b. split; reflexivity.
  - destruct b as [|d b]; cbn [app] in E; injection E.
    + intros _ ->. destruct N. left. reflexivity.
    + intros E' ->. destruct (IH b) as [[-> ->]|(b' & -> & ->)]; [intros K; apply N; right; exact K|exact E'|left; auto|right; exists b'; auto].
Qed.
Lemma row_no_break r c : row r -> In c r -> is_break c = false.
Proof.
  intros [_ H] I. destruct (is_break c) eqn:E; [|reflexivity]. exfalso. apply (H c I). unfold is_break in E. apply existsb_exists in E as (x & X & E). apply N.eqb_eq in E. subst x.
  revert X. vm_compute. tauto.
Qed.
Lemma row_no_nl r : row r -> ~ In 10%N r.
Proof. intros R I. pose proof (row_no_break _ _ R I) as B. discriminate B. Qed.
Lemma lines_row r : forall cur rest, (forall c, In c r -> is_break c = false) -> lines_aux (r ++ rest) cur false = lines_aux rest (rev r ++ cur) false.
Proof.
  induction r as [|c r IH]; intros cur rest H; [reflexivity|]. cbn [app lines_aux andb rev]. rewrite (H c (or_introl eq_refl)).
  rewrite IH by (intros d D; apply H; right; exact D). rewrite <- app_assoc. reflexivity.
Qed.
Lemma splitlines_rows rows : Forall row rows -> splitlines (join [10%N] rows) = rows.
Proof.
  unfold splitlines. induction 1 as [|r rows R F IH]; [reflexivity|]. cbn [join]. destruct rows as [|r2 rows].
  - rewrite <- (app_nil_r r) at 1. rewrite lines_row by (intros c; apply row_no_break; exact R). rewrite app_nil_r. cbn [lines_aux].
    destruct R as [(c & I & _) _]. destruct (rev r) eqn:E; [apply in_rev in I; rewrite E in I; destruct I|]. rewrite <- E, rev_involutive. reflexivity.
  - rewrite lines_row by (intros c; apply row_no_break; exact R). rewrite app_nil_r. change ([10%N] ++ join [10%N] (r2 :: rows)) with (10%N :: join [10%N] (r2 :: rows)).
    cbn [lines_aux andb]. change (is_break 10) with true. cbn [N.eqb]. rewrite rev_involutive. f_equal. exact IH.
Qed.
Lemma rows_apart rows : Forall row rows -> forall b x a, join [10%N] rows = b ++ 10%N :: x ++ 10%N :: a -> forallb is_space x = false.
Proof.
  induction 1 as [|r rows R F IH]; intros b x a E; [destruct b; discriminate|]. cbn [join] in E. destruct rows as [|r2 rows].
  - destruct (row_no_nl r R). rewrite E. apply in_or_app. right. left. reflexivity.
  - change ([10%N] ++ join [10%N] (r2 :: rows)) with (10%N :: join [10%N] (r2 :: rows)) in E. symmetry in E. apply split_first in E as [[-> E]|(b' & -> & E)]; [| |apply row_no_nl; exact R].
    + inversion F as [|? ? R2 F']; subst. assert (K : exists t, x = r2 ++ t).
      { cbn [join] in E. destruct rows as [|r3 rows].
        - destruct (row_no_nl r2 R2). rewrite <- E. apply in_or_app. right. left. reflexivity.
        - change ([10%N] ++ join [10%N] (r3 :: rows)) with (10%N :: join [10%N] (r3 :: rows)) in E. apply split_first in E as [[-> E]|(b' & -> & E)]; [exists []; rewrite app_nil_r; reflexivity|eauto|apply row_no_nl; exact R2]. }
      destruct K as [t ->]. destruct R2 as [(c & I & S) _]. rewrite forallb_app. destruct (forallb is_space r2) eqn:B; [|reflexivity]. rewrite forallb_forall in B. rewrite (B c I) in S. discriminate.
    + eapply IH. exact E.
Qed.
Lemma rows_chars rows c : Forall row rows -> In c (join [10%N] rows) -> c = 10%N \/ is_break c = false.
Proof.
  induction 1 as [|r rows R F IH]; intros I; [destruct I|]. cbn [join] in I. destruct rows as [|r2 rows]; [right; eapply row_no_break; eauto|].
  apply in_app_or in I as [I|I]; [right; eapply row_no_break; eauto|]. destruct I as [<-|I]; [left; reflexivity|]. apply IH. exact I.
Qed.

Section Chew.
Variable udigit uword : char -> bool.
Notation ways := (ways udigit uword).
Notation reads := (reads udigit uword).
Notation re_sub := (re_sub udigit uword).

(** ** The lines of the body *)
Lemma sub_words r t : (forall b w a, reads r b w a -> forallb is_space w = true) -> t <> [] -> forallb is_space t = true ->
  forall b s out, replaced udigit uword r (is_t t) b s out -> forall p, words (p ++ out) = words (p ++ s).
Proof.
  intros R T1 T2 b s out H. induction H as [b|b c s out N H IH|b w a u out W1 W2 U H IH]; intros p.
  - reflexivity.
  - specialize (IH (p ++ [c])). rewrite <- !app_assoc in IH. exact IH.
  - unfold is_t in U. subst u. rewrite !words_blank_mid; eauto. f_equal. apply (IH []).
Qed.
Lemma times_blank (P : str -> str -> str -> Prop) : (forall b w a, P b w a -> forallb is_space w = true) -> forall n b w a, times P n b w a -> forallb is_space w = true.
Proof.
  intros H. induction n as [|n IH]; intros b w a T; cbn [times] in T; [subst; reflexivity|].
  destruct T as (u & v & -> & T1 & T2). rewrite forallb_app. rewrite (H _ _ _ T1), (IH _ _ _ T2). reflexivity.
Qed.
Fixpoint blank_re (r : re) : bool :=
  match r with
  | Eps => true
  | Chr false false l => forallb (fun i => match i with IChar c => is_space c | ISpace => true | _ => false end) l
  | Cat p q => blank_re p && blank_re q
  | Rep _ _ _ p => blank_re p
  | _ => false
  end.
Lemma blank_reads r : blank_re r = true -> forall b w a, reads r b w a -> forallb is_space w = true.
Proof.
  induction r as [|ci neg l| |p IHp q IHq|p IHp q IHq|g lo hi r IH|n r IH| | |neg|neg r IH|neg r IH]; cbn [blank_re]; try discriminate; intros B b w a R; cbn [Spec_Regexp.reads] in R.
  - subst w. reflexivity.
  - destruct ci; [discriminate|]. destruct neg; [discriminate|]. destruct R as (c & -> & R). unfold class_in in R. rewrite xorb_false_l, andb_false_l, orb_false_r in R.
    apply existsb_exists in R as (i & I & E). rewrite forallb_forall in B. specialize (B i I). cbn [forallb]. rewrite andb_true_r. destruct i; try discriminate; cbn [item_in] in E; [apply N.eqb_eq in E; subst; exact B|exact E].
  - apply andb_true_iff in B as [B1 B2]. destruct R as (u & v & -> & R1 & R2). rewrite forallb_app, (IHp B1 _ _ _ R1), (IHq B2 _ _ _ R2). reflexivity.
  - destruct R as (n & _ & _ & T). eapply times_blank; [|exact T]. apply IH. exact B.
Qed.
(** An expression that needs a character *)
Fixpoint some_char (r : re) : bool :=
  match r with
  | Chr _ _ _ | Dot => true
  | Cat p q => some_char p || some_char q
  | Alt p q => some_char p && some_char q
  | Rep _ (S _) _ p => some_char p
  | Grp _ p => some_char p
  | _ => false
  end.
Lemma some_never r : some_char r = true -> never_empty udigit uword r.
Proof.
  induction r as [|ci neg l| |p IHp q IHq|p IHp q IHq|g lo hi r IH|n r IH| | |neg|neg r IH|neg r IH]; cbn [some_char]; try discriminate; intros B b a R; cbn [Spec_Regexp.reads] in R.
  - destruct R as (c & E & _). discriminate.
  - destruct R as (c & E & _). discriminate.
  - destruct R as (u & v & E & R1 & R2). symmetry in E. apply app_eq_nil in E as [-> ->]. apply orb_true_iff in B as [B|B]; [eapply IHp|eapply IHq]; eauto.
  - apply andb_true_iff in B as [B1 B2]. destruct R as [R|R]; [eapply IHp|eapply IHq]; eauto.
  - destruct lo as [|lo]; [discriminate|]. destruct R as (n & L & _ & T). destruct n as [|n]; [lia|]. cbn [times] in T. destruct T as (u & v & E & R1 & _).
    symmetry in E. apply app_eq_nil in E as [-> ->]. eapply IH; eauto.
  - eapply IH; eauto.
Qed.
Lemma sub_keeps_words r t s : ordered r = true -> some_char r = true -> blank_re r = true -> t <> [] -> forallb is_space t = true -> words (re_sub (always t) r s) = words s.
Proof.
  intros O S B T1 T2. apply (sub_words r t (blank_reads r B) T1 T2 [] s _ (re_sub_always udigit uword t r s O (some_never r S)) []).
Qed.
Lemma body_words text : flat_map words (body_lines udigit uword text) = words text.
Proof.
  unfold body_lines, splitlines. rewrite words_lines by discriminate. cbn [rev app].
  rewrite !sub_keeps_words; reflexivity || discriminate.
Qed.
Lemma class_one c d : class_in udigit uword false false [IChar d] c = true -> c = d.
Proof. unfold class_in. cbn [existsb item_in]. rewrite andb_false_l, !orb_false_r, xorb_false_l. apply N.eqb_eq. Qed.
Lemma times_nl n b w a : 1 <= n -> times (reads (Chr false false [IChar 10])) n b w a -> (exists x, w = 10%N :: x) /\ exists x, w = x ++ [10%N].
Proof.
  intros L. revert b w a. induction n as [|n IH]; intros b w a T; [lia|]. cbn [times Spec_Regexp.reads] in T. destruct T as (u & v & -> & (c & -> & C) & T).
  apply class_one in C. subst c.
  split; [eexists; reflexivity|]. destruct n as [|n]; [cbn [times] in T; subst v; exists []; reflexivity|].
  destruct (IH ltac:(lia) _ _ _ T) as [_ [x ->]]. exists (10%N :: x). reflexivity.
Qed.
Lemma paragraph_reads b w a : reads PARAGRAPH b w a -> exists x, w = 10%N :: x ++ [10%N] /\ forallb is_space x = true.
Proof.
  intros R. pose proof (blank_reads PARAGRAPH eq_refl _ _ _ R) as B. destruct R as (u & v & -> & (n & N1 & _ & T1) & (u2 & v2 & -> & _ & (m & M1 & _ & T2))).
  destruct (times_nl _ _ _ _ N1 T1) as [[x ->] _]. destruct (times_nl _ _ _ _ M1 T2) as [_ [y ->]].
  exists (x ++ u2 ++ y). cbn [app forallb] in *. rewrite <- !app_assoc. split; [reflexivity|]. apply andb_true_iff in B as [_ B]. rewrite !forallb_app in *. cbn in B. rewrite !andb_true_r in B. exact B.
Qed.
Lemma needs_found r c s : (forall b w a, reads r b w a -> In c w) -> ~ In c s -> ~ found udigit uword r s.
Proof. intros R N (b & w & a & -> & K). apply N. apply in_or_app. right. apply in_or_app. left. eapply R; eauto. Qed.
Lemma body_rows rows : Forall row rows -> body_lines udigit uword (join [10%N] rows) = rows.
Proof.
  intros F. unfold body_lines. rewrite (re_sub_none udigit uword (always [12%N]) PARAGRAPH).
  - rewrite (re_sub_none udigit uword (always ($" ")) BLANKS).
    + rewrite (re_sub_none udigit uword (always [10%N]) FORM_FEED).
      * apply splitlines_rows. exact F.
      * reflexivity.
      * apply some_never. reflexivity.
      * apply (needs_found _ 12%N).
        -- intros b w a (c & -> & C). apply class_one in C. subst c. left. reflexivity.
        -- intros I. apply (rows_chars _ _ F) in I as [I|I]; discriminate.
    + reflexivity.
    + apply some_never. reflexivity.
    + apply (needs_found _ 13%N).
      * intros b w a (u & v & -> & _ & (u1 & v1 & -> & _ & (u2 & v2 & -> & _ & (u3 & v3 & -> & (c & -> & C) & _)))). apply class_one in C. subst c. do 3 (apply in_or_app; right). left. reflexivity.
      * intros I. apply (rows_chars _ _ F) in I as [I|I]; discriminate.
  - reflexivity.
  - apply some_never. reflexivity.
  - intros (b & w & a & E & R). apply paragraph_reads in R as (x & -> & B). cbn [app] in E. rewrite <- app_assoc in E. rewrite (rows_apart _ F b x a E) in B. discriminate.
Qed.
End Chew.
