(** Expressions and the forms of texts they accept. *)
From Coq Require Import Lia.
From Verif Require Import PyStr Regexp Spec_Regexp Proofs_Regexp Proofs_RegexpLang Spec_Template.

Section Forms.
Variable udigit uword : char -> bool.
Notation reads := (reads udigit uword).
Notation fits := (fits uword).

Fixpoint forms (r : re) : option (list (list part)) :=
  match r with
  | Eps => Some [[]]
  | Chr ci neg l => Some [[Run (fun c => class_in udigit uword ci neg l c = true) 1 (Some 1)]]
  | Dot => Some [[Run (fun c => c <> 10%N) 1 (Some 1)]]
  | Cat p q => match forms p, forms q with
               | Some x, Some y => Some (flat_map (fun u => map (app u) y) x)
               | _, _ => None
               end
  | Alt p q => match forms p, forms q with Some x, Some y => Some (x ++ y) | _, _ => None end
  | Rep _ lo hi (Chr ci neg l) => Some [[Run (fun c => class_in udigit uword ci neg l c = true) lo hi]]
  | Rep _ lo hi Dot => Some [[Run (fun c => c <> 10%N) lo hi]]
  | Rep _ 0 (Some 1) p => option_map (cons []) (forms p)
  | Grp _ p => forms p
  | Bos => Some [[Begin]]
  | Eos => Some [[End]]
  | Wordb false => Some [[Edge]]
  | _ => None
  end.

Lemma fits_app l : forall m b w a, fits (l ++ m) b w a <-> exists u v, w = u ++ v /\ fits l b u (v ++ a) /\ fits m (rev u ++ b) v a.
Proof.
  induction l as [|[P lo hi| | |] l IH]; intros m b w a; cbn [app Spec_Template.fits].
  - split.
    + intros H. exists [], w. auto.
    + intros (u & v & -> & -> & H). exact H.
  - split.
    + intros (u & v & -> & H1 & H2 & H3 & H). apply IH in H as (u' & v' & -> & A & B). exists (u ++ u'), v'. rewrite <- app_assoc. split; [reflexivity|].
      split; [|rewrite rev_app_distr, <- app_assoc; exact B]. exists u, u'. auto.
    + intros (u & v & -> & (u1 & u2 & -> & H1 & H2 & H3 & A) & B). exists u1, (u2 ++ v). rewrite <- app_assoc. split; [reflexivity|]. split; [exact H1|].
      split; [exact H2|]. split; [exact H3|]. apply IH. exists u2, v. split; [reflexivity|]. split; [exact A|]. rewrite rev_app_distr, <- app_assoc in B. exact B.
  - split.
    + intros (-> & H). apply IH in H as (u & v & -> & A & B). exists u, v. auto.
    + intros (u & v & -> & (-> & A) & B). split; [reflexivity|]. apply IH. exists u, v. auto.
  - split.
    + intros (E & H). apply IH in H as (u & v & -> & A & B). exists u, v. rewrite app_assoc. auto.
    + intros (u & v & -> & (E & A) & B). rewrite app_assoc in E. split; [exact E|]. apply IH. exists u, v. auto.
  - split.
    + intros (E & H). apply IH in H as (u & v & -> & A & B). exists u, v. rewrite app_assoc. auto.
    + intros (u & v & -> & (E & A) & B). rewrite app_assoc in E. split; [exact E|]. apply IH. exists u, v. auto.
Qed.
Lemma fits_one P b w a : fits [Run P 1 (Some 1)] b w a <-> exists c, w = [c] /\ P c.
Proof.
  cbn. split.
  - intros (u & v & -> & H1 & H2 & H3 & ->). destruct u as [|c [|d u]]; cbn in *; [lia| |lia]. exists c. auto.
  - intros (c & -> & H). exists [c], []. cbn. split; [reflexivity|]. split; [intros d [<-|[]]; exact H|]. split; [lia|]. split; [lia|reflexivity].
Qed.
Lemma times_chars P (Q : char -> Prop) : (forall b w a, P b w a <-> exists c, w = [c] /\ Q c) ->
  forall n b w a, times P n b w a <-> length w = n /\ forall c, In c w -> Q c.
Proof.
  intros H. induction n as [|n IH]; intros b w a; cbn [times].
  - split; [intros ->; split; [reflexivity|intros c []]|]. intros [L _]. destruct w; [reflexivity|discriminate].
  - split.
    + intros (u & v & -> & A & B). apply H in A as (c & -> & A). apply IH in B as [L B]. cbn. split; [lia|]. intros d [<-|Hd]; auto.
    + intros [L A]. destruct w as [|c w]; [discriminate|]. exists [c], w. split; [reflexivity|]. split; [apply H; exists c; split; [reflexivity|apply A; left; reflexivity]|].
      apply IH. split; [cbn in L; lia|]. intros d Hd. apply A. right. exact Hd.
Qed.
Lemma rep_chars p (Q : char -> Prop) g lo hi : (forall b w a, reads p b w a <-> exists c, w = [c] /\ Q c) ->
  forall b w a, reads (Rep g lo hi p) b w a <-> fits [Run Q lo hi] b w a.
Proof.
  intros H b w a. cbn [Spec_Regexp.reads Spec_Template.fits]. split.
  - intros (n & L & U & T). apply (times_chars _ _ H) in T as [E A]. exists w, []. rewrite app_nil_r. split; [reflexivity|]. split; [exact A|].
    split; [lia|]. split; [destruct hi; cbn in U; [lia|exact I]|reflexivity].
  - intros (u & v & -> & A & L & U & ->). rewrite app_nil_r. exists (length u). split; [exact L|]. split; [destruct hi; cbn; auto|]. apply (times_chars _ _ H). auto.
Qed.
Lemma begins_iff s : begins_with_word uword s <-> exists c t, s = c :: t /\ is_w uword c = true.
Proof.
  assert (E : forall c, wordc uword c <-> is_w uword c = true).
  { intros c. unfold wordc, is_w. destruct (N.ltb_spec c 128).
    - rewrite !orb_true_iff, !andb_true_iff, !N.leb_le, N.eqb_eq. lia.
    - split; [|right; right; right; right; auto]. intros [X|[X|[X|[X|X]]]]; try lia. apply X. }
  unfold begins_with_word. split; intros (c & t & -> & H); exists c, t; (split; [reflexivity|]); apply E; exact H.
Qed.
Theorem reads_forms r : forall ls, forms r = Some ls -> forall b w a, reads r b w a <-> exists l, In l ls /\ fits l b w a.
Proof.
  assert (One : forall P ls b w a, ls = [P] -> (exists l : list part, In l ls /\ fits l b w a) <-> fits P b w a).
  { intros P ls b w a ->. split; [intros (l & [<-|[]] & H); exact H|intros H; exists P; split; [left; reflexivity|exact H]]. }
  induction r as [|ci neg l| |p IHp q IHq|p IHp q IHq|g lo hi p IH|n p IH| | |neg|neg p IH|neg p IH]; intros ls E b w a; cbn [forms] in E.
  - injection E as <-. rewrite (One [] _ b w a eq_refl). reflexivity.
  - injection E as <-. rewrite (One _ _ b w a eq_refl), fits_one. reflexivity.
  - injection E as <-. rewrite (One _ _ b w a eq_refl), fits_one. reflexivity.
  - destruct (forms p) as [x|]; [|discriminate]. destruct (forms q) as [y|]; [|discriminate]. injection E as <-. cbn [Spec_Regexp.reads]. split.
    + intros (u & v & -> & A & B). apply (IHp x eq_refl) in A as (l & Hl & A). apply (IHq y eq_refl) in B as (m & Hm & B). exists (l ++ m). split.
      * apply in_flat_map. exists l. split; [exact Hl|]. apply in_map. exact Hm.
      * apply fits_app. exists u, v. auto.
    + intros (lm & H & F). apply in_flat_map in H as (l & Hl & H). apply in_map_iff in H as (m & <- & Hm). apply fits_app in F as (u & v & -> & A & B).
      exists u, v. split; [reflexivity|]. split; [apply (IHp x eq_refl)|apply (IHq y eq_refl)]; eauto.
  - destruct (forms p) as [x|]; [|discriminate]. destruct (forms q) as [y|]; [|discriminate]. injection E as <-. cbn [Spec_Regexp.reads].
    rewrite (IHp x eq_refl b w a), (IHq y eq_refl b w a). split.
    + intros [(l & H & F)|(l & H & F)]; exists l; (split; [apply in_or_app; auto|exact F]).
    + intros (l & H & F). apply in_app_or in H as [H|H]; [left|right]; eauto.
  - assert (G : forall q, p = q -> match lo, hi with 0, Some 1 => option_map (cons []) (forms q) | _, _ => None end = Some ls ->
        reads (Rep g lo hi p) b w a <-> exists l, In l ls /\ fits l b w a).
    { intros q <- E'. destruct lo as [|lo]; [|discriminate]. destruct hi as [[|[|h]]|]; try discriminate. destruct (forms p) as [x|]; [|discriminate]. injection E' as <-.
      cbn [Spec_Regexp.reads]. split.
      - intros (n & _ & U & T). cbn in U. destruct n as [|[|n]]; [| |lia]; cbn [times] in T.
        + subst w. exists []. split; [left; reflexivity|reflexivity].
        + destruct T as (u & v & -> & A & ->). rewrite app_nil_r. apply (IH x eq_refl) in A as (l & Hl & A). exists l. split; [right; exact Hl|]. cbn [app] in A. exact A.
      - intros (l & [<-|Hl] & F).
        + cbn in F. subst w. exists 0. split; [lia|]. split; [cbn; lia|reflexivity].
        + exists 1. split; [lia|]. split; [cbn; lia|]. cbn [times]. exists w, []. rewrite app_nil_r. split; [reflexivity|]. split; [|reflexivity]. cbn [app]. apply (IH x eq_refl). eauto. }
    destruct p; try (apply (G _ eq_refl); exact E).
    + assert (E' : Some [[Run (fun c => class_in udigit uword ci neg l c = true) lo hi]] = Some ls) by (destruct lo; [destruct hi as [[|[|h]]|]|]; exact E).
      injection E' as <-. rewrite (One _ _ b w a eq_refl). apply rep_chars. intros. cbn. reflexivity.
    + assert (E' : Some [[Run (fun c => c <> 10%N) lo hi]] = Some ls) by (destruct lo; [destruct hi as [[|[|h]]|]|]; exact E).
      injection E' as <-. rewrite (One _ _ b w a eq_refl). apply rep_chars. intros. cbn. reflexivity.
  - cbn [Spec_Regexp.reads]. apply IH, E.
  - injection E as <-. rewrite (One _ _ b w a eq_refl). cbn. tauto.
  - injection E as <-. rewrite (One _ _ b w a eq_refl). cbn. split; [intros [-> H]|intros [H ->]]; cbn in *; auto.
  - destruct neg; [discriminate|]. injection E as <-. rewrite (One _ _ b w a eq_refl). cbn [Spec_Regexp.reads Spec_Template.fits]. unfold boundary. rewrite !begins_iff.
    split; [intros [-> H]|intros [H ->]]; cbn [app] in *; auto.
  - discriminate.
  - discriminate.
Qed.

(** Forms with equivalent properties *)
Inductive like : part -> part -> Prop :=
| like_run P Q lo hi : (forall c, P c <-> Q c) -> like (Run P lo hi) (Run Q lo hi)
| like_begin : like Begin Begin
| like_end : like End End
| like_edge : like Edge Edge.
Lemma fits_like l m : Forall2 like l m -> forall b w a, fits l b w a -> fits m b w a.
Proof.
  induction 1 as [|p q l m L F IH]; intros b w a; [auto|]. destruct L as [P Q lo hi H| | |]; cbn [Spec_Template.fits].
  - intros (u & v & -> & A & B & C & D). exists u, v. split; [reflexivity|]. split; [intros c Hc; apply H, A, Hc|]. auto.
  - intros [A B]. auto.
  - intros [A B]. auto.
  - intros [A B]. auto.
Qed.
Lemma like_sym p q : like p q -> like q p.
Proof. destruct 1; constructor. intros c. symmetry. apply H. Qed.
Lemma likes_sym l m : Forall2 like l m -> Forall2 like m l.
Proof. induction 1; constructor; auto. apply like_sym. assumption. Qed.
Lemma has_like ls ms h : Forall2 (Forall2 like) ls ms -> (has uword ls h <-> has uword ms h).
Proof.
  assert (G : forall ls ms, Forall2 (Forall2 like) ls ms -> has uword ls h -> has uword ms h).
  { intros ls0 ms0 F (l & x & w & y & Hl & E & A). assert (M : exists m, In m ms0 /\ Forall2 like l m).
    { clear - F Hl. induction F as [|l' m' ls ms F' F IH]; [destruct Hl|]. destruct Hl as [<-|Hl]; [exists m'; split; [left; reflexivity|exact F']|].
      destruct (IH Hl) as (m & Hm & K). exists m. split; [right; exact Hm|exact K]. }
    destruct M as (m & Hm & K). exists m, x, w, y. split; [exact Hm|]. split; [exact E|]. eapply fits_like; eauto. }
  intros F. split; [apply G, F|]. apply G. clear - F. induction F; constructor; auto. apply likes_sym. assumption.
Qed.
Lemma starts_like ls ms h : Forall2 (Forall2 like) ls ms -> (starts uword ls h <-> starts uword ms h).
Proof.
  assert (G : forall ls ms, Forall2 (Forall2 like) ls ms -> starts uword ls h -> starts uword ms h).
  { intros ls0 ms0 F (l & w & y & Hl & E & A). assert (M : exists m, In m ms0 /\ Forall2 like l m).
    { clear - F Hl. induction F as [|l' m' ls ms F' F IH]; [destruct Hl|]. destruct Hl as [<-|Hl]; [exists m'; split; [left; reflexivity|exact F']|].
      destruct (IH Hl) as (m & Hm & K). exists m. split; [right; exact Hm|exact K]. }
    destruct M as (m & Hm & K). exists m, w, y. split; [exact Hm|]. split; [exact E|]. eapply fits_like; eauto. }
  intros F. split; [apply G, F|]. apply G. clear - F. induction F; constructor; auto. apply likes_sym. assumption.
Qed.
Theorem search_has r ls ms h : ordered r = true -> forms r = Some ls -> Forall2 (Forall2 like) ls ms ->
  matched (re_search udigit uword r h) = true <-> has uword ms h.
Proof.
  intros O E F. rewrite search_reads by exact O. rewrite <- (has_like _ _ h F). unfold found, has. split.
  - intros (b & w & a & -> & R). apply (reads_forms r ls E) in R as (l & Hl & R). exists l, b, w, a. auto.
  - intros (l & x & w & y & Hl & -> & R). exists x, w, y. split; [reflexivity|]. apply (reads_forms r ls E). eauto.
Qed.
Theorem match_starts r ls ms h : ordered r = true -> forms r = Some ls -> Forall2 (Forall2 like) ls ms ->
  matched (re_match udigit uword r h) = true <-> starts uword ms h.
Proof.
  intros O E F. rewrite match_reads by exact O. rewrite <- (starts_like _ _ h F). unfold found_first, starts. split.
  - intros (w & a & -> & R). apply (reads_forms r ls E) in R as (l & Hl & R). exists l, w, a. auto.
  - intros (l & w & y & Hl & -> & R). exists w, y. split; [reflexivity|]. apply (reads_forms r ls E). eauto.
Qed.

(** ** Properties of characters *)
Lemma is_d_iff c : is_d udigit c = true <-> digit udigit c.
Proof.
  unfold is_d, digit. destruct (N.ltb_spec c 128); [rewrite andb_true_iff, !N.leb_le; lia|]. split; [right; auto|]. intros [X|X]; [lia|apply X].
Qed.
Lemma is_w_iff c : is_w uword c = true <-> wordc uword c.
Proof.
  unfold wordc, is_w. destruct (N.ltb_spec c 128).
  - rewrite !orb_true_iff, !andb_true_iff, !N.leb_le, N.eqb_eq. lia.
  - split; [right; right; right; right; auto|]. intros [X|[X|[X|[X|X]]]]; try lia. apply X.
Qed.
Lemma lower_iff x c : (lower_char x = x) -> N.eqb c x || N.eqb (swapcase c) x = true <-> lower_char c = x.
Proof.
  intros Hx. unfold lower_char, swapcase in *.
  destruct (N.leb_spec 65 c), (N.leb_spec c 90), (N.leb_spec 97 c), (N.leb_spec c 122), (N.leb_spec 65 x), (N.leb_spec x 90);
    cbn [andb] in *; rewrite ?orb_true_iff, ?N.eqb_eq; lia.
Qed.
End Forms.
