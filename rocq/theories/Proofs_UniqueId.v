(** Proofs about the rule that looks for an identifier in the subject. *)
From Coq Require Import Lia.
From Verif Require Import PyStr Regexp Spec_Regexp Proofs_Regexp Proofs_RegexpLang Model_Received Spec_Received Proofs_ReceivedIp Spec_Template Proofs_Template.
From Verif Require Import Model_Provider Spec_Provider Proofs_Provider Proofs_ReceivedMore Spec_Dynamic Proofs_Dynamic.
Open Scope nat_scope.

Section Rules.
Variable udigit uword : char -> bool.
Notation s_ := (s_ udigit uword).
Notation has := (has uword).
Notation fits := (fits uword).
Notation reads := (reads udigit uword).
Notation digit := (digit udigit).
Notation wordc := (wordc uword).
Notation class_in := (class_in udigit uword).

(** ** Classes *)
Definition case_free (it : item) : bool :=
  match it with IChar c => negb (N.leb 65 c && N.leb c 90) && negb (N.leb 97 c && N.leb c 122) | IRange a b => N.ltb b 65 || N.ltb 122 a | _ => true end.
Lemma swap_word c : is_w uword (swapcase c) = is_w uword c.
Proof.
  destruct (letter_dec c) as [L|[L1 L2]]; [|rewrite swap_other by assumption; reflexivity]. pose proof (swap_range c L) as S.
  assert (X : is_w uword c = true) by (apply is_w_iff; unfold Spec_Template.wordc; lia). assert (Y : is_w uword (swapcase c) = true) by (apply is_w_iff; unfold Spec_Template.wordc; lia). congruence.
Qed.
Lemma swap_digit_b c : is_d udigit (swapcase c) = is_d udigit c.
Proof. pose proof (swap_digit udigit c) as S. rewrite <- !is_d_iff in S. destruct (is_d udigit c), (is_d udigit (swapcase c)); intuition congruence. Qed.
Lemma item_swap it c : case_free it = true -> item_in udigit uword (swapcase c) it = item_in udigit uword c it.
Proof.
  destruct it; cbn [item_in case_free]; intros H; rewrite ?swap_space, ?swap_word, ?swap_digit_b; try reflexivity.
  - destruct (letter_dec c) as [L|[L1 L2]]; [|rewrite swap_other by assumption; reflexivity]. pose proof (swap_range c L) as S.
    apply andb_true_iff in H as [H1 H2]. apply negb_true_iff in H1, H2. apply andb_false_iff in H1, H2. rewrite !N.leb_gt in *.
    destruct (N.eqb_spec (swapcase c) c0), (N.eqb_spec c c0); try reflexivity; exfalso; subst; lia.
  - destruct (letter_dec c) as [L|[L1 L2]]; [|rewrite swap_other by assumption; reflexivity]. pose proof (swap_range c L) as S.
    apply orb_true_iff in H. rewrite !N.ltb_lt in H.
    destruct (N.leb_spec a (swapcase c)), (N.leb_spec (swapcase c) b), (N.leb_spec a c), (N.leb_spec c b); cbn; try reflexivity; exfalso; lia.
Qed.
Lemma existsb_false (l : list item) c d : (forall it, In it l -> item_in udigit uword d it = item_in udigit uword c it) -> existsb (item_in udigit uword d) l = existsb (item_in udigit uword c) l.
Proof. induction l as [|it l IH]; intros H; [reflexivity|]. cbn. rewrite (H it (or_introl eq_refl)), IH; [reflexivity|]. intros x K. apply H. right. exact K. Qed.
Lemma class_free neg l c : forallb case_free l = true -> class_in true neg l c = class_in false neg l c.
Proof.
  intros F. unfold Regexp.class_in. rewrite (existsb_false l c (swapcase c)).
  - cbn [andb]. rewrite orb_false_r. destruct (existsb _ l); reflexivity.
  - intros it H. apply item_swap. rewrite forallb_forall in F. apply F, H.
Qed.
Ltac free := intros c; rewrite class_free by (vm_compute; reflexivity); unfold Regexp.class_in; cbn [existsb item_in andb]; rewrite ?orb_false_r.
Lemma bool_iff (b : bool) : xorb false b = b.
Proof. destruct b; reflexivity. Qed.
Lemma cl_char x c : case_free (IChar x) = true -> class_in true false [IChar x] c = true <-> x = c.
Proof. intros F. rewrite class_free by (cbn [forallb]; rewrite F; reflexivity). apply cls_char. Qed.
Lemma cl_sep : forall c, class_in true false [IChar 45; IChar 95; IChar 46; ISpace] c = true <-> c = 45%N \/ gap c.
Proof. free. rewrite bool_iff, !orb_true_iff, !N.eqb_eq. unfold gap, blank. tauto. Qed.
Lemma cl_gap : forall c, class_in true false [ISpace; IChar 46; IChar 95] c = true <-> gap c.
Proof. free. rewrite bool_iff, !orb_true_iff, !N.eqb_eq. unfold gap, blank. tauto. Qed.
Lemma cl_notgap : forall c, class_in true true [IChar 48; ISpace; IChar 46; IChar 95] c = true <-> ~ gap c /\ c <> 48%N.
Proof.
  free. change (xorb true ?b) with (negb b). rewrite negb_true_iff, !orb_false_iff, !N.eqb_neq. unfold gap, blank. destruct (is_space c); intuition congruence.
Qed.
Lemma cl_dashword : forall c, class_in true false [IChar 45; IWord] c = true <-> c = 45%N \/ wordc c.
Proof. free. rewrite bool_iff, orb_true_iff, N.eqb_eq, is_w_iff. reflexivity. Qed.
Lemma cl_word c : class_in true false [IWord] c = true <-> wordc c.
Proof. rewrite class_free by reflexivity. apply cls_word. Qed.
Ltac amongs := free; rewrite bool_iff, ?orb_true_iff, ?N.eqb_eq; unfold among; vm_compute; intuition.
Lemma cl_open : forall c, class_in true false [IChar 45; IChar 58; IChar 35; IChar 40; IChar 91] c = true <-> among ($"-:#([") c.
Proof. amongs. Qed.
Lemma cl_close : forall c, class_in true false [IChar 93; IChar 41] c = true <-> among ($"])") c.
Proof. amongs. Qed.
Lemma cl_mark : forall c, class_in true false [IChar 45; IChar 58; IChar 35] c = true <-> among ($"-:#") c.
Proof. amongs. Qed.
Lemma cl_bang : forall c, class_in true false [IChar 33; IChar 63] c = true <-> among ($"!?") c.
Proof. amongs. Qed.
Ltac ranges c := unfold Regexp.class_in; cbn [existsb item_in andb]; rewrite ?orb_false_r, bool_iff, ?orb_true_iff, ?andb_true_iff, ?N.leb_le, ?N.eqb_eq;
  unfold letter, plain_digit, swapcase; destruct (N.leb_spec 65 c), (N.leb_spec c 90), (N.leb_spec 97 c), (N.leb_spec c 122); cbn [andb]; lia.
Lemma cl_idc c : class_in true false [IChar 45; IRange 97 122; IRange 48 57] c = true <-> idc c.
Proof. unfold idc. ranges c. Qed.
Lemma cl_alnum c : class_in true false [IRange 97 122; IRange 48 57] c = true <-> letter c \/ plain_digit c.
Proof. ranges c. Qed.
Lemma cl_hex c : class_in true false [IRange 97 102; IRange 48 57] c = true <-> hexc c.
Proof. unfold hexc. ranges c. Qed.
Ltac ulikes := repeat (apply Forall2_cons || apply Forall2_nil); first [apply like_run; intros ?c; first
  [apply cl_char; vm_compute; reflexivity | apply cl_sep | apply cl_gap | apply cl_notgap | apply cl_dashword | apply cl_word | apply cl_open | apply cl_close | apply cl_mark | apply cl_bang
  | apply cl_idc | apply cl_alnum | apply cl_hex | apply cls_nonblank_i | apply cls_blank_i | apply cls_digit_i] | constructor].

(** ** The simple patterns *)
Definition nth_id (n : nat) : re := nth n UNIQUE_IDS Eps.
Definition form_range (a k : nat) : list (list part) := firstn k (skipn a (id_forms udigit uword)).
Ltac by_forms := intros h; unfold Model_Received.s_; apply search_has with (udigit := udigit) (2 := eq_refl); [vm_compute; reflexivity|ulikes].
Lemma u0 : forall h, s_ (nth_id 0) h = true <-> has (form_range 0 1) h.
Proof. by_forms. Qed.
Lemma u1 : forall h, s_ (nth_id 1) h = true <-> has (form_range 1 2) h.
Proof. by_forms. Qed.
Lemma u2 : forall h, s_ (nth_id 2) h = true <-> has (form_range 3 1) h.
Proof. by_forms. Qed.
Lemma u3 : forall h, s_ (nth_id 3) h = true <-> has (form_range 4 1) h.
Proof. by_forms. Qed.
Lemma u4 : forall h, s_ (nth_id 4) h = true <-> has (form_range 5 1) h.
Proof. by_forms. Qed.
Lemma u5 : forall h, s_ (nth_id 5) h = true <-> has (form_range 6 1) h.
Proof. by_forms. Qed.
Lemma u6 : forall h, s_ (nth_id 6) h = true <-> has (form_range 7 1) h.
Proof. by_forms. Qed.
Lemma u7 : forall h, s_ (nth_id 7) h = true <-> has (form_range 8 1) h.
Proof. by_forms. Qed.
Lemma u10 : forall h, s_ (nth_id 10) h = true <-> has (form_range 10 1) h.
Proof. by_forms. Qed.

(** ** Words joined by hyphens *)
Lemma reads_iff r ls l b w a : forms udigit uword r = Some ls -> Forall2 (Forall2 like) ls [l] -> reads r b w a <-> fits l b w a.
Proof.
  intros E F. split; [apply reads_fits with (1 := E) (2 := F)|]. intros K. apply (reads_forms udigit uword r ls E).
  inversion F as [|x y lx ly A B]; subst. inversion B; subst. exists x. split; [left; reflexivity|]. revert K. apply fits_like, likes_sym, A.
Qed.
Definition DASH : re := Cat (Chr true false [IChar 45]) (Rep true 1 None (Chr true false [IWord])).
Definition BLANKS : re := Rep true 0 None (Chr true false [ISpace]).
Definition WORDS (n : nat) : re := Rep true n None (Chr true false [IWord]).
Lemma dash_reads b w a : reads DASH b w a <-> exists x, w = $"-" ++ x /\ x <> [] /\ forall c, In c x -> wordc c.
Proof.
  rewrite (reads_iff DASH _ (text ($"-") ++ some_ wordc) b w a eq_refl ltac:(ulikes)). rewrite fits_app. split.
  - intros (u & v & -> & U & V). apply fits_text in U as ->. apply fits_run in V. exists v. split; [reflexivity|exact V].
  - intros (x & -> & N). exists ($"-"), x. split; [reflexivity|]. split; [apply fits_text; reflexivity|apply fits_run, N].
Qed.
Lemma dashes n : forall b w a, times (reads (Grp 2 DASH)) n b w a <->
  exists l, length l = n /\ w = flat_map (fun x => $"-" ++ x) l /\ forall x, In x l -> x <> [] /\ forall c, In c x -> wordc c.
Proof.
  induction n as [|n IH]; intros b w a; cbn [times].
  - split; [intros ->; exists []; split; [reflexivity|]; split; [reflexivity|]; intros x []|]. intros (l & L & -> & _). destruct l; [reflexivity|discriminate].
  - split.
    + intros (u & v & -> & U & V). change (reads (Grp 2 DASH)) with (reads DASH) in U. apply dash_reads in U as (x & -> & X). apply IH in V as (l & L & -> & F).
      exists (x :: l). split; [cbn; lia|]. split; [reflexivity|]. intros y [<-|H]; auto.
    + intros (l & L & -> & F). destruct l as [|x l]; [discriminate|]. exists ($"-" ++ x), (flat_map (fun x => $"-" ++ x) l). split; [reflexivity|]. split.
      * change (reads (Grp 2 DASH)) with (reads DASH). apply dash_reads. exists x. split; [reflexivity|]. apply F. left. reflexivity.
      * apply IH. exists l. split; [cbn in L; lia|]. split; [reflexivity|]. intros y H. apply F. right. exact H.
Qed.
Lemma dashed_reads k b w a : reads (Rep true k None (Grp 2 DASH)) b w a <->
  exists l, k <= length l /\ w = flat_map (fun x => $"-" ++ x) l /\ forall x, In x l -> x <> [] /\ forall c, In c x -> wordc c.
Proof.
  cbn [Spec_Regexp.reads]. split.
  - intros (n & K & _ & T). apply dashes in T as (l & L & E & F). exists l. split; [lia|]. auto.
  - intros (l & L & E & F). exists (length l). split; [exact L|]. split; [exact I|]. apply dashes. exists l. auto.
Qed.
Lemma tail_reads b w a : reads (Cat BLANKS Eos) b w a <-> (forall c, In c w -> blank c) /\ (a = [] \/ a = [10%N]).
Proof.
  rewrite (reads_iff (Cat BLANKS Eos) _ (many blank ++ [End]) b w a eq_refl ltac:(ulikes)). cbn. split.
  - intros (u & v & -> & H & _ & _ & E & ->). rewrite app_nil_r. split; [exact H|]. destruct E as [E|E]; auto.
  - intros [H E]. exists w, []. rewrite app_nil_r. split; [reflexivity|]. split; [exact H|]. split; [lia|]. split; [exact I|]. cbn. auto.
Qed.
Lemma words_reads n b w a : reads (WORDS n) b w a <-> n <= length w /\ forall c, In c w -> wordc c.
Proof.
  assert (E : forms udigit uword (WORDS n) = Some [[Run (fun c => class_in true false [IWord] c = true) n None]]) by (destruct n; reflexivity).
  rewrite (reads_iff (WORDS n) _ (at_least n wordc) b w a E ltac:(ulikes)). cbn. split.
  - intros (u & v & -> & H & L & _ & ->). rewrite app_nil_r. auto.
  - intros [L H]. exists w, []. rewrite app_nil_r. auto 6.
Qed.
Lemma blanks_reads b w a : reads BLANKS b w a <-> forall c, In c w -> blank c.
Proof.
  rewrite (reads_iff BLANKS _ (many blank) b w a eq_refl ltac:(ulikes)). cbn. split.
  - intros (u & v & -> & H & L & _ & ->). rewrite app_nil_r. auto.
  - intros H. exists w, []. rewrite app_nil_r. split; [reflexivity|]. split; [exact H|]. split; [lia|auto].
Qed.
Lemma trailing e a : (forall c, In c e -> blank c) -> a = [] \/ a = [10%N] -> forall c, In c (e ++ a) -> blank c.
Proof. intros H A c K. apply in_app_or in K as [K|K]; [auto|]. destruct A as [->| ->]; [destruct K|]. destruct K as [<-|[]]. reflexivity. Qed.
Definition hyphened_1 (s : str) : Prop :=
  exists x c b v t e, s = x ++ [c] ++ b ++ v ++ t ++ e /\ among ($"!?") c /\ (forall d, In d b -> blank d) /\
     v <> [] /\ (forall d, In d v -> wordc d) /\ t <> [] /\ dashed uword t /\ (forall d, In d e -> blank d).
Definition hyphened_2 (s : str) : Prop :=
  exists x c b v w t e, s = x ++ [c] ++ b ++ v ++ $"-" ++ w ++ t ++ e /\ wordc c /\ b <> [] /\ (forall d, In d b -> blank d) /\
     7 <= length v /\ (forall d, In d v -> wordc d) /\ 7 <= length w /\ (forall d, In d w -> wordc d) /\ dashed uword t /\ (forall d, In d e -> blank d).
Definition BANG : re := Chr true false [IChar 33; IChar 63].
Definition D4 : re := Rep true 4 None (Chr true false [IDigit]).
Lemma nth_8 : nth_id 8 = Cat BANG (Cat BLANKS (Cat (Grp 1 (Alt D4 (Cat (WORDS 1) (Rep true 1 None (Grp 2 DASH))))) (Cat BLANKS Eos))).
Proof. reflexivity. Qed.
Lemma u8 h : s_ (nth_id 8) h = true <-> has (form_range 9 1) h \/ hyphened_1 h.
Proof.
  unfold Model_Received.s_. rewrite search_reads by (vm_compute; reflexivity). rewrite nth_8.
  assert (H1 : s_ (Cat BANG (Cat BLANKS (Cat D4 (Cat BLANKS Eos)))) h = true <-> has (form_range 9 1) h) by (revert h; by_forms).
  unfold Model_Received.s_ in H1. rewrite search_reads in H1 by (vm_compute; reflexivity). rewrite <- H1. clear H1. split.
  - intros (x & w & a & -> & u1 & v1 & -> & R1 & u2 & v2 & -> & R2 & u3 & v3 & -> & R3 & R4). cbn [Spec_Regexp.reads] in R3. destruct R3 as [R3|R3].
    + left. exists x, (u1 ++ u2 ++ u3 ++ v3), a. split; [reflexivity|]. exists u1, (u2 ++ u3 ++ v3). split; [reflexivity|]. split; [exact R1|]. exists u2, (u3 ++ v3). split; [reflexivity|].
      split; [exact R2|]. exists u3, v3. auto.
    + right. destruct R3 as (v & t & -> & R3 & R5). apply (words_reads 1) in R3 as [Lv R3]. apply (dashed_reads 1) in R5 as (l & L & -> & F).
      destruct R1 as (c & -> & R1). apply cl_bang in R1. assert (R2b := proj1 (blanks_reads _ _ _) R2); clear R2; rename R2b into R2. apply tail_reads in R4 as [R4 A].
      exists x, c, u2, v, (flat_map (fun x => $"-" ++ x) l), (v3 ++ a). rewrite <- !app_assoc. split; [reflexivity|]. split; [exact R1|]. split; [exact R2|].
      split; [destruct v; [cbn in Lv; lia|discriminate]|]. split; [exact R3|]. split; [destruct l; [cbn in L; lia|discriminate]|]. split; [exists l; auto|]. apply trailing; assumption.
  - intros [(x & w & a & -> & u1 & v1 & -> & R1 & u2 & v2 & -> & R2 & u3 & v3 & -> & R3 & R4)|(x & c & b & v & t & e & -> & C & B & NV & V & NT & (l & -> & F) & E)].
    + exists x, (u1 ++ u2 ++ u3 ++ v3), a. split; [reflexivity|]. exists u1, (u2 ++ u3 ++ v3). split; [reflexivity|]. split; [exact R1|]. exists u2, (u3 ++ v3). split; [reflexivity|].
      split; [exact R2|]. exists u3, v3. split; [reflexivity|]. split; [|exact R4]. left. exact R3.
    + exists x, ([c] ++ b ++ v ++ flat_map (fun x => $"-" ++ x) l ++ e), []. split; [rewrite app_nil_r; reflexivity|]. exists [c], (b ++ v ++ flat_map (fun x => $"-" ++ x) l ++ e).
      split; [reflexivity|]. split; [exists c; split; [reflexivity|]; apply cl_bang, C|]. exists b, (v ++ flat_map (fun x => $"-" ++ x) l ++ e). split; [reflexivity|]. split; [apply (proj2 (blanks_reads _ _ _)), B|].
      exists (v ++ flat_map (fun x => $"-" ++ x) l), e. split; [rewrite <- app_assoc; reflexivity|]. split; [|apply tail_reads; auto]. right. exists v, (flat_map (fun x => $"-" ++ x) l). split; [reflexivity|].
      split; [apply words_reads; split; [destruct v; [congruence|cbn; lia]|exact V]|]. apply dashed_reads. exists l. split; [destruct l; [exfalso; apply NT; reflexivity|cbn; lia]|]. auto.
Qed.
Definition PREFIX : re := match nth_id 9 with Cat p _ => p | _ => Eps end.
Definition HYPHEN : re := Chr true false [IChar 45].
Definition GAPS : re := Rep true 1 None (Chr true false [ISpace]).
Lemma nth_9 : nth_id 9 = Cat PREFIX (Cat (WORDS 1) (Cat GAPS (Cat (Grp 1 (Cat (WORDS 7) (Cat HYPHEN (Cat (WORDS 7) (Rep true 0 None (Grp 2 DASH)))))) (Cat BLANKS Eos)))).
Proof. reflexivity. Qed.
Lemma u9 h : s_ (nth_id 9) h = true <-> hyphened_2 h.
Proof.
  unfold Model_Received.s_. rewrite search_reads by (vm_compute; reflexivity). rewrite nth_9. split.
  - intros (x & w0 & a & -> & u0' & v0 & -> & _ & u1 & v1 & -> & R1 & u2 & v2 & -> & R2 & u3 & v3 & -> & R3 & R4). cbn [Spec_Regexp.reads] in R3.
    destruct R3 as (v & t1 & -> & R5 & y & t2 & -> & R6 & w & t & -> & R7 & R8).
    apply (words_reads 1) in R1 as [L1 R1]. apply (words_reads 7) in R5 as [L5 R5]. apply (words_reads 7) in R7 as [L7 R7]. apply (dashed_reads 0) in R8 as (l & _ & -> & F).
    destruct R6 as (k & -> & R6). apply cl_char in R6 as <-; [|reflexivity]. apply tail_reads in R4 as [R4 A].
    apply (reads_iff GAPS _ (some_ blank) _ _ _ eq_refl ltac:(ulikes)) in R2. apply fits_run in R2 as [N2 R2].
    assert (NE : u1 <> []) by (destruct u1; [cbn in L1; lia|discriminate]). apply exists_last in NE as (p & c & ->).
    exists (x ++ u0' ++ p), c, u2, v, w, (flat_map (fun x => $"-" ++ x) l), (v3 ++ a). rewrite <- !app_assoc. split; [reflexivity|]. split; [apply R1, in_or_app; right; left; reflexivity|].
    split; [exact N2|]. split; [exact R2|]. split; [exact L5|]. split; [exact R5|]. split; [exact L7|]. split; [exact R7|]. split; [exists l; auto|]. apply trailing; assumption.
  - intros (x & c & b & v & w & t & e & -> & C & NB & B & Lv & V & Lw & W & (l & -> & F) & E). set (t := flat_map (fun x => $"-" ++ x) l).
    exists x, ([c] ++ b ++ v ++ $"-" ++ w ++ t ++ e), []. split; [rewrite app_nil_r; reflexivity|]. exists [], ([c] ++ b ++ v ++ $"-" ++ w ++ t ++ e). split; [reflexivity|].
    split; [exists 0; split; [lia|]; split; [cbn; lia|reflexivity]|]. exists [c], (b ++ v ++ $"-" ++ w ++ t ++ e). split; [reflexivity|].
    split; [apply (words_reads 1); split; [cbn; lia|]; intros d [<-|[]]; exact C|]. exists b, (v ++ $"-" ++ w ++ t ++ e). split; [reflexivity|].
    split; [apply (reads_iff GAPS _ (some_ blank) _ _ _ eq_refl ltac:(ulikes)), fits_run; auto|]. exists (v ++ $"-" ++ w ++ t), e. split; [rewrite <- !app_assoc; reflexivity|].
    split; [|apply tail_reads; auto]. cbn [Spec_Regexp.reads]. exists v, ($"-" ++ w ++ t). split; [reflexivity|]. split; [apply (words_reads 7); auto|].
    exists ($"-"), (w ++ t). split; [reflexivity|]. split; [exists 45%N; split; [reflexivity|]; apply cl_char; reflexivity|]. exists w, t. split; [reflexivity|].
    split; [apply (words_reads 7); auto|]. apply (dashed_reads 0). exists l. split; [lia|]. auto.
Qed.

(** ** The rule *)
Fixpoint nonnull (r : re) : bool :=
  match r with
  | Chr _ _ _ | Dot => true
  | Cat p q => nonnull p || nonnull q
  | Alt p q => nonnull p && nonnull q
  | Rep _ (S _) _ p => nonnull p
  | Grp _ p => nonnull p
  | _ => false
  end.
Lemma nonnull_reads r : nonnull r = true -> forall b w a, reads r b w a -> w <> [].
Proof.
  induction r as [|ci neg l| |p IHp q IHq|p IHp q IHq|g lo hi p IH|n p IH| | |neg|neg p IH|neg p IH]; cbn [nonnull]; intros N b w a H; try discriminate; cbn [Spec_Regexp.reads] in H.
  - destruct H as (c & -> & _). discriminate.
  - destruct H as (c & -> & _). discriminate.
  - destruct H as (u & v & -> & A & B). apply orb_true_iff in N as [N|N].
    + apply (IHp N) in A. destruct u; [congruence|discriminate].
    + apply (IHq N) in B. destruct u; [exact B|discriminate].
  - apply andb_true_iff in N as [N1 N2]. destruct H as [H|H]; [exact (IHp N1 _ _ _ H)|exact (IHq N2 _ _ _ H)].
  - destruct lo as [|lo]; [discriminate|]. destruct H as (n & L & _ & T). destruct n as [|n]; [lia|]. destruct T as (u & v & -> & A & _). apply (IH N) in A. destruct u; [congruence|discriminate].
  - exact (IH N _ _ _ H).
Qed.
Lemma searched r h : ordered r = true -> nonnull r = true -> match re_search udigit uword (Grp 0 r) h with
  | Some st => s_ r h = true /\ g_ 0 st <> [] /\ exists x y, h = x ++ g_ 0 st ++ y
  | None => s_ r h = false
  end.
Proof.
  intros O N. pose proof (search_reads udigit uword (Grp 0 r) h O) as A. pose proof (search_reads udigit uword r h O) as B. unfold Model_Received.s_.
  change (found udigit uword (Grp 0 r) h) with (found udigit uword r h) in A. destruct (re_search udigit uword (Grp 0 r) h) as [st|] eqn:E.
  - split; [apply B, A; reflexivity|]. apply search_first in E as (u & v & -> & H & _). apply group_In in H as (w & s0 & X & H & _ & _ & C).
    assert (G : g_ 0 st = w) by (unfold g_; rewrite C; reflexivity). rewrite G. destruct X as [X1 X2]. cbn [s_after s_before] in X1, X2. split.
    + apply (nonnull_reads r N (rev u ++ []) w (s_after s0)). apply (ways_reads udigit uword r O _ w (s_after s0) []). exists (s_caps s0). rewrite <- X1. destruct s0 as [b0 a0 k0]. cbn in *. subst. exact H.
    + exists u, (s_after s0). rewrite X1. reflexivity.
  - destruct (matched (re_search udigit uword r h)); [|reflexivity]. exfalso. assert (Z : false = true) by (apply A, B; reflexivity). discriminate.
Qed.
Lemma ids_found l h : forallb ordered l = true -> forallb nonnull l = true ->
  match fold_right (fun r rest => match re_search udigit uword (Grp 0 r) h with Some st => Some (g_ 0 st) | None => rest end) None l with
  | Some id => existsb (fun r => s_ r h) l = true /\ id <> [] /\ exists x y, h = x ++ id ++ y
  | None => existsb (fun r => s_ r h) l = false
  end.
Proof.
  induction l as [|r l IH]; intros O N; [reflexivity|]. cbn [forallb] in O, N. apply andb_true_iff in O as [O1 O2]. apply andb_true_iff in N as [N1 N2]. cbn [fold_right existsb].
  pose proof (searched r h O1 N1) as S. destruct (re_search udigit uword (Grp 0 r) h) as [st|].
  - destruct S as (S1 & S2). rewrite S1. split; [reflexivity|exact S2].
  - rewrite S. apply IH; assumption.
Qed.
Lemma has_app ls ms h : has (ls ++ ms) h <-> has ls h \/ has ms h.
Proof.
  unfold Spec_Template.has. split.
  - intros (l & x & w & y & H & R). apply in_app_or in H as [H|H]; [left|right]; exists l, x, w, y; auto.
  - intros [(l & x & w & y & H & R)|(l & x & w & y & H & R)]; exists l, x, w, y; (split; [apply in_or_app; auto|exact R]).
Qed.
Lemma all_ids h : existsb (fun r => s_ r h) UNIQUE_IDS = true <-> ends_in_id udigit uword h.
Proof.
  change UNIQUE_IDS with [nth_id 0; nth_id 1; nth_id 2; nth_id 3; nth_id 4; nth_id 5; nth_id 6; nth_id 7; nth_id 8; nth_id 9; nth_id 10]. cbn [existsb].
  rewrite orb_false_r, !orb_true_iff, u0, u1, u2, u3, u4, u5, u6, u7, u8, u9, u10. unfold ends_in_id, hyphened. fold (hyphened_1 h). fold (hyphened_2 h).
  change (id_forms udigit uword) with (form_range 0 1 ++ form_range 1 2 ++ form_range 3 1 ++ form_range 4 1 ++ form_range 5 1 ++ form_range 6 1 ++ form_range 7 1 ++ form_range 8 1 ++ form_range 9 1 ++ form_range 10 1).
  rewrite !has_app. tauto.
Qed.
Lemma unique_yes m : check_for_unique_subject_id udigit uword m = Some true -> ends_in_id udigit uword (texts m ($"subject")).
Proof.
  unfold check_for_unique_subject_id. change (joined m ($"subject")) with (texts m ($"subject")). unfold unique_id. intros H. apply all_ids.
  pose proof (ids_found UNIQUE_IDS (texts m ($"subject")) eq_refl eq_refl) as F. destruct (fold_right _ _ _) as [id|]; [exact (proj1 F)|discriminate].
Qed.
Lemma unique_exactly m : ~ has (five_digits udigit) (texts m ($"subject")) ->
  exists b, check_for_unique_subject_id udigit uword m = Some b /\ (b = true <-> ends_in_id udigit uword (texts m ($"subject"))).
Proof.
  intros D. unfold check_for_unique_subject_id. change (joined m ($"subject")) with (texts m ($"subject")). unfold unique_id.
  pose proof (ids_found UNIQUE_IDS (texts m ($"subject")) eq_refl eq_refl) as F. destruct (fold_right _ _ _) as [id|].
  - destruct F as (A & B & x & y & E). destruct id as [|c id]; [congruence|]. destruct (s_ FIVE_DIGITS (c :: id)) eqn:S.
    + exfalso. apply s_five in S as (l & p & w & q & [<-|[]] & E' & R). apply D. exists (at_least 5 digit), (x ++ p), w, (q ++ y). split; [left; reflexivity|].
      split; [rewrite E, E', <- !app_assoc; reflexivity|]. revert R. apply fits_free. reflexivity.
    + exists true. split; [reflexivity|]. split; [intros _; apply all_ids, A|reflexivity].
  - exists false. split; [reflexivity|]. split; [discriminate|]. intros K. apply all_ids in K. congruence.
Qed.
Lemma unique_none m : ~ ends_in_id udigit uword (texts m ($"subject")) -> check_for_unique_subject_id udigit uword m = Some false.
Proof.
  intros D. unfold check_for_unique_subject_id. change (joined m ($"subject")) with (texts m ($"subject")). unfold unique_id.
  pose proof (ids_found UNIQUE_IDS (texts m ($"subject")) eq_refl eq_refl) as F. destruct (fold_right _ _ _) as [id|]; [|reflexivity]. exfalso. apply D, all_ids, (proj1 F).
Qed.
End Rules.
