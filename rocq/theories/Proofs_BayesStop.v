(** Words removed from headers. *)
From Verif Require Import PyStr Regexp Spec_Regexp RegexpSub Model_Received Model_BayesChew Spec_BayesChew Proofs_Regexp Proofs_RegexpLang Proofs_RegexpSub Proofs_BayesChew.
From Coq Require Import Lia.
Open Scope nat_scope.

(** ** Alternatives of literals *)
Fixpoint lit (s : str) : re :=
  match s with
  | [] => Eps
  | [c] => Chr false false [IChar c]
  | c :: s' => Cat (Chr false false [IChar c]) (lit s')
  end.
Fixpoint alts (l : list str) : re :=
  match l with [] => Eps | [s] => lit s | s :: l' => Alt (lit s) (alts l') end.
Definition alone_re (l : list str) : re := Cat (Wordb false) (Cat (alts l) (Wordb false)).

Section Stop.
Variable udigit uword : char -> bool.
Notation reads := (reads udigit uword).
Notation re_sub := (re_sub udigit uword).
Notation word_at := (word_at uword).

Lemma class_lit c d : class_in udigit uword false false [IChar d] c = true <-> c = d.
Proof. split; [apply class_one|]. intros ->. unfold class_in. cbn [existsb item_in]. rewrite N.eqb_refl. reflexivity. Qed.
Lemma lit_reads s : forall b w a, reads (lit s) b w a <-> w = s.
Proof.
  induction s as [|c s IH]; intros b w a; [reflexivity|]. destruct s as [|d s].
  - cbn [lit Spec_Regexp.reads]. split; [intros (x & -> & X); apply class_lit in X; subst; reflexivity|intros ->; exists c; split; [reflexivity|apply class_lit; reflexivity]].
  - change (lit (c :: d :: s)) with (Cat (Chr false false [IChar c]) (lit (d :: s))). cbn [Spec_Regexp.reads]. split.
    + intros (u & v & -> & (x & -> & X) & R). apply class_lit in X. subst x. apply IH in R. subst v. reflexivity.
    + intros ->. exists [c], (d :: s). split; [reflexivity|]. split; [exists c; split; [reflexivity|apply class_lit; reflexivity]|]. apply IH. reflexivity.
Qed.
Lemma alts_reads l b w a : l <> [] -> (reads (alts l) b w a <-> In w l).
Proof.
  induction l as [|s l IH]; [congruence|]. intros _. destruct l as [|s2 l].
  - cbn [alts In]. rewrite lit_reads. split; [intros ->; auto|intros [->|[]]; reflexivity].
  - change (alts (s :: s2 :: l)) with (Alt (lit s) (alts (s2 :: l))). cbn [Spec_Regexp.reads]. rewrite lit_reads, IH by discriminate.
    change (In w (s :: s2 :: l)) with (s = w \/ In w (s2 :: l)). split; (intros [H|H]; [left; auto|right; exact H]).
Qed.
Lemma alone_reads l b w a : l <> [] -> (reads (alone_re l) b w a <-> In w l /\ boundary uword b (w ++ a) /\ boundary uword (rev w ++ b) a).
Proof.
  intros N. cbn [alone_re Spec_Regexp.reads]. split.
  - intros (u & v & -> & [-> B1] & (u2 & v2 & -> & R & [-> B2])). cbn [app rev] in *. rewrite app_nil_r in *. rewrite alts_reads in R by exact N. auto.
  - intros (I & B1 & B2). exists [], w. split; [reflexivity|]. split; [auto|]. exists w, []. split; [rewrite app_nil_r; reflexivity|]. split; [apply alts_reads; assumption|auto].
Qed.
Lemma boundary_xor b a : boundary uword b a <-> xorb (word_at b) (word_at a) = true.
Proof. symmetry. apply boundary_iff. Qed.

Definition is_word (w : str) : Prop := w <> [] /\ Forall (fun c => is_w uword c = true) w.
Lemma word_at_word w t : is_word w -> word_at (w ++ t) = true.
Proof. intros [N F]. destruct w; [congruence|]. inversion F. assumption. Qed.
Lemma word_at_rev w t : is_word w -> word_at (rev w ++ t) = true.
Proof.
  intros [N F]. apply word_at_word. split; [intros E; apply N; rewrite <- (rev_involutive w), E; reflexivity|]. apply Forall_rev. exact F.
Qed.

Section Removed.
Variable l : list str.
Variable t : str.
Hypothesis ln : l <> [].
Hypothesis lw : Forall is_word l.
Hypothesis tw : Forall (fun c => is_w uword c = false) t.
Notation rep := (replaced udigit uword (alone_re l) (is_t t)).

Lemma inside_no_match b w a : word_at b = true -> ~ reads (alone_re l) b w a.
Proof.
  intros B R. apply alone_reads in R as (I & B1 & _); [|exact ln]. rewrite Forall_forall in lw. apply boundary_xor in B1. rewrite B, (word_at_word w a (lw w I)) in B1. discriminate.
Qed.
Lemma copied b s out : rep b s out -> forall w c, word_at b = true -> out = w ++ c -> Forall (fun c => is_w uword c = true) w -> word_at c = false ->
  exists r, s = w ++ r /\ word_at r = false.
Proof.
  induction 1 as [b|b d s out N H IH|b u a t' out W1 W2 U H IH]; intros w c B E F C.
  - symmetry in E. apply app_eq_nil in E as [-> ->]. exists []. auto.
  - destruct w as [|x w]; cbn [app] in E.
    + exists (d :: s). split; [reflexivity|]. subst c. exact C.
    + injection E as -> E. inversion F as [|? ? F1 F2]; subst. destruct (IH w c F1 eq_refl F2 C) as (r & -> & R). exists r. auto.
  - destruct (inside_no_match _ _ _ B W2).
Qed.
Lemma none_alone b s out : rep b s out -> forall ob, word_at b = word_at ob \/ word_at s = false ->
  forall x w c, out = x ++ w ++ c -> In w l -> word_at (rev x ++ ob) = false -> word_at c = false -> False.
Proof.
  pose proof lw as lw'. rewrite Forall_forall in lw'.
  induction 1 as [b|b d s out N H IH|b u a t' out W1 W2 U H IH]; intros ob Inv x w c E I X C.
  - symmetry in E. apply app_eq_nil in E as [_ E]. apply app_eq_nil in E as [-> _]. destruct (lw' _ I) as [K _]. congruence.
  - destruct x as [|y x]; cbn [app rev] in *.
    + destruct (lw' _ I) as [K F]. destruct w as [|y w]; [congruence|]. cbn [app] in E. injection E as -> E. inversion F as [|? ? F1 F2]; subst.
      destruct Inv as [Inv|Inv]; [|cbn in Inv; congruence]. destruct (copied _ _ _ H w c F1 eq_refl F2 C) as (r & -> & R).
      apply (N (y :: w) r eq_refl). apply alone_reads; [exact ln|]. split; [exact I|]. split; apply boundary_xor.
      * rewrite Inv, X. cbn [app]. unfold Regexp.word_at at 1. rewrite F1. reflexivity.
      * rewrite word_at_rev by (split; [discriminate|exact F]). rewrite R. reflexivity.
    + injection E as -> E. rewrite <- app_assoc in X. cbn [app] in X. apply (IH (y :: ob) (or_introl eq_refl) x w c E I X C).
  - unfold is_t in U. subst t'. apply alone_reads in W2 as (Iu & _ & B2); [|exact ln]. apply boundary_xor in B2. rewrite word_at_rev in B2 by (apply lw'; exact Iu).
    assert (A : word_at a = false) by (destruct (word_at a); [discriminate|reflexivity]). clear B2.
    assert (G : forall ob x, out = x ++ w ++ c -> word_at (rev x ++ ob) = false -> False) by (intros ob' x' E' X'; apply (IH ob' (or_intror A) x' w c E' I X' C)).
    clear IH H Inv. revert ob x E X. revert tw. generalize t. induction t0 as [|y t' IHt]; intros T ob x E X; cbn [app] in E.
    + apply (G ob x E X).
    + inversion T as [|? ? T1 T2]; subst. destruct x as [|z x]; cbn [app rev] in *.
      * destruct (lw' _ I) as [K F]. destruct w as [|z w]; [congruence|]. cbn [app] in E. injection E as -> E. inversion F. congruence.
      * injection E as -> E. rewrite <- app_assoc in X. cbn [app] in X. apply (IHt T2 (z :: ob) x E X).
Qed.
Lemma sub_none_alone s w : In w l -> ~ stands_alone (is_w uword) w (re_sub (always t) (alone_re l) s).
Proof.
  intros I (a & b & E & A & B). assert (O : ordered (alone_re l) = true).
  { cbn [alone_re ordered]. rewrite andb_true_r. clear. assert (L : forall s, ordered (lit s) = true) by (induction s as [|c [|d s] IH]; [reflexivity|reflexivity|exact IH]).
    induction l as [|s [|s2 l'] IH]; [reflexivity|apply L|]. change (ordered (lit s) && ordered (alts (s2 :: l')) = true). rewrite L. exact IH. }
  assert (N : never_empty udigit uword (alone_re l)).
  { intros b' a' R. apply alone_reads in R as (K & _); [|exact ln]. rewrite Forall_forall in lw. destruct (lw _ K) as [K' _]. congruence. }
  apply (none_alone _ _ _ (re_sub_always udigit uword t (alone_re l) s O N) [] (or_introl eq_refl) a w b E I).
  - rewrite app_nil_r. destruct (rev a) as [|c r] eqn:R; [reflexivity|]. cbn. apply (A (rev r) c). rewrite <- (rev_involutive a), R. reflexivity.
  - destruct b as [|c b]; [reflexivity|]. cbn. apply (B b c). reflexivity.
Qed.
End Removed.

Lemma ascii_word s : forallb (fun c => N.ltb c 128 && is_w (fun _ => false) c) s = true -> s <> [] -> is_word s.
Proof.
  intros F N. split; [exact N|]. rewrite forallb_forall in F. apply Forall_forall. intros c I. specialize (F c I). apply andb_true_iff in F as [F1 F2]. unfold is_w in *. rewrite F1 in *. exact F2.
Qed.
Lemma relay_are_words : Forall is_word relay_words.
Proof. repeat constructor; try discriminate. Qed.
Lemma received_no_stop v w : In w relay_words -> ~ stands_alone (is_w uword) w (chew_received udigit uword v).
Proof.
  intros I. unfold chew_received. change RCVD_STOP with (alone_re relay_words). apply sub_none_alone; [discriminate|apply relay_are_words| |exact I]. repeat constructor.
Qed.
Lemma type_are_words : Forall is_word type_words.
Proof. repeat constructor; try discriminate. Qed.
Lemma type_no_stop v w : In w type_words -> ~ stands_alone (is_w uword) w (chew_content_type udigit uword v).
Proof.
  intros I. unfold chew_content_type. change CT_STOP with (alone_re type_words). apply sub_none_alone; [discriminate|apply type_are_words|constructor|exact I].
Qed.

(** ** What is left alone *)
Lemma alone_found l s : l <> [] -> Forall is_word l -> found udigit uword (alone_re l) s -> exists w, In w l /\ stands_alone (is_w uword) w s.
Proof.
  intros N L (b & w & a & -> & R). apply alone_reads in R as (I & B1 & B2); [|exact N]. exists w. split; [exact I|]. exists b, a. split; [reflexivity|].
  rewrite Forall_forall in L. pose proof (L w I) as W. apply boundary_xor in B1, B2. rewrite word_at_word in B1 by exact W. rewrite word_at_rev in B2 by exact W. split.
  - intros x c ->. rewrite rev_app_distr in B1. cbn in B1. destruct (is_w uword c); [discriminate|reflexivity].
  - intros x c ->. cbn in B2. destruct (is_w uword c); [discriminate|reflexivity].
Qed.
Lemma space_no_word c : blanks_apart uword -> is_space c = true -> is_w uword c = false.
Proof.
  intros H S. unfold is_w. destruct (N.ltb_spec c 128) as [L|L]; [|apply H; exact S].
  assert (G : forall n, n < 128 -> is_space (N.of_nat n) = true -> is_w (fun _ => false) (N.of_nat n) = false).
  { intros n Hn. do 128 (destruct n as [|n]; [vm_compute; congruence|]). lia. }
  specialize (G (N.to_nat c)). rewrite N2Nat.id in G. specialize (G ltac:(lia) S). unfold is_w in G. destruct (N.ltb_spec c 128); [exact G|lia].
Qed.
End Stop.
Ltac chain R :=
  repeat (let u := fresh "u" in let v := fresh "v" in let R1 := fresh "R" in
    destruct R as (u & v & -> & R1 & R);
    try (let c := fresh "c" in let C := fresh "C" in destruct R1 as (c & -> & C); try (apply class_one in C; subst c))).

Section Kept.
Variable udigit uword : char -> bool.
Hypothesis blanks : blanks_apart uword.
Notation reads := (reads udigit uword).

Lemma class_space c : class_in udigit uword false false [ISpace] c = true -> is_space c = true.
Proof. unfold class_in. cbn [existsb item_in]. rewrite andb_false_l, !orb_false_r, xorb_false_l. auto. Qed.
Lemma alone_by b c w d a : Forall (fun x => is_w uword x = true) w -> is_space c = true -> is_space d = true -> stands_alone (is_w uword) w (b ++ c :: w ++ d :: a).
Proof.
  intros _ C D. exists (b ++ [c]), (d :: a). split; [rewrite <- app_assoc; reflexivity|]. split.
  - intros x y E. apply app_inj_tail in E as [_ <-]. apply space_no_word; assumption.
  - intros x y E. injection E as <- _. apply space_no_word; assumption.
Qed.
Lemma with_smtp_found s : found udigit uword WITH_SMTP s -> stands_alone (is_w uword) ($"with") s.
Proof.
  intros (b & w & a & -> & R). chain R. apply class_space in C, C0. exists (b ++ [c]). eexists (c0 :: _). split; [rewrite <- (app_assoc b [c]); reflexivity|]. split.
  - intros x y E. apply app_inj_tail in E as [_ <-]. apply space_no_word; assumption.
  - intros x y E. injection E as <- _. apply space_no_word; assumption.
Qed.
Lemma with_esmtp_found s : found udigit uword WITH_ESMTP s -> stands_alone (is_w uword) ($"with") s.
Proof.
  intros (b & w & a & -> & R). chain R. apply class_space in C, C0. exists (b ++ [c]). eexists (c0 :: _). split; [rewrite <- (app_assoc b [c]); reflexivity|]. split.
  - intros x y E. apply app_inj_tail in E as [_ <-]. apply space_no_word; assumption.
  - intros x y E. injection E as <- _. apply space_no_word; assumption.
Qed.
(** [\bid\s] *)
Lemma id_at b c t : boundary uword (rev b) (105%N :: 100%N :: c :: t) -> is_space c = true -> stands_alone (is_w uword) ($"id") (b ++ 105%N :: 100%N :: c :: t).
Proof.
  intros B C. exists b, (c :: t). split; [reflexivity|]. apply boundary_xor in B. split.
  - intros x y ->. rewrite rev_app_distr in B. cbn in B. destruct (is_w uword y); [discriminate|reflexivity].
  - intros x y E. injection E as <- _. apply space_no_word; assumption.
Qed.
Lemma chr_times ci neg l n : forall b w a, times (reads (Chr ci neg l)) n b w a <-> length w = n /\ Forall (fun c => class_in udigit uword ci neg l c = true) w.
Proof.
  induction n as [|n IH]; intros b w a; cbn [times].
  - split; [intros ->; split; [reflexivity|constructor]|intros [L _]; destruct w; [reflexivity|discriminate]].
  - split.
    + intros (u & v & -> & (c & -> & C) & T). apply IH in T as [T1 T2]. split; [cbn; congruence|constructor; assumption].
    + intros [L F]. destruct w as [|c w]; [discriminate|]. inversion F; subst. exists [c], w. split; [reflexivity|]. split; [exists c; split; [reflexivity|assumption]|]. apply IH. split; [cbn in L; congruence|assumption].
Qed.
Lemma rep_chr g lo hi ci neg l b w a : reads (Rep g lo (Some hi) (Chr ci neg l)) b w a <-> lo <= length w <= hi /\ Forall (fun c => class_in udigit uword ci neg l c = true) w.
Proof.
  cbn [Spec_Regexp.reads at_most]. split.
  - intros (n & N1 & N2 & T). apply chr_times in T as [T1 T2]. split; [lia|exact T2].
  - intros [L F]. exists (length w). split; [lia|]. split; [lia|]. apply chr_times. auto.
Qed.
Lemma class_alnum c : class_in udigit uword false false [IRange 97 122; IRange 65 90; IRange 48 57] c = alphanumeric c.
Proof.
  unfold class_in, alphanumeric, digit, upper_case, lower_case. cbn [existsb item_in]. rewrite andb_false_l, !orb_false_r, xorb_false_l.
  destruct (N.leb 97 c && N.leb c 122), (N.leb 65 c && N.leb c 90), (N.leb 48 c && N.leb c 57); reflexivity.
Qed.
Lemma Forall_eqb {p q : char -> bool} w : (forall c, p c = q c) -> Forall (fun c => p c = true) w <-> Forall (fun c => q c = true) w.
Proof. intros H. rewrite !Forall_forall. split; intros K c I; specialize (K c I); rewrite H in *; exact K. Qed.
Lemma id_sendmail_reads b w a : reads ID_SENDMAIL b w a <-> exists c q, w = 105%N :: 100%N :: c :: q /\ boundary uword b (w ++ a) /\ is_space c = true /\
  Forall (fun x => alphanumeric x = true) q /\ 7 <= length q <= 20 /\ boundary uword (rev w ++ b) a.
Proof.
  split.
  - intros R. destruct R as (u & v & -> & [-> B] & R). chain R. apply class_space in C. apply rep_chr in R0 as [L F]. destruct R as [-> R]. rewrite app_nil_r in *.
    exists c, u. split; [reflexivity|]. split; [exact B|]. split; [exact C|]. split; [apply (Forall_eqb u class_alnum); exact F|]. split; [exact L|].
    cbn [app rev] in *. rewrite <- !app_assoc. cbn [app]. exact R.
  - intros (c & q & -> & B & C & F & L & B2). exists [], (105%N :: 100%N :: c :: q). split; [reflexivity|]. split; [split; [reflexivity|exact B]|].
    exists [105%N], (100%N :: c :: q). split; [reflexivity|]. split; [exists 105%N; split; reflexivity|]. exists [100%N], (c :: q). split; [reflexivity|]. split; [exists 100%N; split; reflexivity|].
    exists [c], q. split; [reflexivity|]. split; [exists c; split; [reflexivity|]; unfold class_in; cbn [existsb item_in]; rewrite C; reflexivity|].
    exists q, []. split; [rewrite app_nil_r; reflexivity|]. split; [apply rep_chr; split; [exact L|apply (Forall_eqb q class_alnum); exact F]|]. split; [reflexivity|].
    cbn [app rev] in *. rewrite <- !app_assoc in B2. exact B2.
Qed.
Lemma id_sendmail_found s : found udigit uword ID_SENDMAIL s -> stands_alone (is_w uword) ($"id") s.
Proof. intros (b & w & a & -> & R). apply id_sendmail_reads in R as (c & q & -> & B & C & _). apply id_at; assumption. Qed.
Lemma id_exim_found s : found udigit uword ID_EXIM s -> stands_alone (is_w uword) ($"id") s.
Proof. intros (b & w & a & -> & R). destruct R as (u & v & -> & [-> B] & R). chain R. apply class_space in C. exact (id_at b c _ B C). Qed.
Lemma class_two c d e : class_in udigit uword false false [IChar d; IChar e] c = true -> c = d \/ c = e.
Proof. unfold class_in. cbn [existsb item_in]. rewrite andb_false_l, !orb_false_r, xorb_false_l. intros H. apply orb_true_iff in H as [H|H]; apply N.eqb_eq in H; auto. Qed.
Lemma date_found s : found udigit uword DATE s -> exists m, In m months /\ occurs m s.
Proof.
  intros (b & w & a & -> & (u1 & v1 & -> & _ & (u2 & v2 & -> & _ & (u3 & v3 & -> & _ & (u4 & v4 & -> & _ & (m & v5 & -> & M & _)))))).
  exists m. split; [|exists (b ++ u1 ++ u2 ++ u3 ++ u4), (v5 ++ a); rewrite <- !app_assoc; reflexivity]. unfold months.
  repeat (destruct M as [M|M]); chain M; destruct M as (c & -> & C); (apply class_one in C || apply class_two in C as [C|C]); subst c; vm_compute; tauto.
Qed.
Lemma never r : some_char r = true -> never_empty udigit uword r.
Proof. apply some_never. Qed.
Lemma relay_never : never_empty udigit uword RCVD_STOP.
Proof. apply never. reflexivity. Qed.
Lemma with_in : In ($"with") (($"id") :: relay_words). Proof. vm_compute. tauto. Qed.
Lemma quiet_end v : quiet (is_w uword) v ->
  re_sub udigit uword (always ($" ")) RCVD_STOP (re_sub udigit uword (always []) DATE (re_sub udigit uword (always ($" ")) ID_EXIM v)) = v.
Proof.
  intros [Q1 Q2]. rewrite (re_sub_none udigit uword (always ($" ")) ID_EXIM); [|reflexivity|apply never; reflexivity|].
  2:{ intros H. apply (Q1 ($"id")); [left; reflexivity|]. apply id_exim_found. exact H. }
  rewrite (re_sub_none udigit uword (always []) DATE); [|reflexivity|apply never; reflexivity|].
  2:{ intros H. apply date_found in H as (m & M & H). apply (Q2 m M H). }
  rewrite (re_sub_none udigit uword (always ($" ")) RCVD_STOP); [reflexivity|reflexivity|apply relay_never|].
  intros H. change RCVD_STOP with (alone_re relay_words) in H. apply alone_found in H as (w & W & H); [|discriminate|apply relay_are_words]. apply (Q1 w); [right; exact W|exact H].
Qed.
Lemma quiet_start v : ~ stands_alone (is_w uword) ($"with") v -> re_sub udigit uword (always ($" ")) WITH_ESMTP (re_sub udigit uword (always ($" ")) WITH_SMTP v) = v.
Proof.
  intros Q. rewrite (re_sub_none udigit uword (always ($" ")) WITH_SMTP); [|reflexivity|apply never; reflexivity|].
  2:{ intros H. apply Q, with_smtp_found, H. }
  apply re_sub_none; [reflexivity|apply never; reflexivity|]. intros H. apply Q, with_esmtp_found, H.
Qed.
Lemma received_quiet v : quiet (is_w uword) v -> chew_received udigit uword v = v.
Proof.
  intros Q. unfold chew_received. rewrite quiet_start by (apply (proj1 Q), with_in). rewrite (re_sub_none udigit uword (always ($" ")) ID_SENDMAIL); [apply quiet_end; exact Q|reflexivity|apply never; reflexivity|].
  intros H. apply (proj1 Q ($"id")); [left; reflexivity|]. apply id_sendmail_found. exact H.
Qed.

(** ** Texts put together *)
Lemma alone_split w x c y : w <> [] -> ~ In c w -> stands_alone (is_w uword) w (x ++ c :: y) -> stands_alone (is_w uword) w x \/ stands_alone (is_w uword) w y.
Proof.
  intros N NC (a & b & E & A & B). symmetry in E. apply app_eq_app in E as [l [[-> E]|[-> E]]].
  - destruct l as [|d l]; cbn [app] in E.
    + destruct w as [|e w]; [congruence|]. cbn [app] in E. injection E as -> _. destruct NC. left. reflexivity.
    + injection E as <- E. right. exists l, b. split; [exact E|]. split; [|exact B]. intros p q ->. apply (A (x ++ c :: p) q). rewrite <- app_assoc. reflexivity.
  - apply app_eq_app in E as [l' [[-> E]|[-> E]]].
    + destruct l' as [|d l']; cbn [app] in E.
      * left. exists a, []. rewrite !app_nil_r. split; [reflexivity|]. split; [exact A|]. intros p q K. discriminate.
      * injection E as <- E. destruct NC. apply in_or_app. right. left. reflexivity.
    + left. exists a, l'. split; [reflexivity|]. split; [exact A|]. intros p q ->. apply (B (p ++ c :: y) q). rewrite E. reflexivity.
Qed.
Lemma occurs_split m x c y : m <> [] -> ~ In c m -> occurs m (x ++ c :: y) -> occurs m x \/ occurs m y.
Proof.
  intros N NC (a & b & E). symmetry in E. apply app_eq_app in E as [l [[-> E]|[-> E]]].
  - destruct l as [|d l]; cbn [app] in E.
    + destruct m as [|e m]; [congruence|]. cbn [app] in E. injection E as -> _. destruct NC. left. reflexivity.
    + injection E as <- E. right. exists l, b. exact E.
  - apply app_eq_app in E as [l' [[-> E]|[-> E]]].
    + destruct l' as [|d l']; cbn [app] in E.
      * left. exists a, []. rewrite !app_nil_r. reflexivity.
      * injection E as <- E. destruct NC. apply in_or_app. right. left. reflexivity.
    + left. exists a, l'. reflexivity.
Qed.
Lemma alone_nil w : w <> [] -> ~ stands_alone (is_w uword) w [].
Proof. intros N (a & b & E & _). symmetry in E. apply app_eq_nil in E as [_ E]. apply app_eq_nil in E as [E _]. congruence. Qed.
Lemma alone_word w q : Forall (fun c => is_w uword c = true) q -> stands_alone (is_w uword) w q -> w = q.
Proof.
  intros F (a & b & -> & A & B). apply Forall_app in F as [Fa F]. apply Forall_app in F as [_ Fb].
  destruct b as [|y b]; [|inversion Fb; subst; rewrite (B b y eq_refl) in *; discriminate]. destruct a as [|x a] using rev_ind; [rewrite app_nil_r; reflexivity|].
  apply Forall_app in Fa as [_ Fa]. inversion Fa; subst. rewrite (A a x eq_refl) in *. discriminate.
Qed.
Lemma quiet_join x y : quiet (is_w uword) x -> quiet (is_w uword) y -> quiet (is_w uword) (x ++ 32%N :: y).
Proof.
  intros [X1 X2] [Y1 Y2]. split.
  - intros w W H. apply alone_split in H as [H|H]; [apply (X1 w W H)|apply (Y1 w W H)| |].
    + intros ->. vm_compute in W. intuition discriminate.
    + revert W. vm_compute. intuition (subst; cbn in *; intuition discriminate).
  - intros m M H. apply occurs_split in H as [H|H]; [apply (X2 m M H)|apply (Y2 m M H)| |].
    + intros ->. vm_compute in M. intuition discriminate.
    + revert M. vm_compute. intuition (subst; cbn in *; intuition discriminate).
Qed.
Lemma quiet_nil : quiet (is_w uword) [].
Proof.
  split; [intros w W; apply alone_nil; intros ->; vm_compute in W; intuition discriminate|].
  intros m M (a & b & E). symmetry in E. apply app_eq_nil in E as [_ E]. apply app_eq_nil in E as [E _]. subst. vm_compute in M. intuition discriminate.
Qed.
Lemma alnum_word c : alphanumeric c = true -> is_w uword c = true.
Proof.
  unfold alphanumeric, digit, upper_case, lower_case, is_w. intros H. assert (L : (c < 128)%N).
  { destruct (N.leb_spec 48 c), (N.leb_spec c 57), (N.leb_spec 65 c), (N.leb_spec c 90), (N.leb_spec 97 c), (N.leb_spec c 122); cbn in H; try discriminate; lia. }
  apply N.ltb_lt in L. rewrite L. rewrite H. reflexivity.
Qed.
Lemma received_queue p q r : quiet (is_w uword) p -> quiet (is_w uword) r -> Forall (fun c => alphanumeric c = true) q -> 7 <= length q <= 20 ->
  chew_received udigit uword (p ++ ($" id ") ++ q ++ ($" ") ++ r) = p ++ ($"   ") ++ r.
Proof.
  intros P R F L. unfold chew_received. assert (W : Forall (fun c => is_w uword c = true) q) by (eapply Forall_impl; [|exact F]; exact alnum_word).
  change (p ++ ($" id ") ++ q ++ ($" ") ++ r) with (p ++ 32%N :: ($"id") ++ 32%N :: q ++ 32%N :: r). rewrite quiet_start.
  2:{ intros H. apply alone_split in H as [H|H]; [apply (proj1 P _ with_in H)| |discriminate|vm_compute; intuition discriminate].
      apply alone_split in H as [H|H]; [apply alone_word in H; [discriminate|repeat constructor]| |discriminate|vm_compute; intuition discriminate].
      apply alone_split in H as [H|H]; [apply alone_word in H; [subst q; destruct L as [L _]; apply Nat.leb_le in L; discriminate|exact W]|apply (proj1 R _ with_in H)|discriminate|vm_compute; intuition discriminate]. }
  replace (p ++ 32%N :: ($"id") ++ 32%N :: q ++ 32%N :: r) with ((p ++ [32%N]) ++ (($"id ") ++ q) ++ (32%N :: r)) by (rewrite <- !app_assoc; reflexivity).
  assert (BW : boundary uword (rev (p ++ [32%N])) ((($"id ") ++ q) ++ 32%N :: r)) by (apply boundary_xor; rewrite rev_app_distr; reflexivity).
  assert (QN : word_at uword (rev q ++ rev ($"id ") ++ rev (p ++ [32%N])) = true) by (apply word_at_rev; split; [intros ->; cbn in L; lia|exact W]).
  rewrite (re_sub_unique udigit uword ($" ") ID_SENDMAIL (p ++ [32%N]) (($"id ") ++ q) (32%N :: r)).
  - replace ((p ++ [32%N]) ++ ($" ") ++ 32%N :: r) with (p ++ ($"   ") ++ r) by (rewrite <- !app_assoc; reflexivity). apply quiet_end.
    change (p ++ ($"   ") ++ r) with (p ++ 32%N :: [] ++ 32%N :: [] ++ 32%N :: r). apply quiet_join; [exact P|]. apply quiet_join; [apply quiet_nil|]. apply quiet_join; [apply quiet_nil|exact R].
  - reflexivity.
  - apply never. reflexivity.
  - discriminate.
  - intros x y E Y w a E2 H. apply id_sendmail_reads in H as (c & q' & -> & B & C & _). rewrite app_nil_r in B.
    assert (K : exists t, y = 105%N :: 100%N :: c :: t).
    { destruct y as [|y1 y]; [congruence|]. cbn [app] in E2. injection E2 as -> E2. destruct y as [|y2 y].
      - apply app_inj_tail in E as [_ E]. discriminate.
      - cbn [app] in E2. injection E2 as -> E2. destruct y as [|y3 y]; [change [105%N; 100%N] with ([105%N] ++ [100%N]) in E; rewrite app_assoc in E; apply app_inj_tail in E as [_ E]; discriminate|].
        cbn [app] in E2. injection E2 as -> E2. exists y. reflexivity. }
    destruct K as [t ->]. assert (S : stands_alone (is_w uword) ($"id") (p ++ 32%N :: [])).
    { rewrite E. apply id_at; [|exact C]. apply boundary_xor. apply boundary_xor in B. exact B. }
    apply alone_split in S as [S|S]; [apply (proj1 P ($"id")); [left; reflexivity|exact S]|apply alone_nil in S; [exact S|discriminate]|discriminate|vm_compute; intuition discriminate].
  - apply id_sendmail_reads. exists 32%N, q. split; [reflexivity|]. split; [exact BW|]. split; [reflexivity|]. split; [exact F|]. split; [exact L|].
    apply boundary_xor. rewrite rev_app_distr, <- app_assoc, QN. reflexivity.
  - intros w v E H. apply id_sendmail_reads in H as (c & q' & -> & B & C & F' & L' & B'). change (($"id ") ++ q) with (105%N :: 100%N :: 32%N :: q) in *. cbn [app] in E. injection E as <- E.
    assert (K : q' = q); [|rewrite K; reflexivity]. apply app_eq_app in E as [l [[E1 E2]|[E1 E2]]].
    + destruct l as [|x l]; [rewrite app_nil_r in E1; auto|]. exfalso. assert (W' : Forall (fun c => is_w uword c = true) q') by (eapply Forall_impl; [|exact F']; exact alnum_word).
      rewrite E1 in W. apply Forall_app in W as [_ W]. inversion W as [|? ? X1 X2]; subst. apply boundary_xor in B'. replace (rev (105%N :: 100%N :: 32%N :: q') ++ rev (p ++ [32%N])) with (rev q' ++ rev ($"id ") ++ rev (p ++ [32%N])) in B'.
      2:{ change (105%N :: 100%N :: 32%N :: q') with (($"id ") ++ q'). rewrite (rev_app_distr ($"id ") q'), <- app_assoc. reflexivity. }
      rewrite word_at_rev in B'; [|split; [intros ->; cbn in L'; lia|exact W']]. cbn in B'. rewrite X1 in B'. discriminate.
    + destruct l as [|x l]; [rewrite app_nil_r in E1; exact E1|]. cbn [app] in E2. injection E2 as <- E2. rewrite E1 in F'. apply Forall_app in F' as [_ F']. inversion F'. discriminate.
  - intros x y E Y w a E2 H. apply id_sendmail_reads in H as (c & q' & -> & B & C & _). rewrite app_nil_r in E2. subst y. destruct x as [|x0 x]; [discriminate|]. cbn [app] in E. injection E as <- E.
    apply (proj1 R ($"id")); [left; reflexivity|]. rewrite E. cbn [app] in *. rewrite E in *.
    exists x, (c :: q' ++ a). split; [reflexivity|]. apply boundary_xor in B. split.
    + intros z d ->. cbn [rev] in B. rewrite rev_app_distr in B. cbn in B. destruct (is_w uword d); [discriminate|reflexivity].
    + intros z d K. injection K as <- _. apply space_no_word; assumption.
Qed.
End Kept.
