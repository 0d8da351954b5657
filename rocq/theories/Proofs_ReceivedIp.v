(** Proofs about the address of a Received header, with the real patterns. *)
From Verif Require Import PyStr Regexp Proofs_Regexp Model_Received Spec_Received Proofs_Received.
From Verif Require Model_Relays Spec_Relays Proofs_Relays.

Definition lit (c : char) : re := Chr false false [IChar c].
Definition DIG : re := Chr false false [IDigit].
Definition OCT : re :=
  Alt (Cat (lit 49) (Cat DIG DIG))
    (Alt (Cat (lit 50) (Cat (Chr false false [IRange 48 52]) DIG))
       (Alt (Cat (lit 50) (Cat (lit 53) (Chr false false [IRange 48 53])))
          (Alt (Cat DIG DIG) DIG))).
Definition IP4 : re :=
  Cat (Wordb false) (Cat (Behind true (lit 58))
    (Cat OCT (Cat (lit 46) (Cat OCT (Cat (lit 46) (Cat OCT (Cat (lit 46) (Cat OCT (Wordb false))))))))).
Lemma ip_shape : exists IP6, IP_ADDRESS = Alt IP4 IP6.
Proof. eexists. reflexivity. Qed.

(** ** Bytes *)
Definition adig (c : char) : Prop := (48 <= c <= 57)%N.
Lemma byte_digits n : (n < 256)%N -> Forall adig (byte_text n).
Proof.
  intros H. assert (D : forall x, (x < 10)%N -> adig (48 + x)) by (intros x Hx; unfold adig; lia).
  assert (n / 100 < 3)%N by (apply N.div_lt_upper_bound; lia).
  pose proof (N.mod_lt n 10 ltac:(lia)). pose proof (N.mod_lt (n / 10) 10 ltac:(lia)).
  unfold byte_text. destruct (N.ltb_spec n 10); [apply Forall_cons; [auto|apply Forall_nil]|].
  destruct (N.ltb_spec n 100).
  - assert (n / 10 < 10)%N by (apply N.div_lt_upper_bound; lia). apply Forall_cons; [auto|apply Forall_cons; [auto|apply Forall_nil]].
  - apply Forall_cons; [apply D; eapply N.lt_trans; [eassumption|lia]|apply Forall_cons; [auto|apply Forall_cons; [auto|apply Forall_nil]]].
Qed.
Lemma byte_nonempty n : byte_text n <> [].
Proof. unfold byte_text. destruct (N.ltb n 10); [discriminate|]. destruct (N.ltb n 100); discriminate. Qed.

Lemma split_first (c : char) (a x b y : str) : ~ In c a -> ~ In c b -> a ++ c :: x = b ++ c :: y -> a = b /\ x = y.
Proof.
  revert b. induction a as [|d a IH]; intros b Ha Hb E.
  - destruct b as [|e b]; [injection E as ->; auto|]. injection E as -> _. exfalso. apply Hb. left. reflexivity.
  - destruct b as [|e b]; [injection E as <- _; exfalso; apply Ha; left; reflexivity|].
    injection E as -> E. destruct (IH b) as [-> ->]; auto; intros H; [apply Ha|apply Hb]; right; exact H.
Qed.

Section Ip.
Variable udigit uword : char -> bool.
Notation ways := (ways udigit uword).
Notation class_in := (class_in udigit uword).

Lemma class_lit c : class_in false false [IChar c] c = true.
Proof. unfold Regexp.class_in. cbn. rewrite N.eqb_refl. reflexivity. Qed.
Lemma is_d_adig c : adig c -> is_d udigit c = true.
Proof.
  intros [A B]. unfold is_d. destruct (N.ltb_spec c 128); [|lia]. apply andb_true_iff. split; apply N.leb_le; lia.
Qed.
Lemma is_w_adig c : adig c -> is_w uword c = true.
Proof.
  intros [A B]. unfold is_w. destruct (N.ltb_spec c 128); [|lia].
  replace (N.leb 48 c && N.leb c 57) with true; [reflexivity|]. symmetry. apply andb_true_iff. split; apply N.leb_le; lia.
Qed.
Lemma class_dig c : adig c -> class_in false false [IDigit] c = true.
Proof. intros H. unfold Regexp.class_in. cbn [existsb item_in]. rewrite (is_d_adig c H). reflexivity. Qed.
Lemma class_range a b c : (a <= c <= b)%N -> class_in false false [IRange a b] c = true.
Proof.
  intros [A B]. unfold Regexp.class_in. cbn [existsb item_in].
  replace (N.leb a c && N.leb c b) with true; [reflexivity|]. symmetry. apply andb_true_iff. split; apply N.leb_le; lia.
Qed.

Lemma oct_in n b t k : (n < 256)%N -> In (mkS (rev (byte_text n) ++ b) t k) (ways OCT (mkS b (byte_text n ++ t) k)).
Proof.
  intros H. pose proof (byte_digits n H) as D. unfold byte_text in *. unfold OCT.
  destruct (N.ltb_spec n 10).
  - inversion D as [|? ? D1 _]; subst. cbn [app rev]. do 4 apply in_alt_r. apply in_chr, class_dig, D1.
  - destruct (N.ltb_spec n 100).
    + inversion D as [|? ? D1 D']; subst. inversion D' as [|? ? D2 _]; subst. cbn [app rev]. do 3 apply in_alt_r. apply in_alt_l.
      eapply in_cat; apply in_chr, class_dig; assumption.
    + inversion D as [|? ? D1 D']; subst. inversion D' as [|? ? D2 D'']; subst. inversion D'' as [|? ? D3 _]; subst. cbn [app rev].
      assert (Hq : (n / 100 = 1 \/ n / 100 = 2)%N).
      { assert (n / 100 < 3)%N by (apply N.div_lt_upper_bound; lia). assert (1 <= n / 100)%N by (apply N.div_le_lower_bound; lia). lia. }
      destruct Hq as [Hq|Hq].
      * rewrite Hq. apply in_alt_l. eapply in_cat; [apply in_chr; reflexivity|]. eapply in_cat; apply in_chr, class_dig; assumption.
      * rewrite Hq.
        assert (Hn : (200 <= n)%N) by (pose proof (N.mul_div_le n 100 ltac:(lia)); lia).
        assert (Hm : (n = 10 * (n / 10) + n mod 10)%N) by (apply N.div_mod; lia).
        assert (H25 : (n / 10 < 26)%N) by (apply N.div_lt_upper_bound; lia).
        assert (H20 : (20 <= n / 10)%N) by (apply N.div_le_lower_bound; lia).
        pose proof (N.mod_lt n 10 ltac:(lia)) as H10.
        remember (n / 10)%N as q eqn:Eq. remember (n mod 10)%N as m eqn:Em. clear Eq Em Hq.
        assert (Ht : (q mod 10 = q - 20)%N).
        { replace q with ((q - 20) + 2 * 10)%N at 1 by lia. rewrite N.mod_add by lia. apply N.mod_small. lia. }
        rewrite Ht in *. apply in_alt_r. destruct (N.ltb_spec q 25).
        -- apply in_alt_l. eapply in_cat; [apply in_chr; reflexivity|]. eapply in_cat; apply in_chr; [apply class_range; lia|apply class_dig, D3].
        -- apply in_alt_r, in_alt_l. eapply in_cat; [apply in_chr; reflexivity|].
           replace (48 + (q - 20))%N with 53%N by lia.
           eapply in_cat; apply in_chr; [reflexivity|apply class_range; lia].
Qed.

Lemma dig_class_ok ci neg l c : (fun (ci neg : bool) (l : list item) =>
  negb ci && negb neg && forallb (fun i => match i with IDigit => true | IChar c => N.leb 48 c && N.leb c 57 | IRange a b => N.leb 48 a && N.leb b 57 | _ => false end) l) ci neg l = true ->
  class_in ci neg l c = true -> is_d udigit c = true.
Proof.
  intros H K. apply andb_true_iff in H as [H Hl]. apply andb_true_iff in H as [H1 H2]. apply negb_true_iff in H1, H2. subst.
  unfold Regexp.class_in in K. cbn [xorb andb] in K. rewrite orb_false_r in K.
  destruct (existsb (item_in udigit uword c) l) eqn:E; [|discriminate]. apply existsb_exists in E as (i & Hi & Hc).
  rewrite forallb_forall in Hl. specialize (Hl i Hi). destruct i; try discriminate; cbn [item_in] in Hc.
  - apply N.eqb_eq in Hc. subst. apply is_d_adig. unfold adig. apply andb_true_iff in Hl as [A B]. apply N.leb_le in A, B. lia.
  - apply is_d_adig. unfold adig. apply andb_true_iff in Hl as [A B], Hc as [C D]. apply N.leb_le in A, B, C, D. lia.
  - exact Hc.
Qed.
Lemma oct_inv st st1 : In st1 (ways OCT st) -> exists w, ext st st1 w /\ w <> [] /\ Forall (fun c => is_d udigit c = true) w.
Proof.
  intros H. destruct (ways_ext _ _ _ _ _ H) as [w Hw]. exists w. split; [exact Hw|]. split.
  - intros ->. pose proof (ways_needs udigit uword _ _ dig_class_ok OCT eq_refl _ _ _ H Hw) as E. inversion E.
  - exact (ways_only udigit uword _ _ dig_class_ok OCT eq_refl _ _ _ H Hw).
Qed.
Lemma dot_not_digit w : Forall (fun c => is_d udigit c = true) w -> ~ In 46%N w.
Proof. intros H I. rewrite Forall_forall in H. specialize (H _ I). discriminate. Qed.
Lemma dot_not_byte n : (n < 256)%N -> ~ In 46%N (byte_text n).
Proof. intros H I. pose proof (byte_digits n H) as D. rewrite Forall_forall in D. specialize (D _ I). unfold adig in D. lia. Qed.
Lemma lit_inv c st st1 : In st1 (ways (lit c) st) -> ext st st1 [c] /\ s_caps st1 = s_caps st.
Proof.
  intros H. apply step_In in H as (d & Hd & He & Hc). unfold Regexp.class_in in Hd. cbn in Hd. rewrite !orb_false_r in Hd.
  destruct (N.eqb d c) eqn:E; [apply N.eqb_eq in E; subst d; auto|discriminate].
Qed.
(** One byte and the dot after it. *)
Lemma oct_dot_inv n t st st1 st2 : (n < 256)%N -> s_after st = byte_text n ++ 46%N :: t ->
  In st1 (ways OCT st) -> In st2 (ways (lit 46) st1) -> s_after st2 = t.
Proof.
  intros Hn E H1 H2. destruct (oct_inv _ _ H1) as (w & [E1 _] & _ & Hd). apply lit_inv in H2 as [[E2 _] _].
  rewrite E, E2 in E1. cbn [app] in E1. destruct (split_first 46%N _ _ _ _ (dot_not_byte n Hn) (dot_not_digit w Hd) E1) as [_ <-]. reflexivity.
Qed.
Lemma digit_prefix w x u t : u ++ 93%N :: t = w ++ x -> Forall adig u -> Forall (fun c => is_d udigit c = true) w ->
  exists v, u = w ++ v /\ x = v ++ 93%N :: t.
Proof.
  revert u. induction w as [|e w IH]; intros u E Hu Hw; [exists u; auto|].
  inversion Hw as [|? ? He Hw']; subst. destruct u as [|f u]; cbn [app] in E; injection E as <- E; [discriminate|].
  inversion Hu; subst. destruct (IH u E) as (v & -> & ->); auto. exists v. auto.
Qed.
Lemma ip4_inv a b c d p t k st : bytes a b c d -> In st (ways IP4 (mkS p (quad a b c d ++ 93%N :: t) k)) -> s_after st = 93%N :: t.
Proof.
  intros (Ha & Hb & Hc & Hd) H. unfold IP4 in H. cbn [Regexp.ways] in H.
  apply in_flat_map in H as (s0 & H0 & H). apply guard_In in H0 as [_ ->].
  apply in_flat_map in H as (s0 & H0 & H). apply guard_In in H0 as [_ ->].
  apply in_flat_map in H as (s1 & H1 & H). apply in_flat_map in H as (s2 & H2 & H).
  apply in_flat_map in H as (s3 & H3 & H). apply in_flat_map in H as (s4 & H4 & H).
  apply in_flat_map in H as (s5 & H5 & H). apply in_flat_map in H as (s6 & H6 & H).
  apply in_flat_map in H as (s7 & H7 & H). apply guard_In in H as [Hw ->].
  assert (E2 : s_after s2 = byte_text b ++ 46%N :: byte_text c ++ 46%N :: byte_text d ++ 93%N :: t).
  { eapply (oct_dot_inv a); [exact Ha| |exact H1|exact H2]. cbn [s_after]. unfold quad. rewrite <- !app_assoc. reflexivity. }
  assert (E4 : s_after s4 = byte_text c ++ 46%N :: byte_text d ++ 93%N :: t) by (eapply (oct_dot_inv b); [exact Hb|exact E2|exact H3|exact H4]).
  assert (E6 : s_after s6 = byte_text d ++ 93%N :: t) by (eapply (oct_dot_inv c); [exact Hc|exact E4|exact H5|exact H6]).
  destruct (oct_inv _ _ H7) as (w & [E7 B7] & Hne & Hdig). rewrite E6 in E7.
  destruct (digit_prefix _ _ _ _ E7 (byte_digits d Hd) Hdig) as (v & Ev & Ex).
  assert (Dw : Forall adig w) by (pose proof (byte_digits d Hd) as D; rewrite Ev in D; apply Forall_app in D; tauto).
  assert (Dv : Forall adig v) by (pose proof (byte_digits d Hd) as D; rewrite Ev in D; apply Forall_app in D; tauto).
  assert (Hb7 : word_at uword (s_before s7) = true).
  { rewrite B7. destruct (rev w) as [|x r] eqn:Er; [apply (f_equal (@rev char)) in Er; rewrite rev_involutive in Er; cbn in Er; congruence|].
    cbn [app word_at]. apply is_w_adig. rewrite Forall_forall in Dw. apply Dw, in_rev. rewrite Er. left. reflexivity. }
  rewrite Ex. destruct v as [|x v]; [reflexivity|]. exfalso. rewrite Hb7, Ex in Hw. cbn [app word_at] in Hw.
  inversion Dv as [|? ? Dx _]; subst. rewrite (is_w_adig x Dx) in Hw. discriminate.
Qed.
Lemma ip4_in a b c d p t k : bytes a b c d ->
  In (mkS (rev (quad a b c d) ++ 91%N :: p) (93%N :: t) k) (ways IP4 (mkS (91%N :: p) (quad a b c d ++ 93%N :: t) k)).
Proof.
  intros (Ha & Hb & Hc & Hd). unfold IP4.
  assert (Hw : forall n x, (n < 256)%N -> word_at uword (byte_text n ++ x) = true).
  { intros n x Hn. pose proof (byte_digits n Hn) as D. pose proof (byte_nonempty n) as E. destruct (byte_text n) as [|y r]; [congruence|].
    inversion D; subst. cbn [app word_at]. apply is_w_adig. assumption. }
  eapply in_cat; [|eapply in_cat; [|eapply in_cat; [|eapply in_cat; [|eapply in_cat; [|eapply in_cat; [|eapply in_cat; [|eapply in_cat; [|eapply in_cat]]]]]]]].
  - unfold quad. rewrite <- !app_assoc. cbn [Regexp.ways s_before s_after]. rewrite (Hw a _ Ha). left. reflexivity.
  - cbn [Regexp.ways s_before s_after lit]. unfold step. cbn. left. reflexivity.
  - apply oct_in, Ha.
  - change ($".") with [46%N]. cbn [app]. apply in_chr, class_lit.
  - apply oct_in, Hb.
  - change ($".") with [46%N]. cbn [app]. apply in_chr, class_lit.
  - apply oct_in, Hc.
  - change ($".") with [46%N]. cbn [app]. apply in_chr, class_lit.
  - apply oct_in, Hd.
  - cbn [Regexp.ways s_before s_after].
    assert (E : rev (byte_text d) ++ 46%N :: rev (byte_text c) ++ 46%N :: rev (byte_text b) ++ 46%N :: rev (byte_text a) ++ 91%N :: p =
                rev (quad a b c d) ++ 91%N :: p).
    { unfold quad. change ($".") with [46%N]. rewrite !rev_app_distr. cbn [rev app]. rewrite <- !app_assoc. cbn [app]. rewrite <- ?app_assoc. reflexivity. }
    rewrite E. replace (word_at uword (rev (quad a b c d) ++ 91%N :: p)) with true.
    + cbn. left. reflexivity.
    + rewrite <- E. symmetry. pose proof (byte_digits d Hd) as D. pose proof (byte_nonempty d) as N.
      destruct (rev (byte_text d)) as [|x r] eqn:Er; [apply (f_equal (@rev char)) in Er; rewrite rev_involutive in Er; cbn in Er; congruence|].
      cbn [app word_at]. apply is_w_adig. rewrite Forall_forall in D. apply D, in_rev. rewrite Er. left. reflexivity.
Qed.

(** ** The addresses found in a text *)
Definition ok_mark (ci neg : bool) (l : list item) : bool :=
  negb ci && negb neg && forallb (fun i => match i with IChar c => N.eqb c 46 || N.eqb c 58 | _ => false end) l.
Lemma mark_class ci neg l c : ok_mark ci neg l = true -> class_in ci neg l c = true -> c = 46%N \/ c = 58%N.
Proof.
  intros H K. apply andb_true_iff in H as [H Hl]. apply andb_true_iff in H as [H1 H2]. apply negb_true_iff in H1, H2. subst.
  unfold Regexp.class_in in K. cbn [xorb andb] in K. rewrite orb_false_r in K.
  destruct (existsb (item_in udigit uword c) l) eqn:E; [|discriminate]. apply existsb_exists in E as (i & Hi & Hc).
  rewrite forallb_forall in Hl. specialize (Hl i Hi). destruct i; try discriminate; cbn [item_in] in Hc.
  apply N.eqb_eq in Hc. subst. apply orb_true_iff in Hl as [H|H]; apply N.eqb_eq in H; auto.
Qed.
(** No address without a dot or a colon. *)
Lemma ip_marked st st' w : In st' (ways IP_ADDRESS st) -> ext st st' w -> Exists (fun c => c = 46 \/ c = 58)%N w.
Proof. exact (ways_needs udigit uword _ _ mark_class IP_ADDRESS eq_refl st st' w). Qed.
Definition ok_open (ci neg : bool) (l : list item) : bool :=
  negb ci && negb neg && forallb (fun i => match i with IDigit => true | IChar c => negb (N.eqb c 91) | IRange a b => N.ltb 91 a || N.ltb b 91 | _ => false end) l.
Lemma open_class ci neg l c : ok_open ci neg l = true -> class_in ci neg l c = true -> c <> 91%N.
Proof.
  intros H K ->. apply andb_true_iff in H as [H Hl]. apply andb_true_iff in H as [H1 H2]. apply negb_true_iff in H1, H2. subst.
  unfold Regexp.class_in in K. cbn [xorb andb] in K. rewrite orb_false_r in K.
  destruct (existsb (item_in udigit uword 91) l) eqn:E; [|discriminate]. apply existsb_exists in E as (i & Hi & Hc).
  rewrite forallb_forall in Hl. specialize (Hl i Hi). destruct i as [x|x y| | | | | |]; try discriminate; cbn [item_in] in Hc.
  - apply N.eqb_eq in Hc. subst. discriminate.
  - apply andb_true_iff in Hc as [A B]. apply N.leb_le in A, B. apply orb_true_iff in Hl as [H|H]; apply N.ltb_lt in H; lia.
Qed.
Lemma ip_no_open st st' w : In st' (ways IP_ADDRESS st) -> ext st st' w -> ~ In 91%N w.
Proof.
  intros H He I. pose proof (ways_only udigit uword _ _ open_class IP_ADDRESS eq_refl st st' w H He) as F.
  rewrite Forall_forall in F. exact (F _ I eq_refl).
Qed.
Lemma found_none n b s : ~ In 46%N s -> ~ In 58%N s -> findall_from udigit uword IP_ADDRESS n b s = [].
Proof.
  intros H1 H2. destruct (findall_from udigit uword IP_ADDRESS n b s) as [|w l] eqn:E; [reflexivity|]. exfalso.
  destruct (findall_In udigit uword IP_ADDRESS n b s w) as (u & v & st & -> & A & B); [rewrite E; left; reflexivity|].
  apply ip_marked in B as M; [|exact A]. apply Exists_exists in M as (c & Hc & M). destruct B as [B _]. cbn in B. subst v.
  assert (I : In c (u ++ w ++ s_after st)) by (apply in_or_app; right; apply in_or_app; auto).
  destruct M as [->| ->]; auto.
Qed.
(** Nothing is found in the text after the bracket. *)
Definition quiet_tail (t : str) : Prop := forall n b, findall_from udigit uword IP_ADDRESS n b (93%N :: t) = [].
Lemma quiet_marks t : ~ In 46%N t -> ~ In 58%N t -> quiet_tail t.
Proof. intros H1 H2 n b. apply found_none; intros [K|K]; try discriminate; auto. Qed.
Lemma ip_ways st : exists m, ways IP_ADDRESS st = ways IP4 st ++ m.
Proof. destruct ip_shape as [IP6 ->]. exists (ways IP6 st). reflexivity. Qed.
Lemma found_here a b c d p t n : bytes a b c d -> quiet_tail t ->
  findall_from udigit uword IP_ADDRESS (S n) (91%N :: p) (quad a b c d ++ 93%N :: t) = [quad a b c d].
Proof.
  intros Hb Hq. cbn [findall_from]. destruct (ip_ways (mkS (91%N :: p) (quad a b c d ++ 93%N :: t) [])) as [m Em]. rewrite Em.
  pose proof (ip4_in a b c d p t [] Hb) as I.
  destruct (ways IP4 (mkS (91%N :: p) (quad a b c d ++ 93%N :: t) [])) as [|st l] eqn:E; [destruct I|]. cbn [app].
  assert (Hst : In st (ways IP4 (mkS (91%N :: p) (quad a b c d ++ 93%N :: t) []))) by (rewrite E; left; reflexivity).
  pose proof (ip4_inv a b c d _ t [] st Hb Hst) as A. destruct (ways_ext udigit uword _ _ _ Hst) as [w Hw].
  assert (Ew : w = quad a b c d).
  { destruct Hw as [Hw _]. cbn [s_after] in Hw. rewrite A in Hw. apply app_inv_tail in Hw. symmetry. exact Hw. }
  rewrite (ext_consumed _ _ _ Hw), Ew, A. destruct (quad a b c d) as [|x q] eqn:Eq.
  { unfold quad in Eq. destruct (byte_text a); discriminate. }
  f_equal. apply Hq.
Qed.
(** The address in the last brackets is the last one that is found. *)
Lemma found_last_from a b c d t : bytes a b c d -> quiet_tail t ->
  forall n pre p, length pre + 1 < n ->
  exists xs, findall_from udigit uword IP_ADDRESS n p (pre ++ 91%N :: quad a b c d ++ 93%N :: t) = xs ++ [quad a b c d].
Proof.
  intros Hb Hq. induction n as [|n IH]; intros pre p Hn; [lia|]. cbn [findall_from].
  set (s := pre ++ 91%N :: quad a b c d ++ 93%N :: t).
  destruct (ways IP_ADDRESS (mkS p s [])) as [|st l] eqn:E.
  - unfold s. destruct pre as [|x pre]; cbn [app length] in *.
    + exists []. destruct n as [|n]; [lia|]. apply found_here; assumption.
    + apply IH. lia.
  - assert (Hst : In st (ways IP_ADDRESS (mkS p s []))) by (rewrite E; left; reflexivity).
    destruct (ways_ext udigit uword _ _ _ Hst) as [w Hw]. rewrite (ext_consumed _ _ _ Hw).
    pose proof (ip_marked _ _ _ Hst Hw) as M. pose proof (ip_no_open _ _ _ Hst Hw) as O. destruct Hw as [Hw1 Hw2]. cbn [s_after s_before] in *.
    destruct w as [|x w]; [inversion M|].
    assert (P : exists pre', pre = (x :: w) ++ pre' /\ s_after st = pre' ++ 91%N :: quad a b c d ++ 93%N :: t).
    { unfold s in Hw1. clear - Hw1 O. revert Hw1 O. generalize (x :: w) as v, (s_after st) as r. clear.
      generalize (quad a b c d ++ 93%N :: t) as q. induction pre as [|y pre IH]; intros q v r E O.
      - destruct v as [|z v]; [exists []; auto|]. cbn [app] in E. injection E as <- _. exfalso. apply O. left. reflexivity.
      - destruct v as [|z v]; [exists (y :: pre); auto|]. cbn [app] in E. injection E as -> E.
        destruct (IH q v r E) as (pre' & -> & ->); [intros K; apply O; right; exact K|]. exists pre'. auto. }
    destruct P as (pre' & -> & ->). destruct (IH pre' (s_before st)) as [xs ->].
    + rewrite app_length in Hn. cbn [length] in Hn. lia.
    + exists ((x :: w) :: xs). reflexivity.
Qed.
Lemma found_last a b c d pre t : bytes a b c d -> quiet_tail t ->
  exists xs, findall udigit uword IP_ADDRESS (pre ++ 91%N :: quad a b c d ++ 93%N :: t) = xs ++ [quad a b c d].
Proof.
  intros Hb Hq. unfold findall. apply found_last_from; auto. rewrite app_length. cbn [length]. rewrite app_length. cbn [length]. lia.
Qed.

(** ** Private addresses *)
Lemma quad_chars a b c d x : bytes a b c d -> In x (quad a b c d) -> adig x \/ x = 46%N.
Proof.
  intros (Ha & Hb & Hc & Hd). unfold quad.
  assert (K : forall n, (n < 256)%N -> In x (byte_text n) -> adig x \/ x = 46%N).
  { intros n Hn Hx. left. pose proof (byte_digits n Hn) as D. rewrite Forall_forall in D. auto. }
  change ($".") with [46%N]. rewrite !in_app_iff. cbn [In]. intros [H|[[H|[]]|[H|[[H|[]]|[H|[[H|[]]|H]]]]]]; eauto.
Qed.
(** The texts of a pattern without repetition, of characters that are not letters. *)
Definition class_texts (l : list item) : option (list str) :=
  fold_right (fun i acc => match acc, i with
    | Some r, IChar c => Some ([c] :: r)
    | Some r, IRange a b => Some (map (fun n => [N.of_nat n]) (seq (N.to_nat a) (N.to_nat (b + 1 - a))) ++ r)
    | _, _ => None end) (Some []) l.
Fixpoint texts (r : re) : option (list str) :=
  match r with
  | Eps => Some [[]]
  | Chr _ false l => class_texts l
  | Cat a b => match texts a, texts b with Some x, Some y => Some (flat_map (fun u => map (app u) y) x) | _, _ => None end
  | Alt a b => match texts a, texts b with Some x, Some y => Some (x ++ y) | _, _ => None end
  | _ => None
  end.
Lemma class_texts_ok l ts c : class_texts l = Some ts -> (existsb (item_in udigit uword c) l = true <-> In [c] ts).
Proof.
  revert ts. induction l as [|i l IH]; intros ts H; cbn [class_texts fold_right] in H.
  - injection H as <-. cbn. split; [discriminate|intros []].
  - fold (class_texts l) in H. destruct (class_texts l) as [r|] eqn:E; [|discriminate]. cbn [existsb]. rewrite orb_true_iff, (IH r eq_refl).
    destruct i as [x|x y| | | | | |]; try discriminate; injection H as <-; cbn [item_in].
    + cbn [In]. split.
      * intros [K|K]; [left; apply N.eqb_eq in K; subst; reflexivity|auto].
      * intros [K|K]; [left; injection K as ->; apply N.eqb_refl|auto].
    + rewrite in_app_iff, in_map_iff. split.
      * intros [K|K]; [|auto]. left. apply andb_true_iff in K as [A B]. apply N.leb_le in A, B. exists (N.to_nat c).
        split; [rewrite N2Nat.id; reflexivity|]. apply in_seq. lia.
      * intros [(n & K & I)|K]; [|auto]. left. injection K as <-. apply in_seq in I. apply andb_true_iff. split; apply N.leb_le; lia.
Qed.
Definition calm (s : str) : Prop := forall c, In c s -> swapcase c = c.
Lemma texts_ok r : forall ts b s k st, texts r = Some ts -> calm s ->
  (In st (ways r (mkS b s k)) <-> exists w t, In w ts /\ s = w ++ t /\ st = mkS (rev w ++ b) t k).
Proof.
  induction r as [|ci neg l| |r1 IH1 r2 IH2|r1 IH1 r2 IH2|g lo hi r IH|n r IH| | |neg|neg r IH|neg r IH];
    intros ts b s k st Ht Hs; cbn [texts] in Ht; try discriminate.
  - injection Ht as <-. cbn. split; [intros [<-|[]]; exists [], s; auto|]. intros (w & t & [<-|[]] & -> & ->). auto.
  - destruct neg; [discriminate|].
    assert (L : forall w, In w ts -> exists c, w = [c]).
    { clear - Ht. revert ts Ht. induction l as [|i l IH]; intros ts H; cbn [class_texts fold_right] in H; [injection H as <-; intros w []|].
      fold (class_texts l) in H. destruct (class_texts l) as [r|]; [|discriminate]. destruct i; try discriminate; injection H as <-; intros w Hw.
      - destruct Hw as [<-|Hw]; eauto.
      - apply in_app_or in Hw as [Hw|Hw]; [apply in_map_iff in Hw as (n & <- & _)|]; eauto. }
    assert (C : forall c, In c s -> (class_in ci false l c = true <-> In [c] ts)).
    { intros c Hc. rewrite <- (class_texts_ok l ts c Ht). unfold Regexp.class_in. rewrite (Hs c Hc), xorb_false_l.
      destruct (existsb _ l), ci; cbn; tauto. }
    cbn [Regexp.ways]. unfold step. cbn [s_after s_before s_caps]. destruct s as [|c s].
    + split; [intros []|]. intros (w & t & Hw & E & _). destruct (L w Hw) as [c ->]. discriminate.
    + specialize (C c (or_introl eq_refl)). destruct (class_in ci false l c).
      * split.
        -- intros [<-|[]]. exists [c], s. split; [apply C; reflexivity|auto].
        -- intros (w & t & Hw & E & ->). destruct (L w Hw) as [x ->]. injection E as <- <-. left. reflexivity.
      * split; [intros []|]. intros (w & t & Hw & E & _). destruct (L w Hw) as [x ->]. injection E as <- <-. apply C in Hw. discriminate.
  - destruct (texts r1) as [x|] eqn:E1; [|discriminate]. destruct (texts r2) as [y|] eqn:E2; [|discriminate]. injection Ht as <-.
    cbn [Regexp.ways]. rewrite in_flat_map. split.
    + intros (s1 & H1 & H2). apply (IH1 x b s k s1 eq_refl Hs) in H1 as (u & t & Hu & -> & ->).
      apply (IH2 y _ t k st eq_refl) in H2 as (v & t' & Hv & -> & ->); [|intros c Hc; apply Hs, in_or_app; auto].
      exists (u ++ v), t'. rewrite <- app_assoc, rev_app_distr, <- app_assoc. split; [|auto].
      apply in_flat_map. exists u. split; [exact Hu|]. apply in_map, Hv.
    + intros (w & t & Hw & -> & ->). apply in_flat_map in Hw as (u & Hu & Hw). apply in_map_iff in Hw as (v & <- & Hv).
      exists (mkS (rev u ++ b) (v ++ t) k). rewrite <- app_assoc in *. split.
      * apply (IH1 x b _ k _ eq_refl Hs). exists u, (v ++ t). auto.
      * apply (IH2 y _ _ k _ eq_refl); [intros c Hc; apply Hs, in_or_app; auto|]. exists v, t. rewrite rev_app_distr, <- app_assoc. auto.
  - destruct (texts r1) as [x|] eqn:E1; [|discriminate]. destruct (texts r2) as [y|] eqn:E2; [|discriminate]. injection Ht as <-.
    cbn [Regexp.ways]. rewrite in_app_iff, (IH1 x b s k st eq_refl Hs), (IH2 y b s k st eq_refl Hs). split.
    + intros [(w & t & Hw & H)|(w & t & Hw & H)]; exists w, t; (split; [apply in_or_app; auto|exact H]).
    + intros (w & t & Hw & H). apply in_app_or in Hw as [Hw|Hw]; [left|right]; exists w, t; auto.
Qed.

Definition DOT : re := Chr true false [IChar 46].
Definition networks : list str :=
  map (fun x => byte_text x ++ [46%N]) [10; 127]%N ++
  map (fun p => byte_text (fst p) ++ 46%N :: byte_text (snd p) ++ [46%N])
      ([(169, 254); (192, 168)]%N ++ map (fun n => (100%N, N.of_nat n)) (seq 64 64)).
Definition ok_colon (ci neg : bool) (l : list item) : bool :=
  negb neg && forallb (fun i => match i with IChar c => N.eqb c 58 | _ => false end) l.
Lemma private_shape : exists V4 V6,
  IP_PRIVATE = Cat Bos (Alt (Cat V4 (Cat DOT (Rep true 0 None Dot))) V6) /\
  texts (Cat V4 DOT) = Some networks /\ needs ok_colon V6 = true.
Proof. eexists. eexists. split; [reflexivity|]. split; vm_compute; reflexivity. Qed.
Lemma colon_class ci neg l c : ok_colon ci neg l = true -> class_in ci neg l c = true -> c = 58%N.
Proof.
  intros H K. apply andb_true_iff in H as [H1 Hl]. apply negb_true_iff in H1. subst neg.
  unfold Regexp.class_in in K. cbn [xorb] in K.
  assert (X : forall x, existsb (item_in udigit uword x) l = true -> x = 58%N).
  { intros x E. apply existsb_exists in E as (i & Hi & Hc). rewrite forallb_forall in Hl. specialize (Hl i Hi).
    destruct i; try discriminate. cbn [item_in] in Hc. apply N.eqb_eq in Hc, Hl. congruence. }
  destruct (existsb (item_in udigit uword c) l) eqn:E; [auto|]. cbn [orb] in K.
  destruct (ci && existsb (item_in udigit uword (swapcase c)) l) eqn:F; [|destruct ci, (existsb (item_in udigit uword (swapcase c)) l); discriminate].
  apply andb_true_iff in F as [_ F]. apply X in F. unfold swapcase in F.
  destruct (N.leb_spec 65 c), (N.leb_spec c 90); cbn [andb] in F; try (destruct (N.leb_spec 97 c), (N.leb_spec c 122); cbn [andb] in F); lia.
Qed.
Lemma quad_calm a b c d : bytes a b c d -> calm (quad a b c d).
Proof.
  intros Hb x Hx. destruct (quad_chars _ _ _ _ _ Hb Hx) as [[A B]| ->]; [|reflexivity]. unfold swapcase.
  destruct (N.leb_spec 65 x); [lia|]. destruct (N.leb_spec 97 x); [lia|]. reflexivity.
Qed.
Lemma private_prefix a b c d : bytes a b c d ->
  (s_ udigit uword IP_PRIVATE (quad a b c d) = true <-> exists w t, In w networks /\ quad a b c d = w ++ t).
Proof.
  intros Hb. unfold s_. rewrite search_iff. destruct private_shape as (V4 & V6 & -> & Ht & Hn).
  pose proof (quad_calm a b c d Hb) as Hcalm. split.
  - intros (u & v & st & E & H). cbn [Regexp.ways] in H. apply in_flat_map in H as (s0 & H0 & H). apply guard_In in H0 as [B ->].
    cbn [s_before] in B. destruct (rev u) as [|x l] eqn:Eu; [|discriminate]. apply (f_equal (@rev char)) in Eu. rewrite rev_involutive in Eu. cbn in Eu. subst u.
    cbn [app rev] in *. subst v. apply in_app_or in H as [H|H].
    + apply in_flat_map in H as (s1 & H1 & H). apply in_flat_map in H as (s2 & H2 & H).
      assert (K : In s2 (ways (Cat V4 DOT) (mkS [] (quad a b c d) []))) by (eapply in_cat; eauto).
      apply (texts_ok _ _ _ _ _ _ Ht Hcalm) in K as (w & t & Hw & E & _). eauto.
    + exfalso. destruct (ways_ext udigit uword _ _ _ H) as [w Hw].
      pose proof (ways_needs udigit uword _ _ colon_class V6 Hn _ _ _ H Hw) as M. apply Exists_exists in M as (x & Hx & ->).
      destruct Hw as [Hw _]. cbn in Hw.
      assert (I : In 58%N (quad a b c d)) by (rewrite Hw; apply in_or_app; auto).
      apply quad_chars in I; [|exact Hb]. unfold adig in I. lia.
  - intros (w & t & Hw & E). exists [], (quad a b c d).
    assert (K : In (mkS (rev w ++ []) t []) (ways (Cat V4 DOT) (mkS [] (quad a b c d) []))).
    { apply (texts_ok _ _ _ _ _ _ Ht Hcalm). exists w, t. auto. }
    cbn [Regexp.ways] in K. apply in_flat_map in K as (s1 & K1 & K2).
    assert (T : ~ In 10%N t).
    { intros I. assert (J : In 10%N (quad a b c d)) by (rewrite E; apply in_or_app; auto).
      apply quad_chars in J; [|exact Hb]. unfold adig in J. lia. }
    pose proof (dots_in udigit uword t (rev w ++ []) [] [] T) as D. rewrite (app_nil_r t) in D.
    eexists. split; [reflexivity|]. cbn [rev]. eapply in_cat; [cbn; left; reflexivity|]. apply in_alt_l.
    eapply in_cat; [exact K1|]. eapply in_cat; [exact K2|]. exact D.
Qed.
Definition val (s : str) : N := fold_left (fun n c => n * 10 + (c - 48))%N s 0%N.
Lemma val_byte n : (n < 256)%N -> val (byte_text n) = n.
Proof.
  intros H. assert (K : forallb (fun k => N.eqb (val (byte_text (N.of_nat k))) (N.of_nat k)) (seq 0 256) = true) by (vm_compute; reflexivity).
  rewrite forallb_forall in K. specialize (K (N.to_nat n)). rewrite N2Nat.id in K. apply N.eqb_eq, K, in_seq. lia.
Qed.
Lemma byte_inj x y : (x < 256)%N -> (y < 256)%N -> byte_text x = byte_text y -> x = y.
Proof. intros Hx Hy E. rewrite <- (val_byte x Hx), <- (val_byte y Hy), E. reflexivity. Qed.
Lemma private_iff a b c d : bytes a b c d ->
  (s_ udigit uword IP_PRIVATE (quad a b c d) = true <-> taken_private a b).
Proof.
  intros Hb. rewrite (private_prefix a b c d Hb). destruct Hb as (Ha & Hb & Hc & Hd).
  assert (Q : quad a b c d = byte_text a ++ 46%N :: byte_text b ++ 46%N :: byte_text c ++ 46%N :: byte_text d) by reflexivity.
  rewrite Q. unfold networks, taken_private. split.
  - intros (w & t & Hw & E). apply in_app_or in Hw as [Hw|Hw]; apply in_map_iff in Hw as (x & <- & Hx).
    + rewrite <- app_assoc in E. cbn [app] in E.
      assert (Hx' : (x < 256)%N) by (destruct Hx as [<-|[<-|[]]]; lia).
      apply split_first in E as [E _]; try (apply dot_not_byte; assumption). apply byte_inj in E; [|assumption|assumption].
      destruct Hx as [<-|[<-|[]]]; lia.
    + destruct x as [x y]. cbn [fst snd] in E. rewrite <- app_assoc in E. cbn [app] in E. rewrite <- app_assoc in E. cbn [app] in E.
      assert (Hxy : ((x, y) = (169, 254) \/ (x, y) = (192, 168) \/ (x = 100 /\ 64 <= y <= 127))%N).
      { apply in_app_or in Hx as [Hx|Hx]; [destruct Hx as [<-|[<-|[]]]; auto|]. right. right. apply in_map_iff in Hx as (n & E1 & I).
        injection E1 as <- <-. apply in_seq in I. lia. }
      assert (Hx' : (x < 256)%N) by (destruct Hxy as [K|[K|K]]; [injection K as -> ->|injection K as -> ->|]; lia).
      assert (Hy' : (y < 256)%N) by (destruct Hxy as [K|[K|K]]; [injection K as -> ->|injection K as -> ->|]; lia).
      apply split_first in E as [E1 E]; try (apply dot_not_byte; assumption).
      apply split_first in E as [E2 _]; try (apply dot_not_byte; assumption).
      apply byte_inj in E1; [|assumption|assumption]. apply byte_inj in E2; [|assumption|assumption]. subst x y.
      destruct Hxy as [K|[K|K]]; [injection K as -> ->|injection K as -> ->|]; lia.
  - intros H.
    assert (One : a = 10%N \/ a = 127%N -> exists w t, In w (map (fun x => byte_text x ++ [46%N]) [10; 127]%N ++
      map (fun p => byte_text (fst p) ++ 46%N :: byte_text (snd p) ++ [46%N])
      ([(169, 254); (192, 168)]%N ++ map (fun n => (100%N, N.of_nat n)) (seq 64 64))) /\
      byte_text a ++ 46%N :: byte_text b ++ 46%N :: byte_text c ++ 46%N :: byte_text d = w ++ t).
    { intros K. exists (byte_text a ++ [46%N]), (byte_text b ++ 46%N :: byte_text c ++ 46%N :: byte_text d). split.
      - apply in_or_app. left. apply in_map_iff. exists a. split; [reflexivity|]. destruct K as [->| ->]; [left|right; left]; reflexivity.
      - rewrite <- app_assoc. reflexivity. }
    assert (Two : In (a, b) ([(169, 254); (192, 168)]%N ++ map (fun n => (100%N, N.of_nat n)) (seq 64 64)) ->
      exists w t, In w (map (fun x => byte_text x ++ [46%N]) [10; 127]%N ++
      map (fun p => byte_text (fst p) ++ 46%N :: byte_text (snd p) ++ [46%N])
      ([(169, 254); (192, 168)]%N ++ map (fun n => (100%N, N.of_nat n)) (seq 64 64))) /\
      byte_text a ++ 46%N :: byte_text b ++ 46%N :: byte_text c ++ 46%N :: byte_text d = w ++ t).
    { intros K. exists (byte_text a ++ 46%N :: byte_text b ++ [46%N]), (byte_text c ++ 46%N :: byte_text d). split.
      - apply in_or_app. right. apply in_map_iff. exists (a, b). split; [reflexivity|exact K].
      - rewrite <- app_assoc. cbn [app]. rewrite <- app_assoc. reflexivity. }
    destruct H as [->|[->|[[-> ->]|[[-> ->]|[-> K]]]]]; [apply One; auto|apply One; auto|apply Two|apply Two|apply Two].
    + left. reflexivity.
    + right. left. reflexivity.
    + apply in_or_app. right. apply in_map_iff. exists (N.to_nat b). rewrite N2Nat.id. split; [reflexivity|]. apply in_seq. lia.
Qed.

(** ** The address of the hand-over *)
Lemma clean_quad a b c d : bytes a b c d -> Model_Relays.clean_ip (quad a b c d) = quad a b c d.
Proof.
  intros Hb. pose proof (Proofs_Relays.clean_ip_written [] [] (quad a b c d) []) as K. cbn [app] in K. rewrite app_nil_r in K.
  apply K; [constructor|constructor|left; reflexivity| |].
  - unfold quad. destruct (byte_text a) eqn:E; [destruct (byte_nonempty a E)|discriminate].
  - intros x Hx. destruct (quad_chars _ _ _ _ _ Hb Hx) as [[A B]|H]; [left|right; exact H].
    unfold is_digit. apply andb_true_iff. split; apply N.leb_le; lia.
Qed.
Lemma address_last header pre post a b c d : bytes a b c d -> quiet_tail post ->
  Spec_Relays.before_by header (pre ++ $"[" ++ quad a b c d ++ $"]" ++ post) ->
  ~ taken_private a b -> get_ip udigit uword header = quad a b c d.
Proof.
  intros Hb Hq Hf Hp. unfold get_ip.
  destruct (Proofs_Relays.get_ip_spec (findall udigit uword IP_ADDRESS) (s_ udigit uword IP_PRIVATE) header _ Hf) as (_ & K & _).
  change ($"[") with [91%N] in *. change ($"]") with [93%N] in *. cbn [app] in *.
  destruct (found_last a b c d pre post Hb Hq) as [xs Ex]. rewrite Ex, map_app in K. cbn [map] in K.
  rewrite (clean_quad a b c d Hb) in K. apply (K (map Model_Relays.clean_ip xs) (quad a b c d) []).
  - reflexivity.
  - destruct (s_ udigit uword IP_PRIVATE (quad a b c d)) eqn:E; [|reflexivity]. apply (private_iff a b c d Hb) in E. contradiction.
  - intros x [].
Qed.
(** An address has a digit or a colon. *)
Definition ok_sign (ci neg : bool) (l : list item) : bool :=
  negb ci && negb neg && forallb (fun i => match i with IDigit => true | IChar c => N.eqb c 58 || (N.leb 48 c && N.leb c 57) | IRange a b => N.leb 48 a && N.leb b 57 | _ => false end) l.
Lemma sign_class ci neg l c : ok_sign ci neg l = true -> class_in ci neg l c = true -> c = 58%N \/ is_d udigit c = true.
Proof.
  intros H K. apply andb_true_iff in H as [H Hl]. apply andb_true_iff in H as [H1 H2]. apply negb_true_iff in H1, H2. subst.
  unfold Regexp.class_in in K. cbn [xorb andb] in K. rewrite orb_false_r in K.
  destruct (existsb (item_in udigit uword c) l) eqn:E; [|discriminate]. apply existsb_exists in E as (i & Hi & Hc).
  rewrite forallb_forall in Hl. specialize (Hl i Hi). destruct i; try discriminate; cbn [item_in] in Hc.
  - apply N.eqb_eq in Hc. subst. apply orb_true_iff in Hl as [Hl|Hl]; [left; apply N.eqb_eq, Hl|]. right.
    apply is_d_adig. unfold adig. apply andb_true_iff in Hl as [A B]. apply N.leb_le in A, B. lia.
  - right. apply is_d_adig. unfold adig. apply andb_true_iff in Hl as [A B], Hc as [C D]. apply N.leb_le in A, B, C, D. lia.
  - right. exact Hc.
Qed.
Lemma ip_sign st st' w : In st' (ways IP_ADDRESS st) -> ext st st' w -> Exists (fun c => c = 58%N \/ is_d udigit c = true) w.
Proof. exact (ways_needs udigit uword _ _ sign_class IP_ADDRESS eq_refl st st' w). Qed.
Lemma quiet_signs t : (forall x, In x t -> x <> 58%N /\ is_d udigit x = false) -> quiet_tail t.
Proof.
  intros Ht n b. destruct (findall_from udigit uword IP_ADDRESS n b (93%N :: t)) as [|w l] eqn:E; [reflexivity|]. exfalso.
  destruct (findall_In udigit uword IP_ADDRESS n b (93%N :: t) w) as (u & v & st & E' & A & B); [rewrite E; left; reflexivity|].
  apply ip_sign in B as M; [|exact A]. apply Exists_exists in M as (c & Hc & M). destruct B as [B _]. cbn in B. subst v.
  assert (I : In c (93%N :: t)) by (rewrite E'; apply in_or_app; right; apply in_or_app; auto).
  destruct I as [<-|I]; [destruct M as [M|M]; discriminate|]. destruct (Ht c I). destruct M; congruence.
Qed.
Lemma found_alone_from a b c d t : bytes a b c d -> quiet_tail t ->
  forall n pre p, length pre + 1 < n -> (forall x, In x pre -> x <> 58%N /\ is_d udigit x = false) ->
  findall_from udigit uword IP_ADDRESS n p (pre ++ 91%N :: quad a b c d ++ 93%N :: t) = [quad a b c d].
Proof.
  intros Hb Hq. induction n as [|n IH]; intros pre p Hn Hpre; [lia|]. cbn [findall_from].
  set (s := pre ++ 91%N :: quad a b c d ++ 93%N :: t).
  destruct (ways IP_ADDRESS (mkS p s [])) as [|st l] eqn:E.
  - unfold s. destruct pre as [|x pre]; cbn [app length] in *.
    + destruct n as [|n]; [lia|]. apply found_here; assumption.
    + apply IH; [lia|]. intros y Hy. apply Hpre. right. exact Hy.
  - exfalso. assert (Hst : In st (ways IP_ADDRESS (mkS p s []))) by (rewrite E; left; reflexivity).
    destruct (ways_ext udigit uword _ _ _ Hst) as [w Hw].
    pose proof (ip_sign _ _ _ Hst Hw) as M. pose proof (ip_no_open _ _ _ Hst Hw) as O. destruct Hw as [Hw1 _]. cbn [s_after] in *.
    assert (P : exists pre', pre = w ++ pre').
    { unfold s in Hw1. clear - Hw1 O. revert Hw1 O. generalize (s_after st) as r. generalize (quad a b c d ++ 93%N :: t) as q. revert w.
      induction pre as [|y pre IH]; intros w q r E O.
      - destruct w as [|z v]; [exists []; auto|]. cbn [app] in E. injection E as <- _. exfalso. apply O. left. reflexivity.
      - destruct w as [|z v]; [exists (y :: pre); auto|]. cbn [app] in E. injection E as -> E.
        destruct (IH v q r E) as (pre' & ->); [intros K; apply O; right; exact K|]. exists pre'. auto. }
    destruct P as (pre' & ->). apply Exists_exists in M as (x & Hx & M). destruct (Hpre x) as [N1 N2]; [apply in_or_app; auto|].
    destruct M as [M|M]; congruence.
Qed.
(** Alone in front of " by ", a private address is reported as well. *)
Lemma address_alone header pre post a b c d : bytes a b c d ->
  (forall x, In x pre -> x <> 58%N /\ is_d udigit x = false) -> quiet_tail post ->
  Spec_Relays.before_by header (pre ++ $"[" ++ quad a b c d ++ $"]" ++ post) -> get_ip udigit uword header = quad a b c d.
Proof.
  intros Hb Hpre Hq Hf. unfold get_ip.
  destruct (Proofs_Relays.get_ip_spec (findall udigit uword IP_ADDRESS) (s_ udigit uword IP_PRIVATE) header _ Hf) as (_ & K & L).
  change ($"[") with [91%N] in *. change ($"]") with [93%N] in *. cbn [app] in *.
  assert (F : findall udigit uword IP_ADDRESS (pre ++ 91%N :: quad a b c d ++ 93%N :: post) = [quad a b c d]).
  { unfold findall. apply found_alone_from; auto. rewrite app_length. cbn [length]. rewrite app_length. cbn [length]. lia. }
  rewrite F in K, L. cbn [map] in K, L. rewrite (clean_quad a b c d Hb) in K, L.
  destruct (s_ udigit uword IP_PRIVATE (quad a b c d)) eqn:E.
  - apply (L _ [] eq_refl). intros x [<-|[]]. exact E.
  - apply (K [] _ [] eq_refl E). intros x [].
Qed.
End Ip.
