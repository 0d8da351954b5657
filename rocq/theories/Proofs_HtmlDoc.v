(** Proofs about the HTML parser, on documents. *)
From Coq Require Import Lia Arith.
From Verif Require Import PyStr Regexp Proofs_Regexp PyHtml Spec_Html Proofs_Html.
Open Scope nat_scope.

Notation first := (Proofs_Regexp.first no_char no_char).
Notation class_in := (Regexp.class_in no_char no_char).

(** ** Greedy repetitions of any expression *)
Inductive laps (r : re) : state -> state -> Prop :=
| no_lap st : ways r st = [] -> laps r st st
| lap st st1 st2 : first r st st1 -> length (s_after st1) < length (s_after st) -> laps r st1 st2 -> laps r st st2.
Lemma progress_lt st st1 : length (s_after st1) < length (s_after st) -> progress st st1 = true.
Proof. intros H. unfold progress. destruct (Nat.eqb_spec (length (s_after st1)) (length (s_after st))); [lia|reflexivity]. Qed.
Lemma laps_first r st st' : laps r st st' -> first (Rep true 0 None r) st st'.
Proof.
  intros H. unfold Proofs_Regexp.first. cbn [Regexp.ways Nat.add].
  assert (G : forall n, length (s_after st) <= n -> exists l, repeats (ways r) true n 0 None st = st' :: l).
  { induction H as [st E|st st1 st2 [l E] L _ IH]; intros n Hn.
    - destruct n; cbn [repeats]; [eauto|]. rewrite E. cbn. eauto.
    - destruct n as [|n]; [lia|]. cbn [repeats]. rewrite E. cbn [filter]. rewrite (progress_lt _ _ L). destruct (IH n ltac:(lia)) as [m M].
      destruct (flat_map_hd (repeats (ways r) true n 0 None) st1 (filter (progress st) l) st2 m M) as [m' ->]. cbn. eauto. }
  exact (G _ (le_n _)).
Qed.
Lemma option_first r st st' : first r st st' -> length (s_after st') < length (s_after st) -> first (Rep true 0 (Some 1) r) st st'.
Proof.
  intros [l E] L. unfold Proofs_Regexp.first. cbn [Regexp.ways Nat.add]. destruct (length (s_after st)) as [|n] eqn:K; [lia|]. rewrite <- K in L. cbn [repeats].
  rewrite E. cbn [filter]. rewrite (progress_lt _ _ L). cbn [flat_map]. destruct n; cbn; eauto.
Qed.
Lemma option_stay r st : Forall (fun x => length (s_after x) = length (s_after st)) (ways r st) -> ways (Rep true 0 (Some 1) r) st = [st].
Proof.
  intros H. cbn [Regexp.ways Nat.add]. destruct (length (s_after st)) as [|n] eqn:K; [reflexivity|]. rewrite <- K in H. cbn [repeats].
  assert (E : filter (progress st) (ways r st) = []); [|rewrite E; reflexivity].
  induction H as [|x l E _ IH]; [reflexivity|]. cbn [filter]. unfold progress at 1. rewrite E, Nat.eqb_refl. exact IH.
Qed.
Lemma star_stay r st : ways r st = [] -> ways (Rep true 0 None r) st = [st].
Proof. intros H. cbn [Regexp.ways Nat.add]. destruct (length (s_after st)); cbn [repeats]; [reflexivity|]. rewrite H. reflexivity. Qed.
Lemma match_first r b s st : first r (mkS b s []) st -> match_at r b s = Some st.
Proof. intros [l H]. unfold match_at. rewrite H. reflexivity. Qed.
Lemma chr_stops ci neg l b s k : (match s with c :: _ => class_in ci neg l c = false | [] => True end) -> ways (Chr ci neg l) (mkS b s k) = [].
Proof. intros H. cbn [Regexp.ways]. unfold step. cbn [s_after]. destruct s; [reflexivity|]. rewrite H. reflexivity. Qed.
Lemma cat_stops a r st : ways a st = [] -> ways (Cat a r) st = [].
Proof. intros H. cbn [Regexp.ways]. rewrite H. reflexivity. Qed.
(** A run of a class up to what comes next. *)
Lemma run ci neg l w b x k : Forall (fun c => class_in ci neg l c = true) w -> (match x with c :: _ => class_in ci neg l c = false | [] => True end) ->
  first (Rep true 0 None (Chr ci neg l)) (mkS b (w ++ x) k) (mkS (rev w ++ b) x k).
Proof. intros W X. rewrite <- (app_nil_r x) at 1. rewrite <- (app_nil_r x) at 2. apply star_first; [exact W|]. destruct x; [reflexivity|exact X]. Qed.

(** ** Characters *)
Definition alnum (c : char) : Prop := is_letter c \/ is_digit c.
Lemma alnum_not c x : alnum c -> ((x < 48) \/ (57 < x < 65) \/ (90 < x < 97) \/ (122 < x))%N -> N.eqb c x = false.
Proof. intros H X. apply N.eqb_neq. intros ->. unfold alnum, is_letter, is_digit in H. lia. Qed.
Lemma alnum_space c : alnum c -> is_space c = false.
Proof.
  intros H. unfold is_space. rewrite !(alnum_not c) by (auto; lia).
  unfold alnum, is_letter, is_digit in H. destruct (N.leb_spec 9 c), (N.leb_spec c 13), (N.leb_spec 28 c), (N.leb_spec c 32), (N.leb_spec 8192 c); try lia; reflexivity.
Qed.
Definition CTAG := [IChar 9; IChar 10; IChar 13; IChar 12; IChar 32; IChar 47; IChar 62; IChar 0].
Definition CA1 := [ISpace; IChar 47; IChar 62].
Definition CA2 := [ISpace; IChar 47; IChar 61; IChar 62].
Lemma ctag c : alnum c -> class_in false true CTAG c = true.
Proof. intros H. unfold Regexp.class_in, CTAG. cbn [existsb item_in xorb andb]. rewrite !(alnum_not c) by (auto; lia). reflexivity. Qed.
Lemma ca1 c : alnum c -> class_in false true CA1 c = true.
Proof. intros H. unfold Regexp.class_in, CA1. cbn [existsb item_in xorb andb]. rewrite (alnum_space c H), !(alnum_not c) by (auto; lia). reflexivity. Qed.
Lemma ca2 c : alnum c -> class_in false true CA2 c = true.
Proof. intros H. unfold Regexp.class_in, CA2. cbn [existsb item_in xorb andb]. rewrite (alnum_space c H), !(alnum_not c) by (auto; lia). reflexivity. Qed.
Lemma name_chars n : a_name n -> Forall alnum n.
Proof. intros (c & r & -> & L & F). constructor; [left; exact L|exact F]. Qed.
Lemma all_of {A} (P Q : A -> Prop) l : (forall x, P x -> Q x) -> Forall P l -> Forall Q l.
Proof. intros H. apply Forall_impl, H. Qed.

(** ** Start tags *)
Definition GAP := Alt (Chr false false [ISpace]) (Cat (Chr false false [IChar 47]) (Ahead true (Chr false false [IChar 62]))).
(** What comes after white space in a tag: no white space, and a slash only before the end. *)
Definition stops (t : str) : Prop := match t with c :: r => is_space c = false /\ (c = 47%N -> exists q, r = 62%N :: q) | [] => False end.
Lemma stops_gap b t k : stops t -> ways GAP (mkS b t k) = [].
Proof.
  destruct t as [|c r]; [intros []|]. intros [S H]. unfold GAP. change (ways (Alt ?x ?y) ?st) with (ways x st ++ ways y st).
  rewrite chr_stops by (unfold Regexp.class_in; cbn [existsb item_in xorb andb]; rewrite S; reflexivity). cbn [app].
  destruct (N.eqb_spec c 47) as [E|N]; [subst c; destruct (H eq_refl) as [q ->]; reflexivity|]. apply cat_stops, chr_stops. unfold Regexp.class_in. cbn [existsb item_in xorb andb]. apply N.eqb_neq in N. rewrite N. reflexivity.
Qed.
Lemma blank_gap b t k : first GAP (mkS b (32%N :: t) k) (mkS (32%N :: b) t k).
Proof. apply first_alt_l, first_chr. reflexivity. Qed.
Definition gap (g : str) : Prop := g = [] \/ g = [32%N].
Lemma gap_laps g b t k : gap g -> stops t -> first (Rep true 0 None GAP) (mkS b (g ++ t) k) (mkS (rev g ++ b) t k).
Proof.
  intros G S. apply laps_first. destruct G as [G|G]; subst g; cbn [app rev].
  - apply no_lap, stops_gap, S.
  - eapply lap; [apply blank_gap|cbn; lia|]. apply no_lap, stops_gap, S.
Qed.
Lemma space_gap g b t k : gap g -> stops t -> first (Rep true 0 None (Chr false false [ISpace])) (mkS b (g ++ t) k) (mkS (rev g ++ b) t k).
Proof.
  intros G S. apply run; [destruct G as [G|G]; subst g; repeat constructor|]. destruct t as [|c t]; [exact I|]. destruct S as [S _]. unfold Regexp.class_in. cbn [existsb item_in xorb andb]. rewrite S. reflexivity.
Qed.
Lemma space_only ci neg l c : (ci, neg, l) = (false, false, [ISpace]) -> class_in ci neg l c = true -> is_space c = true.
Proof. intros [= -> -> ->] H. unfold Regexp.class_in in H. cbn [existsb item_in xorb andb] in H. destruct (is_space c); [reflexivity|discriminate]. Qed.
Definition just_space (ci neg : bool) (l : list item) : bool := match ci, neg, l with false, false, [ISpace] => true | _, _, _ => false end.
Lemma just_space_ok ci neg l c : just_space ci neg l = true -> class_in ci neg l c = true -> is_space c = true.
Proof. intros H. apply space_only. destruct ci, neg, l as [|[] [|? ?]]; try discriminate. reflexivity. Qed.
(** What is left of a tag. *)
Definition left_of (a : list (str * value)) (close u : str) : str := flat_map attr_text a ++ close ++ u.
Definition closings : list str := [$">"; $"/>"; $" />"].
(** The end of the tag, or a blank and a letter. *)
Definition follows (g t : str) : Prop := (exists u, t = 62%N :: u \/ t = 47%N :: 62%N :: u) \/ g = [32%N] /\ exists c r, t = c :: r /\ is_letter c.
Lemma follows_stops g t : follows g t -> stops t.
Proof.
  intros [[u [E|E]]|(_ & c & r & E & L)]; subst t; [split; [reflexivity|discriminate]|split; [reflexivity|eauto]|]. split; [apply alnum_space; left; exact L|]. intros ->. destruct L; lia.
Qed.
Lemma left_stops a close u : Forall an_attr a -> In close closings ->
  exists g t, left_of a close u = g ++ t /\ gap g /\ follows g t /\ (a = [] -> close = $">" /\ t = 62%N :: u \/ close <> $">" /\ t = 47%N :: 62%N :: u) /\
    (forall n v a', a = (n, v) :: a' -> g = [32%N] /\ t = n ++ value_text v ++ left_of a' close u).
Proof.
  intros F C. destruct a as [|[n v] a].
  - unfold left_of. cbn [flat_map app]. destruct C as [C|[C|[C|[]]]]; subst close.
    + exists [], (62%N :: u). split; [reflexivity|]. split; [left; reflexivity|]. split; [left; eauto|]. split; [auto|discriminate].
    + exists [], (47%N :: 62%N :: u). split; [reflexivity|]. split; [left; reflexivity|]. split; [left; eauto|]. split; [right; split; [discriminate|reflexivity]|discriminate].
    + exists [32%N], (47%N :: 62%N :: u). split; [reflexivity|]. split; [right; reflexivity|]. split; [left; eauto|]. split; [right; split; [discriminate|reflexivity]|discriminate].
  - inversion F as [|? ? [N V] F']; subst. cbn [fst snd] in N, V. exists [32%N], (n ++ value_text v ++ left_of a close u). split.
    { unfold left_of. cbn [flat_map]. unfold attr_text at 1. cbn [fst snd]. rewrite <- !app_assoc. reflexivity. }
    split; [right; reflexivity|]. split; [|split; [discriminate|intros ? ? ? [= <- <- <-]; auto]].
    destruct N as (c & r & -> & L & _). right. split; [reflexivity|]. cbn [app]. eauto.
Qed.
(** A value in quotes *)
Definition VALUE := Alt (Cat (Chr false false [IChar 39]) (Cat (Rep true 0 None (Chr false true [IChar 39])) (Chr false false [IChar 39])))
  (Alt (Cat (Chr false false [IChar 34]) (Cat (Rep true 0 None (Chr false true [IChar 34])) (Chr false false [IChar 34])))
     (Cat (Ahead true (Chr false false [IChar 39; IChar 34])) (Rep true 0 None (Chr false true [IChar 62; ISpace])))).
Lemma value_first q v b t k : In q [34; 39]%N -> ~ In q v -> first VALUE (mkS b (q :: v ++ q :: t) k) (mkS (q :: rev v ++ q :: b) t k).
Proof.
  intros Q V. unfold VALUE.
  assert (R : Forall (fun c => class_in false true [IChar q] c = true) v).
  { apply Forall_forall. intros c I. unfold Regexp.class_in. cbn [existsb item_in xorb andb]. destruct (N.eqb_spec c q) as [->|]; [contradiction|reflexivity]. }
  destruct Q as [Q|[Q|[]]]; subst q.
  - apply first_alt_r; [reflexivity|]. apply first_alt_l. eapply first_cat; [apply first_chr; reflexivity|]. eapply first_cat; [apply (run _ _ _ v _ (34%N :: t)); [exact R|reflexivity]|]. apply first_chr. reflexivity.
  - apply first_alt_l. eapply first_cat; [apply first_chr; reflexivity|]. eapply first_cat; [apply (run _ _ _ v _ (39%N :: t)); [exact R|reflexivity]|]. apply first_chr. reflexivity.
Qed.
Definition EQUALS (r : re) := Cat (Rep true 0 None (Chr false false [ISpace])) (Cat (Rep true 1 None (Chr false false [IChar 61])) (Cat (Rep true 0 None (Chr false false [ISpace])) r)).
Lemma equals_first r q b t k st : In q [34; 39]%N -> first r (mkS (61%N :: b) (q :: t) k) st -> first (EQUALS r) (mkS b (61%N :: q :: t) k) st.
Proof.
  intros Q H. unfold EQUALS. eapply first_cat; [apply (run _ _ _ []); [constructor|reflexivity]|]. cbn [rev app].
  assert (Q1 : class_in false false [IChar 61] q = false) by (destruct Q as [Q|[Q|[]]]; subst q; reflexivity). assert (Q2 : class_in false false [ISpace] q = false) by (destruct Q as [Q|[Q|[]]]; subst q; reflexivity).
  eapply first_cat; [apply (plus_first _ _ _ _ _ [61%N] b [q] t k); [discriminate|repeat constructor|exact Q1]|]. cbn [rev app].
  eapply first_cat; [apply (run _ _ _ []); [constructor|exact Q2]|]. exact H.
Qed.
Lemma equals_stops r g t b k : gap g -> follows g t -> ways (EQUALS r) (mkS b (g ++ t) k) = [].
Proof.
  intros G F. destruct (ways (EQUALS r) (mkS b (g ++ t) k)) as [|st l] eqn:E; [reflexivity|]. exfalso.
  assert (I : In st (ways (EQUALS r) (mkS b (g ++ t) k))) by (rewrite E; left; reflexivity). clear E l. unfold EQUALS in I. rewrite Regexp_cat in I. apply in_flat_map in I as (x & A & I). rewrite Regexp_cat in I. apply in_flat_map in I as (y & B & _).
  destruct (ways_ext _ _ _ _ _ A) as [w W]. assert (P := ways_only _ _ (fun c => is_space c = true) just_space just_space_ok (Rep true 0 None (Chr false false [ISpace])) eq_refl _ _ _ A W). destruct W as [W _]. cbn [s_after] in W.
  assert (H : exists q, s_after x = 61%N :: q).
  { cbn [Regexp.ways Nat.add] in B. destruct (length (s_after x)); cbn [repeats] in B; apply in_flat_map in B as (z & Z & _); apply step_In in Z as (c & Hc & [Z _] & _).
    - unfold Regexp.class_in in Hc. cbn [existsb item_in xorb andb] in Hc. destruct (N.eqb_spec c 61); [subst|discriminate]. rewrite Z. cbn. eauto.
    - unfold Regexp.class_in in Hc. cbn [existsb item_in xorb andb] in Hc. destruct (N.eqb_spec c 61); [subst|discriminate]. rewrite Z. cbn. eauto. }
  destruct H as [q H]. rewrite H in W.
  assert (T : exists c s, t = c :: s /\ is_space c = false /\ c <> 61%N).
  { destruct F as [[u [F|F]]|(_ & c & s & F & L)]; [exists 62%N, u; repeat split; [exact F|discriminate]|exists 47%N, (62%N :: u); repeat split; [exact F|discriminate]|]. exists c, s. split; [exact F|]. split; [apply alnum_space; left; exact L|]. intros ->. destruct L; lia. }
  destruct T as (c & s & -> & S1 & S2). destruct G as [G|G]; subst g; cbn [app] in W.
  - destruct w as [|d w]; cbn [app] in W; injection W as W _; [congruence|]. subst d. inversion P; subst. congruence.
  - destruct w as [|d w]; cbn [app] in W; [discriminate|]. injection W as _ W. inversion P as [|? ? _ P']; subst. destruct w as [|e w]; cbn [app] in W; injection W as W _; [congruence|]. subst e. inversion P'; subst. congruence.
Qed.
Definition QUOTE := Behind false (Chr false false [IChar 39; IChar 34; ISpace; IChar 47]).
Lemma quote_first b t k : first QUOTE (mkS (32%N :: b) t k) (mkS (32%N :: b) t k).
Proof. unfold Proofs_Regexp.first. eexists. reflexivity. Qed.
Definition ATTR_NAME := Cat (Chr false true CA1) (Rep true 0 None (Chr false true CA2)).
(** What follows the name of an attribute ends it. *)
Lemma name_ends v g t : gap g -> follows g t -> match value_text v ++ g ++ t with c :: _ => class_in false true CA2 c = false | [] => True end.
Proof.
  intros G F. destruct v as [|q v]; [|reflexivity]. cbn [value_text app]. destruct F as [[u F]|(-> & _)]; [|reflexivity]. destruct G as [G|G]; subst g; [|reflexivity]. destruct F as [F|F]; subst t; reflexivity.
Qed.
Lemma attr_name n b x k : a_name n -> (match x with c :: _ => class_in false true CA2 c = false | [] => True end) -> first ATTR_NAME (mkS b (n ++ x) k) (mkS (rev n ++ b) x k).
Proof.
  intros (c & r & -> & L & F) X. cbn [app rev]. rewrite <- app_assoc. cbn [app]. eapply first_cat; [apply first_chr, ca1; left; exact L|]. apply run; [|exact X]. exact (all_of _ _ _ ca2 F).
Qed.

(** *** The end of the tag *)
Definition LATTR := Cat QUOTE (Cat (Chr false true CA1) (Cat (Rep true 0 None (Chr false true CA2))
  (Cat (Rep true 0 (Some 1) (EQUALS (Cat VALUE (Rep true 0 None (Chr false false [ISpace]))))) (Rep true 0 None GAP)))).
Lemma locate_is : locatestarttagend_tolerant =
  Cat (Chr false false [IChar 60]) (Cat (Chr false false [IRange 97 122; IRange 65 90]) (Cat (Rep true 0 None (Chr false true CTAG))
    (Cat (Rep true 0 (Some 1) (Cat (Rep true 0 None (Chr false false [ISpace; IChar 47])) (Rep true 0 None LATTR))) (Rep true 0 None (Chr false false [ISpace]))))).
Proof. reflexivity. Qed.
Lemma value_rev v : rev (value_text v) = match v with NoValue => [] | Quoted q v => q :: rev v ++ [q; 61%N] end.
Proof. destruct v as [|q v]; [reflexivity|]. cbn [value_text]. rewrite !rev_app_distr. cbn [rev app]. rewrite <- app_assoc. reflexivity. Qed.
Lemma lattr_first n v g t b k : a_name n -> a_value v -> gap g -> follows g t ->
  first LATTR (mkS (32%N :: b) (n ++ value_text v ++ g ++ t) k) (mkS (rev g ++ rev (n ++ value_text v) ++ 32%N :: b) t k).
Proof.
  intros N V G S. assert (E := name_ends v g t G S). destruct N as (c & r & -> & L & F). eapply first_cat; [apply quote_first|]. cbn [app]. eapply first_cat; [apply first_chr, ca1; left; exact L|].
  eapply first_cat; [apply (run _ _ _ r); [exact (all_of _ _ _ ca2 F)|exact E]|].
  cbn [rev]. rewrite rev_app_distr, value_rev, <- !app_assoc. destruct v as [|q v].
  - cbn [value_text app]. eapply first_cat; [eexists; apply option_stay; rewrite equals_stops by assumption; constructor|]. apply gap_laps; [exact G|exact (follows_stops _ _ S)].
  - destruct V as [Q V]. cbn [value_text]. change ($"=" ++ [q] ++ v ++ [q]) with (61%N :: q :: v ++ [q]). cbn [app]. rewrite <- !app_assoc. cbn [app]. eapply first_cat.
    + apply option_first.
      * apply equals_first; [exact Q|]. eapply first_cat; [apply (value_first q v _ (g ++ t)); assumption|]. apply space_gap; [exact G|exact (follows_stops _ _ S)].
      * cbn [s_after length]. rewrite !app_length. cbn [length]. rewrite !app_length. lia.
    + apply (gap_laps []); [left; reflexivity|exact (follows_stops _ _ S)].
Qed.

Lemma lattr_stops b t k : (exists u, t = 62%N :: u \/ t = 47%N :: 62%N :: u) -> ways LATTR (mkS b t k) = [].
Proof.
  intros [u H]. unfold LATTR. rewrite Regexp_cat. destruct (ways QUOTE (mkS b t k)) as [|x l] eqn:E; [reflexivity|].
  assert (Q : ways QUOTE (mkS b t k) = [] \/ ways QUOTE (mkS b t k) = [mkS b t k]). { unfold QUOTE. cbn [Regexp.ways]. unfold guard. destruct (xorb _ _); auto. }
  destruct Q as [Q|Q]; rewrite Q in E; [discriminate|]. injection E as <- <-. cbn [flat_map]. rewrite app_nil_r. apply cat_stops, chr_stops. destruct H as [H|H]; subst t; reflexivity.
Qed.
(** From the first attribute on. *)
Lemma name_length n : a_name n -> 1 <= length n.
Proof. intros (c & r & -> & _). cbn. lia. Qed.
Lemma lattrs a : forall b k close u n v a', a = (n, v) :: a' -> Forall an_attr a -> In close closings ->
  exists b' t, laps LATTR (mkS (32%N :: b) (n ++ value_text v ++ left_of a' close u) k) (mkS b' t k) /\ (t = 62%N :: u \/ t = 47%N :: 62%N :: u).
Proof.
  induction a as [|[n0 v0] a IH]; [discriminate|]. intros b k close u n v a' [= -> -> <-] F C. inversion F as [|? ? [N V] F']; subst. cbn [fst snd] in N, V.
  destruct (left_stops a close u F' C) as (g & t & E & G & S & H1 & H2). rewrite E.
  assert (X := lattr_first n v g t b k N V G S).
  assert (L : length t < length (n ++ value_text v ++ g ++ t)) by (assert (K := name_length n N); rewrite !app_length; lia).
  destruct a as [|[n1 v1] a].
  - exists (rev g ++ rev (n ++ value_text v) ++ 32%N :: b), t. assert (H0 : t = 62%N :: u \/ t = 47%N :: 62%N :: u) by (destruct (H1 eq_refl) as [[_ H0]|[_ H0]]; auto). split; [|exact H0]. eapply lap; [exact X|exact L|]. apply no_lap, lattr_stops. exists u. exact H0.
  - destruct (H2 n1 v1 a eq_refl) as [-> ->]. destruct (IH (rev (n ++ value_text v) ++ 32%N :: b) k close u n1 v1 a eq_refl F' C) as (b' & t' & A & B). exists b', t'. split; [|exact B].
    eapply lap; [exact X|exact L|]. exact A.
Qed.
Lemma left_head a close u : Forall an_attr a -> In close closings -> match left_of a close u with c :: _ => class_in false true CTAG c = false | [] => False end.
Proof.
  intros F C. destruct a as [|[n v] a]; unfold left_of; cbn [flat_map app].
  - destruct C as [C|[C|[C|[]]]]; subst close; reflexivity.
  - reflexivity.
Qed.
Lemma locate_first n a close u b : a_name n -> Forall an_attr a -> In close closings ->
  exists st, match_at locatestarttagend_tolerant b (tag_text n a close ++ u) = Some st /\ (s_after st = 62%N :: u \/ s_after st = 47%N :: 62%N :: u).
Proof.
  intros (c & r & -> & L & F) FA C.
  assert (E : tag_text (c :: r) a close ++ u = 60%N :: c :: r ++ left_of a close u). { unfold tag_text, left_of. rewrite <- !app_assoc. reflexivity. }
  assert (G : exists b' t, first (Cat (Rep true 0 (Some 1) (Cat (Rep true 0 None (Chr false false [ISpace; IChar 47])) (Rep true 0 None LATTR))) (Rep true 0 None (Chr false false [ISpace])))
     (mkS (rev r ++ c :: 60%N :: b) (left_of a close u) []) (mkS b' t []) /\ (t = 62%N :: u \/ t = 47%N :: 62%N :: u)).
  { set (b0 := rev r ++ c :: 60%N :: b). 
    assert (T : forall b' t, (t = 62%N :: u \/ t = 47%N :: 62%N :: u) -> first (Rep true 0 None (Chr false false [ISpace])) (mkS b' t []) (mkS b' t [])).
    { intros b' t H. apply (run _ _ _ []); [constructor|]. destruct H as [H|H]; subst t; reflexivity. }
    destruct a as [|[n v] a].
    - unfold left_of. cbn [flat_map app].
      assert (K : forall w, Forall (fun c => class_in false false [ISpace; IChar 47] c = true) w -> w <> [] -> close = w ++ [62%N] ->
         exists b' t, first (Cat (Rep true 0 (Some 1) (Cat (Rep true 0 None (Chr false false [ISpace; IChar 47])) (Rep true 0 None LATTR))) (Rep true 0 None (Chr false false [ISpace])))
           (mkS b0 (close ++ u) []) (mkS b' t []) /\ (t = 62%N :: u \/ t = 47%N :: 62%N :: u)).
      { intros w W NE ->. exists (rev w ++ b0), (62%N :: u). split; [|auto]. rewrite <- app_assoc. cbn [app]. eapply first_cat; [|apply T; auto]. apply option_first.
        - eapply first_cat; [apply (run _ _ _ w); [exact W|reflexivity]|]. apply laps_first, no_lap, lattr_stops. eauto.
        - cbn [s_after]. rewrite app_length. destruct w; [congruence|]. cbn [length]. lia. }
      destruct C as [C|[C|[C|[]]]]; subst close.
      + exists b0, (62%N :: u). split; [|auto]. change ($">" ++ u) with (62%N :: u). eapply first_cat; [|apply T; auto]. eexists. apply option_stay.
        rewrite Regexp_cat. rewrite star_stay by reflexivity. cbn [flat_map]. rewrite app_nil_r. rewrite star_stay by (apply lattr_stops; eauto). constructor; [reflexivity|constructor].
      + apply (K [47%N]); [repeat constructor|discriminate|reflexivity].
      + apply (K [32%N; 47%N]); [repeat constructor|discriminate|reflexivity].
    - destruct (lattrs ((n, v) :: a) b0 [] close u n v a eq_refl FA C) as (b' & t & A & B).
      exists b', t. split; [|exact B].
      assert (X : left_of ((n, v) :: a) close u = [32%N] ++ n ++ value_text v ++ left_of a close u). { unfold left_of. cbn [flat_map]. unfold attr_text at 1. cbn [fst snd]. rewrite <- !app_assoc. reflexivity. }
      rewrite X. eapply first_cat; [|apply T, B]. apply option_first.
      + eapply first_cat; [apply (run _ _ _ [32%N]); [repeat constructor|]|apply laps_first; exact A].
        inversion FA as [|? ? [NN _] _]; subst. cbn [fst] in NN. destruct NN as (d & q & -> & LD & _). cbn [app]. unfold Regexp.class_in. cbn [existsb item_in xorb andb]. rewrite (alnum_space d (or_introl LD)), (alnum_not d 47 (or_introl LD)) by lia. reflexivity.
      + cbn [s_after]. assert (N : length t <= 2 + length u) by (destruct B as [B|B]; subst t; cbn; lia). inversion FA as [|? ? [NN _] _]; subst. apply name_length in NN. cbn [fst] in NN. unfold left_of. rewrite !app_length. cbn [length].
        assert (1 <= length close) by (destruct C as [C|[C|[C|[]]]]; subst close; vm_compute; lia). lia. }
  destruct G as (b' & t & G & T). exists (mkS b' t []). split; [|exact T]. rewrite E. apply match_first. rewrite locate_is.
  eapply first_cat; [apply first_chr; reflexivity|]. eapply first_cat; [apply first_chr; rewrite class_letter; apply letter_spec, L|].
  eapply first_cat; [apply run|exact G].
  - exact (all_of _ _ _ ctag F).
  - assert (H := left_head a close u FA C). destruct (left_of a close u); [exact I|exact H].
Qed.
Lemma over_unique b s b' s' w : over b s b' s' w -> forall v, s = v ++ s' -> b' = rev v ++ b.
Proof. intros [E ->] v K. rewrite E in K. apply app_inv_tail in K. subst. reflexivity. Qed.
Lemma whole_tag n a close u b : a_name n -> Forall an_attr a -> In close closings ->
  whole_start_tag b (tag_text n a close ++ u) = Goes [] None (rev (tag_text n a close) ++ b) u.
Proof.
  intros N F C. destruct (locate_first n a close u b N F C) as (st & M & A). assert (K := M). apply match_over in K as (_ & w & O & _).
  assert (W := whole_moves b (tag_text n a close ++ u)). unfold whole_start_tag in *. rewrite M in *.
  destruct A as [A|A]; rewrite A in *; cbn [N.eqb Pos.eqb] in *.
  - destruct W as (_ & v & _ & V). rewrite (over_unique _ _ _ _ _ V (tag_text n a close) eq_refl). reflexivity.
  - destruct W as (_ & v & _ & V). rewrite (over_unique _ _ _ _ _ V (tag_text n a close) eq_refl). reflexivity.
Qed.

(** *** The name and the attributes *)
Lemma tagfind_is : tagfind_tolerant = Cat (Grp 1 (Cat (Chr false false [IRange 97 122; IRange 65 90]) (Rep true 0 None (Chr false true CTAG)))) (Rep true 0 None GAP).
Proof. reflexivity. Qed.
Lemma tagfind_first n a close u b : a_name n -> Forall an_attr a -> In close closings ->
  forall g t, left_of a close u = g ++ t -> gap g -> stops t ->
  match_at tagfind_tolerant b (n ++ left_of a close u) = Some (mkS (rev g ++ rev n ++ b) t [(1, n)]).
Proof.
  intros N F C g t E G S. destruct N as (c & r & -> & L & FR). apply match_first. rewrite tagfind_is.
  assert (X : first (Cat (Chr false false [IRange 97 122; IRange 65 90]) (Rep true 0 None (Chr false true CTAG))) (mkS b ((c :: r) ++ left_of a close u) []) (mkS (rev (c :: r) ++ b) (left_of a close u) [])).
  { cbn [app rev]. rewrite <- app_assoc. eapply first_cat; [apply first_chr; rewrite class_letter; apply letter_spec, L|]. apply run; [exact (all_of _ _ _ ctag FR)|].
    assert (H := left_head a close u F C). destruct (left_of a close u); [exact I|exact H]. }
  eapply first_cat; [eapply first_grp; [exact X|split; [reflexivity|reflexivity]]|]. cbn [s_before s_after s_caps]. rewrite E. apply gap_laps; assumption.
Qed.
Lemma attrfind_is : attrfind_tolerant = Cat (Grp 1 (Cat QUOTE ATTR_NAME)) (Cat (Rep true 0 (Some 1) (Grp 2 (EQUALS (Grp 3 VALUE)))) (Rep true 0 None GAP)).
Proof. reflexivity. Qed.
Lemma unquoted_quoted q v : In q [34; 39]%N -> unquoted (q :: v ++ [q]) = v.
Proof.
  intros Q. unfold unquoted. cbn [rev]. rewrite rev_app_distr. cbn [rev app tl]. rewrite N.eqb_refl. destruct Q as [Q|[Q|[]]]; subst q; cbn [N.eqb Pos.eqb andb orb]; apply removelast_last.
Qed.
Definition value_of (v : value) : option str := match v with NoValue => None | Quoted _ v => Some v end.
Lemma attrfind_first n v g t b : a_name n -> a_value v -> gap g -> follows g t ->
  exists st, match_at attrfind_tolerant (32%N :: b) (n ++ value_text v ++ g ++ t) = Some st /\ s_after st = t /\ attribute st = (lower n, value_of v) /\ exists b', s_before st = rev g ++ b'.
Proof.
  intros N V G S. assert (FS := follows_stops _ _ S).
  assert (X1 : first (Cat QUOTE ATTR_NAME) (mkS (32%N :: b) (n ++ value_text v ++ g ++ t) []) (mkS (rev n ++ 32%N :: b) (value_text v ++ g ++ t) [])).
  { eapply first_cat; [apply quote_first|]. apply attr_name; [exact N|]. apply name_ends; assumption. }
  destruct v as [|q v].
  - eexists. split; [apply match_first; rewrite attrfind_is; eapply first_cat; [eapply first_grp; [exact X1|split; reflexivity]|]; cbn [s_before s_after s_caps]; eapply first_cat; [eexists; cbn [value_text app]; apply option_stay; cbn [Regexp.ways]; rewrite equals_stops by assumption; constructor|apply (gap_laps g); [exact G|exact FS]]|].
    split; [reflexivity|]. split; [reflexivity|]. eexists. reflexivity.
  - destruct V as [Q V]. assert (E : value_text (Quoted q v) ++ g ++ t = 61%N :: q :: v ++ q :: g ++ t). { cbn [value_text]. rewrite <- !app_assoc. reflexivity. }
    rewrite E in *. assert (X2 := first_grp no_char no_char 3 _ _ _ (q :: v ++ [q]) (value_first q v (61%N :: rev n ++ 32%N :: b) (g ++ t) [(1, n)] Q V)). cbn [s_before s_after s_caps] in X2.
    specialize (X2 ltac:(split; cbn [s_before s_after app rev]; [rewrite <- app_assoc; reflexivity|rewrite rev_app_distr; cbn [rev app]; rewrite <- app_assoc; reflexivity])).
    assert (X3 := equals_first _ _ _ _ _ _ Q X2). cbn [s_before s_after s_caps] in X3.
    assert (X4 := first_grp no_char no_char 2 _ _ _ (61%N :: q :: v ++ [q]) X3). cbn [s_before s_after s_caps] in X4.
    eexists. split; [apply match_first; rewrite attrfind_is; eapply first_cat; [eapply first_grp; [exact X1|split; reflexivity]|]; cbn [s_before s_after s_caps]; eapply first_cat; [apply option_first; [apply X4|]|apply (gap_laps g); [exact G|exact FS]]|].
    + split; cbn [s_before s_after app rev]; [rewrite <- app_assoc; reflexivity|]. rewrite rev_app_distr. cbn [rev app]. rewrite <- !app_assoc. reflexivity.
    + cbn [s_after length]. rewrite !app_length. cbn [length]. rewrite !app_length. lia.
    + split; [reflexivity|]. split; [|eexists; reflexivity]. unfold attribute. cbn [s_caps group Nat.eqb option_map value_of]. rewrite (unquoted_quoted q v Q). reflexivity.
Qed.
Lemma attrfind_stops b t : (exists u, t = 62%N :: u \/ t = 47%N :: 62%N :: u) -> match_at attrfind_tolerant b t = None.
Proof.
  intros [u H]. unfold match_at. rewrite attrfind_is, Regexp_cat.
  assert (E : ways (Grp 1 (Cat QUOTE ATTR_NAME)) (mkS b t []) = []); [|rewrite E; reflexivity].
  assert (E : ways (Cat QUOTE ATTR_NAME) (mkS b t []) = []); [|cbn [Regexp.ways] in E |- *; rewrite E; reflexivity].
  rewrite Regexp_cat. assert (Q : ways QUOTE (mkS b t []) = [] \/ ways QUOTE (mkS b t []) = [mkS b t []]). { unfold QUOTE. cbn [Regexp.ways]. unfold guard. destruct (xorb _ _); auto. }
  destruct Q as [Q|Q]; rewrite Q; [reflexivity|]. cbn [flat_map]. rewrite app_nil_r. apply cat_stops, chr_stops. destruct H as [H|H]; subst t; reflexivity.
Qed.
Definition closing (close u t : str) : Prop := close = $">" /\ t = 62%N :: u \/ close <> $">" /\ t = 47%N :: 62%N :: u.
Definition given (a : list (str * value)) : list (str * option str) := map (fun x => (lower (fst x), value_of (snd x))) a.
Lemma attributes_are a : forall fuel b close u g t, length a < fuel -> Forall an_attr a -> In close closings -> left_of a close u = g ++ t -> gap g -> follows g t ->
  exists k, attributes fuel (length u) (rev g ++ b) t = (given a, k) /\ closing close u k.
Proof.
  induction a as [|[n v] a IH]; intros [|f] b close u g t L F C E G S; cbn [length] in L; try lia; cbn [attributes].
  - destruct (left_stops [] close u F C) as (g' & t' & E' & G' & S' & H1 & _). specialize (H1 eq_refl).
    assert (t = t'). { rewrite E in E'. clear -E' G G' S S'. destruct G as [G|G], G' as [G'|G']; subst; cbn [app] in E'; [exact E'| | |congruence].
      - subst t. apply follows_stops in S. destruct S; discriminate. - subst t'. apply follows_stops in S'. destruct S'; discriminate. }
    subst t'. rewrite attrfind_stops by (exists u; destruct H1 as [[_ H]|[_ H]]; auto). exists t. split; [destruct (Nat.ltb _ _); reflexivity|exact H1].
  - inversion F as [|? ? [N V] F']; subst. cbn [fst snd] in N, V. destruct (left_stops ((n, v) :: a) close u F C) as (g' & t' & E' & G' & S' & _ & H). destruct (H n v a eq_refl) as [Hg Ht]. subst g'.
    assert (t = t' /\ g = [32%N]) as [-> ->]. { rewrite E in E'. clear -E' G S. destruct G as [G|G]; subst; cbn [app] in E'; [subst t; apply follows_stops in S; destruct S; discriminate|]. injection E' as <-. auto. }
    subst t'. destruct (left_stops a close u F' C) as (g1 & t1 & E1 & G1 & S1 & _ & _). rewrite E1. destruct (attrfind_first n v g1 t1 b N V G1 S1) as (st & M & A & AT & b' & B).
    change (rev [32%N] ++ b) with (32%N :: b). rewrite M, A, B. destruct (Nat.ltb_spec (length u) (length (n ++ value_text v ++ g1 ++ t1))) as [_|X].
    + destruct (IH f b' close u g1 t1) as (k & K & CK); auto; [lia|]. rewrite K, AT. exists k. split; [reflexivity|exact CK].
    + exfalso. rewrite <- E1 in X. unfold left_of in X. apply name_length in N. rewrite !app_length in X. cbn [length] in X. lia.
Qed.
Lemma attrs_length a close u n : length a < length (tag_text n a close ++ u).
Proof.
  unfold tag_text. rewrite !app_length. change (length ($"<")) with 1. assert (length a <= length (flat_map attr_text a)); [|lia].
  induction a as [|x a IH]; [cbn; lia|]. cbn [flat_map length]. rewrite app_length. unfold attr_text at 1. rewrite app_length. change (length ($" ")) with 1. lia.
Qed.
(** A start tag is passed over whole; after the one of a script, the parser looks for its end. *)
Lemma starttag_is n a close u b : a_name n -> Forall an_attr a -> In close closings ->
  parse_starttag b (tag_text n a close ++ u) =
  Goes (OnStart (lower n) (given a) :: if streqb close ($">") then [] else [OnEnd (lower n)]) (if streqb close ($">") && mem_str (lower n) cdata_content_elements then Some (lower n) else None) (rev (tag_text n a close) ++ b) u.
Proof.
  intros N F C. unfold parse_starttag. rewrite (whole_tag n a close u b N F C).
  assert (E : tag_text n a close ++ u = 60%N :: n ++ left_of a close u). { unfold tag_text, left_of. rewrite <- !app_assoc. reflexivity. }
  assert (L := attrs_length a close u n). set (f := length (tag_text n a close ++ u)) in *. rewrite E at 1. cbn [skip_chars].
  destruct (left_stops a close u F C) as (g & t & E1 & G & S & _). rewrite (tagfind_first n a close u (60%N :: b) N F C g t E1 G (follows_stops _ _ S)). cbn [s_before s_after s_caps group Nat.eqb].
  assert (K := attributes_are a f (rev n ++ 60%N :: b) close u g t L F C E1 G S). destruct K as (k & -> & K). cbv zeta.
  assert (B : forall v, between (v ++ u) u = v). { intros v. exact (between_over [] (v ++ u) (rev v ++ []) u v (conj eq_refl eq_refl)). }
  destruct K as [[-> ->]|[NC ->]].
  - change (62%N :: u) with ([62%N] ++ u). rewrite B. cbn [andb]. destruct (mem_str (lower n) cdata_content_elements); reflexivity.
  - change (47%N :: 62%N :: u) with ([47%N; 62%N] ++ u). rewrite B. destruct (streqb_spec close ($">")) as [X|_]; [contradiction|]. reflexivity.
Qed.

(** ** The other markup *)
Definition CEND := [IChar 45; IChar 46; IRange 97 122; IRange 65 90; IRange 48 57; IChar 58; IChar 95].
Definition CENT := [IChar 45; IChar 46; IRange 97 122; IRange 65 90; IRange 48 57].
Lemma alnum_leb c : alnum c -> (N.leb 97 c && N.leb c 122) || (N.leb 65 c && N.leb c 90) || (N.leb 48 c && N.leb c 57) = true.
Proof. intros H. unfold alnum, is_letter, is_digit in H. rewrite !orb_true_iff, !andb_true_iff, !N.leb_le. lia. Qed.
Lemma cend c : alnum c -> class_in false false CEND c = true.
Proof.
  intros H. assert (K := alnum_leb c H). unfold Regexp.class_in, CEND. cbn [existsb item_in xorb andb]. rewrite !(alnum_not c) by (auto; lia). cbn [orb].
  rewrite !orb_false_r. rewrite <- orb_assoc in K. rewrite K. reflexivity.
Qed.
Lemma cent c : alnum c -> class_in false false CENT c = true.
Proof.
  intros H. assert (K := alnum_leb c H). unfold Regexp.class_in, CENT. cbn [existsb item_in xorb andb]. rewrite !(alnum_not c) by (auto; lia). cbn [orb].
  rewrite !orb_false_r. rewrite <- orb_assoc in K. rewrite K. reflexivity.
Qed.
Lemma name_no_gt n : a_name n -> ~ In 62%N n.
Proof. intros N I. assert (F := name_chars n N). rewrite Forall_forall in F. specialize (F _ I). unfold alnum, is_letter, is_digit in F. lia. Qed.
Lemma name_first (l : list item) n b x k m : (forall c, alnum c -> class_in false false l c = true) -> a_name n -> (match x with c :: _ => class_in false false l c = false | [] => True end) ->
  first (Grp m (Cat (Chr false false [IRange 97 122; IRange 65 90]) (Rep true 0 None (Chr false false l)))) (mkS b (n ++ x) k) (mkS (rev n ++ b) x ((m, n) :: k)).
Proof.
  intros H (c & r & -> & L & F) X. apply (first_grp no_char no_char m _ _ (mkS (rev (c :: r) ++ b) x k) (c :: r)); [|split; reflexivity].
  cbn [rev app]. rewrite <- app_assoc. eapply first_cat; [apply first_chr; rewrite class_letter; apply letter_spec, L|]. apply run; [exact (all_of _ _ _ H F)|exact X].
Qed.
Lemma endtag_match n u b : a_name n -> exists st, match_at endtagfind b ($"</" ++ n ++ 62%N :: u) = Some st /\ group 1 (s_caps st) = Some n.
Proof.
  intros N. eexists. split.
  - apply match_first. eapply first_cat; [apply first_chr; reflexivity|]. eapply first_cat; [apply first_chr; reflexivity|].
    eapply first_cat; [apply (run _ _ _ []); [constructor|]|].
    + destruct N as (c & r & -> & L & _). cbn [app]. unfold Regexp.class_in. cbn [existsb item_in xorb andb]. rewrite (alnum_space c (or_introl L)). reflexivity.
    + cbn [rev app]. eapply first_cat; [apply (name_first CEND n _ (62%N :: u)); [exact cend|exact N|reflexivity]|].
      eapply first_cat; [apply (run _ _ _ []); [constructor|reflexivity]|]. apply first_chr. reflexivity.
  - reflexivity.
Qed.
Lemma endtag_is cd n u b : a_name n -> match cd with Some e => e = lower n | None => True end ->
  parse_endtag cd b ($"</" ++ n ++ 62%N :: u) = Goes [OnEnd (lower n)] None (rev (($"</" ++ n) ++ [62%N]) ++ b) u.
Proof.
  intros N H. unfold parse_endtag. rewrite app_assoc, after_gt_at.
  2:{ intros I. apply in_app_or in I as [I|I]; [|exact (name_no_gt n N I)]. destruct I as [I|[I|[]]]; discriminate. }
  rewrite <- app_assoc. destruct (endtag_match n u b N) as (st & -> & ->). cbv zeta. destruct cd as [e|]; [|reflexivity]. subst e. destruct (streqb_spec (lower n) (lower n)); [reflexivity|congruence].
Qed.
Lemma char_is x c : class_in false false [IChar x] c = true -> c = x.
Proof. unfold Regexp.class_in. cbn [existsb item_in xorb andb]. destruct (N.eqb_spec c x); [auto|discriminate]. Qed.
Lemma close_is b s st : In st (ways commentclose (mkS b s [])) -> exists w r, s = $"--" ++ w ++ 62%N :: r /\ forallb is_space w = true.
Proof.
  intros H. unfold commentclose in H. rewrite Regexp_cat in H. apply in_flat_map in H as (x & A & H). rewrite Regexp_cat in H. apply in_flat_map in H as (y & B & H). rewrite Regexp_cat in H. apply in_flat_map in H as (z & C & H).
  assert (F : exists w, ext y z w) by exact (ways_ext _ _ _ _ _ C). destruct F as [w W]. assert (F := ways_only _ _ (fun c => is_space c = true) just_space just_space_ok (Rep true 0 None (Chr false false [ISpace])) eq_refl _ _ _ C W).
  apply step_In in A as (c & Hc & [A _] & _). apply step_In in B as (d & Hd & [B _] & _). apply step_In in H as (e & He & [H _] & _). apply char_is in Hc, Hd, He. subst c d e. cbn [s_after] in A. destruct W as [W _].
  exists w, (s_after st). split; [rewrite A, B, W, H; reflexivity|]. apply forallb_forall, Forall_forall, F.
Qed.
Lemma comment_search c : forall u b, (~ exists x w y, c = x ++ $"--" ++ w ++ $">" ++ y /\ forallb is_space w = true) ->
  exists st, search_at commentclose b (c ++ 45%N :: 45%N :: 62%N :: u) = Some st /\ s_after st = u.
Proof.
  unfold search_at. induction c as [|d c IH]; intros u b H.
  - eexists. split; [reflexivity|reflexivity].
  - cbn [app search_from]. destruct (ways commentclose (mkS b (d :: c ++ 45%N :: 45%N :: 62%N :: u) [])) as [|st l] eqn:E.
    + apply IH. intros (x & w & y & K & W). apply H. exists (d :: x), w, y. split; [rewrite K; reflexivity|exact W].
    + exfalso. assert (I : In st (ways commentclose (mkS b (d :: c ++ 45%N :: 45%N :: 62%N :: u) []))) by (rewrite E; left; reflexivity). apply close_is in I as (w & r & K & W).
      cbn [app of_string] in K. injection K as -> K. destruct c as [|d c]; cbn [app] in K.
      * injection K as K. destruct w as [|x w]; [discriminate|]. injection K as <- _. discriminate.
      * injection K as -> K. apply app_eq_app in K as (m & [[K1 K2]|[K1 K2]]).
        -- destruct m as [|x m]; [discriminate|]. cbn [app] in K2. injection K2 as <- K2. apply H. exists [], w, m. split; [rewrite K1; reflexivity|exact W].
        -- destruct m as [|x m]; [discriminate|]. cbn [app] in K2. injection K2 as <- K2. subst w. rewrite forallb_app in W. apply andb_true_iff in W as [_ W]. discriminate.
Qed.
Lemma comment_is cd c u b : (~ exists x w y, c = x ++ $"--" ++ w ++ $">" ++ y /\ forallb is_space w = true) ->
  exists b', parse_comment cd b ($"<!--" ++ c ++ $"-->" ++ u) = Goes [] cd b' u.
Proof.
  intros H. unfold parse_comment. change ($"<!--" ++ c ++ $"-->" ++ u) with (60%N :: 33%N :: 45%N :: 45%N :: c ++ 45%N :: 45%N :: 62%N :: u). cbn [skip_chars].
  destruct (comment_search c u (45%N :: 45%N :: 33%N :: 60%N :: b) H) as (st & -> & ->). eauto.
Qed.
Lemma entity_match n u b : a_name n -> exists b' k, match_at entityref b ($"&" ++ n ++ $";" ++ u) = Some (mkS (59%N :: b') u k).
Proof.
  intros N. do 2 eexists. apply match_first. eapply first_cat; [apply first_chr; reflexivity|]. cbn [of_string app].
  eapply first_cat; [apply (name_first CENT n _ (59%N :: u)); [exact cent|exact N|reflexivity]|]. apply first_chr. reflexivity.
Qed.
Definition CHEX := [IRange 48 57; IRange 97 102; IRange 65 70].
Lemma chex c : is_hex c -> class_in false false CHEX c = true.
Proof.
  intros H. unfold Regexp.class_in, CHEX. cbn [existsb item_in xorb andb]. rewrite !orb_false_r.
  assert (K : (N.leb 48 c && N.leb c 57) || ((N.leb 97 c && N.leb c 102) || (N.leb 65 c && N.leb c 70)) = true); [|rewrite K; reflexivity].
  unfold is_hex, is_digit in H. rewrite !orb_true_iff, !andb_true_iff, !N.leb_le. lia.
Qed.
Lemma cdigit c : is_digit c -> class_in false false [IRange 48 57] c = true.
Proof. intros [A B]. unfold Regexp.class_in. cbn [existsb item_in xorb andb]. apply N.leb_le in A, B. rewrite A, B. reflexivity. Qed.
Lemma charref_match d u b : d <> [] -> Forall is_digit d -> exists b' k, match_at charref b ($"&#" ++ d ++ $";" ++ u) = Some (mkS (59%N :: b') u k).
Proof.
  intros N F. do 2 eexists. apply match_first. eapply first_cat; [apply first_chr; reflexivity|]. eapply first_cat; [apply first_chr; reflexivity|].
  eapply first_cat; [apply first_alt_l; apply (plus_first _ _ _ _ _ d _ [59%N] u); [exact N|exact (all_of _ _ _ cdigit F)|reflexivity]|]. apply first_chr. reflexivity.
Qed.
Lemma hexref_match x d u b : x = 120%N \/ x = 88%N -> d <> [] -> Forall is_hex d -> exists b' k, match_at charref b ($"&#" ++ x :: d ++ $";" ++ u) = Some (mkS (59%N :: b') u k).
Proof.
  intros X N F. do 2 eexists. apply match_first. eapply first_cat; [apply first_chr; reflexivity|]. eapply first_cat; [apply first_chr; reflexivity|].
  eapply first_cat.
  - apply first_alt_r; [destruct X as [X|X]; subst x; reflexivity|]. eapply first_cat; [apply first_chr; destruct X as [X|X]; subst x; reflexivity|].
    apply (plus_first _ _ _ _ _ d _ [59%N] u); [exact N|exact (all_of _ _ _ chex F)|reflexivity].
  - apply first_chr. reflexivity.
Qed.
(** The end of a script *)
Lemma lower_letter x c : (97 <= x <= 122)%N -> lower_char c = x -> class_in true false [IChar x] c = true.
Proof.
  intros X H. unfold lower_char in H. unfold Regexp.class_in, swapcase. cbn [existsb item_in xorb andb]. rewrite !orb_false_r.
  destruct (N.leb 65 c && N.leb c 90) eqn:E; [rewrite H, N.eqb_refl, orb_true_r; reflexivity|]. rewrite H, N.eqb_refl. reflexivity.
Qed.
Lemma lower_is x c : (97 <= x <= 122)%N -> lower_char c = x -> c = x \/ c = (x - 32)%N.
Proof. intros X. unfold lower_char. destruct (N.leb_spec 65 c), (N.leb_spec c 90); cbn [andb]; lia. Qed.
Definition script_end := Eval vm_compute in interesting ($"script").
Definition style_end := Eval vm_compute in interesting ($"style").
Lemma interesting_here e last b u : In e cdata_content_elements -> lower last = e -> nonempty (ways (interesting e) (mkS b ($"</" ++ last ++ 62%N :: u) [])) = true.
Proof.
  assert (G : forall r st st', first r st st' -> nonempty (ways r st) = true). { intros r st st' [l ->]. reflexivity. }
  intros I E. destruct I as [I|[I|[]]]; rewrite <- I in *.
  - destruct last as [|c1 [|c2 [|c3 [|c4 [|c5 [|c6 [|? ?]]]]]]]; try discriminate. cbn [lower map] in E. injection E as E1 E2 E3 E4 E5 E6. eapply G.
    change (interesting ($"script")) with script_end. unfold script_end.
    eapply first_cat; [apply first_chr; reflexivity|]. eapply first_cat; [apply first_chr; reflexivity|].
    eapply first_cat; [apply (run _ _ _ []); [constructor|]; destruct (lower_is 115 c1 ltac:(lia) E1) as [K|K]; rewrite K; reflexivity|]. cbn [rev app].
    do 6 (eapply first_cat; [apply first_chr, lower_letter; [lia|assumption]|]).
    eapply first_cat; [apply (run _ _ _ []); [constructor|reflexivity]|]. apply first_chr. reflexivity.
  - destruct last as [|c1 [|c2 [|c3 [|c4 [|c5 [|? ?]]]]]]; try discriminate. cbn [lower map] in E. injection E as E1 E2 E3 E4 E5. eapply G.
    change (interesting ($"style")) with style_end. unfold style_end.
    eapply first_cat; [apply first_chr; reflexivity|]. eapply first_cat; [apply first_chr; reflexivity|].
    eapply first_cat; [apply (run _ _ _ []); [constructor|]; destruct (lower_is 115 c1 ltac:(lia) E1) as [K|K]; rewrite K; reflexivity|]. cbn [rev app].
    do 5 (eapply first_cat; [apply first_chr, lower_letter; [lia|assumption]|]).
    eapply first_cat; [apply (run _ _ _ []); [constructor|reflexivity]|]. apply first_chr. reflexivity.
Qed.

(** ** Documents *)
Definition where_to (cd : option str) (b s : str) : jump :=
  match s with
  | [] => Waits
  | c :: r =>
      if match r with d :: _ => letter d | [] => false end then parse_starttag b s
      else if startswith ($"</") s then parse_endtag cd b s
      else if startswith ($"<!--") s then parse_comment cd b s
      else if startswith ($"<?") s then parse_pi cd b s
      else if startswith ($"<!") s then parse_html_declaration cd b s
      else match r with [] => Waits | _ => Goes [OnData ($"<")] cd (c :: b) r end
  end.
Definition mark (b t : str) : bool := match t with c :: _ => N.eqb c 60 || N.eqb c 38 | [] => false end.
Lemma plain_seek t b s : plain_text t -> mark [] s = true -> seek (fun _ t => match t with c :: _ => N.eqb c 60 || N.eqb c 38 | [] => false end) b (t ++ s) = (t, Some (rev t ++ b, s)).
Proof.
  intros [P Q] M. apply seek_at; [|exact M]. intros x c y ->. destruct (N.eqb_spec c 60) as [->|]; [exfalso; apply P, in_elt|]. destruct (N.eqb_spec c 38) as [->|]; [exfalso; apply Q, in_elt|]. reflexivity.
Qed.
Lemma go_lt f t r b d cd b' s' : plain_text t -> where_to None (rev t ++ b) (60%N :: r) = Goes d cd b' s' ->
  goahead (S f) None b (t ++ 60%N :: r) = (let '(l, e) := goahead f cd b' s' in ((some_data t ++ d) ++ l, e)).
Proof. intros P W. cbn [goahead]. rewrite plain_seek by (auto; reflexivity). unfold where_to in W. cbn [N.eqb Pos.eqb]. rewrite W. reflexivity. Qed.
Lemma go_ref f t r b b' u k : plain_text t ->
  (if startswith ($"&#") (38%N :: r) then match_at charref (rev t ++ b) (38%N :: r) else match_at entityref (rev t ++ b) (38%N :: r)) = Some (mkS (59%N :: b') u k) ->
  goahead (S f) None b (t ++ 38%N :: r) = (let '(l, e) := goahead f None (59%N :: b') u in (some_data t ++ l, e)).
Proof. intros P W. cbn [goahead]. rewrite plain_seek by (auto; reflexivity). cbn [N.eqb Pos.eqb]. destruct (startswith _ _); rewrite W; reflexivity. Qed.
Lemma go_end f e b code last u : In e cdata_content_elements -> ~ In 60%N code -> lower last = e -> a_name last ->
  exists b', goahead (S f) (Some e) b (code ++ $"</" ++ last ++ 62%N :: u) = (let '(l, x) := goahead f None b' u in ((some_data code ++ [OnEnd e]) ++ l, x)).
Proof.
  intros I C E N. exists (rev (($"</" ++ last) ++ [62%N]) ++ rev code ++ b). cbn [goahead]. rewrite (seek_at _ code b).
  - change ($"</" ++ last ++ 62%N :: u) with (60%N :: 47%N :: last ++ 62%N :: u) at 1. cbn [N.eqb Pos.eqb].
    change (letter 47) with false. change (startswith ($"</") (60%N :: 47%N :: last ++ 62%N :: u)) with true. cbv iota.
    change (60%N :: 47%N :: last ++ 62%N :: u) with ($"</" ++ last ++ 62%N :: u). rewrite (endtag_is (Some e) last u (rev code ++ b) N (eq_sym E)).
    change (startswith ($"</") ($"</" ++ last ++ 62%N :: u)) with true. cbv iota. change (match code with [] => [] | _ :: _ => [OnData code] end) with (some_data code).
    rewrite E. destruct (goahead f None _ u) as [l x]. reflexivity.
  - intros x c y ->. destruct (nonempty _) eqn:K; [|reflexivity]. apply interesting_lt in K as [q K]; [|exact I]. injection K as -> _. exfalso. apply C, in_elt.
  - apply interesting_here; assumption.
Qed.
Lemma programs_name n last : In (lower n) programs -> lower last = lower n -> a_name last.
Proof.
  intros I E. rewrite <- E in I. assert (F : Forall is_letter last /\ last <> []).
  { split.
    - assert (F : Forall (fun c => 97 <= c <= 122)%N (lower last)). { destruct I as [I|[I|[]]]; rewrite <- I; vm_compute; repeat (apply Forall_cons || apply Forall_nil); split; discriminate. }
      apply Forall_forall. intros c J. unfold lower in F. rewrite Forall_map in F. rewrite Forall_forall in F. specialize (F _ J). cbn beta in F. unfold lower_char in F. unfold is_letter. destruct (N.leb_spec 65 c), (N.leb_spec c 90); cbn [andb] in F; lia.
    - intros ->. destruct I as [I|[I|[]]]; discriminate. }
  destruct F as [F NE]. destruct last as [|c r]; [congruence|]. inversion F; subst. exists c, r. split; [reflexivity|]. split; [assumption|]. eapply Forall_impl; [|eassumption]. auto.
Qed.
Lemma tag_where n a close u b : a_name n -> Forall an_attr a -> In close closings -> exists r, tag_text n a close ++ u = 60%N :: r /\ where_to None b (60%N :: r) = parse_starttag b (60%N :: r).
Proof.
  intros (c & q & -> & L & _) _ _. eexists. split; [unfold tag_text; cbn [of_string app]; reflexivity|]. unfold where_to. cbn [app].
  assert (K : letter c = true) by (apply letter_spec, L). rewrite K. reflexivity.
Qed.
(** The methods called for the parts of a document. *)
Definition markup_events (m : markup) : list event :=
  match m with
  | Tag n a c => OnStart (lower n) (given a) :: if streqb c ($">") then [] else [OnEnd (lower n)]
  | EndTag n => [OnEnd (lower n)]
  | Program n a code _ => OnStart (lower n) (given a) :: some_data code ++ [OnEnd (lower n)]
  | _ => []
  end.
Definition part_events (p : str * markup) : list event := some_data (fst p) ++ markup_events (snd p).
Lemma part_texts p : texts (part_events p) = shown_part p.
Proof.
  unfold part_events, shown_part. rewrite texts_app, texts_some. f_equal. destruct (snd p) as [n a c|n|c|n|d|x d|n a code last]; try reflexivity; cbn [markup_events code_of].
  - destruct (streqb c ($">")); reflexivity.
  - change (texts (some_data code ++ [OnEnd (lower n)]) = some_text code). rewrite texts_app, texts_some. apply app_nil_r.
Qed.
Lemma parts_texts l : texts (flat_map part_events l) = flat_map shown_part l.
Proof. induction l as [|p l IH]; [reflexivity|]. cbn [flat_map]. rewrite texts_app, part_texts, IH. reflexivity. Qed.
Lemma part_step p u b fuel : proper_part p -> length (written_part p ++ u) < fuel ->
  exists f' b', length u < f' /\ goahead fuel None b (written_part p ++ u) = (part_events p ++ fst (goahead f' None b' u), snd (goahead f' None b' u)).
Proof.
  destruct p as [t m]. intros [P M] L. cbn [fst snd] in P, M. unfold written_part, part_events in *. cbn [fst snd] in *. rewrite <- app_assoc in *. destruct fuel as [|f]; [lia|].
  assert (FIN : forall f' b' s' d r, goahead (S f) None b (t ++ r) = (let '(l, e) := goahead f' None b' s' in ((some_data t ++ d) ++ l, e)) ->
    goahead (S f) None b (t ++ r) = ((some_data t ++ d) ++ fst (goahead f' None b' s'), snd (goahead f' None b' s'))).
  { intros f' b' s' d r ->. destruct (goahead f' None b' s'). reflexivity. }
  assert (LT : length u <= length (t ++ written_markup m ++ u)) by (rewrite !app_length; lia).
  assert (LF : length (written_markup m ++ u) < S f) by (rewrite app_length in L; lia).
  assert (NE : 1 <= length (written_markup m)) by (destruct m; cbn [written_markup]; unfold tag_text; rewrite ?app_length; vm_compute; lia).
  assert (LU : length u < f) by (rewrite app_length in LF; lia).
  destruct m as [n a c|n|c|n|d|x d|n a code last]; cbn [proper_markup markup_events] in *; rewrite ?app_nil_r.
  - destruct M as (N & FA & C). assert (CL : In c closings) by (destruct C as [[C|[C|[]]]|[C _]]; rewrite <- ?C; rewrite ?C; cbn; auto).
    cbn [written_markup]. destruct (tag_where n a c u (rev t ++ b) N FA CL) as (r & E & W). rewrite <- E, (starttag_is n a c u _ N FA CL), E in W.
    assert (CD : (if streqb c ($">") && mem_str (lower n) cdata_content_elements then Some (lower n) else None) = None).
    { destruct C as [[C|[C|[]]]|[C NP]]; [subst c; reflexivity..|]. destruct (mem_str _ _) eqn:K; [|rewrite andb_false_r; reflexivity]. apply mem_str_In in K. contradiction. }
    rewrite CD in W. exists f, (rev (tag_text n a c) ++ rev t ++ b). split; [exact LU|]. rewrite E, (FIN _ _ _ _ _ (go_lt f t r b _ _ _ _ P W)). reflexivity.
  - exists f. eexists. split; [exact LU|]. cbn [written_markup]. rewrite <- !app_assoc.
    assert (W := endtag_is None n u (rev t ++ b) M I). etransitivity; [exact (FIN _ _ _ _ _ (go_lt f t (47%N :: n ++ 62%N :: u) b _ _ _ _ P W))|]. rewrite <- app_assoc. reflexivity.
  - destruct (comment_is None c u (rev t ++ b) M) as [b' W]. exists f, b'. split; [exact LU|]. cbn [written_markup]. rewrite <- !app_assoc.
    etransitivity; [exact (FIN _ _ _ _ _ (go_lt f t (33%N :: 45%N :: 45%N :: c ++ $"-->" ++ u) b _ _ _ _ P W))|]. rewrite app_nil_r. reflexivity.
  - destruct (entity_match n u (rev t ++ b) M) as (b' & k & W). exists f, (59%N :: b'). split; [exact LU|]. cbn [written_markup]. rewrite <- !app_assoc.
    assert (X : goahead (S f) None b (t ++ 38%N :: n ++ $";" ++ u) = (let '(l, e) := goahead f None (59%N :: b') u in (some_data t ++ l, e))).
    { eapply go_ref; [exact P|]. destruct (startswith ($"&#") _) eqn:K; [|exact W]. exfalso. apply startswith_app in K as [q K]. injection K as K. destruct M as (c & r & -> & Lc & _). injection K as -> _. unfold is_letter in Lc. lia. }
    etransitivity; [exact X|]. destruct (goahead f None (59%N :: b') u). reflexivity.
  - destruct M as [NEd D]. destruct (charref_match d u (rev t ++ b) NEd D) as (b' & k & W). exists f, (59%N :: b'). split; [exact LU|]. cbn [written_markup]. rewrite <- !app_assoc.
    assert (X := go_ref f t (35%N :: d ++ $";" ++ u) b b' u k P W).
    etransitivity; [exact X|]. destruct (goahead f None (59%N :: b') u). reflexivity.
  - destruct M as (X0 & NEd & D). destruct (hexref_match x d u (rev t ++ b) X0 NEd D) as (b' & k & W). exists f, (59%N :: b'). split; [exact LU|]. cbn [written_markup]. rewrite <- !app_assoc.
    assert (X := go_ref f t (35%N :: x :: d ++ $";" ++ u) b b' u k P W). change ((x :: d ++ $";") ++ u) with (x :: (d ++ $";") ++ u). rewrite <- app_assoc.
    etransitivity; [exact X|]. destruct (goahead f None (59%N :: b') u). reflexivity.
  - destruct M as (N & PN & FA & NC & EL). assert (NL := programs_name n last PN EL). cbn [written_markup]. rewrite <- !app_assoc.
    assert (CL : In ($">") closings) by (left; reflexivity). set (u' := code ++ $"</" ++ last ++ $">" ++ u).
    destruct (tag_where n a ($">") u' (rev t ++ b) N FA CL) as (r & E & W). rewrite <- E, (starttag_is n a ($">") u' _ N FA CL), E in W.
    assert (K : mem_str (lower n) cdata_content_elements = true) by (apply mem_str_In; exact PN). rewrite K in W. change (streqb ($">") ($">") && true) with true in W. cbv iota in W.
    assert (LU' : length u' < f). { cbn [written_markup] in LF. rewrite <- !app_assoc in LF. fold u' in LF. rewrite app_length in LF. unfold tag_text in LF. rewrite app_length in LF. change (length ($"<")) with 1 in LF. lia. }
    rewrite E, (go_lt f t r b _ _ _ _ P W). destruct f as [|f]; [lia|]. destruct (go_end f (lower n) (rev (tag_text n a ($">")) ++ rev t ++ b) code last u PN NC EL NL) as [b' Y].
    exists f, b'. split; [unfold u' in LU'; rewrite !app_length in LU'; change (length ($"</")) with 2 in LU'; lia|]. unfold u'. change ($"</" ++ last ++ $">" ++ u) with ($"</" ++ last ++ 62%N :: u). rewrite Y.
    destruct (goahead f None b' u) as [l e]. cbn [fst snd]. change (streqb ($">") ($">")) with true. cbv iota. rewrite <- !app_assoc. cbn [app]. rewrite <- app_assoc. reflexivity.
Qed.
Lemma parts_step l : forall u b fuel, Forall proper_part l -> length (flat_map written_part l ++ u) < fuel ->
  exists f' b', length u < f' /\ goahead fuel None b (flat_map written_part l ++ u) = (flat_map part_events l ++ fst (goahead f' None b' u), snd (goahead f' None b' u)).
Proof.
  induction l as [|p l IH]; intros u b fuel F L.
  - exists fuel, b. split; [exact L|]. cbn [flat_map app]. destruct (goahead fuel None b u). reflexivity.
  - inversion F as [|? ? P F']; subst. cbn [flat_map] in *. rewrite <- app_assoc in *. destruct (part_step p _ b fuel P L) as (f1 & b1 & L1 & E1). destruct (IH u b1 f1 F' L1) as (f2 & b2 & L2 & E2).
    exists f2, b2. split; [exact L2|]. rewrite E1, E2. cbn [fst snd]. rewrite <- app_assoc. reflexivity.
Qed.
Lemma plain_end t b f : plain_text t -> goahead (S f) None b t = (some_data t, Done []).
Proof.
  intros [P Q]. cbn [goahead]. rewrite seek_end; [reflexivity|]. intros x [|c y] E; [reflexivity|]. destruct (N.eqb_spec c 60) as [->|]; [exfalso; apply P; rewrite E; apply in_elt|]. destruct (N.eqb_spec c 38) as [->|]; [exfalso; apply Q; rewrite E; apply in_elt|]. reflexivity.
Qed.
Theorem document_events d : proper d -> html_events (written d) = (flat_map part_events (fst d) ++ some_data (snd d), false).
Proof.
  intros [F P]. unfold html_events, written. destruct (parts_step (fst d) (snd d) [] (S (length (flat_map written_part (fst d) ++ snd d))) F (Nat.lt_succ_diag_r _)) as (f' & b' & L & E).
  rewrite E. destruct f' as [|f']; [lia|]. rewrite (plain_end _ b' f' P). reflexivity.
Qed.
Theorem document_feed d : proper d -> html_feed (written d) = (shown d, false).
Proof. intros P. unfold html_feed. rewrite (document_events d P), texts_app, parts_texts, texts_some. reflexivity. Qed.

(** ** Markup without an end *)
Lemma events_tail l t x data fin : Forall proper_part l -> plain_text t -> mark [] x = true ->
  (forall f b, length (t ++ x) < f -> goahead f None b (t ++ x) = (some_data t ++ data, fin)) ->
  html_events (flat_map written_part l ++ t ++ x) = (flat_map part_events l ++ some_data t ++ data, match fin with Done _ => false | _ => true end).
Proof.
  intros F P M H. unfold html_events. destruct (parts_step l (t ++ x) [] (S (length (flat_map written_part l ++ t ++ x))) F (Nat.lt_succ_diag_r _)) as (f' & b' & L & E).
  rewrite E, (H f' b' L). reflexivity.
Qed.
Lemma stop_lt f t r b j : plain_text t -> where_to None (rev t ++ b) (60%N :: r) = j ->
  match j with Waits => goahead (S f) None b (t ++ 60%N :: r) = (some_data t, Done (60%N :: r)) | Raises => goahead (S f) None b (t ++ 60%N :: r) = (some_data t, Failed) | _ => True end.
Proof.
  intros P W. destruct j; [| |exact I]; cbn [goahead]; rewrite plain_seek by (auto; reflexivity); unfold where_to in W; cbn [N.eqb Pos.eqb]; rewrite W; reflexivity.
Qed.
Lemma open_comment_waits y b : ~ ends_comment y -> parse_comment None b ($"<!--" ++ y) = Waits.
Proof.
  intros H. unfold parse_comment. change ($"<!--" ++ y) with (60%N :: 33%N :: 45%N :: 45%N :: y). cbn [skip_chars]. destruct (search_at _ _ y) as [st|] eqn:E; [|reflexivity]. exfalso.
  apply search_over in E as (v & w & b1 & s1 & [E1 _] & _ & I & _). apply close_is in I as (q & r & -> & Q). apply H. exists v, q, r. split; [exact E1|exact Q].
Qed.
Lemma skip_no_gt n : forall b s, ~ In 62%N s -> let '(b2, s2) := skip_chars n b s in after_gt b2 s2 = None.
Proof. induction n as [|n IH]; intros b s H; cbn [skip_chars]; [apply after_gt_none, H|]. destruct s as [|c s]; [apply after_gt_none, H|]. apply IH. intros I. apply H. right. exact I. Qed.
Lemma no_gt_waits cd n b s : ~ In 62%N s -> (let '(b2, s2) := skip_chars n b s in goes_to cd (after_gt b2 s2)) = Waits.
Proof. intros H. assert (K := skip_no_gt n b s H). destruct (skip_chars n b s) as [b2 s2]. rewrite K. reflexivity. Qed.
Lemma cat_last ci neg l ci' neg' l' r b s st : In st (ways (Cat (Cat (Chr ci' neg' l') r) (Chr ci neg l)) (mkS b s [])) -> exists w c, s = w ++ c :: s_after st /\ class_in ci neg l c = true /\ w <> [].
Proof.
  intros H. rewrite Regexp_cat in H. apply in_flat_map in H as (x & A & H). destruct (ways_ext _ _ _ _ _ A) as [w W]. assert (NE := consumes _ _ _ _ _ _ _ _ A W). destruct W as [W _].
  apply step_In in H as (c & Hc & [H _] & _). exists w, c. cbn [s_after] in W. rewrite W, H. auto.
Qed.
Lemma cat_assoc a r s st : ways (Cat a (Cat r s)) st = ways (Cat (Cat a r) s) st.
Proof. rewrite !Regexp_cat. induction (ways a st) as [|x l IH]; [reflexivity|]. cbn [flat_map]. rewrite IH, flat_map_app. reflexivity. Qed.
Lemma entity_none n b : a_name n -> match_at entityref b ($"&" ++ n) = None.
Proof.
  intros N. unfold match_at. destruct (ways entityref _) as [|st l] eqn:E; [reflexivity|]. exfalso. unfold entityref in E. rewrite cat_assoc in E.
  match type of E with ways (Cat ?x (Chr ?i ?g ?k)) ?s = _ => assert (I : In st (ways (Cat x (Chr i g k)) s)) by (rewrite E; left; reflexivity) end.
  apply cat_last in I as (w & c & K & C & NE). destruct w as [|d w]; [congruence|]. injection K as _ K.
  assert (F := name_chars n N). rewrite K in F. apply Forall_app in F as [_ F]. inversion F as [|? ? A _]; subst. assert (B := alnum_leb c A).
  unfold Regexp.class_in in C. cbn [existsb item_in xorb andb] in C. rewrite !orb_false_r, orb_assoc, B in C. discriminate.
Qed.
Lemma number_none c y b : ~ is_digit c -> ~ In c [120; 88]%N -> match_at charref b ($"&#" ++ c :: y) = None.
Proof.
  intros D X. unfold match_at. change ($"&#" ++ c :: y) with (38%N :: 35%N :: c :: y). unfold charref. rewrite Regexp_cat. rewrite ways_chr by reflexivity. cbn [flat_map]. rewrite app_nil_r, Regexp_cat, ways_chr by reflexivity. cbn [flat_map]. rewrite app_nil_r, Regexp_cat.
  change (ways (Alt ?p ?q) ?st) with (ways p st ++ ways q st).
  assert (C1 : class_in false false [IRange 48 57] c = false).
  { unfold Regexp.class_in. cbn [existsb item_in xorb andb]. unfold is_digit in D. destruct (N.leb_spec 48 c), (N.leb_spec c 57); try reflexivity. lia. }
  assert (C2 : class_in false false [IChar 120; IChar 88] c = false).
  { unfold Regexp.class_in. cbn [existsb item_in xorb andb]. destruct (N.eqb_spec c 120) as [E|_]; [subst; destruct X; left; reflexivity|]. destruct (N.eqb_spec c 88) as [E|_]; [subst; destruct X; right; left; reflexivity|]. reflexivity. }
  rewrite (cat_stops _ _ _ (chr_stops _ _ _ _ (c :: y) _ C2)). rewrite app_nil_r.
  assert (R : ways (Rep true 1 None (Chr false false [IRange 48 57])) (mkS (35%N :: 38%N :: b) (c :: y) []) = []); [|rewrite R; reflexivity].
  cbn [Regexp.ways Nat.add s_after length repeats]. unfold step. cbn [s_after]. rewrite C1. reflexivity.
Qed.
Lemma no_more t g (r : str) : g = (some_data t, Done r) -> exists ev r, g = (some_data t ++ ev, Done r) /\ (ev = [] \/ exists n a, In n programs /\ ev = [OnStart n a]).
Proof. intros ->. exists [], r. rewrite app_nil_r. auto. Qed.
Lemma unfinished_stops x : unfinished x -> mark [] x = true /\ forall t f b, plain_text t -> length (t ++ x) < f -> exists ev r, goahead f None b (t ++ x) = (some_data t ++ ev, Done r) /\ (ev = [] \/ exists n a, In n programs /\ ev = [OnStart n a]).
Proof.
  intros U. destruct U as [y H|y H|y H|c y H1 H2|n a code N P FA C|n N|c y D X S].
  - split; [reflexivity|]. intros t [|f] b P L; [lia|]. eapply no_more. exact (stop_lt f t (33%N :: 45%N :: 45%N :: y) b Waits P (open_comment_waits y _ H)).
  - split; [reflexivity|]. intros t [|f] b P L; [lia|]. eapply no_more. refine (stop_lt f t (47%N :: y) b Waits P _). change (where_to None (rev t ++ b) (60%N :: 47%N :: y)) with (parse_endtag None (rev t ++ b) (60%N :: 47%N :: y)).
    unfold parse_endtag. assert (K : ~ In 62%N (60%N :: 47%N :: y)) by (intros [E|[E|E]]; [discriminate|discriminate|exact (H E)]). apply (after_gt_none (rev t ++ b)) in K. rewrite K. reflexivity.
  - split; [reflexivity|]. intros t [|f] b P L; [lia|]. eapply no_more. refine (stop_lt f t (63%N :: y) b Waits P _). change (where_to None (rev t ++ b) (60%N :: 63%N :: y)) with (parse_pi None (rev t ++ b) (60%N :: 63%N :: y)).
    apply (no_gt_waits None 2). intros [E|[E|E]]; [discriminate|discriminate|exact (H E)].
  - split; [reflexivity|]. intros t [|f] b P L; [lia|]. eapply no_more. refine (stop_lt f t (33%N :: c :: y) b Waits P _).
    assert (K : ~ In 62%N (60%N :: 33%N :: c :: y)) by (intros [E|[E|E]]; [discriminate|discriminate|exact (H2 E)]).
    assert (W : where_to None (rev t ++ b) (60%N :: 33%N :: c :: y) = parse_html_declaration None (rev t ++ b) (60%N :: 33%N :: c :: y)).
    { unfold where_to. change (letter 33) with false. change (startswith ($"</") (60%N :: 33%N :: c :: y)) with false. change (startswith ($"<?") (60%N :: 33%N :: c :: y)) with false. change (startswith ($"<!") (60%N :: 33%N :: c :: y)) with true. cbv iota.
      destruct (startswith ($"<!--") (60%N :: 33%N :: c :: y)) eqn:S1; [|reflexivity]. exfalso. apply startswith_app in S1 as [q S1]. injection S1 as -> _. apply H1. left. reflexivity. }
    rewrite W. unfold parse_html_declaration. destruct (startswith ($"<![") _) eqn:S1; [exfalso; apply startswith_app in S1 as [q S1]; injection S1 as -> _; apply H1; right; left; reflexivity|].
    destruct (streqb _ _); [apply (no_gt_waits None 9), K|apply (no_gt_waits None 2), K].
  - assert (CL : In ($">") closings) by (left; reflexivity). split.
    { destruct N as (d & q & -> & _). reflexivity. }
    intros t [|f] b PT L; [lia|]. destruct (tag_where n a ($">") code (rev t ++ b) N FA CL) as (r & E & W). rewrite <- E, (starttag_is n a ($">") code _ N FA CL), E in W.
    assert (K : mem_str (lower n) cdata_content_elements = true) by (apply mem_str_In; exact P). rewrite K in W. change (streqb ($">") ($">") && true) with true in W. cbv iota in W.
    rewrite E in L |- *. rewrite (go_lt f t r b _ _ _ _ PT W). destruct f as [|f]; [rewrite app_length in L; cbn [length] in L; lia|]. eexists; exists code. split; [|right; exists (lower n), (given a); split; [exact P|reflexivity]].
    cbn [goahead]. rewrite seek_end; [rewrite !app_nil_r; reflexivity|]. intros x y K2. destruct (nonempty _) eqn:K3; [|reflexivity]. apply interesting_lt in K3 as [q K3]; [|exact P]. exfalso. apply C. rewrite K2, K3. apply in_elt.
  - split; [reflexivity|]. intros t [|f] b P L; [lia|]. apply (no_more _ _ ($"&" ++ n)). change (t ++ $"&" ++ n) with (t ++ 38%N :: n). cbn [goahead]. rewrite plain_seek by (auto; reflexivity). cbn [N.eqb Pos.eqb].
    assert (M := entity_none n (rev t ++ b) N). change ($"&" ++ n) with (38%N :: n) in M. rewrite M. destruct N as (d & q & -> & LD & _).
    destruct (startswith ($"&#") (38%N :: d :: q)) eqn:K. { exfalso. apply startswith_app in K as [z K]. injection K as -> _. unfold is_letter in LD. lia. }
    apply letter_spec in LD. rewrite LD. reflexivity.
  - split; [reflexivity|]. intros t [|f] b P L; [lia|]. eapply no_more. change (t ++ $"&#" ++ c :: y) with (t ++ 38%N :: 35%N :: c :: y). cbn [goahead]. rewrite plain_seek by (auto; reflexivity). cbn [N.eqb Pos.eqb].
    change (startswith ($"&#") (38%N :: 35%N :: c :: y)) with true. cbv iota. assert (M := number_none c y (rev t ++ b) D X). change ($"&#" ++ c :: y) with (38%N :: 35%N :: c :: y) in M. rewrite M.
    destruct (mem_char 59%N (38%N :: 35%N :: c :: y)) eqn:K; [|reflexivity]. apply mem_char_In in K. destruct K as [K|[K|K]]; [discriminate|discriminate|contradiction].
Qed.
Lemma programs_texts ev : (ev = [] \/ exists n a, In n programs /\ ev = [OnStart n a]) -> texts ev = [].
Proof. intros [->|(n & a & _ & ->)]; reflexivity. Qed.
Theorem unfinished_events l t x : Forall proper_part l -> plain_text t -> unfinished x ->
  exists ev, html_events (flat_map written_part l ++ t ++ x) = (flat_map part_events l ++ some_data t ++ ev, false) /\ (ev = [] \/ exists n a, In n programs /\ ev = [OnStart n a]).
Proof.
  intros F P U. unfold html_events. destruct (parts_step l (t ++ x) [] (S (length (flat_map written_part l ++ t ++ x))) F (Nat.lt_succ_diag_r _)) as (f' & b' & L & E).
  destruct (unfinished_stops x U) as [_ H]. destruct (H t f' b' P L) as (ev & r & K & V). exists ev. rewrite E, K. auto.
Qed.
Theorem unfinished_feed l t x : Forall proper_part l -> plain_text t -> unfinished x -> html_feed (flat_map written_part l ++ t ++ x) = (flat_map shown_part l ++ some_text t, false).
Proof.
  intros F P U. unfold html_feed. destruct (unfinished_events l t x F P U) as (ev & -> & V). rewrite !texts_app, parts_texts, texts_some, (programs_texts _ V), app_nil_r. reflexivity.
Qed.
Theorem number_events l t c y : Forall proper_part l -> plain_text t -> ~ is_digit c -> ~ In c [120; 88]%N -> In 59%N y ->
  html_events (flat_map written_part l ++ t ++ $"&#" ++ c :: y) = (flat_map part_events l ++ some_data t ++ [OnData ($"&#")], false).
Proof.
  intros F P D X S. apply (events_tail l t ($"&#" ++ c :: y) [OnData ($"&#")] (Done (c :: y)) F P eq_refl). intros [|f] b L; [lia|].
  change (t ++ $"&#" ++ c :: y) with (t ++ 38%N :: 35%N :: c :: y). cbn [goahead]. rewrite plain_seek by (auto; reflexivity). cbn [N.eqb Pos.eqb].
  change (startswith ($"&#") (38%N :: 35%N :: c :: y)) with true. cbv iota. assert (M := number_none c y (rev t ++ b) D X). change ($"&#" ++ c :: y) with (38%N :: 35%N :: c :: y) in M. rewrite M.
  assert (K : mem_char 59%N (38%N :: 35%N :: c :: y) = true) by (apply mem_char_In; right; right; right; exact S). rewrite K. reflexivity.
Qed.
Theorem number_feed l t c y : Forall proper_part l -> plain_text t -> ~ is_digit c -> ~ In c [120; 88]%N -> In 59%N y ->
  html_feed (flat_map written_part l ++ t ++ $"&#" ++ c :: y) = (flat_map shown_part l ++ some_text t ++ [$"&#"], false).
Proof. intros F P D X S. unfold html_feed. rewrite (number_events l t c y F P D X S), !texts_app, parts_texts, texts_some. reflexivity. Qed.
(** Marked sections *)
Lemma declname_none c y b : ~ is_letter c -> match_at declname b (c :: y) = None.
Proof.
  intros H. unfold match_at, declname. rewrite cat_stops; [reflexivity|]. apply chr_stops. rewrite class_letter. destruct (letter c) eqn:E; [|reflexivity]. apply letter_spec in E. contradiction.
Qed.
Definition CDECL := [IChar 45; IChar 95; IChar 46; IRange 97 122; IRange 65 90; IRange 48 57].
Lemma cdecl c : alnum c -> class_in false false CDECL c = true.
Proof.
  intros H. assert (K := alnum_leb c H). unfold Regexp.class_in, CDECL. cbn [existsb item_in xorb andb]. rewrite !(alnum_not c) by (auto; lia). cbn [orb].
  rewrite !orb_false_r. rewrite <- orb_assoc in K. rewrite K. reflexivity.
Qed.
Lemma declname_first n y b : a_name n -> match_at declname b (n ++ 91%N :: y) = Some (mkS (rev n ++ b) (91%N :: y) []).
Proof.
  intros (c & r & -> & L & F). apply match_first. cbn [rev app]. rewrite <- app_assoc. cbn [app]. eapply first_cat; [apply first_chr; rewrite class_letter; apply letter_spec, L|].
  eapply first_cat; [apply (run _ _ CDECL r); [exact (all_of _ _ _ cdecl F)|reflexivity]|]. apply (run _ _ _ []); [constructor|reflexivity].
Qed.
Lemma strip_name n : a_name n -> strip n = n.
Proof.
  intros N. assert (F := name_chars n N). unfold strip, strip_p, rstrip_p, lstrip_p.
  assert (G : forall l, Forall alnum l -> drop_while is_space l = l). { intros [|c l] H; [reflexivity|]. cbn [drop_while]. inversion H; subst. rewrite (alnum_space c) by assumption. reflexivity. }
  rewrite (G n F), (G (rev n)) by (apply Forall_rev, F). apply rev_involutive.
Qed.
Lemma section_raises cd b x : bad_section x -> parse_marked_section cd b x = Raises.
Proof.
  intros [c y H|n y N H]; unfold parse_marked_section.
  - change ($"<![" ++ c :: y) with (60%N :: 33%N :: 91%N :: c :: y). cbn [skip_chars]. rewrite declname_none by exact H. reflexivity.
  - change ($"<![" ++ n ++ $"[" ++ y) with (60%N :: 33%N :: 91%N :: n ++ 91%N :: y). cbn [skip_chars]. rewrite (declname_first n y _ N). cbn [s_after].
    assert (B : between (n ++ 91%N :: y) (91%N :: y) = n) by exact (between_over [] _ (rev n ++ []) _ n (conj eq_refl eq_refl)). rewrite B, (strip_name n N). cbv zeta.
    assert (M : forall k, (forall z, In z k -> In z section_names) -> mem_str (lower n) k = false). { intros k K. destruct (mem_str _ k) eqn:E; [|reflexivity]. apply mem_str_In in E. exfalso. apply H, K, E. }
    rewrite !M by (intros z; cbn; tauto). destruct N as (c & r & -> & _). reflexivity.
Qed.
Theorem section_events l t x : Forall proper_part l -> plain_text t -> bad_section x -> html_events (flat_map written_part l ++ t ++ x) = (flat_map part_events l ++ some_data t, true).
Proof.
  intros F P B. rewrite <- (app_nil_r (some_data t)). assert (X : exists y, x = $"<![" ++ y) by (destruct B; eauto). destruct X as [y ->].
  apply (events_tail l t ($"<![" ++ y) [] Failed F P eq_refl). intros [|f] b L; [lia|]. rewrite app_nil_r. refine (stop_lt f t (33%N :: 91%N :: y) b Raises P _).
  change (where_to None (rev t ++ b) (60%N :: 33%N :: 91%N :: y)) with (parse_marked_section None (rev t ++ b) ($"<![" ++ y)). apply section_raises, B.
Qed.
Theorem section_feed l t x : Forall proper_part l -> plain_text t -> bad_section x -> html_feed (flat_map written_part l ++ t ++ x) = (flat_map shown_part l ++ some_text t, true).
Proof. intros F P B. unfold html_feed. rewrite (section_events l t x F P B), texts_app, parts_texts, texts_some. reflexivity. Qed.
