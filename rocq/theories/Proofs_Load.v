(** Proofs about Model_Load. *)
From Verif Require Import PyStr PyDict Regexp Spec_Regexp Proofs_Regexp Proofs_RegexpLang Model_Headers Model_Scripts Spec_Headers Proofs_Headers Proofs_PyRe Proofs_Scripts Model_Load Spec_Load.

Section Addresses.
Variable udigit uword : char -> bool.
Notation ways := (ways udigit uword).
Notation first := (first udigit uword).
Notation class_in := (class_in udigit uword).
Notation reads := (reads udigit uword).

Definition guts : list item := [ISpace; IChar 60; IChar 62; IChar 34; IChar 39; IRange 127 255]%N.
Lemma guts_iff c : class_in false true guts c = false <-> ends_address c.
Proof.
  unfold Regexp.class_in, guts, ends_address. rewrite xorb_true_l. cbn [existsb item_in andb]. rewrite Bool.negb_false_iff.
  rewrite !orb_true_iff, andb_true_iff, !N.eqb_eq, !N.leb_le. cbn [In]. intuition (subst; auto; try discriminate; try lia).
Qed.
Lemma guts_true c : class_in false true guts c = true <-> ~ ends_address c.
Proof.
  rewrite <- guts_iff. destruct (class_in false true guts c); split; congruence.
Qed.
Lemma after_dot c : class_in false true (IChar 46%N :: guts) c = true <-> c <> 46%N /\ ~ ends_address c.
Proof.
  rewrite <- guts_true. unfold Regexp.class_in. cbn [existsb item_in]. destruct (N.eqb_spec c 46); cbn; intuition congruence.
Qed.
Lemma word_iff c : is_w uword c = true <-> word_char uword c.
Proof.
  unfold is_w, word_char. destruct (N.ltb_spec c 128); rewrite ?orb_true_iff, ?andb_true_iff, ?N.leb_le, ?N.eqb_eq; intuition lia.
Qed.
(** The text before is given backwards. *)
Definition at_ (rb w a : str) : Prop :=
  address w /\ Forall (fun c => ~ ends_address c) w /\ (match rb with [] => True | c :: _ => ~ word_char uword c end) /\
  match a with [] => True | c :: _ => ends_address c end.
Lemma at_iff rb w a : at_ rb w a <-> address_at uword (rev rb) w a.
Proof.
  unfold at_, address_at. split; intros (A & B & C & D); repeat split; auto.
  - intros b' c E Hc. destruct rb as [|x rb]; [destruct b'; discriminate|]. cbn in E. apply app_inj_tail in E as [_ <-]. exact (C Hc).
  - destruct rb as [|x rb]; [exact I|]. cbn in C. apply (C (rev rb) x). reflexivity.
Qed.
Lemma first_letter w : address w -> exists c r, w = c :: r /\ is_w uword c = true /\ (c < 127)%N /\ (96 < c)%N.
Proof.
  intros [p g H _|p c g H _]; repeat destruct H as [<-|H]; try destruct H; eexists _, _; (split; [reflexivity|]); (split; [reflexivity|]); (split; reflexivity).
Qed.
Lemma wordb_first rb s c : (match rb with [] => True | c :: _ => ~ word_char uword c end) -> is_w uword c = true ->
  first (Wordb false) (mkS rb (c :: s) []) (mkS rb (c :: s) []).
Proof.
  intros H Hc. exists []. cbn [Regexp.ways s_before s_after word_at]. rewrite Hc.
  destruct rb as [|d rb]; cbn [word_at]; [reflexivity|]. destruct (is_w uword d) eqn:E; [|reflexivity]. apply word_iff in E. contradiction.
Qed.
Lemma chr_first x b r k : first (Chr false false [IChar x]) (mkS b (x :: r) k) (mkS (x :: b) r k).
Proof. apply first_chr. unfold Regexp.class_in. cbn [existsb item_in]. rewrite N.eqb_refl. reflexivity. Qed.
Lemma guts_first w b a k : w <> [] -> Forall (fun c => ~ ends_address c) w -> (match a with [] => True | c :: _ => ends_address c end) ->
  first (Rep true 1 None (Chr false true guts)) (mkS b (w ++ a) k) (mkS (rev w ++ b) a k).
Proof.
  intros Hn Hw Ha. rewrite <- (app_nil_r a) at 1. rewrite <- (app_nil_r a) at 2. apply plus_first; [exact Hn| |].
  - eapply Forall_impl; [|exact Hw]. intros c. apply guts_true.
  - destruct a as [|c a]; [reflexivity|]. apply guts_iff. exact Ha.
Qed.
Lemma ahead_first r st : ways r st <> [] -> first (Ahead false r) st st.
Proof. intros H. exists []. cbn [Regexp.ways]. destruct (ways r st); [congruence|reflexivity]. Qed.

Definition scheme : re := ltac:(let e := eval cbv delta [URL_RE] in URL_RE in
  lazymatch e with Grp _ (Cat _ (Cat (Alt ?a _) _)) => exact a end).
Definition ahead_ftp : re := ltac:(let e := eval cbv delta [URL_RE] in URL_RE in
  lazymatch e with Grp _ (Cat _ (Cat (Alt _ (Alt (Ahead _ ?a) _)) _)) => exact a end).
Definition ahead_www : re := ltac:(let e := eval cbv delta [URL_RE] in URL_RE in
  lazymatch e with Grp _ (Cat _ (Cat (Alt _ (Alt _ (Ahead _ ?a))) _)) => exact a end).
Lemma url_re : URL_RE = Grp 1 (Cat (Wordb false) (Cat (Alt scheme (Alt (Ahead false ahead_ftp) (Ahead false ahead_www)))
  (Rep true 1 None (Chr false true guts)))).
Proof. reflexivity. Qed.
Lemma scheme_first p b s k : In p [$"http://"; $"https://"; $"ftp://"] -> first scheme (mkS b (p ++ s) k) (mkS (rev p ++ b) s k).
Proof.
  intros H. repeat destruct H as [<-|H]; try destruct H; cbn [app]; unfold scheme.
  - eapply first_cat; [eapply first_alt_l; do 4 (eapply first_cat; [apply chr_first|]); exists []; apply opt_none; reflexivity|].
    do 2 (eapply first_cat; [apply chr_first|]). apply chr_first.
  - eapply first_cat; [eapply first_alt_l; do 4 (eapply first_cat; [apply chr_first|]); apply opt_first; reflexivity|].
    do 2 (eapply first_cat; [apply chr_first|]). apply chr_first.
  - eapply first_cat; [eapply first_alt_r; [reflexivity|]; do 2 (eapply first_cat; [apply chr_first|]); apply chr_first|].
    do 2 (eapply first_cat; [apply chr_first|]). apply chr_first.
Qed.
Lemma ahead_some p r c s b k : (p = $"ftp." /\ r = ahead_ftp \/ p = $"www." /\ r = ahead_www) -> c <> 46%N -> ~ ends_address c ->
  ways r (mkS b (p ++ c :: s) k) <> [].
Proof.
  intros H Hc He. assert (K : exists st, first r (mkS b (p ++ c :: s) k) st).
  { destruct H as [[-> ->]|[-> ->]]; eexists; cbn [app]; unfold ahead_ftp, ahead_www;
      do 4 (eapply first_cat; [apply chr_first|]); apply first_chr; apply after_dot; auto. }
  destruct K as [st [l ->]]. discriminate.
Qed.
Lemma prefix_first w a b : address w -> Forall (fun c => ~ ends_address c) w ->
  exists st p g, first (Alt scheme (Alt (Ahead false ahead_ftp) (Ahead false ahead_www))) (mkS b (w ++ a) []) st /\
  w = p ++ g /\ g <> [] /\ st = mkS (rev p ++ b) (g ++ a) [].
Proof.
  intros [p g H Hg|p c g H Hc] Hw.
  - eexists _, p, g. split; [|split; [reflexivity|split; [exact Hg|reflexivity]]]. rewrite <- app_assoc. apply first_alt_l. apply scheme_first. exact H.
  - eexists _, [], (p ++ c :: g). split; [|split; [reflexivity|split; [destruct p; discriminate|reflexivity]]]. cbn [rev app].
    assert (He : ~ ends_address c). { rewrite Forall_forall in Hw. apply Hw. apply in_or_app. right. left. reflexivity. }
    repeat destruct H as [<-|H]; try destruct H.
    + apply first_alt_r; [reflexivity|]. apply first_alt_r; [reflexivity|]. apply ahead_first. rewrite <- app_assoc. cbn [app]. apply (ahead_some ($"www.") _ c (g ++ a)); auto.
    + apply first_alt_r; [reflexivity|]. apply first_alt_l. apply ahead_first. rewrite <- app_assoc. apply (ahead_some ($"ftp.") _ c (g ++ a)); auto.
Qed.
Lemma url_first rb w a : at_ rb w a -> first URL_RE (mkS rb (w ++ a) []) (mkS (rev w ++ rb) a [(1, w)]).
Proof.
  intros (A & B & C & D). rewrite url_re.
  assert (K : first (Cat (Wordb false) (Cat (Alt scheme (Alt (Ahead false ahead_ftp) (Ahead false ahead_www)))
     (Rep true 1 None (Chr false true guts)))) (mkS rb (w ++ a) []) (mkS (rev w ++ rb) a [])).
  { apply first_cat with (st1 := mkS rb (w ++ a) []).
    - destruct (first_letter w A) as (c & r & E & Hc & _). rewrite E. cbn [app]. apply wordb_first; assumption.
    - destruct (prefix_first w a rb A B) as (st & p & g & F & E & Hg & ->). eapply first_cat; [exact F|].
      rewrite E. rewrite rev_app_distr, <- app_assoc. apply guts_first; [exact Hg| |exact D]. rewrite E in B. apply Forall_app in B. tauto. }
  eapply (first_grp _ _ 1) in K; [exact K|]. split; reflexivity.
Qed.
Lemma cut_clean s : exists w a, s = w ++ a /\ Forall (fun c => ~ ends_address c) w /\ match a with [] => True | c :: _ => ends_address c end.
Proof.
  induction s as [|c s (w & a & -> & B & D)]; [exists [], []; auto|].
  destruct (class_in false true guts c) eqn:E.
  - apply guts_true in E. exists (c :: w), a. auto.
  - apply guts_iff in E. exists [], (c :: w ++ a). auto.
Qed.
Lemma chr_reads x b w a : reads (Chr false false [IChar x]) b w a <-> w = [x].
Proof.
  cbn [Spec_Regexp.reads]. unfold Regexp.class_in. cbn [existsb item_in]. split.
  - intros (c & -> & H). destruct (N.eqb_spec c x); [subst; reflexivity|discriminate].
  - intros ->. exists x. rewrite N.eqb_refl. auto.
Qed.
Lemma clean_more p g w a w' a' : p ++ g ++ a = w' ++ a' -> w = p ++ g -> Forall (fun c => ~ ends_address c) w ->
  Forall (fun c => ~ ends_address c) w' -> (match a' with [] => True | c :: _ => ends_address c end) -> exists m, w' = p ++ g ++ m.
Proof.
  intros E -> Hp Hw Ha. rewrite app_assoc in E.
  assert (K : exists m, w' = (p ++ g) ++ m).
  { revert E Hp. generalize (p ++ g) as q. clear p g. intros q. revert w' Hw. induction q as [|c q IH]; intros w' Hw E Hq.
    - exists w'. reflexivity.
    - cbn [app] in E. destruct w' as [|d w'].
      + cbn [app] in E. subst a'. inversion Hq; subst. contradiction.
      + injection E as <- E. inversion Hw; inversion Hq; subst. destruct (IH w') as [m ->]; auto. exists m. reflexivity. }
  destruct K as [m ->]. exists m. rewrite <- app_assoc. reflexivity.
Qed.
Lemma url_some rb s st : In st (ways URL_RE (mkS rb s [])) -> exists w a, s = w ++ a /\ at_ rb w a.
Proof.
  intros H. destruct (ways_ext udigit uword URL_RE _ _ H) as [w [E1 E2]]. cbn in E1, E2.
  assert (R : reads URL_RE rb w (s_after st)).
  { apply (ways_reads udigit uword URL_RE eq_refl rb w (s_after st) []). exists (s_caps st). rewrite <- E1, <- E2. destruct st. exact H. }
  destruct (cut_clean s) as (w' & a' & E & Hw' & Ha'). exists w', a'. split; [exact E|].
  rewrite url_re in R. cbn [Spec_Regexp.reads] in R. destruct R as (u & v & -> & [-> Hb] & u2 & v2 & -> & Hp & n & Hn & _ & Ht).
  cbn [app rev] in *.
  assert (Hv : v2 <> [] /\ Forall (fun c => ~ ends_address c) v2).
  { destruct n as [|n]; [lia|]. clear - Ht. split; [cbn in Ht; destruct Ht as (x & y & -> & (c & -> & _) & _); discriminate|].
    revert v2 Ht. generalize (rev u2 ++ rb) as b. generalize (S n) as k. clear n. induction k as [|k IH]; intros b v2 Ht; cbn in Ht; [subst; constructor|].
    destruct Ht as (x & y & -> & (c & -> & Hc) & Ht). constructor; [apply guts_true; exact Hc|]. eapply IH. exact Ht. }
  destruct Hv as [Hv1 Hv2].
  assert (Hadd : address w' ).
  { assert (Hpart : (In u2 [$"http://"; $"https://"; $"ftp://"]) \/ u2 = [] /\ exists p c r, In p [$"www."; $"ftp."] /\ c <> 46%N /\ ~ ends_address c /\ s = p ++ c :: r).
    { destruct Hp as [Hp|[[-> (x & y & Exy & Hp)]|[-> (x & y & Exy & Hp)]]].
      - left. unfold scheme in Hp. cbn [Spec_Regexp.reads] in Hp.
        destruct Hp as (a1 & a2 & -> & Hs & b1 & b2 & -> & (c1 & -> & Hc1) & b3 & b4 & -> & (c2 & -> & Hc2) & c3 & -> & Hc3).
        assert (Eq : forall c x, class_in false false [IChar x] c = true -> c = x).
        { intros c x. unfold Regexp.class_in. cbn [existsb item_in]. destruct (N.eqb_spec c x); [auto|discriminate]. }
        apply Eq in Hc1, Hc2, Hc3. subst.
        destruct Hs as [(h1 & r1 & -> & (c & -> & K1) & h2 & r2 & -> & (c' & -> & K2) & h3 & r3 & -> & (c'' & -> & K3) & h4 & r4 & -> & (c4 & -> & K4) & n' & _ & Hm & Hs)
               |(h1 & r1 & -> & (c & -> & K1) & h2 & r2 & -> & (c' & -> & K2) & c'' & -> & K3)].
        + apply Eq in K1, K2, K3, K4. subst. destruct n' as [|[|n']].
          * cbn in Hs. subst. left. reflexivity.
          * cbn in Hs. destruct Hs as (x & y & -> & (c & -> & K) & ->). apply Eq in K. subst. right. left. reflexivity.
          * exfalso. revert Hm. cbn. lia.
        + apply Eq in K1, K2, K3. subst. right. right. left. reflexivity.
      - right. split; [reflexivity|]. cbn [app] in *. unfold ahead_ftp in Hp. cbn [Spec_Regexp.reads] in Hp.
        destruct Hp as (h1 & r1 & -> & (c & -> & K1) & h2 & r2 & -> & (c' & -> & K2) & h3 & r3 & -> & (c'' & -> & K3) & h4 & r4 & -> & (c4 & -> & K4) & c5 & -> & K5).
        assert (Eq : forall c x, class_in false false [IChar x] c = true -> c = x).
        { intros c0 x0. unfold Regexp.class_in. cbn [existsb item_in]. destruct (N.eqb_spec c0 x0); [auto|discriminate]. }
        apply Eq in K1, K2, K3, K4. subst c c' c'' c4. apply after_dot in K5 as [K5 K6]. exists ($"ftp."), c5, y.
        split; [right; left; reflexivity|]. split; [exact K5|]. split; [exact K6|]. rewrite E1, Exy. reflexivity.
      - right. split; [reflexivity|]. cbn [app] in *. unfold ahead_www in Hp. cbn [Spec_Regexp.reads] in Hp.
        destruct Hp as (h1 & r1 & -> & (c & -> & K1) & h2 & r2 & -> & (c' & -> & K2) & h3 & r3 & -> & (c'' & -> & K3) & h4 & r4 & -> & (c4 & -> & K4) & c5 & -> & K5).
        assert (Eq : forall c x, class_in false false [IChar x] c = true -> c = x).
        { intros c0 x0. unfold Regexp.class_in. cbn [existsb item_in]. destruct (N.eqb_spec c0 x0); [auto|discriminate]. }
        apply Eq in K1, K2, K3, K4. subst c c' c'' c4. apply after_dot in K5 as [K5 K6]. exists ($"www."), c5, y.
        split; [left; reflexivity|]. split; [exact K5|]. split; [exact K6|]. rewrite E1, Exy. reflexivity. }
    destruct Hpart as [Hp'|(-> & p & c & r & Hin & Hc & He & Es)].
    - assert (Hclean : Forall (fun c => ~ ends_address c) u2).
      { repeat destruct Hp' as [<-|Hp']; try destruct Hp'; repeat (apply Forall_cons || apply Forall_nil); apply guts_true; reflexivity. }
      destruct (clean_more u2 v2 (u2 ++ v2) (s_after st) w' a') as [m ->]; auto.
      + rewrite <- E, E1, <- app_assoc. reflexivity.
      + apply Forall_app. auto.
      + apply with_protocol; [exact Hp'|]. destruct v2; [congruence|discriminate].
    - assert (Hclean : Forall (fun c => ~ ends_address c) (p ++ [c])).
      { apply Forall_app. split; [|repeat constructor; exact He].
        repeat destruct Hin as [<-|Hin]; try destruct Hin; repeat (apply Forall_cons || apply Forall_nil); apply guts_true; reflexivity. }
      destruct (clean_more p [c] (p ++ [c]) r w' a') as [m ->]; auto.
      + rewrite <- E, Es. reflexivity.
      + apply without_protocol; assumption. }
  split; [exact Hadd|]. split; [exact Hw'|]. split; [|exact Ha'].
  destruct rb as [|d rb]; [exact I|]. intros Hd. apply word_iff in Hd.
  destruct (first_letter w' Hadd) as (c & r & -> & Hc & _). rewrite <- app_assoc in E1. cbn [app] in E.
  unfold boundary in Hb. rewrite <- app_assoc in Hb. rewrite <- E1, E in Hb. destruct Hb as [[_ N]|[N _]]; apply N; eauto.
Qed.

Lemma prefix_same w a w0 a0 : w ++ a = w0 ++ a0 -> Forall (fun c => ~ ends_address c) w -> Forall (fun c => ~ ends_address c) w0 ->
  (match a with [] => True | c :: _ => ends_address c end) -> (match a0 with [] => True | c :: _ => ends_address c end) -> w = w0 /\ a = a0.
Proof.
  revert w0. induction w as [|c w IH]; intros [|d w0] E Hw Hw0 Ha Ha0; cbn [app] in E.
  - auto.
  - subst a. inversion Hw0; subst. contradiction.
  - subst a0. inversion Hw; subst. contradiction.
  - injection E as <- E. inversion Hw; inversion Hw0; subst. destruct (IH w0) as [-> ->]; auto.
Qed.
Lemma url_hd rb s st l : ways URL_RE (mkS rb s []) = st :: l -> exists w a, s = w ++ a /\ at_ rb w a /\ w <> [] /\ st = mkS (rev w ++ rb) a [(1, w)].
Proof.
  intros E. destruct (url_some rb s st) as (w & a & -> & H); [rewrite E; left; reflexivity|]. exists w, a.
  destruct (url_first rb w a H) as [m K]. rewrite K in E. injection E as <- _. repeat split; try apply H.
  destruct (first_letter w (proj1 H)) as (c & r & -> & _). discriminate.
Qed.
Lemma findall_sound n : forall rb s w, In w (findall_from udigit uword URL_RE n rb s) ->
  exists u v, s = u ++ w ++ v /\ at_ (rev u ++ rb) w v.
Proof.
  induction n as [|n IH]; intros rb s w H; cbn [findall_from] in H; [destruct H|].
  destruct (ways URL_RE (mkS rb s [])) as [|st l] eqn:E.
  - destruct s as [|c s]; [destruct H|]. destruct (IH _ _ _ H) as (u & v & -> & K). exists (c :: u), v. split; [reflexivity|].
    cbn [rev]. rewrite <- app_assoc. exact K.
  - destruct (url_hd rb s st l E) as (w0 & a & -> & Hat & Hne & ->).
    rewrite (ext_consumed (mkS rb (w0 ++ a) []) (mkS (rev w0 ++ rb) a [(1, w0)]) w0) in H by (split; reflexivity).
    destruct w0 as [|c w0]; [congruence|]. cbn [s_before s_after] in H. destruct H as [<-|H].
    + exists [], a. split; [reflexivity|exact Hat].
    + destruct (IH _ _ _ H) as (u & v & -> & K). exists ((c :: w0) ++ u), v. split; [rewrite <- app_assoc; reflexivity|].
      rewrite rev_app_distr, <- app_assoc. exact K.
Qed.
Lemma findall_complete n : forall rb u w v, length (u ++ w ++ v) < n -> at_ (rev u ++ rb) w v ->
  exists u' p, u = u' ++ p /\ In (p ++ w) (findall_from udigit uword URL_RE n rb (u ++ w ++ v)).
Proof.
  induction n as [|n IH]; intros rb u w v Hn Hat; [lia|]. cbn [findall_from].
  destruct (ways URL_RE (mkS rb (u ++ w ++ v) [])) as [|st l] eqn:E.
  - destruct u as [|c u].
    + cbn [rev app] in *. destruct (url_first rb w v Hat) as [m K]. rewrite K in E. discriminate.
    + cbn [app] in *. cbn [length] in Hn. destruct (IH (c :: rb) u w v) as (u' & p & -> & K); [lia| |].
      * cbn [rev] in Hat. rewrite <- app_assoc in Hat. exact Hat.
      * exists (c :: u'), p. split; [reflexivity|exact K].
  - destruct (url_hd rb _ st l E) as (w0 & a & Es & Hat0 & Hne & ->). rewrite Es.
    rewrite (ext_consumed (mkS rb (w0 ++ a) []) (mkS (rev w0 ++ rb) a [(1, w0)]) w0) by (split; reflexivity).
    destruct w0 as [|c w0]; [congruence|]. cbn [s_before s_after]. clear Hne.
    destruct (Nat.le_gt_cases (length (c :: w0)) (length u)) as [L|L].
    + assert (X : exists u2, u = (c :: w0) ++ u2 /\ a = u2 ++ w ++ v).
      { revert Es L. generalize (c :: w0) as q. clear. intros q. revert u. induction q as [|d q IH]; intros u E L; [exists u; auto|].
        destruct u as [|e u]; [cbn in L; lia|]. cbn [app length] in *. injection E as <- E. destruct (IH u E) as (u2 & -> & ->); [lia|]. eauto. }
      destruct X as (u2 & -> & ->). destruct (IH (rev (c :: w0) ++ rb) u2 w v) as (u' & p & -> & K).
      * rewrite !app_length in *. cbn [length] in *. lia.
      * rewrite rev_app_distr, <- app_assoc in Hat. exact Hat.
      * exists ((c :: w0) ++ u'), p. split; [rewrite <- app_assoc; reflexivity|]. right. exact K.
    + assert (X : exists t, c :: w0 = u ++ t /\ w ++ v = t ++ a).
      { revert Es L. generalize (c :: w0) as q. clear. intros q. revert q. induction u as [|d u IH]; intros q E L; [exists q; auto|].
        destruct q as [|e q]; [cbn in L; lia|]. cbn [app length] in *. injection E as <- E. destruct (IH q E) as (t & -> & ->); [lia|]. eauto. }
      destruct X as (t & Et & Ev). destruct Hat as (A & B & C & D). destruct Hat0 as (A0 & B0 & C0 & D0).
      rewrite Et in B0. apply Forall_app in B0 as [_ B0]. destruct (prefix_same w v t a Ev B B0 D D0) as [-> ->].
      exists [], u. split; [reflexivity|]. left. rewrite Et. reflexivity.
Qed.
Theorem addresses_found s w : In w (findall udigit uword URL_RE s) -> exists b a, s = b ++ w ++ a /\ address_at uword b w a.
Proof.
  intros H. apply findall_sound in H as (u & v & -> & K). exists u, v. split; [reflexivity|]. apply at_iff in K.
  rewrite app_nil_r, rev_involutive in K. exact K.
Qed.
Theorem addresses_all b w a : address_at uword b w a -> exists b' p, b = b' ++ p /\ In (p ++ w) (findall udigit uword URL_RE (b ++ w ++ a)).
Proof.
  intros H. apply findall_complete; [lia|]. rewrite app_nil_r. apply at_iff. rewrite rev_involutive. exact H.
Qed.
End Addresses.

(** ** Texts *)
Lemma one_line_iff s t : one_line s t <-> t = flatten s.
Proof.
  unfold flatten. rewrite replace_one. split.
  - intros H. induction H as [|c d s t H _ IH]; [reflexivity|]. cbn [map concat]. subst t.
    destruct (N.eqb_spec c 10); destruct H as [[A ->]|[A ->]]; try congruence; reflexivity.
  - intros ->. induction s as [|c s IH]; [constructor|]. cbn [map concat].
    destruct (N.eqb_spec c 10) as [->|N]; cbn [app]; (constructor; [|exact IH]); [left|right]; auto.
Qed.
Lemma collect_pieces l : collect l = pieces l.
Proof.
  unfold collect, pieces. induction l as [|d l IH]; [reflexivity|]. cbn [flat_map map filter]. rewrite IH. destruct (strip d); reflexivity.
Qed.

Section Load.
Variable udigit uword : char -> bool.
Variable codec : str -> bool -> list N -> option str.
Variable feed : str -> list str * bool.
Variable header_parts : str -> option (list hpart).
Notation payload := (payload codec).
Notation decode_header := (decode_header codec header_parts).
Notation load := (load udigit uword codec feed header_parts).
Definition texty (p : part) : bool := streqb (p_main p) ($"text").
Definition html (p : part) : bool := streqb (p_sub p) ($"html").

Lemma subjects_some l ts : subjects codec header_parts l = Some ts <-> Forall2 (fun h t => decode_header h = Ok (Some t)) l ts.
Proof.
  revert ts. induction l as [|h l IH]; intros ts; cbn [subjects].
  - split; [intros [= <-]; constructor|]. intros H. inversion H. reflexivity.
  - split.
    + destruct (decode_header h) as [[t|]| |] eqn:E; try discriminate. destruct (subjects codec header_parts l) as [ts'|]; [|discriminate].
      intros [= <-]. constructor; [exact E|]. apply IH. reflexivity.
    + intros H. inversion H as [|? t ? ts' E H']; subst. rewrite E. apply IH in H'. rewrite H'. reflexivity.
Qed.
Lemma part_some p x us : part_texts udigit uword codec feed p = Some (x, us) ->
  if texty p then exists t shown, payload p = Ok t /\ rendered (html p) feed t shown /\ x = Some (shown, t) /\ us = findall udigit uword URL_RE t
  else x = None /\ us = [].
Proof.
  unfold part_texts. fold (texty p). destruct (texty p).
  - destruct (payload p) as [t| |]; try discriminate. fold (html p). unfold rendered. destruct (html p).
    + unfold normalize_html_part. destruct (feed (flatten t)) as [ch r] eqn:E. destruct r; [discriminate|]. intros [= <- <-].
      eexists t, _. repeat split. exists (flatten t), ch. rewrite collect_pieces. split; [apply one_line_iff; reflexivity|auto].
    + intros [= <- <-]. eexists t, _. repeat split. apply one_line_iff. reflexivity.
  - intros [= <- <-]. auto.
Qed.
Definition shows (p : part) (st : str * str) : Prop := payload p = Ok (snd st) /\ rendered (html p) feed (snd st) (fst st).
Lemma all_parts_some ps : forall body raw uris mime r, all_parts udigit uword codec feed ps body raw uris mime = Some r ->
  exists texts, Forall2 shows (filter texty ps) texts /\
  r = (body ++ map fst texts, raw ++ map snd texts, uris ++ concat (map (fun t => findall udigit uword URL_RE (snd t)) texts),
       fold_left (fun m p => add_mime p m) ps mime).
Proof.
  induction ps as [|p ps IH]; intros body raw uris mime r H; cbn [all_parts] in H.
  - injection H as <-. exists []. cbn. rewrite !app_nil_r. split; [constructor|reflexivity].
  - destruct (part_texts udigit uword codec feed p) as [[x us]|] eqn:E; [|discriminate]. apply part_some in E. cbn [filter]. destruct (texty p).
    + destruct E as (t & shown & A & B & -> & ->). destruct (IH _ _ _ _ _ H) as (texts & F & ->). exists ((shown, t) :: texts).
      split; [constructor; [split; assumption|exact F]|]. cbn [map fst snd concat fold_left]. rewrite <- !app_assoc. reflexivity.
    + destruct E as (-> & ->). destruct (IH _ _ _ _ _ H) as (texts & F & ->). exists texts. split; [exact F|]. cbn [fold_left]. rewrite !app_nil_r. reflexivity.
Qed.
Definition headers_of (ps : list part) : list (str * str) := match ps with p :: _ => p_headers p | [] => [] end.
Theorem load_some ps l : load ps = Some l -> exists subj texts,
  Forall2 (fun h t => decode_header h = Ok (Some t)) (values_of ($"Subject") (headers_of ps)) subj /\
  Forall2 shows (filter texty ps) texts /\
  l_text l = join ($" ") (subj ++ map fst texts) /\ l_raw_text l = join [10%N] (map snd texts) /\
  l_uris l = nodup str_eq_dec (concat (map (fun t => findall udigit uword URL_RE (snd t)) texts)) /\
  l_mime l = fold_left (fun m p => add_mime p m) ps [].
Proof.
  unfold Model_Load.load. fold (headers_of ps). rewrite h_get_raw. destruct (subjects codec header_parts _) as [subj|] eqn:S; [|discriminate].
  destruct (all_parts udigit uword codec feed ps subj [] [] []) as [[[[body raw] uris] mime]|] eqn:A; [|discriminate]. intros [= <-].
  apply all_parts_some in A as (texts & F & E). injection E as -> -> -> ->. apply subjects_some in S. exists subj, texts. cbn. auto 6.
Qed.
Lemma shows_in ps texts p : Forall2 shows (filter texty ps) texts -> In p ps -> texty p = true -> exists st, In st texts /\ shows p st.
Proof.
  intros F I T. assert (I' : In p (filter texty ps)) by (apply filter_In; auto). clear I T. revert I'. induction F as [|q st qs texts Hq F IH]; intros I; [destruct I|].
  destruct I as [->|I]; [exists st; split; [left; reflexivity|exact Hq]|]. destruct (IH I) as (x & A & B). exists x. split; [right; exact A|exact B].
Qed.
Lemma in_shows ps texts st : Forall2 shows (filter texty ps) texts -> In st texts -> exists p, In p ps /\ texty p = true /\ shows p st.
Proof.
  intros F I. assert (K : exists p, In p (filter texty ps) /\ shows p st).
  { revert I. induction F as [|q st' qs texts Hq F IH]; intros I; [destruct I|]. destruct I as [->|I]; [exists q; split; [left; reflexivity|exact Hq]|].
    destruct (IH I) as (x & A & B). exists x. split; [right; exact A|exact B]. }
  destruct K as (p & A & B). apply filter_In in A as [A1 A2]. eauto.
Qed.

(** *** URIs *)
Theorem load_uris ps l u : load ps = Some l -> In u (l_uris l) ->
  exists p t b a, In p ps /\ p_main p = $"text" /\ payload p = Ok t /\ t = b ++ u ++ a /\ address_at uword b u a.
Proof.
  intros L I. apply load_some in L as (subj & texts & _ & F & _ & _ & E & _). rewrite E in I. apply nodup_In, in_concat in I as (us & I1 & I2).
  apply in_map_iff in I1 as (st & <- & I1). destruct (in_shows _ _ _ F I1) as (p & A & B & C & _). apply streqb_eq in B.
  apply addresses_found in I2 as (b & a & E' & K). exists p, (snd st), b, a. auto.
Qed.
Theorem load_all_uris ps l p t b u a : load ps = Some l -> In p ps -> p_main p = $"text" -> payload p = Ok t -> t = b ++ u ++ a ->
  address_at uword b u a -> exists b' before, b = b' ++ before /\ In (before ++ u) (l_uris l).
Proof.
  intros L I M P E K. apply load_some in L as (subj & texts & _ & F & _ & _ & El & _). rewrite El.
  assert (T : texty p = true) by (unfold texty; rewrite M; apply streqb_eq; reflexivity).
  destruct (shows_in _ _ _ F I T) as (st & A & B & _). rewrite P in B. injection B as B.
  destruct (addresses_all udigit uword b u a K) as (b' & q & -> & H). exists b', q. split; [reflexivity|]. apply nodup_In, in_concat.
  eexists. split; [apply in_map_iff; exists st; split; [reflexivity|exact A]|]. rewrite <- B, E. exact H.
Qed.
Theorem load_own_uris ps l p t b u a : load ps = Some l -> In p ps -> p_main p = $"text" -> payload p = Ok t -> t = b ++ u ++ a ->
  address_at uword b u a -> (forall b' c, b = b' ++ [c] -> ends_address c) -> In u (l_uris l).
Proof.
  intros L I M P E K Hb. destruct (load_all_uris ps l p t b u a L I M P E K) as (b' & q & -> & H).
  destruct q as [|c q _] using rev_ind; [exact H|]. exfalso.
  destruct (load_uris ps l _ L H) as (_ & _ & b2 & a2 & _ & _ & _ & _ & K2). destruct K2 as (_ & F2 & _).
  apply Forall_app in F2 as [F2 _]. apply Forall_app in F2 as [_ F2]. inversion F2 as [|? ? Hc _]; subst. apply Hc.
  apply (Hb (b' ++ q) c). rewrite <- app_assoc. reflexivity.
Qed.

(** *** When a message is loaded *)
Lemma payload_ok p : (exists t, payload p = Ok t) <-> ~ In 0%N (declared (p_charset p)).
Proof.
  unfold Model_Load.payload.
  assert (E : exists strict, match p_charset p with None | Some [] => ($"ascii", false)
     | Some c => (c, mem_str (replace ($"_") ($"-") (lower c)) strict_charsets) end = (declared (p_charset p), strict)).
  { destruct (p_charset p) as [[|c s]|]; cbn; eauto. }
  destruct E as [strict ->]. unfold py_decode. destruct (mem_char 0 (declared (p_charset p))) eqn:M.
  - split; [intros [t H]; discriminate|]. intros H. exfalso. apply H. apply mem_char_In. exact M.
  - split.
    + intros _ I. apply mem_char_In in I. congruence.
    + intros _. destruct (codec (declared (p_charset p)) strict (p_bytes p)); eauto.
Qed.
Lemma part_some_iff p : part_texts udigit uword codec feed p <> None <->
  (p_main p = $"text" -> ~ In 0%N (declared (p_charset p)) /\
   (p_sub p = $"html" -> forall t line, payload p = Ok t -> one_line t line -> snd (feed line) = false)).
Proof.
  rewrite <- payload_ok. unfold part_texts. destruct (streqb_spec (p_main p) ($"text")) as [M|M]; [|split; [congruence|discriminate]].
  destruct (payload p) as [t| |] eqn:P.
  - destruct (streqb_spec (p_sub p) ($"html")) as [H|H].
    + unfold normalize_html_part. destruct (feed (flatten t)) as [ch r] eqn:E. split.
      * intros K _. split; [eauto|]. intros _ t' line [= <-] O. apply one_line_iff in O. subst line. rewrite E. destruct r; [congruence|reflexivity].
      * intros K. destruct (K M) as [_ K']. specialize (K' H t (flatten t) eq_refl). rewrite E in K'. cbn in K'. rewrite K'; [discriminate|]. apply one_line_iff. reflexivity.
    + split; [|discriminate]. intros _ _. split; [eauto|]. congruence.
  - split; [congruence|]. intros K. destruct (K M) as [[t X] _]. discriminate.
  - split; [congruence|]. intros K. destruct (K M) as [[t X] _]. discriminate.
Qed.
Lemma all_parts_iff ps : forall body raw uris mime, all_parts udigit uword codec feed ps body raw uris mime <> None <->
  Forall (fun p => part_texts udigit uword codec feed p <> None) ps.
Proof.
  induction ps as [|p ps IH]; intros body raw uris mime; cbn [all_parts]; [split; [constructor|discriminate]|].
  destruct (part_texts udigit uword codec feed p) as [[x us]|] eqn:E.
  - destruct x as [[t w]|]; rewrite IH; (split; [intros H; constructor; [congruence|exact H]|intros H; inversion H; assumption]).
  - split; [congruence|]. intros H. inversion H. congruence.
Qed.
Theorem load_iff ps : load ps <> None <->
  (forall h, In h (values_of ($"Subject") (headers_of ps)) -> exists t, decode_header h = Ok (Some t)) /\
  (forall p, In p ps -> p_main p = $"text" -> ~ In 0%N (declared (p_charset p))) /\
  (forall p t line, In p ps -> p_main p = $"text" -> p_sub p = $"html" -> payload p = Ok t -> one_line t line -> snd (feed line) = false).
Proof.
  unfold Model_Load.load. fold (headers_of ps). rewrite h_get_raw.
  assert (S : subjects codec header_parts (values_of ($"Subject") (headers_of ps)) <> None <->
    forall h, In h (values_of ($"Subject") (headers_of ps)) -> exists t, decode_header h = Ok (Some t)).
  { generalize (values_of ($"Subject") (headers_of ps)) as hs. induction hs as [|h hs IH]; [split; [intros _ ? []|discriminate]|].
    cbn [subjects]. split.
    - intros H x [<-|I].
      + destruct (decode_header h) as [[t|]| |]; try congruence. eauto.
      + apply IH; [|exact I]. destruct (decode_header h) as [[t|]| |]; try congruence. destruct (subjects codec header_parts hs); congruence.
    - intros H. destruct (H h (or_introl eq_refl)) as [t ->]. destruct (subjects codec header_parts hs); [discriminate|]. exfalso. apply IH; [|reflexivity].
      intros x I. apply H. right. exact I. }
  rewrite <- S. destruct (subjects codec header_parts _) as [subj|].
  - transitivity (Forall (fun p => part_texts udigit uword codec feed p <> None) ps).
    + rewrite <- (all_parts_iff ps subj [] [] []). destruct (all_parts udigit uword codec feed ps subj [] [] []) as [[[[? ?] ?] ?]|]; split; congruence.
    + rewrite Forall_forall. split.
      * intros H. split; [discriminate|]. split; [intros p I M|intros p t line I M Hh P O]; destruct (proj1 (part_some_iff p) (H p I) M) as [A B]; eauto.
      * intros (_ & A & B) p I. apply part_some_iff. intros M. split; [apply A; assumption|]. intros Hh t line. apply B; assumption.
  - split; [congruence|]. intros [H _]. congruence.
Qed.
Theorem payload_is p t : payload p = Ok t -> exists strict, (strict = true <-> quoted_printable (declared (p_charset p))) /\
  match codec (declared (p_charset p)) strict (p_bytes p) with
  | Some s => t = s
  | None => t = filter (fun b => N.ltb b 128) (p_bytes p)
  end.
Proof.
  unfold Model_Load.payload.
  assert (E : exists strict, match p_charset p with None | Some [] => ($"ascii", false)
     | Some c => (c, mem_str (replace ($"_") ($"-") (lower c)) strict_charsets) end = (declared (p_charset p), strict) /\
     (strict = true <-> quoted_printable (declared (p_charset p)))).
  { assert (Q : forall c, mem_str (replace ($"_") ($"-") (lower c)) strict_charsets = true <-> quoted_printable c).
    { intros c. rewrite mem_str_In. unfold quoted_printable, dashes. rewrite (replace_one 95%N). 
      assert (X : concat (map (fun c0 => if N.eqb c0 95 then $"-" else [c0]) (lower c)) = map (fun c0 => if N.eqb c0 95 then 45%N else c0) (lower c)).
      { induction (lower c) as [|x s IH]; [reflexivity|]. cbn [map concat]. rewrite IH. destruct (N.eqb x 95); reflexivity. }
      rewrite X. reflexivity. }
    destruct (p_charset p) as [[|c s]|]; cbn [declared]; eexists; (split; [reflexivity|]).
    - rewrite <- Q. vm_compute. split; discriminate.
    - apply Q.
    - rewrite <- Q. vm_compute. split; discriminate. }
  destruct E as (strict & -> & Q). unfold py_decode. destruct (mem_char 0 (declared (p_charset p))); [discriminate|].
  intros H. exists strict. split; [exact Q|]. destruct (codec (declared (p_charset p)) strict (p_bytes p)); injection H as <-; reflexivity.
Qed.

(** *** Headers *)
Definition part_name (x : hpart) : str := match x with HText _ => [] | HBytes _ c => match c with Some n => n | None => [] end end.
Definition part_text (x : hpart) : option str :=
  match x with
  | HText s => Some s
  | HBytes b c => match c with None | Some [] => Some (decode_ignore b) | Some n => codec n false b end
  end.
Lemma decode_parts_is l : Forall (fun x => ~ In 0%N (part_name x)) l ->
  decode_parts codec l = Ok (flat_map (fun x => match part_text x with Some t => [t] | None => [] end) l).
Proof.
  induction l as [|x l IH]; intros H; [reflexivity|]. inversion H as [|? ? Hx Hl]; subst. specialize (IH Hl). cbn [decode_parts flat_map].
  destruct x as [s|b [[|c n]|]]; cbn [part_text part_name] in *; rewrite ?IH; try reflexivity.
  unfold py_decode. destruct (mem_char 0 (c :: n)) eqn:M; [apply mem_char_In in M; contradiction|]. destruct (codec (c :: n) false b); reflexivity.
Qed.
Lemma decode_parts_bad l : Exists (fun x => In 0%N (part_name x)) l -> decode_parts codec l = Unexpected.
Proof.
  induction 1 as [x l H|x l H IH]; cbn [decode_parts].
  - destruct x as [s|b [[|c n]|]]; cbn [part_name] in H; try destruct H. all: try (apply mem_char_In in H; unfold py_decode; rewrite H; reflexivity).
    + subst c. reflexivity.
    + unfold py_decode. assert (M : mem_char 0 (c :: n) = true) by (apply mem_char_In; right; exact H). rewrite M. reflexivity.
  - destruct (match x with HText s => Ok s | HBytes b None | HBytes b (Some []) => Ok (decode_ignore b) | HBytes b (Some name) => py_decode codec name false b end);
      rewrite ?IH; reflexivity.
Qed.
Theorem decode_header_is h l : header_parts h = Some l -> Forall (fun x => ~ In 0%N (part_name x)) l ->
  decode_header h = Ok (Some (concat (flat_map (fun x => match part_text x with Some t => [t] | None => [] end) l))).
Proof. intros E H. unfold Model_Load.decode_header. rewrite E, decode_parts_is by exact H. reflexivity. Qed.

(** *** MIME headers *)
Theorem mime_values ps l name : load ps = Some l -> get_raw_mime_header name l = concat (map (fun p => values_of name (p_headers p)) ps).
Proof.
  intros L. apply load_some in L as (_ & _ & _ & _ & _ & _ & _ & E). unfold get_raw_mime_header. rewrite E.
  assert (K : forall m, h_get name (fold_left (fun m p => add_mime p m) ps m) = h_get name m ++ concat (map (fun p => values_of name (p_headers p)) ps)).
  { clear E. induction ps as [|p ps IH]; intros m; cbn [fold_left map concat]; [rewrite app_nil_r; reflexivity|].
    rewrite IH. unfold add_mime at 1. rewrite h_get_fold, <- app_assoc. reflexivity. }
  rewrite K. reflexivity.
Qed.
End Load.
