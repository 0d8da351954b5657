(** Proofs about the rules for providers' headers. *)
From Coq Require Import Lia QArith Qround.
From Verif Require Import PyStr Regexp Spec_Regexp Proofs_Regexp Proofs_RegexpLang Model_Received Spec_Received Proofs_ReceivedIp Spec_Template Proofs_Template Model_Provider Spec_Provider.
Open Scope nat_scope.
From Verif Require Model_Relays Proofs_Dns Proofs_FreeMail.

Section Provider.
Variable udigit uword : char -> bool.
Notation s_ := (s_ udigit uword).
Notation m_ := (m_ udigit uword).
Notation has := (has uword).
Notation digit := (digit udigit).

(** ** Classes of characters *)
Lemma swap_other c : ~ (65 <= c <= 90)%N -> ~ (97 <= c <= 122)%N -> swapcase c = c.
Proof.
  intros A B. unfold swapcase. destruct (N.leb 65 c && N.leb c 90) eqn:E; [apply andb_true_iff in E as [E F]; apply N.leb_le in E, F; lia|].
  destruct (N.leb 97 c && N.leb c 122) eqn:E2; [apply andb_true_iff in E2 as [E2 F]; apply N.leb_le in E2, F; lia|reflexivity].
Qed.
Lemma swap_range c : (65 <= c <= 90)%N \/ (97 <= c <= 122)%N -> (65 <= swapcase c <= 90)%N \/ (97 <= swapcase c <= 122)%N.
Proof.
  intros H. unfold swapcase. destruct (N.leb_spec 65 c), (N.leb_spec c 90), (N.leb_spec 97 c), (N.leb_spec c 122); cbn [andb]; lia.
Qed.
Lemma letter_dec c : ((65 <= c <= 90)%N \/ (97 <= c <= 122)%N) \/ (~ (65 <= c <= 90)%N /\ ~ (97 <= c <= 122)%N).
Proof. lia. Qed.
Lemma swap_digit c : digit (swapcase c) <-> digit c.
Proof.
  destruct (letter_dec c) as [L|[L1 L2]]; [|rewrite swap_other by assumption; reflexivity]. pose proof (swap_range c L) as S. unfold Spec_Template.digit. lia.
Qed.
Lemma letter_not_space x : (65 <= x <= 122)%N -> is_space x = false.
Proof.
  intros Hx. destruct (is_space x) eqn:F; [|reflexivity]. exfalso. unfold is_space in F.
  repeat (apply orb_true_iff in F as [F|F]); repeat (apply andb_true_iff in F as [F ?]);
    repeat match goal with K : N.leb _ _ = true |- _ => apply N.leb_le in K | K : N.eqb _ _ = true |- _ => apply N.eqb_eq in K end; lia.
Qed.
Lemma swap_space c : is_space (swapcase c) = is_space c.
Proof.
  destruct (letter_dec c) as [L|[L1 L2]]; [|rewrite swap_other by assumption; reflexivity]. pose proof (swap_range c L) as S.
  rewrite !letter_not_space by lia. reflexivity.
Qed.
Lemma cls_char x c : class_in udigit uword false false [IChar x] c = true <-> x = c.
Proof. unfold class_in. cbn. rewrite !orb_false_r. destruct (N.eqb_spec c x); split; congruence. Qed.
Lemma cls_char_i y x c : lower_char y = x -> class_in udigit uword true false [IChar y] c = true <-> lower_char c = x.
Proof.
  intros <-. unfold class_in. cbn [existsb item_in xorb andb]. rewrite !orb_false_r.
  assert (E : (c =? y)%N || (swapcase c =? y)%N = true <-> lower_char c = lower_char y); [|destruct (_ || _); exact E].
  rewrite orb_true_iff, !N.eqb_eq. unfold swapcase, lower_char.
  destruct (N.leb_spec 65 c), (N.leb_spec c 90), (N.leb_spec 97 c), (N.leb_spec c 122), (N.leb_spec 65 y), (N.leb_spec y 90); cbn [andb]; lia.
Qed.
Lemma cls_digit c : class_in udigit uword false false [IDigit] c = true <-> digit c.
Proof. rewrite <- is_d_iff. unfold class_in. cbn. rewrite !orb_false_r. destruct (is_d udigit c); cbn; tauto. Qed.
Lemma cls_digit_i c : class_in udigit uword true false [IDigit] c = true <-> digit c.
Proof.
  pose proof (swap_digit c) as S. rewrite <- !is_d_iff in *. unfold class_in. cbn. rewrite !orb_false_r. destruct (is_d udigit c), (is_d udigit (swapcase c)); cbn; tauto.
Qed.
Lemma cls_nonblank c : class_in udigit uword false false [INotSpace] c = true <-> nonblank c.
Proof. unfold class_in, nonblank. cbn. destruct (is_space c); cbn; split; congruence. Qed.
Lemma cls_nonblank_i c : class_in udigit uword true false [INotSpace] c = true <-> nonblank c.
Proof. unfold class_in, nonblank. cbn. rewrite swap_space. destruct (is_space c); cbn; split; congruence. Qed.
Lemma cls_blank_i c : class_in udigit uword true false [ISpace] c = true <-> blank c.
Proof. unfold class_in, blank. cbn. rewrite swap_space. destruct (is_space c); cbn; split; congruence. Qed.
Lemma cls_word c : class_in udigit uword false false [IWord] c = true <-> wordc uword c.
Proof. rewrite <- is_w_iff. unfold class_in. cbn. rewrite !orb_false_r. destruct (is_w uword c); cbn; tauto. Qed.
Lemma range_iff a b c : N.leb a c && N.leb c b = true <-> (a <= c <= b)%N.
Proof. rewrite andb_true_iff, !N.leb_le. tauto. Qed.
Lemma cls_letter_i c : class_in udigit uword true false [IRange 97 122] c = true <-> letter c.
Proof.
  unfold class_in, letter. cbn [existsb item_in xorb andb]. rewrite !orb_false_r. change (xorb false (?x)) with x.
  assert (E : (N.leb 97 c && N.leb c 122) || (N.leb 97 (swapcase c) && N.leb (swapcase c) 122) = true <-> letter c); [|unfold letter in E; destruct (_ || _); exact E].
  rewrite orb_true_iff, !range_iff. unfold letter, swapcase.
  destruct (N.leb_spec 65 c), (N.leb_spec c 90), (N.leb_spec 97 c), (N.leb_spec c 122); cbn [andb]; lia.
Qed.

(** ** The patterns and their forms *)
Lemma cls_capital c : class_in udigit uword false false [IRange 65 90] c = true <-> capital c.
Proof. unfold class_in, capital. cbn. rewrite !orb_false_r, <- range_iff. destruct (_ && _); cbn; tauto. Qed.
Lemma cls_capital_ c : class_in udigit uword false false [IRange 65 90; IChar 95; IChar 45] c = true <-> capital c \/ c = 95%N \/ c = 45%N.
Proof.
  unfold class_in, capital. cbn [existsb item_in xorb andb]. rewrite !orb_false_r. rewrite <- range_iff, <- !N.eqb_eq.
  destruct (N.leb 65 c && N.leb c 90), (N.eqb c 95), (N.eqb c 45); cbn; intuition congruence.
Qed.
Lemma cls_sign c : class_in udigit uword true false [IChar 45; IChar 43] c = true <-> c = 43%N \/ c = 45%N.
Proof.
  unfold class_in. cbn [existsb item_in xorb andb]. rewrite !orb_false_r.
  assert (E : ((c =? 45)%N || (c =? 43)%N) || ((swapcase c =? 45)%N || (swapcase c =? 43)%N) = true <-> c = 43%N \/ c = 45%N);
    [|destruct (_ || _); exact E].
  rewrite !orb_true_iff, !N.eqb_eq. unfold swapcase. destruct (N.leb_spec 65 c), (N.leb_spec c 90), (N.leb_spec 97 c), (N.leb_spec c 122); cbn [andb]; lia.
Qed.
Ltac cls :=
  intros ?c; first [apply cls_char | apply cls_char_i; vm_compute; reflexivity | apply cls_digit | apply cls_digit_i | apply cls_nonblank
    | apply cls_nonblank_i | apply cls_blank_i | apply cls_word | apply cls_letter_i | apply cls_capital | apply cls_capital_ | apply cls_sign | reflexivity].
Ltac likes := repeat (apply Forall2_cons || apply Forall2_nil); first [apply like_run; cls | constructor].
Ltac by_search := intros h; unfold Model_Received.s_; apply search_has with (udigit := udigit) (2 := eq_refl); [vm_compute; repeat split; repeat constructor | likes].
Lemma s_aol_relay : forall h, s_ AOL_RLY h = true <-> has (aol_relay udigit) h.
Proof. by_search. Qed.
Lemma s_aol_version : forall h, s_ AOL_VER h = true <-> has (aol_version udigit) h.
Proof. by_search. Qed.
Lemma s_aol_id : forall h, s_ AOL_ID h = true <-> has aol_id h.
Proof. by_search. Qed.
Lemma s_ezmlm : forall h, s_ EZMLM h = true <-> has ezmlm h.
Proof. by_search. Qed.
Lemma s_ezmlm_to : forall h, s_ EZMLM_TO h = true <-> has ezmlm_to h.
Proof. by_search. Qed.
Lemma s_qmail : forall h, s_ QMAIL h = true <-> has (qmail udigit) h.
Proof. by_search. Qed.
Lemma s_msn_gate : forall h, s_ MSN_GATE h = true <-> has msn_gate h.
Proof. by_search. Qed.
Lemma s_pickup : forall h, s_ PICKUP h = true <-> has [text pickup] h.
Proof. by_search. Qed.
Lemma s_helo_hotmail : forall h, s_ HOTMAIL_HELO h = true <-> has helo_hotmail h.
Proof. by_search. Qed.
Lemma s_group_to : forall h, s_ MSN_TO h = true <-> has group_to h.
Proof. by_search. Qed.
Lemma s_whowhere : forall h, s_ WHOWHERE h = true <-> has whowhere h.
Proof. by_search. Qed.
Lemma s_yahoo_web : forall h, s_ YAHOO_WEB h = true <-> has yahoo_web h.
Proof. by_search. Qed.
Lemma s_yahoo_smtp : forall h, s_ YAHOO_SMTP h = true <-> has yahoo_smtp h.
Proof. by_search. Qed.
Lemma s_yahoo_bulk : forall h, s_ YAHOO_BULK h = true <-> has (yahoo_bulk udigit) h.
Proof. by_search. Qed.
Lemma s_yahoo_by : forall h, s_ YAHOO_BY h = true <-> has (yahoo_by udigit uword) h.
Proof. by_search. Qed.
Lemma s_juno_cookie : forall h, s_ JUNO_COOKIE h = true <-> has juno_cookie h.
Proof. by_search. Qed.
Lemma s_unsubscribe : forall h, s_ UNSUBSCRIBE h = true <-> has unsubscribe h.
Proof. by_search. Qed.
Lemma s_cwt : forall h, s_ CWT_DCE h = true <-> has [text ($"/CWT/DCE)")] h.
Proof. by_search. Qed.
Lemma s_iplanet : forall h, s_ IPLANET h = true <-> has [text ($"iPlanet Messaging Server")] h.
Proof. by_search. Qed.
Lemma s_template : forall h, s_ TEMPLATE h = true <-> has placeholder h.
Proof. by_search. Qed.
Lemma s_template_ok : forall h, s_ TEMPLATE_OK h = true <-> has (map (fun f => [Begin] ++ text (f ++ $":")) free_fields) h.
Proof. by_search. Qed.
Lemma s_srs : forall h, s_ SRS h = true <-> has [[Begin] ++ text ($"SRS") ++ one digit ++ text ($"=")] h.
Proof. by_search. Qed.
Lemma s_five : forall h, s_ FIVE_DIGITS h = true <-> has [[Run digit 5 None]] h.
Proof. by_search. Qed.

(** ** Texts as forms *)
Lemma fits_text s : forall b w a, fits uword (text s) b w a <-> w = s.
Proof.
  induction s as [|c s IH]; intros b w a; cbn [text map Spec_Template.fits]; [reflexivity|]. split.
  - intros (u & v & -> & H & L & U & F). apply IH in F as ->. destruct u as [|d [|e u]]; cbn in *; [lia| |lia]. rewrite (H d (or_introl eq_refl)). reflexivity.
  - intros ->. exists [c], s. split; [reflexivity|]. split; [intros d [<-|[]]; reflexivity|]. split; [cbn; lia|]. split; [cbn; lia|]. apply IH. reflexivity.
Qed.
Lemma has_text s h : has [text s] h <-> part_of s h.
Proof.
  unfold Spec_Template.has, part_of. split.
  - intros (l & x & w & y & [<-|[]] & -> & F). apply fits_text in F as ->. eauto.
  - intros (x & y & ->). exists (text s), x, s, y. split; [left; reflexivity|]. split; [reflexivity|]. apply fits_text. reflexivity.
Qed.
Lemma contains_part p h : contains p h = true <-> part_of p h.
Proof. apply contains_app. Qed.
Lemma has_begin_text s h ls : (forall l, In l ls <-> exists f, In f s /\ l = [Begin] ++ text f) ->
  has ls h <-> exists f t, In f s /\ h = f ++ t.
Proof.
  intros E. unfold Spec_Template.has. split.
  - intros (l & x & w & y & Hl & -> & F). apply E in Hl as (f & Hf & ->). cbn [app Spec_Template.fits] in F. destruct F as [B F]. apply fits_text in F as ->.
    apply (f_equal (@rev char)) in B. rewrite rev_involutive in B. subst x. exists f, y. auto.
  - intros (f & t & Hf & ->). exists ([Begin] ++ text f), [], f, t. split; [apply E; eauto|]. split; [reflexivity|]. cbn. split; [reflexivity|]. apply fits_text. reflexivity.
Qed.

(** ** Rules *)
Lemma fake_aol_iff m : check_for_fake_aol_relay_in_rcvd udigit uword m = true <->
  exists h, In h (decoded m ($"received")) /\ has (aol_relay udigit) h /\ ~ has (aol_version udigit) h /\ ~ has aol_id h.
Proof.
  unfold check_for_fake_aol_relay_in_rcvd. rewrite existsb_exists. split; intros (h & Hh & H); exists h; (split; [exact Hh|]).
  - rewrite !andb_true_iff, !negb_true_iff in H. destruct H as [[A B] C]. rewrite <- s_aol_relay, <- s_aol_version, <- s_aol_id. rewrite B, C. split; [exact A|]. split; discriminate.
  - rewrite <- s_aol_relay, <- s_aol_version, <- s_aol_id in H. destruct H as (A & B & C). rewrite A.
    destruct (s_ AOL_VER h); [exfalso; auto|]. destruct (s_ AOL_ID h); [exfalso; auto|reflexivity].
Qed.
Lemma nil_iff {A} (l : list A) : nil_ l = true <-> l = [].
Proof. destruct l; cbn; split; congruence. Qed.
Lemma gated_iff m : gated_through_received_hdr_remover udigit uword m = true <-> headers_removed udigit uword m.
Proof.
  unfold gated_through_received_hdr_remover, headers_removed, joined, texts.
  rewrite <- s_ezmlm, <- s_ezmlm_to, <- s_qmail, <- s_msn_gate, <- nil_iff.
  destruct (s_ EZMLM _), (s_ EZMLM_TO _), (s_ QMAIL _), (nil_ _), (s_ MSN_GATE _); cbn; intuition congruence.
Qed.
Lemma gated_false m : gated_through_received_hdr_remover udigit uword m = false <-> ~ headers_removed udigit uword m.
Proof. rewrite <- gated_iff. destruct (gated_through_received_hdr_remover udigit uword m); intuition congruence. Qed.

Notation hotmail_received := (hotmail_received udigit uword).
Lemma part_pickup h : s_ PICKUP h = true <-> part_of pickup h.
Proof. rewrite s_pickup. apply has_text. Qed.
Ltac flags H := rewrite ?andb_true_iff, ?orb_true_iff, ?negb_true_iff in H.
Lemma msn_no_groups m : ~ has group_to (texts m ($"to")) -> check_for_msn_groups_headers udigit uword m = Some false.
Proof.
  intros H. unfold check_for_msn_groups_headers. change (joined m ($"to")) with (texts m ($"to")). rewrite <- s_group_to in H.
  destruct (s_ MSN_TO (texts m ($"to"))); [exfalso; auto|reflexivity].
Qed.
Lemma hotmail_false m : match hotmail_received m with Some (f, n) => ~ (f = true /\ n = true) | None => True end.
Proof.
  unfold Model_Provider.hotmail_received. destruct (first_of m _) as [[|c r]|]; [intros [A B]; discriminate| |intros [A B]; discriminate].
  destruct (s_ PICKUP _); [intros [A B]; discriminate|]. destruct (check_for_msn_groups_headers _ _ m) as [[|]|]; [intros [A B]; discriminate| |exact I].
  match goal with |- match (if ?v then _ else _) with _ => _ end => destruct v end; [intros [A B]; discriminate|].
  destruct (gated_through_received_hdr_remover _ _ m); [intros [A B]; discriminate|]. destruct (s_ HOTMAIL_HELO _); intros [A B]; discriminate.
Qed.
Lemma hotmail_true m f n : hotmail_received m = Some (f, n) -> f = true \/ n = true ->
  exists r, first_of m ($"received") = Some r /\ r <> [] /\ ~ part_of pickup r /\ ~ headers_removed udigit uword m /\
    (f = true -> has helo_hotmail r) /\ (n = true -> ~ has helo_hotmail r /\ exists a, first_of m ($"from") = Some a /\ part_of ($"hotmail.com") a).
Proof.
  unfold Model_Provider.hotmail_received. intros H D. destruct (first_of m ($"received")) as [[|c r]|]; try (injection H as <- <-; destruct D; discriminate).
  exists (c :: r). split; [reflexivity|]. split; [discriminate|]. rewrite <- part_pickup, <- s_helo_hotmail, <- gated_iff.
  destruct (s_ PICKUP (c :: r)); try (injection H as <- <-; destruct D; discriminate). split; [discriminate|].
  destruct (check_for_msn_groups_headers _ _ m) as [[|]|]; try discriminate; try (injection H as <- <-; destruct D; discriminate).
  match type of H with (if ?v then _ else _) = _ => destruct v end; try (injection H as <- <-; destruct D; discriminate).
  destruct (gated_through_received_hdr_remover _ _ m); try (injection H as <- <-; destruct D; discriminate). split; [discriminate|].
  destruct (s_ HOTMAIL_HELO (c :: r)); injection H as <- <-.
  - split; [reflexivity|]. discriminate.
  - split; [discriminate|]. intros C. split; [discriminate|]. apply contains_part in C. destruct (first_of m ($"from")) as [a|]; [eauto|].
    destruct C as (x & y & C). destruct x; discriminate C.
Qed.
Lemma hotmail_plain m r : first_of m ($"received") = Some r -> r <> [] -> ~ part_of pickup r -> ~ headers_removed udigit uword m ->
  ~ has group_to (texts m ($"to")) -> first_of m ($"x-originating-ip") = None ->
  exists f n, hotmail_received m = Some (f, n) /\ (f = true <-> has helo_hotmail r) /\
    (n = true <-> ~ has helo_hotmail r /\ exists a, first_of m ($"from") = Some a /\ part_of ($"hotmail.com") a).
Proof.
  intros E NE P G T X. unfold Model_Provider.hotmail_received. rewrite E, X, (msn_no_groups m T). destruct r as [|c r]; [congruence|].
  rewrite <- part_pickup in P. rewrite <- gated_iff in G. destruct (s_ PICKUP (c :: r)); [exfalso; auto|].
  destruct (gated_through_received_hdr_remover _ _ m); [exfalso; auto|]. cbv beta iota zeta. pose proof (s_helo_hotmail (c :: r)) as HH.
  destruct (s_ HOTMAIL_HELO (c :: r)).
  - exists true, false. split; [reflexivity|]. split; [tauto|]. split; [discriminate|]. tauto.
  - assert (NH : ~ has helo_hotmail (c :: r)) by (intros K; apply HH in K; discriminate).
    eexists false, _. split; [reflexivity|]. split; [split; [discriminate|tauto]|]. rewrite contains_part. split.
    + intros C. split; [exact NH|]. destruct (first_of m ($"from")) as [a|]; [eauto|]. destruct C as (x & y & C). destruct x; discriminate C.
    + intros [_ (a & -> & C)]. exact C.
Qed.
(** The name of the group is taken with [match] from a text found with [search]. *)
Lemma m_group_to h : m_ MSN_TO h = None <-> ~ starts uword group_to h.
Proof.
  assert (E : matched (m_ MSN_TO h) = true <-> starts uword group_to h).
  { unfold Model_Received.m_. apply match_starts with (udigit := udigit) (2 := eq_refl); [vm_compute; reflexivity|likes]. }
  rewrite <- E. destruct (m_ MSN_TO h); cbn; intuition congruence.
Qed.
Lemma hotmail_raises m r : first_of m ($"received") = Some r -> r <> [] -> ~ part_of pickup r ->
  has group_to (texts m ($"to")) -> ~ starts uword group_to (texts m ($"to")) -> hotmail_received m = None.
Proof.
  intros E NE P T1 T2. unfold Model_Provider.hotmail_received. rewrite E. destruct r as [|c r]; [congruence|]. rewrite <- part_pickup in P.
  destruct (s_ PICKUP (c :: r)); [exfalso; auto|]. unfold check_for_msn_groups_headers. change (joined m ($"to")) with (texts m ($"to")).
  apply s_group_to in T1. rewrite T1. apply m_group_to in T2. rewrite T2. reflexivity.
Qed.

(** Domains *)
Lemma domain_ends a d : domain_of a = d <-> ends_in_domain a d.
Proof.
  unfold domain_of, ends_in_domain. destruct (rsplit1 64%N a) as [[x y]|] eqn:E.
  - apply rsplit1_Some in E as [-> N]. split.
    + intros <-. left. split; [exists x; reflexivity|exact N].
    + intros [[(x' & E) N']|[E N']].
      * assert (R : rsplit1 64%N (x ++ 64%N :: y) = Some (x, y)) by (apply rsplit1_Some; auto).
        assert (R' : rsplit1 64%N (x ++ 64%N :: y) = Some (x', d)) by (apply rsplit1_Some; auto). congruence.
      * exfalso. apply N'. rewrite <- E. apply in_or_app. right. left. reflexivity.
  - apply rsplit1_None in E. split; [intros <-; right; auto|]. intros [[(x' & ->) N']|[-> N']]; [|reflexivity].
    exfalso. apply E. apply in_or_app. right. left. reflexivity.
Qed.
Lemma s_address x y a b c d : bytes a b c d -> s_ IP_ADDRESS (x ++ $"[" ++ quad a b c d ++ $"]" ++ y) = true.
Proof.
  intros B. unfold Model_Received.s_. apply search_iff. exists (x ++ [91%N]), (quad a b c d ++ 93%N :: y). eexists. split; [rewrite <- app_assoc; reflexivity|].
  rewrite rev_app_distr. cbn [rev app].
  match goal with |- In _ (ways _ _ _ ?st) => destruct (ip_ways udigit uword st) as [m ->] end. apply in_or_app. left. apply (ip4_in udigit uword). exact B.
Qed.
Lemma s_no_address h : ~ In 46%N h -> ~ In 58%N h -> s_ IP_ADDRESS h = false.
Proof.
  intros H1 H2. destruct (s_ IP_ADDRESS h) eqn:E; [|reflexivity]. exfalso. apply search_iff in E as (u & v & st & -> & A).
  destruct (ways_ext udigit uword IP_ADDRESS _ _ A) as [w He]. pose proof (ip_marked _ _ _ _ _ A He) as X. apply Exists_exists in X as (c & Hc & K).
  destruct He as [He _]. cbn in He. subst v. destruct K as [->| ->]; [apply H1|apply H2]; apply in_or_app; right; apply in_or_app; left; exact Hc.
Qed.
Lemma states_address_s h : states_address h -> s_ IP_ADDRESS h = true.
Proof. intros (x & y & a & b & c & d & B & ->). apply s_address. exact B. Qed.
Lemma eudoramail_true m : check_for_forged_eudoramail_received_headers udigit uword m = true ->
  ends_in_domain (concat (addresses m ($"from"))) ($"eudoramail.com") /\ ~ headers_removed udigit uword m /\
  ~ (has whowhere (texts m ($"received")) /\ states_address (texts m ($"x-sender-ip"))).
Proof.
  unfold check_for_forged_eudoramail_received_headers. rewrite <- domain_ends, <- gated_iff, <- s_whowhere. change (joined m) with (texts m).
  destruct (streqb_spec (domain_of (concat (addresses m ($"from")))) ($"eudoramail.com")) as [E|E]; cbn [negb]; [|discriminate].
  destruct (gated_through_received_hdr_remover _ _ m); [discriminate|]. intros H. split; [exact E|]. split; [discriminate|]. intros [W A].
  pose proof (states_address_s _ A) as S. rewrite W, S in H. destruct (texts m ($"x-sender-ip")); [vm_compute in S; discriminate S|discriminate H].
Qed.
Lemma eudoramail_flagged m : ends_in_domain (concat (addresses m ($"from"))) ($"eudoramail.com") -> ~ headers_removed udigit uword m ->
  ~ has whowhere (texts m ($"received")) \/ names_no_address (texts m ($"x-sender-ip")) ->
  check_for_forged_eudoramail_received_headers udigit uword m = true.
Proof.
  unfold check_for_forged_eudoramail_received_headers. rewrite <- domain_ends, <- gated_iff, <- s_whowhere. change (joined m) with (texts m).
  intros E. rewrite E. rewrite streqb_refl. cbn [negb]. intros G. destruct (gated_through_received_hdr_remover _ _ m); [exfalso; auto|].
  intros [W|[A B]].
  - destruct (s_ WHOWHERE _); [exfalso; auto|reflexivity].
  - rewrite (s_no_address _ A B), !andb_false_r. reflexivity.
Qed.

(** ** Parts of sequences *)
Fixpoint last_part (n : nat) (r : re) : re := match n, r with S k, Cat _ q => last_part k q | _, _ => r end.
Fixpoint take_part (n : nat) (r : re) : re := match n, r with S k, Cat p q => Cat p (take_part k q) | 0, _ => Eps | _, _ => r end.
Lemma last_part_reads n : forall r b w a, reads udigit uword r b w a -> exists u v, w = u ++ v /\ reads udigit uword (last_part n r) (rev u ++ b) v a.
Proof.
  induction n as [|n IH]; intros r b w a H; [exists [], w; auto|]. destruct r; try (exists [], w; split; [reflexivity|exact H]).
  cbn [Spec_Regexp.reads last_part] in *. destruct H as (u & v & -> & _ & H). apply IH in H as (u' & v' & -> & H). exists (u ++ u'), v'. rewrite <- app_assoc. split; [reflexivity|].
  rewrite rev_app_distr, <- app_assoc. exact H.
Qed.
Lemma take_part_reads n : forall r b w a, reads udigit uword r b w a -> exists u v, w = u ++ v /\ reads udigit uword (take_part n r) b u (v ++ a).
Proof.
  induction n as [|n IH]; intros r b w a H; [exists [], w; split; [reflexivity|]; reflexivity|].
  destruct r; try (exists w, []; rewrite app_nil_r; split; [reflexivity|exact H]).
  cbn [Spec_Regexp.reads take_part] in *. destruct H as (u & v & -> & P & H). apply IH in H as (u' & v' & -> & H). exists (u ++ u'), v'. rewrite <- app_assoc. split; [reflexivity|].
  exists u, u'. rewrite app_assoc. rewrite <- !app_assoc in *. auto.
Qed.
Lemma found_last_part n r h : found udigit uword r h -> found udigit uword (last_part n r) h.
Proof.
  intros (b & w & a & -> & H). apply (last_part_reads n) in H as (u & v & -> & H). exists (b ++ u), v, a. rewrite rev_app_distr. rewrite <- !app_assoc. auto.
Qed.
Lemma found_take_part n r h : found udigit uword r h -> found udigit uword (take_part n r) h.
Proof.
  intros (b & w & a & -> & H). apply (take_part_reads n) in H as (u & v & -> & H). exists b, u, (v ++ a). rewrite <- !app_assoc in *. auto.
Qed.
Lemma found_has r ls ms h : forms udigit uword r = Some ls -> Forall2 (Forall2 like) ls ms -> found udigit uword r h -> has ms h.
Proof.
  intros E F (b & w & a & -> & R). apply (has_like uword ls ms _ F). apply (reads_forms udigit uword r ls E) in R as (l & Hl & R). exists l, b, w, a. auto.
Qed.

(** Yahoo *)
Lemma yahoo_ip_mark h : s_ YAHOO_IP h = true -> part_of ($".yahoo.com") h /\ part_of ($"NNFMP") h.
Proof.
  intros H. apply search_reads in H; [|vm_compute; reflexivity]. split; apply has_text.
  - apply (found_last_part 15) in H. apply (found_take_part 10) in H. revert H. apply found_has with (1 := eq_refl). likes.
  - apply (found_last_part 31) in H. revert H. apply found_has with (1 := eq_refl). likes.
Qed.
Lemma fits_part l s n m b w a : l = n ++ text s ++ m -> fits uword l b w a -> part_of s w.
Proof.
  intros -> H. apply fits_app in H as (u & v & -> & _ & H). apply fits_app in H as (u' & v' & -> & H & _). apply fits_text in H as ->. exists u, v'. reflexivity.
Qed.
Lemma part_in s x w y : part_of s w -> part_of s (x ++ w ++ y).
Proof. intros (u & v & ->). exists (x ++ u), (v ++ y). rewrite <- !app_assoc. reflexivity. Qed.
Notation yahoo := (check_for_forged_yahoo_received_headers udigit uword).
Definition yahoo_text (m : mail) : str :=
  if negb (nil_ (decoded m ($"resent-from"))) && negb (nil_ (decoded m ($"resent-to"))) && negb (nil_ (joined m ($"x-received")))
  then joined m ($"x-received") else joined m ($"received").
Lemma yahoo_text_ok m h : hops_text m h -> yahoo_text m = h.
Proof.
  unfold hops_text, yahoo_text, texts, joined. rewrite <- !nil_iff. intros [(A & B & C & ->)|(D & ->)].
  - destruct (nil_ (decoded m ($"resent-from"))); [exfalso; auto|]. destruct (nil_ (decoded m ($"resent-to"))); [exfalso; auto|]. destruct (nil_ (concat (decoded m ($"x-received")))); [exfalso; auto|]. reflexivity.
  - destruct (nil_ (decoded m ($"resent-from"))), (nil_ (decoded m ($"resent-to"))), (nil_ (concat (decoded m ($"x-received")))); try reflexivity.
    exfalso. intuition congruence.
Qed.
Lemma yahoo_iff m h : hops_text m h -> ~ part_of ($"NNFMP") h ->
  yahoo m = true <->
  part_of ($"yahoo.com") (concat (addresses m ($"from"))) /\ ~ headers_removed udigit uword m /\
  (forall r, In r (untrusted m ++ trusted m) -> ~ part_of ($"yahoo.com") (Model_Relays.rl_rdns r)) /\
  ~ has yahoo_web h /\ ~ has yahoo_smtp h /\ ~ has (yahoo_by udigit uword) h /\
  ~ (has (yahoo_bulk udigit) h /\ ends_in_domain (concat (addresses m ($"from"))) ($"reply.yahoo.com")).
Proof.
  intros T N. unfold check_for_forged_yahoo_received_headers. fold (yahoo_text m). rewrite (yahoo_text_ok m h T).
  assert (I : s_ YAHOO_IP h = false) by (destruct (s_ YAHOO_IP h) eqn:E; [exfalso; apply N, yahoo_ip_mark, E|reflexivity]). rewrite I.
  rewrite <- contains_part, <- gated_iff, <- s_yahoo_web, <- s_yahoo_smtp, <- s_yahoo_by, <- s_yahoo_bulk, <- domain_ends.
  assert (R : existsb (fun r => contains ($"yahoo.com") (Model_Relays.rl_rdns r)) (untrusted m ++ trusted m) = false <->
    forall r, In r (untrusted m ++ trusted m) -> ~ part_of ($"yahoo.com") (Model_Relays.rl_rdns r)).
  { split.
    - intros E r Hr K. apply contains_part in K. assert (X : existsb (fun r => contains ($"yahoo.com") (Model_Relays.rl_rdns r)) (untrusted m ++ trusted m) = true) by (apply existsb_exists; eauto). congruence.
    - intros E. destruct (existsb _ _) eqn:X; [|reflexivity]. apply existsb_exists in X as (r & Hr & K). exfalso. apply contains_part in K. exact (E r Hr K). }
  rewrite <- R. destruct (contains _ (concat _)); cbn [negb]; [|intuition congruence]. destruct (gated_through_received_hdr_remover _ _ m); [intuition congruence|].
  destruct (existsb _ _); [intuition congruence|]. destruct (s_ YAHOO_WEB h); [intuition congruence|]. destruct (s_ YAHOO_SMTP h); [intuition congruence|].
  destruct (streqb_spec (domain_of (concat (addresses m ($"from")))) ($"reply.yahoo.com")) as [E|E]; destruct (s_ YAHOO_BULK h), (s_ YAHOO_BY h); cbn [andb]; intuition congruence.
Qed.
Lemma yahoo_always m h : hops_text m h -> ~ part_of ($".yahoo.com") h -> ~ headers_removed udigit uword m ->
  part_of ($"yahoo.com") (concat (addresses m ($"from"))) ->
  (forall r, In r (untrusted m ++ trusted m) -> ~ part_of ($"yahoo.com") (Model_Relays.rl_rdns r)) -> yahoo m = true.
Proof.
  intros T N G F R. unfold check_for_forged_yahoo_received_headers. fold (yahoo_text m). rewrite (yahoo_text_ok m h T).
  apply contains_part in F. rewrite F. cbn [negb]. apply gated_false in G. rewrite G.
  assert (X : existsb (fun r => contains ($"yahoo.com") (Model_Relays.rl_rdns r)) (untrusted m ++ trusted m) = false).
  { destruct (existsb _ _) eqn:X; [|reflexivity]. apply existsb_exists in X as (r & Hr & K). exfalso. apply contains_part in K. exact (R r Hr K). }
  rewrite X.
  assert (P : forall r ls, (s_ r h = true <-> has ls h) -> (forall l, In l ls -> exists n t, l = n ++ text ($".yahoo.com") ++ t) -> s_ r h = false).
  { intros r ls E L. destruct (s_ r h); [|reflexivity]. exfalso. destruct (proj1 E eq_refl) as (l & x & w & y & Hl & -> & K). apply N.
    destruct (L l Hl) as (n & t & El). apply part_in. exact (fits_part l _ n t _ _ _ El K). }
  rewrite (P _ _ (s_yahoo_web h)), (P _ _ (s_yahoo_smtp h)), (P _ _ (s_yahoo_bulk h)), (P _ _ (s_yahoo_by h)).
  - destruct (s_ YAHOO_IP h) eqn:E; [exfalso; apply N, yahoo_ip_mark, E|reflexivity].
  - intros l [<-|[<-|[]]].
    + exists (text ($"by ") ++ some_ (wordc uword) ++ text ($".") ++ some_ (wordc uword)). eexists. reflexivity.
    + exists (text ($"by ") ++ some_ (wordc uword) ++ text ($".") ++ some_ (wordc uword)). eexists. reflexivity.
  - intros l [<-|[]]. exists ([Edge] ++ text ($"mailer") ++ some_ digit ++ text ($".bulk.scd")). eexists. reflexivity.
  - intros l [<-|[]]. exists (text ($"by smtp") ++ some_ nonblank). eexists. reflexivity.
  - intros l [<-|[]]. exists (text ($"by web") ++ some_ nonblank ++ text ($".mail") ++ many nonblank). eexists. reflexivity.
Qed.

(** Juno *)
Lemma juno_from_mark h : s_ JUNO_FROM h = true -> part_of ($"juno.com") h \/ part_of ($"untd.com") h.
Proof.
  intros H. apply search_reads in H; [|vm_compute; reflexivity]. apply (found_last_part 6) in H. apply (found_take_part 5) in H.
  assert (K : has [text ($"juno.com"); text ($"untd.com")] h) by (revert H; apply found_has with (1 := eq_refl); likes).
  destruct K as (l & x & w & y & [<-|[<-|[]]] & -> & F); apply fits_text in F as ->; [left|right]; exists x, y; reflexivity.
Qed.
Lemma juno_cookie_mark h : s_ JUNO_COOKIE h = true -> part_of ($"juno.com") h \/ part_of ($"untd.com") h.
Proof.
  rewrite s_juno_cookie. intros (l & x & w & y & [<-|[<-|[]]] & -> & F); apply fits_text in F as ->; [left|right]; apply part_in; exists ($" cookie."), ($" "); reflexivity.
Qed.
Lemma ends_domain_juno a : endswith ($"juno.com") (domain_of a) = true <-> exists p, ends_in_domain a (p ++ $"juno.com").
Proof.
  rewrite endswith_app. split; intros [p H]; exists p; [apply domain_ends; exact H|apply domain_ends; exact H].
Qed.
Notation juno := (check_for_forged_juno_received_headers udigit uword).
Lemma juno_no_ip m p : ends_in_domain (concat (addresses m ($"from"))) (p ++ $"juno.com") -> ~ headers_removed udigit uword m ->
  texts m ($"x-originating-ip") = [] -> juno m = true.
Proof.
  intros D G X. unfold check_for_forged_juno_received_headers. assert (E : endswith ($"juno.com") (domain_of (concat (addresses m ($"from")))) = true) by (apply ends_domain_juno; eauto).
  rewrite E. apply gated_false in G. rewrite G. change (joined m ($"x-originating-ip")) with (texts m ($"x-originating-ip")). rewrite X. reflexivity.
Qed.
Lemma juno_true m : juno m = true -> exists p, ends_in_domain (concat (addresses m ($"from"))) (p ++ $"juno.com") /\ ~ headers_removed udigit uword m /\
  ~ (texts m ($"x-originating-ip") <> [] /\ has juno_cookie (texts m ($"received")) /\ part_of ($"Juno ") (texts m ($"x-mailer"))).
Proof.
  unfold check_for_forged_juno_received_headers. destruct (endswith _ _) eqn:E; [|discriminate]. apply ends_domain_juno in E as [p E]. cbn [negb].
  destruct (gated_through_received_hdr_remover _ _ m) eqn:G; [discriminate|]. intros H. exists p. split; [exact E|]. split; [apply gated_false, G|]. intros (X & C & M).
  change (joined m) with (texts m) in H. rewrite <- s_juno_cookie in C. rewrite <- contains_part in M. rewrite C, M, andb_false_r in H.
  destruct (texts m ($"x-originating-ip")); [congruence|discriminate].
Qed.
Lemma juno_flagged m p : ends_in_domain (concat (addresses m ($"from"))) (p ++ $"juno.com") -> ~ headers_removed udigit uword m ->
  (~ part_of ($"juno.com") (texts m ($"received")) /\ ~ part_of ($"untd.com") (texts m ($"received"))) \/ ~ part_of ($"Juno ") (texts m ($"x-mailer")) ->
  juno m = true.
Proof.
  intros D G H. unfold check_for_forged_juno_received_headers. assert (E : endswith ($"juno.com") (domain_of (concat (addresses m ($"from")))) = true) by (apply ends_domain_juno; eauto).
  rewrite E. apply gated_false in G. rewrite G. change (joined m) with (texts m). cbn [negb]. destruct (nil_ (texts m ($"x-originating-ip"))); [reflexivity|]. cbn [negb].
  destruct H as [[A B]|A].
  - assert (X : s_ JUNO_FROM (texts m ($"received")) = false) by (destruct (s_ JUNO_FROM _) eqn:K; [apply juno_from_mark in K; tauto|reflexivity]).
    assert (Y : s_ JUNO_COOKIE (texts m ($"received")) = false) by (destruct (s_ JUNO_COOKIE _) eqn:K; [apply juno_cookie_mark in K; tauto|reflexivity]).
    rewrite X, Y. reflexivity.
  - rewrite <- contains_part in A. destruct (contains _ _); [exfalso; auto|]. destruct (_ && _); reflexivity.
Qed.

(** Envelope sender and From *)
Lemma matching_iff m : check_for_matching_env_and_hdr_from m = true <->
  exists e, first_sender (trusted m ++ untrusted m) e /\ part_of e (concat (addresses m ($"from"))).
Proof.
  unfold check_for_matching_env_and_hdr_from. rewrite contains_part.
  assert (F : forall l e, first_sender l e <-> e = match find (fun r => negb (nil_ (Model_Relays.rl_envfrom r))) l with Some r => Model_Relays.rl_envfrom r | None => [] end).
  { intros l e. unfold first_sender. induction l as [|r l IH]; cbn [find].
    - split; [intros [(a & x & b & E & _)|[-> _]]; [destruct a; discriminate|reflexivity]|]. intros ->. right. split; [reflexivity|intros r []].
    - destruct (nil_ (Model_Relays.rl_envfrom r)) eqn:N; cbn [negb].
      + apply nil_iff in N. rewrite <- IH. split.
        * intros [(a & x & b & E & H1 & H2 & H3)|[-> H]]; [|right; split; [reflexivity|intros y Hy; apply H; right; exact Hy]].
          destruct a as [|y a]; [injection E as -> ->; congruence|]. injection E as -> ->. left. exists a, x, b. split; [reflexivity|]. split; [intros y' Hy; apply H1; right; exact Hy|]. auto.
        * intros [(a & x & b & -> & H1 & H2 & H3)|[-> H]].
          -- left. exists (r :: a), x, b. split; [reflexivity|]. split; [intros y [<-|Hy]; auto|]. auto.
          -- right. split; [reflexivity|]. intros y [<-|Hy]; auto.
      + assert (NE : Model_Relays.rl_envfrom r <> []) by (intros K; apply nil_iff in K; congruence). split.
        * intros [(a & x & b & E & H1 & H2 & H3)|[-> H]]; [|exfalso; apply NE, H; left; reflexivity].
          destruct a as [|y a]; [injection E as -> ->; congruence|]. injection E as -> ->. exfalso. apply NE, H1. left. reflexivity.
        * intros ->. left. exists [], r, l. split; [reflexivity|]. split; [intros y []|]. auto. }
  split; [intros H; eexists; split; [apply F; reflexivity|exact H]|]. intros (e & H & K). apply F in H as <-. exact K.
Qed.

(** ** Sequences with groups *)
Definition chain (l : list re) (q : re) : re := fold_right Cat q l.
Lemma chain_In l q : forall st st', forallb ordered l = true -> In st' (ways udigit uword (chain l q) st) ->
  exists w st1, ext st st1 w /\ reads udigit uword (chain l Eps) (s_before st) w (s_after st1) /\ In st' (ways udigit uword q st1) /\
    (forallb no_groups l = true -> s_caps st1 = s_caps st).
Proof.
  induction l as [|r l IH]; intros st st' O H.
  - exists [], st. split; [apply ext_refl|]. split; [reflexivity|]. auto.
  - cbn [forallb] in O. apply andb_true_iff in O as [Or Ol]. change (chain (r :: l) q) with (Cat r (chain l q)) in H. cbn [Regexp.ways] in H. apply in_flat_map in H as (s1 & H1 & H2).
    destruct (IH s1 st' Ol H2) as (w & s2 & E2 & R2 & I2 & C2). destruct (ways_ext _ _ _ _ _ H1) as [u E1]. exists (u ++ w), s2. split; [eapply ext_trans; eauto|].
    split; [|split; [exact I2|]].
    + change (chain (r :: l) Eps) with (Cat r (chain l Eps)). cbn [Spec_Regexp.reads]. exists u, w. split; [reflexivity|]. destruct E1 as [E1 E1']. destruct E2 as [E2 E2']. split.
      * destruct st as [b s k]. cbn in *. subst s. rewrite <- E2. pose proof (ways_reads udigit uword r Or b u (s_after s1) k) as X. apply X. exists (s_caps s1). destruct s1 as [b1 a1 k1]. cbn in *. subst b1. exact H1.
      * rewrite <- E1'. exact R2.
    + intros N. cbn [forallb] in N. apply andb_true_iff in N as [Nr Nl]. rewrite (C2 Nl). exact (ways_same_caps _ _ r Nr _ _ H1).
Qed.
Lemma grp_In n p q st st' : ordered p = true -> no_groups p = true -> In st' (ways udigit uword (Cat (Grp n p) q) st) ->
  exists w st1, ext st st1 w /\ reads udigit uword p (s_before st) w (s_after st1) /\ In st' (ways udigit uword q st1) /\ s_caps st1 = (n, w) :: s_caps st.
Proof.
  intros O N H. cbn [Regexp.ways] in H. apply in_flat_map in H as (s1 & H1 & H2). apply in_map_iff in H1 as (s0 & <- & H1). destruct (ways_ext _ _ _ _ _ H1) as [w E].
  exists w. eexists. split; [|split; [|split; [exact H2|]]].
  - destruct E as [E E']. split; cbn; assumption.
  - cbn. destruct E as [E E']. destruct st as [b s k]. cbn in *. subst s. apply (ways_reads udigit uword p O b w (s_after s0) k). exists (s_caps s0). destruct s0; cbn in *. subst. exact H1.
  - cbn [s_caps]. rewrite (ext_consumed _ _ _ E), (ways_same_caps _ _ p N _ _ H1). reflexivity.
Qed.
Lemma rest_In q st st' : ordered q = true -> no_groups q = true -> In st' (ways udigit uword q st) ->
  exists w, ext st st' w /\ reads udigit uword q (s_before st) w (s_after st') /\ s_caps st' = s_caps st.
Proof.
  intros O N H. destruct (ways_ext _ _ _ _ _ H) as [w E]. exists w. split; [exact E|]. split; [|exact (ways_same_caps _ _ q N _ _ H)].
  destruct E as [E E']. destruct st as [b s k]. cbn in *. subst s. apply (ways_reads udigit uword q O b w (s_after st') k). exists (s_caps st'). destruct st'; cbn in *. subst. exact H.
Qed.

(** gw05 *)
Lemma blank_split : forall x x' c c' (y y' : str), (forall d, In d x -> nonblank d) -> (forall d, In d x' -> nonblank d) -> blank c -> blank c' ->
  x ++ c :: y = x' ++ c' :: y' -> x = x' /\ c = c' /\ y = y'.
Proof.
  induction x as [|d x IH]; intros [|d' x'] c c' y y' H H' B B' E; cbn in E; injection E as E1 E2.
  - auto.
  - subst. exfalso. pose proof (H' d' (or_introl eq_refl)) as K. unfold blank, nonblank in *. congruence.
  - subst. exfalso. pose proof (H c' (or_introl eq_refl)) as K. unfold blank, nonblank in *. congruence.
  - subst d'. destruct (IH x' c c' y y') as (-> & -> & ->); auto; intros; [apply H|apply H']; right; assumption.
Qed.
Lemma fits_text_i s : forall b w a, fits uword (text_i s) b w a <-> lower w = s.
Proof.
  induction s as [|c s IH]; intros b w a; cbn [text_i map Spec_Template.fits].
  - split; [intros ->; reflexivity|destruct w; [reflexivity|discriminate]].
  - split.
    + intros (u & v & -> & H & L & U & F). apply IH in F. destruct u as [|d [|e u]]; cbn in L, U; [lia| |lia]. cbn. rewrite (H d (or_introl eq_refl)). f_equal. exact F.
    + destruct w as [|d w]; [discriminate|]. intros E. cbn in E. injection E as E1 E2. exists [d], w. split; [reflexivity|]. split; [intros e [<-|[]]; exact E1|].
      split; [cbn; lia|]. split; [cbn; lia|]. apply IH. exact E2.
Qed.
Lemma fits_run P b w a : fits uword (some_ P) b w a <-> w <> [] /\ forall c, In c w -> P c.
Proof.
  cbn. split.
  - intros (u & v & -> & H & L & _ & ->). rewrite app_nil_r. split; [destruct u; [cbn in L; lia|discriminate]|exact H].
  - intros [N H]. exists w, []. rewrite app_nil_r. split; [reflexivity|]. split; [exact H|]. split; [destruct w; [congruence|cbn; lia]|]. auto.
Qed.
Definition is_run (p : part) : bool := match p with Run _ _ _ => true | _ => false end.
Lemma fits_free l : forallb is_run l = true -> forall b a b' a' w, fits uword l b w a -> fits uword l b' w a'.
Proof.
  induction l as [|[P lo hi| | |] l IH]; intros F b a b' a' w H; cbn in F; try discriminate; [exact H|].
  destruct H as (u & v & -> & A & B & C & D). exists u, v. split; [reflexivity|]. split; [exact A|]. split; [exact B|]. split; [exact C|]. eapply IH; eauto.
Qed.
Definition gw_tail : re := last_part 17 GW05.
Lemma gw_shape : GW05 =
  chain (map (fun c => Chr true false [IChar c]) ($"from") ++ [Chr true false [ISpace]])
   (Cat (Grp 1 (Rep true 1 None (Chr true false [INotSpace])))
    (chain (Chr true false [ISpace] :: map (fun c => Chr true false [IChar c]) ($"by") ++ [Chr true false [ISpace]])
     (Cat (Grp 2 (Rep true 1 None (Chr true false [INotSpace])))
      (chain (Chr true false [ISpace] :: map (fun c => Chr true false [IChar c]) ($"with") ++ [Chr true false [ISpace]]) gw_tail)))).
Proof. reflexivity. Qed.
Lemma reads_fits r ls l b w a : forms udigit uword r = Some ls -> Forall2 (Forall2 like) ls [l] -> reads udigit uword r b w a -> fits uword l b w a.
Proof.
  intros E F R. apply (reads_forms udigit uword r ls E) in R as (l0 & Hl & R). inversion F as [|x y lx ly A B]; subst. inversion B; subst. destruct Hl as [<-|[]].
  exact (fits_like uword _ _ A _ _ _ R).
Qed.
Lemma one_blank b w a : fits uword (one blank) b w a -> exists c, w = [c] /\ blank c.
Proof. apply fits_one. Qed.
Lemma gw_groups h st : m_ GW05 h = Some st -> g_ 1 st <> [] /\ hop udigit uword (g_ 2 st) h.
Proof.
  intros H. unfold Model_Received.m_ in H. apply match_In in H. rewrite gw_shape in H.
  apply chain_In in H as (w1 & s1 & E1 & R1 & H & C1); [|reflexivity]. specialize (C1 eq_refl).
  apply grp_In in H as (w2 & s2 & E2 & R2 & H & C2); [|reflexivity|reflexivity].
  apply chain_In in H as (w3 & s3 & E3 & R3 & H & C3); [|reflexivity]. specialize (C3 eq_refl).
  apply grp_In in H as (w4 & s4 & E4 & R4 & H & C4); [|reflexivity|reflexivity].
  apply chain_In in H as (w5 & s5 & E5 & R5 & H & C5); [|reflexivity]. specialize (C5 eq_refl).
  apply rest_In in H as (w6 & E6 & R6 & C6); [|vm_compute; reflexivity|vm_compute; reflexivity].
  assert (F1 : fits uword (text_i ($"from") ++ one blank) (s_before (mkS [] h [])) w1 (s_after s1)) by (revert R1; apply reads_fits with (1 := eq_refl); likes).
  assert (F2 : fits uword (some_ nonblank) (s_before s1) w2 (s_after s2)) by (revert R2; apply reads_fits with (1 := eq_refl); likes).
  assert (F3 : fits uword (one blank ++ text_i ($"by") ++ one blank) (s_before s2) w3 (s_after s3)) by (revert R3; apply reads_fits with (1 := eq_refl); likes).
  assert (F4 : fits uword (some_ nonblank) (s_before s3) w4 (s_after s4)) by (revert R4; apply reads_fits with (1 := eq_refl); likes).
  assert (F5 : fits uword (one blank ++ text_i ($"with") ++ one blank) (s_before s4) w5 (s_after s5)) by (revert R5; apply reads_fits with (1 := eq_refl); likes).
  assert (F6 : fits uword (stamp udigit) (s_before s5) w6 (s_after st)) by (revert R6; apply reads_fits with (1 := eq_refl); likes).
  clear R1 R2 R3 R4 R5 R6. destruct E1 as [E1 _], E2 as [E2 _], E3 as [E3 _], E4 as [E4 _], E5 as [E5 _], E6 as [E6 _]. cbn [s_after] in E1.
  apply fits_app in F1 as (f & x1 & -> & F1 & B1). apply fits_text_i in F1. apply one_blank in B1 as (b1 & -> & B1).
  apply fits_run in F2.
  apply fits_app in F3 as (x2 & y2 & -> & B2 & F3). apply one_blank in B2 as (b2 & -> & B2). apply fits_app in F3 as (by_ & x3 & -> & F3 & B3). apply fits_text_i in F3. apply one_blank in B3 as (b3 & -> & B3).
  apply fits_run in F4.
  apply fits_app in F5 as (x4 & y4 & -> & B4 & F5). apply one_blank in B4 as (b4 & -> & B4). apply fits_app in F5 as (with_ & x5 & -> & F5 & B5). apply fits_text_i in F5. apply one_blank in B5 as (b5 & -> & B5).
  assert (G1 : g_ 1 st = w2) by (unfold g_; rewrite C6, C5, C4, C3, C2, C1; reflexivity).
  assert (G2 : g_ 2 st = w4) by (unfold g_; rewrite C6, C5, C4, C3, C2, C1; reflexivity). rewrite G1, G2. split; [apply F2|].
  exists f, b1, w2, b2, by_, b3, b4, with_, b5, (w6 ++ s_after st). split.
  - rewrite E1, E2, E3, E4, E5, E6. rewrite <- !app_assoc. reflexivity.
  - split; [exact F1|]. split; [exact F3|]. split; [exact F5|]. split; [exact B1|]. split; [exact B2|]. split; [exact B3|]. split; [exact B4|]. split; [exact B5|].
    split; [exact F2|]. split; [exact F4|]. exists (stamp udigit), w6, (s_after st). split; [left; reflexivity|]. split; [reflexivity|]. eapply fits_free; [reflexivity|exact F6].
Qed.
Lemma gw_matches h server : hop udigit uword server h -> exists st, m_ GW05 h = Some st.
Proof.
  intros (f & b1 & name & b2 & by_ & b3 & b4 & with_ & b5 & rest & -> & F1 & F3 & F5 & B1 & B2 & B3 & B4 & B5 & F2 & F4 & (l & w & y & [<-|[]] & -> & F6)).
  match goal with |- exists st, m_ GW05 ?h = _ => assert (S : starts uword [text_i ($"from") ++ one blank ++ some_ nonblank ++ one blank ++ text_i ($"by") ++ one blank ++ some_ nonblank ++ one blank ++ text_i ($"with") ++ one blank ++ stamp udigit] h) end.
  { eexists _, (f ++ [b1] ++ name ++ [b2] ++ by_ ++ [b3] ++ server ++ [b4] ++ with_ ++ [b5] ++ w), y. split; [left; reflexivity|]. split; [rewrite <- !app_assoc; reflexivity|].
    apply fits_app. eexists f, _. split; [reflexivity|]. split; [apply fits_text_i, F1|].
    apply fits_app. eexists [b1], _. split; [reflexivity|]. split; [apply fits_one; eauto|].
    apply fits_app. eexists name, _. split; [reflexivity|]. split; [apply fits_run, F2|].
    apply fits_app. eexists [b2], _. split; [reflexivity|]. split; [apply fits_one; eauto|].
    apply fits_app. eexists by_, _. split; [reflexivity|]. split; [apply fits_text_i, F3|].
    apply fits_app. eexists [b3], _. split; [reflexivity|]. split; [apply fits_one; eauto|].
    apply fits_app. eexists server, _. split; [reflexivity|]. split; [apply fits_run, F4|].
    apply fits_app. eexists [b4], _. split; [reflexivity|]. split; [apply fits_one; eauto|].
    apply fits_app. eexists with_, _. split; [reflexivity|]. split; [apply fits_text_i, F5|].
    apply fits_app. eexists [b5], _. split; [reflexivity|]. split; [apply fits_one; eauto|].
    eapply fits_free; [reflexivity|exact F6]. }
  assert (M : forall h, matched (m_ GW05 h) = true <-> starts uword [text_i ($"from") ++ one blank ++ some_ nonblank ++ one blank ++ text_i ($"by") ++ one blank ++ some_ nonblank ++ one blank ++ text_i ($"with") ++ one blank ++ stamp udigit] h).
  { intros h. unfold Model_Received.m_. apply match_starts with (udigit := udigit) (2 := eq_refl); [vm_compute; reflexivity|likes]. }
  apply M in S. destruct (m_ GW05 _) as [st|]; [eauto|discriminate].
Qed.
Lemma lower_blank c : blank c -> blank (lower_char c).
Proof.
  unfold blank, lower_char. destruct (N.leb_spec 65 c), (N.leb_spec c 90); cbn [andb]; auto. intros K. rewrite letter_not_space in K by lia. discriminate.
Qed.
Lemma keyword_nonblank f s : lower f = s -> (forall c, In c s -> nonblank c) -> forall c, In c f -> nonblank c.
Proof.
  intros <- H c Hc. unfold nonblank. destruct (is_space c) eqn:E; [|reflexivity]. exfalso. apply lower_blank in E.
  assert (K : nonblank (lower_char c)) by (apply H; unfold lower; apply in_map; exact Hc). unfold nonblank, blank in *. congruence.
Qed.
Lemma hop_unique s1 s2 h : hop udigit uword s1 h -> hop udigit uword s2 h -> s1 = s2.
Proof.
  assert (K : forall s f, lower f = s -> forallb (fun c => negb (is_space c)) s = true -> forall c, In c f -> nonblank c).
  { intros s f E A. apply (keyword_nonblank f s E). intros c Hc. rewrite forallb_forall in A. specialize (A c Hc). apply negb_true_iff in A. exact A. }
  intros (f & b1 & name & b2 & by_ & b3 & b4 & with_ & b5 & rest & -> & F1 & F3 & F5 & B1 & B2 & B3 & B4 & B5 & F2 & F4 & _)
    (f' & b1' & name' & b2' & by_' & b3' & b4' & with_' & b5' & rest' & E & F1' & F3' & F5' & B1' & B2' & B3' & B4' & B5' & F2' & F4' & _).
  apply blank_split in E as (_ & _ & E); [|exact (K _ _ F1 eq_refl)|exact (K _ _ F1' eq_refl)|assumption|assumption].
  apply blank_split in E as (_ & _ & E); [|apply F2|apply F2'|assumption|assumption].
  apply blank_split in E as (_ & _ & E); [|exact (K _ _ F3 eq_refl)|exact (K _ _ F3' eq_refl)|assumption|assumption].
  apply blank_split in E as (E & _ & _); [exact E|apply F4|apply F4'|assumption|assumption].
Qed.
Lemma gw05_iff m : check_for_forged_gw05_received_headers udigit uword m = true <->
  exists h server, In h (decoded m ($"received")) /\ hop udigit uword server h /\ server <> $".".
Proof.
  unfold check_for_forged_gw05_received_headers. rewrite existsb_exists. split.
  - intros (h & Hh & H). destruct (m_ GW05 h) as [st|] eqn:E; [|discriminate]. apply gw_groups in E as [_ E]. exists h, (g_ 2 st). split; [exact Hh|]. split; [exact E|].
    rewrite !andb_true_iff, !negb_true_iff in H. destruct H as [_ H]. apply streqb_neq in H. exact H.
  - intros (h & server & Hh & H & N). exists h. split; [exact Hh|]. destruct (gw_matches h server H) as [st E]. rewrite E. destruct (gw_groups h st E) as [G1 G2].
    pose proof (hop_unique _ _ _ G2 H) as ->. destruct (g_ 1 st); [congruence|]. cbn [nil_ negb andb].
    assert (NE : server <> []).
    { clear - H. destruct H as (f & b1 & name & b2 & by_ & b3 & b4 & with_ & b5 & rest & _ & _ & _ & _ & _ & _ & _ & _ & _ & _ & K & _). apply K. }
    destruct server; [congruence|]. cbn [nil_ negb andb].
    apply negb_true_iff. apply streqb_neq. exact N.
Qed.

(** Lines *)
Lemma join_parts c p (l : str) q : exists x y, join [c] (p ++ l :: q) = x ++ l ++ y /\ (x = [] \/ exists x', x = x' ++ [c]) /\ (y = [] \/ exists y', y = c :: y').
Proof.
  assert (Q : exists y, join [c] (l :: q) = l ++ y /\ (y = [] \/ exists y', y = c :: y')).
  { destruct q as [|w q]; [exists []; rewrite app_nil_r; auto|]. exists (c :: join [c] (w :: q)). split; [apply join_cons_sep; discriminate|right; eauto]. }
  destruct Q as (y & Q & Y). induction p as [|w p (x & y' & E & X & Y')].
  - exists [], y. cbn [app]. auto.
  - exists (w ++ c :: x), y'. cbn [app]. rewrite join_cons_sep by (destruct p; discriminate). rewrite E. rewrite <- app_assoc. split; [reflexivity|]. split; [|exact Y'].
    right. destruct X as [->|(x' & ->)]; [exists w; reflexivity|exists (w ++ c :: x'); rewrite <- app_assoc; reflexivity].
Qed.
Lemma split_char_at c a b : split_char c (a ++ c :: b) = split_char c a ++ split_char c b.
Proof.
  induction a as [|d a IH]; cbn [app split_char]; [rewrite N.eqb_refl; reflexivity|]. rewrite IH. destruct (N.eqb d c); [reflexivity|].
  pose proof (split_char_nonempty c a) as NE. destruct (split_char c a); [congruence|reflexivity].
Qed.
Lemma line_iff s l : In l (split_char 10%N s) <-> line_of l s.
Proof.
  split.
  - intros H. split; [exact (split_char_no_sep 10%N s l H)|].
    rewrite <- (join_split_char 10%N s). apply in_split in H as (p & q & ->). apply join_parts.
  - intros (N & x & y & -> & X & Y).
    assert (T : In l (split_char 10%N (l ++ y))).
    { destruct Y as [->|(y' & ->)]; [rewrite app_nil_r, Proofs_FreeMail.split_char_none by exact N; left; reflexivity|].
      rewrite split_char_at, Proofs_FreeMail.split_char_none by exact N. left. reflexivity. }
    destruct X as [->|(x' & ->)]; [exact T|]. rewrite <- app_assoc. cbn [app]. rewrite split_char_at. apply in_or_app. right. exact T.
Qed.
Lemma template_iff m : check_unresolved_template udigit uword m = true <->
  exists l, line_of l (raw_text m) /\ has placeholder l /\ forall f t, In f free_fields -> lower l <> f ++ $":" ++ t.
Proof.
  unfold check_unresolved_template. rewrite existsb_exists.
  assert (E : forall l, s_ TEMPLATE l && negb (s_ TEMPLATE_OK (lower l)) = true <-> has placeholder l /\ forall f t, In f free_fields -> lower l <> f ++ $":" ++ t).
  { intros l. rewrite andb_true_iff, negb_true_iff, s_template. pose proof (s_template_ok (lower l)) as T.
    rewrite (has_begin_text (map (fun f => f ++ $":") free_fields)) in T.
    - split; intros [A B]; (split; [exact A|]).
      + intros f t Hf El. rewrite B in T. assert (false = true); [|discriminate]. apply T. exists (f ++ $":"), t. rewrite <- app_assoc. split; [apply (in_map (fun f => f ++ $":")); exact Hf|exact El].
      + destruct (s_ TEMPLATE_OK (lower l)); [|reflexivity]. destruct (proj1 T eq_refl) as (f & t & Hf & El). apply in_map_iff in Hf as (g & <- & Hg). exfalso. apply (B g t Hg). rewrite El, <- app_assoc. reflexivity.
    - intros x. rewrite in_map_iff. split; [intros (f & <- & Hf); exists (f ++ $":"); split; [apply (in_map (fun f => f ++ $":")); exact Hf|reflexivity]|].
      intros (g & Hg & ->). apply in_map_iff in Hg as (f & <- & Hf). exists f. auto. }
  split; intros (l & Hl & H); exists l; (split; [apply line_iff; exact Hl|apply E; exact H]).
Qed.

(** Message identifiers that lists and gateways rewrite *)
Lemma not_usable_value m : match check_messageid_not_usable udigit uword m with
  | Some b => b = true <-> (exists l, first_of m ($"list-unsubscribe") = Some l /\ has unsubscribe l) \/ headers_removed udigit uword m \/
      exists r, first_of m ($"received") = Some r /\ (part_of ($"/CWT/DCE)") r \/ part_of ($"iPlanet Messaging Server") r)
  | None => first_of m ($"received") = None
  end.
Proof.
  assert (U : match first_of m ($"list-unsubscribe") with Some l => negb (nil_ l) && s_ UNSUBSCRIBE l | None => false end = true <->
     exists l, first_of m ($"list-unsubscribe") = Some l /\ has unsubscribe l).
  { destruct (first_of m ($"list-unsubscribe")) as [l|]; [|split; [discriminate|intros (l & E & _); discriminate E]]. rewrite andb_true_iff, s_unsubscribe. split; [intros [_ H]; eauto|].
    intros (l' & E & H). injection E as <-. split; [|exact H]. destruct l; [exfalso|reflexivity]. apply s_unsubscribe in H. vm_compute in H. discriminate H. }
  unfold check_messageid_not_usable. pose proof (gated_iff m) as G.
  destruct (match first_of m ($"list-unsubscribe") with Some l => _ | None => false end); [tauto|].
  destruct (gated_through_received_hdr_remover _ _ m); [tauto|]. destruct (first_of m ($"received")) as [r|]; [|reflexivity].
  rewrite orb_true_iff, s_cwt, s_iplanet, !has_text. split.
  - intros H. right. right. eauto.
  - intros [H|[H|(r' & E & H)]]; [apply U in H; discriminate|apply G in H; discriminate|]. injection E as <-. exact H.
Qed.

(** The recipient in the subject *)
Fixpoint lits (ci : bool) (s : str) : list part := match s with [] => [] | c :: r => Run (fun d => class_in udigit uword ci false [IChar c] d = true) 1 (Some 1) :: lits ci r end.
Lemma forms_escaped ci s : forms udigit uword (escaped ci s) = Some [lits ci s].
Proof. induction s as [|c s IH]; [reflexivity|]. cbn [escaped forms lits]. rewrite IH. reflexivity. Qed.
Lemma lits_text s : Forall2 like (lits false s) (text s).
Proof. induction s as [|c s IH]; constructor; [|exact IH]. apply like_run. intros d. apply cls_char. Qed.
Lemma lits_text_i s : Forall2 like (lits true s) (text_i (lower s)).
Proof. induction s as [|c s IH]; constructor; [|exact IH]. apply like_run. intros d. apply cls_char_i. reflexivity. Qed.
Lemma ordered_escaped ci s : ordered (escaped ci s) = true.
Proof. induction s as [|c s IH]; [reflexivity|]. cbn. exact IH. Qed.
Lemma s_address_test a h : s_ (Cat dots (Cat (escaped true a) dots)) h = true <-> part_of (lower a) (lower h).
Proof.
  assert (E : s_ (Cat dots (Cat (escaped true a) dots)) h = true <-> has [many anyc ++ text_i (lower a) ++ many anyc] h).
  { unfold Model_Received.s_. eapply search_has with (udigit := udigit).
    - cbn. rewrite ordered_escaped. reflexivity.
    - unfold dots. cbn [forms]. rewrite forms_escaped. cbn [flat_map map app]. reflexivity.
    - constructor; [|constructor]. constructor; [apply like_run; intros c; reflexivity|]. apply Forall2_app; [apply lits_text_i|]. constructor; [apply like_run; intros c; reflexivity|constructor]. }
  rewrite E. unfold Spec_Template.has, part_of. split.
  - intros (l & x & w & y & [<-|[]] & -> & F). apply fits_app in F as (u & v & -> & _ & F). apply fits_app in F as (u' & v' & -> & F & _). apply fits_text_i in F.
    exists (lower (x ++ u)), (lower (v' ++ y)). rewrite <- F. unfold lower. rewrite <- !map_app, <- !app_assoc. reflexivity.
  - intros (x & y & H). unfold lower in H. apply map_eq_app in H as (x0 & r & -> & <- & H). apply map_eq_app in H as (w & y0 & -> & H & <-).
    eexists _, x0, w, y0. split; [left; reflexivity|]. split; [reflexivity|]. apply fits_app. exists [], w. split; [reflexivity|]. split; [exists [], []; cbn; intuition|].
    apply fits_app. exists w, []. rewrite app_nil_r. split; [reflexivity|]. split; [apply fits_text_i; exact H|exists [], []; cbn; intuition].
Qed.
Lemma to_in_subject_address m : check_for_to_in_subject udigit uword ($"address") m = true <->
  exists a, In a (addresses m ($"to")) /\ part_of (lower a) (lower (subject_of m)).
Proof.
  unfold check_for_to_in_subject. rewrite existsb_exists. change (streqb ($"address") ($"address")) with true. cbn iota. fold (subject_of m).
  split; intros (a & Ha & H); exists a; (split; [exact Ha|apply s_address_test; exact H]).
Qed.
Lemma cls_mark c : class_in udigit uword false false (map IChar ($",:;!?-")) c = true <-> mark c.
Proof.
  unfold class_in, mark. assert (E : forall l, existsb (item_in udigit uword c) (map IChar l) = true <-> In c l).
  { induction l as [|x l IH]; cbn; [split; [discriminate|intros []]|]. rewrite orb_true_iff, IH, N.eqb_eq. intuition congruence. }
  rewrite <- E. destruct (existsb _ _); cbn; tauto.
Qed.
Lemma cls_blank c : class_in udigit uword false false [ISpace] c = true <-> blank c.
Proof. unfold class_in, blank. cbn. destruct (is_space c); cbn; split; congruence. Qed.
Lemma has_app ls ms h : has (ls ++ ms) h <-> has ls h \/ has ms h.
Proof.
  unfold Spec_Template.has. split.
  - intros (l & x & w & y & Hl & R). apply in_app_or in Hl as [Hl|Hl]; [left|right]; eauto 7.
  - intros [(l & x & w & y & Hl & R)|(l & x & w & y & Hl & R)]; exists l, x, w, y; (split; [apply in_or_app; auto|exact R]).
Qed.
Ltac dlike := repeat first [apply Forall2_nil | apply Forall2_cons | apply Forall2_app; [solve [apply lits_text]|]];
  first [apply like_run; intros ?c; first [apply cls_mark | apply cls_blank | apply cls_word | apply cls_char | reflexivity] | constructor].
Lemma user_patterns_iff u h : existsb (fun r => s_ r h) (user_patterns u) = true <-> has (greets uword u) h.
Proof.
  unfold user_patterns. set (e := escaped false u). cbn [existsb]. rewrite !orb_true_iff.
  assert (O : ordered e = true) by apply ordered_escaped. assert (F : forms udigit uword e = Some [lits false u]) by apply forms_escaped.
  change (greets uword u) with ([[Begin] ++ text u ++ [End]] ++
   ([text ($"re:") ++ many blank ++ text u ++ [End];
   text ($"re:") ++ many blank ++ some_ (wordc uword) ++ some_ blank ++ text u ++ [End];
   text ($"fw:") ++ many blank ++ text u ++ [End];
   text ($"fw:") ++ many blank ++ some_ (wordc uword) ++ some_ blank ++ text u ++ [End]] ++
   ([many blank ++ text u ++ one mark ++ [End]] ++ [[Begin] ++ text u ++ many blank ++ one mark ++ one blank ++ many anyc]))).
  rewrite !has_app. unfold Model_Received.s_.
  assert (A1 : matched (re_search udigit uword (Cat Bos (Cat e Eos)) h) = true <-> has [[Begin] ++ text u ++ [End]] h).
  { eapply search_has with (udigit := udigit); [cbn; rewrite O; reflexivity|cbn [forms]; rewrite F; cbn [flat_map map app]; reflexivity|]. dlike. }
  assert (A3 : matched (re_search udigit uword (Cat (Rep true 0 None (Chr false false [ISpace])) (Cat e (Cat (Chr false false (map IChar ($",:;!?-"))) Eos))) h) = true
     <-> has [many blank ++ text u ++ one mark ++ [End]] h).
  { eapply search_has with (udigit := udigit); [cbn; rewrite O; reflexivity|cbn [forms]; rewrite F; cbn [flat_map map app]; reflexivity|]. dlike. }
  assert (A4 : matched (re_search udigit uword (Cat Bos (Cat e (Cat (Rep true 0 None (Chr false false [ISpace])) (Cat (Chr false false (map IChar ($",:;!?-"))) (Cat (Grp 1 (Chr false false [ISpace])) dots))))) h) = true
     <-> has [[Begin] ++ text u ++ many blank ++ one mark ++ one blank ++ many anyc] h).
  { eapply search_has with (udigit := udigit); [cbn; rewrite O; reflexivity|unfold dots; cbn [forms]; rewrite F; cbn [flat_map map app]; reflexivity|]. dlike. }
  assert (A2 : matched (re_search udigit uword (Cat (Alt (escaped false ($"re")) (escaped false ($"fw"))) (Cat (Chr false false [IChar 58%N]) (Cat (Rep true 0 None (Chr false false [ISpace]))
     (Cat (Rep true 0 (Some 1) (Cat (Rep true 1 None (Chr false false [IWord])) (Rep true 1 None (Chr false false [ISpace])))) (Cat e Eos))))) h) = true
     <-> has [text ($"re:") ++ many blank ++ text u ++ [End];
   text ($"re:") ++ many blank ++ some_ (wordc uword) ++ some_ blank ++ text u ++ [End];
   text ($"fw:") ++ many blank ++ text u ++ [End];
   text ($"fw:") ++ many blank ++ some_ (wordc uword) ++ some_ blank ++ text u ++ [End]] h).
  { eapply search_has with (udigit := udigit); [cbn; rewrite O; reflexivity|cbn [forms]; rewrite F, !forms_escaped; cbn [flat_map map app option_map]; reflexivity|]. dlike. }
  rewrite A1, A2, A3, A4. intuition discriminate.
Qed.
Lemma only_one (c : char) : forall u w d e, ~ In c u -> ~ In c d -> w ++ c :: e = u ++ c :: d -> w = u.
Proof.
  induction u as [|x u IH]; intros w d e U D E.
  - destruct w as [|y w]; [reflexivity|]. cbn in E. injection E as _ E. exfalso. apply D. rewrite <- E. apply in_or_app. right. left. reflexivity.
  - destruct w as [|y w]; cbn in E; injection E as E1 E2.
    + exfalso. apply U. left. symmetry. exact E1.
    + subst y. f_equal. eapply IH; [| |exact E2]; [intros K; apply U; right; exact K|exact D].
Qed.
Lemma user_group u d : word u -> ~ In 64%N u -> ~ In 64%N d -> exists st, m_ USER_RE (u ++ $"@" ++ d) = Some st /\ g_ 1 st = u.
Proof.
  intros [NE W] U D.
  assert (M : matched (m_ USER_RE (u ++ $"@" ++ d)) = true).
  { unfold Model_Received.m_. eapply match_starts with (udigit := udigit) (2 := eq_refl) (ms := [some_ nonblank ++ text ($"@") ++ many anyc]); [vm_compute; reflexivity|likes|].
    exists (some_ nonblank ++ text ($"@") ++ many anyc), (u ++ $"@"), d. split; [left; reflexivity|]. split; [rewrite <- app_assoc; reflexivity|].
    apply fits_app. exists u, ($"@"). split; [reflexivity|]. split; [apply fits_run; auto|]. apply fits_app. exists ($"@"), []. split; [reflexivity|]. split; [apply fits_text; reflexivity|].
    exists [], []. cbn. intuition. }
  destruct (m_ USER_RE (u ++ $"@" ++ d)) as [st|] eqn:E; [|discriminate]. exists st. split; [reflexivity|]. unfold Model_Received.m_ in E. apply match_In in E.
  change USER_RE with (Cat (Grp 1 (Rep true 1 None (Chr false false [INotSpace]))) (last_part 1 USER_RE)) in E.
  apply grp_In in E as (w & s1 & E1 & R1 & H & C1); [|reflexivity|reflexivity].
  apply rest_In in H as (v & E2 & R2 & C2); [|vm_compute; reflexivity|vm_compute; reflexivity].
  assert (G : g_ 1 st = w) by (unfold g_; rewrite C2, C1; reflexivity). rewrite G.
  assert (F2 : fits uword (text ($"@") ++ many anyc) (s_before s1) v (s_after st)) by (revert R2; apply reads_fits with (1 := eq_refl); likes).
  apply fits_app in F2 as (a & b & -> & F2 & _). apply fits_text in F2 as ->. destruct E1 as [E1 _], E2 as [E2 _]. cbn [s_after] in E1. rewrite E2 in E1.
  rewrite <- !app_assoc in E1. change ($"@" ++ d) with ([64%N] ++ d) in E1. cbn [app] in E1. change (u ++ 64%N :: d = w ++ 64%N :: (b ++ s_after st)) in E1.
  symmetry in E1. exact (only_one 64%N u w d (b ++ s_after st) U D E1).
Qed.
Lemma to_in_subject_user m u d : addresses m ($"to") = [u ++ $"@" ++ d] -> word u -> ~ In 64%N u -> ~ In 64%N d ->
  check_for_to_in_subject udigit uword ($"user") m = true <-> has (greets uword u) (subject_of m).
Proof.
  intros A W U D. unfold check_for_to_in_subject. rewrite A. fold (subject_of m). cbn [existsb]. change (streqb ($"user") ($"address")) with false. change (streqb ($"user") ($"user")) with true. cbn iota.
  destruct (user_group u d W U D) as (st & -> & ->). rewrite orb_false_r. apply user_patterns_iff.
Qed.

(** Outlook *)
Lemma search_first r : forall s b st, search_from udigit uword r b s = Some st ->
  exists u v, s = u ++ v /\ In st (ways udigit uword r (mkS (rev u ++ b) v [])) /\
    forall u' v', s = u' ++ v' -> length u' < length u -> ways udigit uword r (mkS (rev u' ++ b) v' []) = [].
Proof.
  induction s as [|c s IH]; intros b st H; cbn [search_from] in H.
  - destruct (ways udigit uword r (mkS b [] [])) as [|x l] eqn:E; [discriminate|]. injection H as ->. exists [], []. split; [reflexivity|].
    split; [cbn; rewrite E; left; reflexivity|]. intros u' v' _ L. cbn in L. lia.
  - destruct (ways udigit uword r (mkS b (c :: s) [])) as [|x l] eqn:E.
    + destruct (IH _ _ H) as (u & v & -> & K & F). exists (c :: u), v. split; [reflexivity|]. split; [cbn [rev]; rewrite <- app_assoc; exact K|].
      intros [|d u'] v' Es L; cbn [app] in Es; [subst v'; exact E|]. injection Es as <- Es. cbn [rev]. rewrite <- app_assoc. apply (F u' v' Es). cbn in L. lia.
    + injection H as ->. exists [], (c :: s). split; [reflexivity|]. split; [cbn; rewrite E; left; reflexivity|]. intros u' v' _ L. cbn in L. lia.
Qed.
Lemma cls_hex c : class_in udigit uword false false [IRange 48 57; IRange 97 102] c = true <-> (48 <= c <= 57 \/ 97 <= c <= 102)%N.
Proof.
  unfold class_in. cbn [existsb item_in xorb andb]. rewrite !orb_false_r, <- !range_iff. destruct (N.leb 48 c && N.leb c 57), (N.leb 97 c && N.leb c 102); cbn; intuition congruence.
Qed.
Definition hexd (c : char) : Prop := (48 <= c <= 57 \/ 97 <= c <= 102)%N.
Ltac hlikes := repeat (apply Forall2_cons || apply Forall2_nil); first [apply like_run; first [cls | intros ?c; first [apply cls_hex | apply cls_blank]] | constructor].
Lemma fits_exactly n P b w a : fits uword (exactly n P) b w a <-> length w = n /\ forall c, In c w -> P c.
Proof.
  cbn. split.
  - intros (u & v & -> & H & L & U & ->). rewrite app_nil_r. split; [lia|exact H].
  - intros [<- H]. exists w, []. rewrite app_nil_r. split; [reflexivity|]. split; [exact H|]. split; [lia|]. split; [lia|reflexivity].
Qed.
Lemma app_len (a b x y : str) : a ++ x = b ++ y -> length a = length b -> a = b /\ x = y.
Proof.
  revert b. induction a as [|c a IH]; intros [|d b] E L; cbn in L; try discriminate; [auto|]. cbn in E. injection E as -> E. destruct (IH b E) as [-> ->]; [lia|auto].
Qed.
Lemma outlook_token h token : search_group udigit uword OUTLOOK_ID 1 h = Some token <-> outlook_id token h.
Proof.
  assert (A : forall st, re_search udigit uword OUTLOOK_ID h = Some st -> outlook_id (g_ 1 st) h).
  { intros st E. unfold re_search in E. apply search_In in E as (u & v & -> & H). rewrite app_nil_r in H.
    change OUTLOOK_ID with (chain [Bos; Chr false false [IChar 60%N]; Rep true 4 (Some 4) (Chr false false [IRange 48 57; IRange 97 102])]
      (Cat (Grp 1 (Rep true 8 (Some 8) (Chr false false [IRange 48 57; IRange 97 102]))) (last_part 4 OUTLOOK_ID))) in H.
    apply chain_In in H as (w1 & s1 & E1 & R1 & H & C1); [|reflexivity]. specialize (C1 eq_refl).
    apply grp_In in H as (w2 & s2 & E2 & R2 & H & C2); [|reflexivity|reflexivity].
    apply rest_In in H as (w3 & E3 & R3 & C3); [|vm_compute; reflexivity|vm_compute; reflexivity].
    assert (F1 : fits uword ([Begin] ++ text ($"<") ++ exactly 4 hexd) (rev u) w1 (s_after s1)) by (revert R1; apply reads_fits with (1 := eq_refl); hlikes).
    assert (F2 : fits uword (exactly 8 hexd) (s_before s1) w2 (s_after s2)) by (revert R2; apply reads_fits with (1 := eq_refl); hlikes).
    assert (F3 : fits uword (text ($"$") ++ exactly 8 hexd ++ text ($"$") ++ exactly 8 hexd ++ text ($"@")) (s_before s2) w3 (s_after st)) by (revert R3; apply reads_fits with (1 := eq_refl); hlikes).
    destruct E1 as [E1 _], E2 as [E2 _], E3 as [E3 _]. cbn [s_after] in E1.
    change (rev u = [] /\ fits uword (text ($"<") ++ exactly 4 hexd) (rev u) w1 (s_after s1)) in F1. destruct F1 as [U F1]. apply (f_equal (@rev char)) in U. rewrite rev_involutive in U. subst u.
    apply fits_app in F1 as (x & a & -> & X & F1). apply fits_text in X as ->. apply fits_exactly in F1. apply fits_exactly in F2.
    apply fits_app in F3 as (x & y & -> & X & F3). apply fits_text in X as ->. apply fits_app in F3 as (b & y' & -> & F4 & F3). apply fits_exactly in F4.
    apply fits_app in F3 as (x & y & -> & X & F3). apply fits_text in X as ->. apply fits_app in F3 as (c & y' & -> & F5 & F3). apply fits_exactly in F5. apply fits_text in F3 as ->.
    assert (G : g_ 1 st = w2) by (unfold g_; rewrite C3, C2, C1; reflexivity). rewrite G. exists a, b, c, (s_after st). split.
    - cbn [app]. rewrite E1, E2, E3. rewrite <- !app_assoc. reflexivity.
    - split; [exact F1|]. split; [exact F2|]. split; [exact F4|exact F5]. }
  split.
  - unfold search_group. intros H. destruct (re_search _ _ _ h) as [st|]; [|discriminate]. injection H as <-. apply A. reflexivity.
  - intros H. assert (S : s_ OUTLOOK_ID h = true).
    { destruct H as (a & b & c & t & -> & Ha & Ht & Hb & Hc). unfold Model_Received.s_.
      eapply search_has with (udigit := udigit) (2 := eq_refl) (ms := [[Begin] ++ text ($"<") ++ exactly 4 hexd ++ exactly 8 hexd ++ text ($"$") ++ exactly 8 hexd ++ text ($"$") ++ exactly 8 hexd ++ text ($"@")]);
        [vm_compute; reflexivity|hlikes|].
      eexists _, [], ($"<" ++ a ++ token ++ $"$" ++ b ++ $"$" ++ c ++ $"@"), t. split; [left; reflexivity|]. split; [rewrite <- !app_assoc; reflexivity|].
      split; [reflexivity|]. apply (fits_app uword (text ($"<"))). eexists _, _. split; [reflexivity|]. split; [apply fits_text; reflexivity|].
      apply fits_app. eexists _, _. split; [reflexivity|]. split; [apply fits_exactly, Ha|]. apply fits_app. eexists _, _. split; [reflexivity|]. split; [apply fits_exactly, Ht|].
      apply fits_app. eexists _, _. split; [reflexivity|]. split; [apply fits_text; reflexivity|]. apply fits_app. eexists _, _. split; [reflexivity|]. split; [apply fits_exactly, Hb|].
      apply fits_app. eexists _, _. split; [reflexivity|]. split; [apply fits_text; reflexivity|]. apply fits_app. eexists _, _. split; [reflexivity|]. split; [apply fits_exactly, Hc|].
      apply fits_text. reflexivity. }
    unfold search_group. unfold Model_Received.s_ in S. destruct (re_search _ _ _ h) as [st|]; [|discriminate]. specialize (A st eq_refl). f_equal.
    destruct H as (a & b & c & t & -> & (La & _) & (Lt & _) & _). destruct A as (a' & b' & c' & t' & E & (La' & _) & (Lt' & _) & _).
    apply app_inv_head in E. apply app_len in E as [_ E]; [|congruence]. apply app_len in E as [E _]; [|congruence]. symmetry. exact E.
Qed.
Lemma hex_ok s n : hex_value s n -> hex s = n.
Proof.
  unfold hex. induction 1 as [|s n c H IH R|s n c H IH R]; [reflexivity| |].
  - rewrite fold_left_app. cbn [fold_left]. rewrite N2Z.inj_add, N2Z.inj_mul, IH. unfold hex_digit. destruct (N.leb_spec c 57); lia.
  - rewrite fold_left_app. cbn [fold_left]. rewrite N2Z.inj_add, N2Z.inj_mul, IH. unfold hex_digit. destruct (N.leb_spec c 57); lia.
Qed.
Lemma near_ok n d : (0 <= d)%Z -> near n (ticks d) = true <-> same_time n d.
Proof.
  intros D. unfold near. rewrite Z.ltb_lt.
  assert (T : ticks d = ((23283064365387 * d + 271119028329849 * 1000000000) / 10000000000000000)%Z).
  { unfold ticks. set (q := (inject_Z d * (23283064365387 # 10000000000000000) + (271119028329849 # 10000000))%Q).
    assert (E : (q == (23283064365387 * d + 271119028329849 * 1000000000) # 10000000000000000)%Q).
    { unfold q, inject_Z, Qeq. cbn [Qplus Qmult Qnum Qden]. lia. }
    assert (P : Qle_bool 0 q = true) by (apply Qle_bool_iff; rewrite E; unfold Qle; cbn [Qnum Qden]; lia). rewrite P, E. reflexivity. }
  set (A := (23283064365387 * d + 271119028329849 * 1000000000)%Z) in *. unfold same_time. fold A. rewrite T.
  pose proof (Z.div_mod A 10000000000000000 ltac:(lia)) as DM. pose proof (Z.mod_pos_bound A 10000000000000000 ltac:(lia)) as MB. split.
  - intros H. exists (A / 10000000000000000)%Z. lia.
  - intros (k & Hk & H1 & H2). assert (k = A / 10000000000000000)%Z by nia. subst k. lia.
Qed.
Section Outlook.
Variable mktime : option str -> option Z.
Notation outlook := (check_outlook_message_id udigit uword mktime).
Lemma outlook_other m : (forall id, first_of m ($"message-id") = Some id -> forall token, ~ outlook_id token id) -> outlook m = Some false.
Proof.
  intros H. unfold check_outlook_message_id. destruct (first_of m ($"message-id")) as [[|c id]|]; [reflexivity| |reflexivity].
  destruct (search_group udigit uword OUTLOOK_ID 1 (c :: id)) as [token|] eqn:E; [|reflexivity]. exfalso. apply outlook_token in E. exact (H _ eq_refl _ E).
Qed.
Lemma fits_before l : forallb (fun p => match p with Run _ _ _ | End => true | _ => false end) l = true -> forall b b' w a, fits uword l b w a -> fits uword l b' w a.
Proof.
  induction l as [|[P lo hi| | |] l IH]; intros F b b' w a H; cbn in F; try discriminate; [exact H| |].
  - destruct H as (u & v & -> & A & B & C & D). exists u, v. split; [reflexivity|]. split; [exact A|]. split; [exact B|]. split; [exact C|]. eapply IH; eauto.
  - destruct H as [E H]. split; [exact E|]. eapply IH; eauto.
Qed.
Lemma date_at b v : ways udigit uword (Grp 0 RCVD_DATE) (mkS b v []) <> [] <-> starts uword (date_form udigit) v.
Proof.
  assert (L : forall b w a, reads udigit uword (Grp 0 RCVD_DATE) b w a <-> exists l, In l (date_form udigit) /\ fits uword l b w a).
  { intros b0 w a. split.
    - intros R. eexists. split; [left; reflexivity|]. revert R. apply reads_fits with (1 := eq_refl). hlikes.
    - intros (l & [<-|[]] & F). apply (reads_forms udigit uword (Grp 0 RCVD_DATE) _ eq_refl b0 w a). eexists. split; [left; reflexivity|]. revert F. apply fits_like. apply likes_sym. hlikes. }
  split.
  - intros H. destruct (ways udigit uword (Grp 0 RCVD_DATE) (mkS b v [])) as [|st l] eqn:E; [congruence|].
    assert (I : In st (ways udigit uword (Grp 0 RCVD_DATE) (mkS b v []))) by (rewrite E; left; reflexivity).
    destruct (ways_ext _ _ _ _ _ I) as [w [E1 E2]]. cbn [s_after s_before] in E1, E2. subst v.
    assert (R : reads udigit uword (Grp 0 RCVD_DATE) b w (s_after st)) by (apply (ways_reads udigit uword (Grp 0 RCVD_DATE) eq_refl b w (s_after st) []); exists (s_caps st); rewrite <- E2; destruct st; exact I).
    apply L in R as (f & Hf & R). exists f, w, (s_after st). split; [exact Hf|]. split; [reflexivity|]. destruct Hf as [<-|[]]. eapply fits_before; [reflexivity|exact R].
  - intros (f & w & y & Hf & -> & R). assert (R' : reads udigit uword (Grp 0 RCVD_DATE) b w y) by (apply L; exists f; split; [exact Hf|]; destruct Hf as [<-|[]]; eapply fits_before; [reflexivity|exact R]).
    apply (ways_reads udigit uword (Grp 0 RCVD_DATE) eq_refl b w y []) in R' as [k I]. intros E. rewrite E in I. exact I.
Qed.
Lemma fits_End l b w a : fits uword (l ++ [End]) b w a -> a = [] \/ a = [10%N].
Proof. intros H. apply fits_app in H as (u & v & -> & _ & [E ->]). exact E. Qed.
Lemma first_date_used p r : from_first_date udigit uword p r -> ~ In 10%N p ->
  exists st, re_search udigit uword (Grp 0 RCVD_DATE) r = Some st /\ g_ 0 st = p.
Proof.
  intros (x & -> & S & F) N.
  assert (M : matched (re_search udigit uword (Grp 0 RCVD_DATE) (x ++ p)) = true).
  { apply search_iff. pose proof (proj2 (date_at (rev x) p) S) as K. destruct (ways udigit uword (Grp 0 RCVD_DATE) (mkS (rev x) p [])) as [|st l] eqn:E; [congruence|].
    exists x, p, st. split; [reflexivity|]. rewrite E. left. reflexivity. }
  destruct (re_search udigit uword (Grp 0 RCVD_DATE) (x ++ p)) as [st|] eqn:E; [|discriminate]. exists st. split; [reflexivity|].
  unfold re_search in E. apply search_first in E as (u & v & Es & I & Min). rewrite app_nil_r in I.
  assert (Sv : starts uword (date_form udigit) v) by (apply (date_at (rev u)); intros K; rewrite K in I; exact I).
  assert (L : length u = length x).
  { destruct (Nat.lt_trichotomy (length u) (length x)) as [L|[L|L]]; [exfalso; exact (F u v Es L Sv)|exact L|].
    exfalso. specialize (Min x p eq_refl L). apply (date_at (rev x ++ [])) in S. congruence. }
  symmetry in Es. apply app_len in Es as [-> ->]; [|exact L].
  change (Grp 0 RCVD_DATE) with (Grp 0 RCVD_DATE) in I. cbn [Regexp.ways] in I. apply in_map_iff in I as (s0 & <- & I).
  destruct (ways_ext _ _ _ _ _ I) as [w [E1 E2]]. cbn [s_after s_before] in E1, E2.
  assert (R : reads udigit uword RCVD_DATE (rev x) w (s_after s0)) by (apply (ways_reads udigit uword RCVD_DATE eq_refl (rev x) w (s_after s0) []); exists (s_caps s0); rewrite <- E1, <- E2; destruct s0; exact I).
  assert (A : s_after s0 = [] \/ s_after s0 = [10%N]).
  { assert (Q : exists f, fits uword (f ++ [End]) (rev x) w (s_after s0)).
    { eexists (one blank ++ [Run anyc 0 (Some 1)] ++ some_ digit ++ text ($" ") ++ one nonblank ++ one nonblank ++ one nonblank ++ text ($" ") ++ some_ digit ++ text ($" ") ++
    some_ digit ++ text ($":") ++ some_ digit ++ text ($":") ++ some_ digit ++ text ($" ") ++ some_ nonblank ++ many anyc).
      revert R. apply reads_fits with (1 := eq_refl). hlikes. }
    destruct Q as [f Q]. exact (fits_End _ _ _ _ Q). }
  assert (A0 : s_after s0 = []) by (destruct A as [A|A]; [exact A|]; exfalso; apply N; rewrite E1, A; apply in_or_app; right; left; reflexivity).
  rewrite A0, app_nil_r in E1. unfold g_. cbn [s_caps group Nat.eqb]. rewrite (ext_consumed (mkS (rev x) p []) s0 w); [congruence|]. split; cbn [s_after s_before]; [rewrite A0, app_nil_r; exact E1|exact E2].
Qed.
Lemma outlook_value m id token n d : first_of m ($"message-id") = Some id -> outlook_id token id -> hex_value token n -> mktime (first_of m ($"date")) = Some d -> (0 <= d)%Z ->
  (same_time n d -> outlook m = Some false) /\
  (~ same_time n d ->
     (first_of m ($"received") = None -> outlook m = None) /\
     forall r, first_of m ($"received") = Some r ->
       (forall p d', from_first_date udigit uword p r -> ~ In 10%N p -> mktime (Some p) = Some d' -> (0 <= d')%Z ->
          exists b, outlook m = Some b /\ (b = true <-> ~ same_time n d')) /\
       (~ has (date_form udigit) r -> exists b, outlook m = Some b /\ (b = true <-> ~ same_time n 0))).
Proof.
  intros I O V T D. unfold check_outlook_message_id. rewrite I.
  assert (NE : id <> []) by (destruct O as (a & b & c & t & -> & _); discriminate). destruct id as [|c0 id]; [congruence|].
  apply outlook_token in O. rewrite O, T, (hex_ok _ _ V).
  assert (B : forall k, (0 <= k)%Z -> negb (near n (ticks k)) = true <-> ~ same_time n k).
  { intros k K. rewrite <- (near_ok n k K). destruct (near n (ticks k)); cbn; intuition congruence. }
  split.
  - intros S. apply (near_ok n d D) in S. rewrite S. reflexivity.
  - intros S. rewrite <- (near_ok n d D) in S. destruct (near n (ticks d)); [exfalso; auto|]. split; [intros ->; reflexivity|]. intros r ->. split.
    + intros p d' P N M D'. destruct (first_date_used p r P N) as (st & -> & ->). rewrite M. eexists. split; [reflexivity|apply B, D'].
    + intros H. assert (Z : re_search udigit uword (Grp 0 RCVD_DATE) r = None).
      { assert (Y : matched (re_search udigit uword (Grp 0 RCVD_DATE) r) = true <-> has (date_form udigit) r) by (apply search_has with (udigit := udigit) (2 := eq_refl); [vm_compute; reflexivity|hlikes]).
        destruct (re_search udigit uword (Grp 0 RCVD_DATE) r); [exfalso; apply H, Y; reflexivity|reflexivity]. }
      rewrite Z. eexists. split; [reflexivity|]. apply B. lia.
Qed.
End Outlook.
End Provider.
