(** Proofs about Model_Received. *)
From Verif Require Import PyStr Regexp Proofs_Regexp Model_Received Spec_Received.
From Verif Require Model_Relays.

(** Every pattern text compiles. *)
Example patterns_compile :
  (forall i x t, compile i x t = None -> pattern i x t = Eps) /\
  ~ In Eps [LOCALHOST_RE; IP_PRIVATE; IP_ADDRESS; FETCHMAIL; UNKNOWN_RE_RDNS; WITH_LOCAL_RE; BSMTP_RE; CONTENT_TECH_RE;
    AVG_SMTP_RE; QMAIL_RE; FROM_RE; UNKNOWN_RE; AUTH_SKIP_RE; LOCAL_SKIP_RE; AMAZON_RE; NOVELL_RE; NO_NAME_RE; SMTPSVC_RE;
    ENVFROM_RE; RDNS_RE; RDNS_RE2; HEADER_RE; RDNS_IP_RE; RDNS_SMTP; RDNS_SMTP1; RDNS_RE4; RDNS_RE1; RDNS_RE3; BY_RE;
    HELO_RE; HELO_RE10; HELO_RE2; HELO_RE3; HELO_RE4; HELO_RE5; HELO_RE6; HELO_RE7; HELO_RE8; HELO_RE9; IDENT_RE; IDENT_RE2;
    ID_RE; AUTH_RE; AUTH_VC_RE; AUTH_RE2; AUTH_RE3; AUTH_RE4; AUTH_RE5].
Proof.
  split.
  - intros i x t H. unfold pattern. rewrite H. reflexivity.
  - intros H. repeat (destruct H as [H|H]; [discriminate H|]). exact H.
Qed.

(** ** Blanks and pieces *)
Lemma piece_nil h : piece [] h.
Proof. exists [], h. reflexivity. Qed.
Lemma piece_trans a b c : piece a b -> piece b c -> piece a c.
Proof. intros (x & y & ->) (u & v & ->). exists (u ++ x), (y ++ v). rewrite <- !app_assoc. reflexivity. Qed.
Lemma no_blank_piece a b : piece a b -> no_blank b -> no_blank a.
Proof. intros (x & y & ->) H c Hc. apply H. apply in_or_app. right. apply in_or_app. auto. Qed.
Lemma drop_while_piece {p} (s : str) : exists x, s = x ++ drop_while p s.
Proof.
  induction s as [|c s [x IH]]; [exists []; reflexivity|]. cbn [drop_while]. destruct (p c); [|exists []; reflexivity].
  exists (c :: x). cbn. f_equal. exact IH.
Qed.
Lemma strip_p_piece p s : piece (strip_p p s) s.
Proof.
  unfold strip_p, rstrip_p, lstrip_p. destruct (@drop_while_piece p s) as [x Hx].
  destruct (@drop_while_piece p (rev (drop_while p s))) as [y Hy]. exists x, (rev y).
  rewrite <- rev_app_distr, <- Hy, rev_involutive. exact Hx.
Qed.
Lemma rsplit1_piece c s a b : rsplit1 c s = Some (a, b) -> piece b s.
Proof.
  revert a b; induction s as [|x s IH]; intros a b H; cbn [rsplit1] in H; [discriminate|].
  destruct (rsplit1 c s) as [[u v]|].
  - injection H as <- <-. destruct (IH u v eq_refl) as (p & q & ->). exists (x :: p), q. reflexivity.
  - destruct (N.eqb x c); [|discriminate]. injection H as <- <-. exists [x], []. rewrite app_nil_r. reflexivity.
Qed.

Section Proofs.
Variable udigit uword : char -> bool.
Hypothesis digits_not_blank : forall c, udigit c = true -> is_space c = false.
Notation ways := (ways udigit uword).
Notation class_in := (class_in udigit uword).

Definition ns_item (i : item) : bool :=
  match i with
  | IChar c => negb (is_space c)
  | IRange a b => N.leb 33 a && N.leb b 126
  | INotSpace | IDigit => true
  | _ => false
  end.
Definition is_ispace (i : item) : bool := match i with ISpace => true | _ => false end.
Definition ns_class (ci neg : bool) (l : list item) : bool := if neg then existsb is_ispace l else forallb ns_item l.

Lemma swap_space c : is_space c = true -> swapcase c = c.
Proof.
  intros H. unfold swapcase. destruct (N.leb 65 c && N.leb c 90) eqn:E1.
  - apply andb_true_iff in E1 as [A B]. apply N.leb_le in A. apply N.leb_le in B. exfalso.
    unfold is_space in H. rewrite ?orb_true_iff, ?andb_true_iff, ?N.leb_le, ?N.eqb_eq in H. lia.
  - destruct (N.leb 97 c && N.leb c 122) eqn:E2; [|reflexivity].
    apply andb_true_iff in E2 as [A B]. apply N.leb_le in A. apply N.leb_le in B. exfalso.
    unfold is_space in H. rewrite ?orb_true_iff, ?andb_true_iff, ?N.leb_le, ?N.eqb_eq in H. lia.
Qed.
Lemma ns_item_ok i c : ns_item i = true -> item_in udigit uword c i = true -> is_space c = false.
Proof.
  destruct i as [x|a b| | | | | |]; cbn [ns_item item_in]; intros H K; try discriminate.
  - apply N.eqb_eq in K. subst. apply negb_true_iff, H.
  - apply andb_true_iff in H as [H1 H2]. apply andb_true_iff in K as [K1 K2].
    apply N.leb_le in H1, H2, K1, K2. destruct (is_space c) eqn:E; [|reflexivity]. exfalso.
    unfold is_space in E. rewrite ?orb_true_iff, ?andb_true_iff, ?N.leb_le, ?N.eqb_eq in E. lia.
  - apply negb_true_iff, K.
  - unfold is_d in K. destruct (N.ltb c 128) eqn:E; [|auto]. apply andb_true_iff in K as [K1 K2]. apply N.leb_le in K1, K2.
    destruct (is_space c) eqn:F; [|reflexivity]. exfalso.
    unfold is_space in F. rewrite ?orb_true_iff, ?andb_true_iff, ?N.leb_le, ?N.eqb_eq in F. lia.
Qed.
Lemma ns_class_ok ci neg l c : ns_class ci neg l = true -> class_in ci neg l c = true -> is_space c = false.
Proof.
  intros H K. destruct (is_space c) eqn:E; [|reflexivity]. exfalso. unfold Regexp.class_in in K. rewrite (swap_space c E) in K.
  replace (existsb (item_in udigit uword c) l || ci && existsb (item_in udigit uword c) l) with (existsb (item_in udigit uword c) l) in K
    by (destruct (existsb (item_in udigit uword c) l), ci; reflexivity).
  unfold ns_class in H. destruct neg; cbn [xorb] in K.
  - apply existsb_exists in H as (i & Hi & Hs). destruct i; try discriminate.
    rewrite (proj2 (existsb_exists (item_in udigit uword c) l)) in K; [discriminate|]. exists ISpace. split; [exact Hi|exact E].
  - destruct (existsb (item_in udigit uword c) l) eqn:X; [|discriminate]. apply existsb_exists in X as (i & Hi & Hx).
    rewrite forallb_forall in H. rewrite (ns_item_ok i c (H i Hi) Hx) in E. discriminate.
Qed.
(** Group [n] of the pattern has no blanks. *)
Definition ns_group (n : nat) (r : re) : bool := groups_ok (fun k a => negb (k =? n) || only ns_class a) r.
Lemma ways_group n r s st : ns_group n r = true -> In st (ways r (mkS [] s [])) ->
  no_blank (g_ n st) /\ piece (g_ n st) s.
Proof.
  intros Hg H. unfold g_. destruct (group n (s_caps st)) as [w|] eqn:E; [|split; [intros c []|apply piece_nil]].
  apply group_In in E. destruct (ways_caps _ _ _ r Hg _ _ _ _ H E) as [[]|[(x & y & Hs) (a & s1 & s2 & Hq & Hw & He)]].
  cbn in Hs. rewrite Nat.eqb_refl in Hq. cbn in Hq. split.
  - intros c Hc. pose proof (ways_only udigit uword (fun c => is_space c = false) ns_class ns_class_ok a Hq _ _ _ Hw He) as F.
    rewrite Forall_forall in F. apply F, Hc.
  - exists x, y. exact Hs.
Qed.
Lemma m_group n r h st : ns_group n r = true -> m_ udigit uword r h = Some st -> no_blank (g_ n st) /\ piece (g_ n st) h.
Proof. intros Hg H. apply (ways_group n r h st Hg), match_In, H. Qed.

Definition field (w h : str) : Prop := no_blank w /\ piece w h.
Lemma field_nil h : field [] h.
Proof. split; [intros c []|apply piece_nil]. Qed.
Lemma field_piece v w h : piece v w -> field w h -> field v h.
Proof. intros Hv [H1 H2]. split; [eapply no_blank_piece; eauto|eapply piece_trans; eauto]. Qed.
Lemma field_strip cs w h : field w h -> field (strip_chars cs w) h.
Proof. apply field_piece, strip_p_piece. Qed.
Ltac fld := first [apply field_nil | eapply m_group; [|eassumption]; vm_compute; reflexivity].

Lemma envfrom_field h : field (get_envfrom udigit uword h) h.
Proof.
  unfold get_envfrom. set (e := match m_ _ _ _ _ with Some _ => _ | None => _ end). cbv zeta.
  assert (F : field e h) by (unfold e; destruct (m_ _ _ ENVFROM_RE h) eqn:E; [apply field_strip|]; fld).
  destruct (rsplit1 61 e) as [[a b]|] eqn:E; [|exact F]. eapply field_piece; [eapply rsplit1_piece, E|exact F].
Qed.
Lemma rdns_raw_field h : field (rdns_raw udigit uword h) h.
Proof.
  unfold rdns_raw. cbv zeta.
  destruct (m_ _ _ HELO_RE7 h) eqn:E7; [destruct (streqb _ _); fld|].
  destruct (m_ _ _ HELO_RE5 h) eqn:E5; [destruct (contains _ _); fld|].
  destruct (matched (m_ _ _ HELO_RE4 h) && _); [destruct (m_ _ _ RDNS_SMTP h) eqn:E; fld|].
  destruct (matched (m_ _ _ HEADER_RE h)); [fld|].
  destruct (m_ _ _ RDNS_RE2 h) eqn:E2; [fld|].
  destruct (matched (m_ _ _ RDNS_SMTP1 h) && _); [fld|].
  destruct (_ || _); [fld|]. destruct (_ && _); [fld|].
  destruct (m_ _ _ RDNS_RE h) eqn:E; fld.
Qed.
Lemma rdns_field h : field (get_rdns udigit uword h) h.
Proof.
  unfold get_rdns. cbv zeta. apply field_strip.
  set (r2 := if contains ($"@") _ then _ else _).
  assert (F2 : field r2 h) by (unfold r2; destruct (contains _ _); [fld|apply rdns_raw_field]).
  set (r3 := if contains ($"(Postfix)") h then _ else _).
  assert (F3 : field r3 h).
  { unfold r3. destruct (contains ($"(Postfix)") h); [|exact F2]. destruct (m_ _ _ UNKNOWN_RE_RDNS h) eqn:E; [|exact F2]. fld. }
  destruct (matched _); destruct (_ || _); try fld; exact F3.
Qed.
Lemma by_field h : field (get_by udigit uword h) h.
Proof. unfold get_by. destruct (m_ _ _ RDNS_RE3 h) eqn:E; [fld|]. destruct (m_ _ _ BY_RE h) eqn:F; fld. Qed.
Lemma helo_field h : field (get_helo udigit uword h) h.
Proof.
  unfold get_helo. cbv zeta.
  destruct (m_ _ _ HELO_RE h) eqn:E; [fld|clear E].
  destruct (m_ _ _ HELO_RE3 h) eqn:E; [apply field_strip; fld|clear E].
  destruct (m_ _ _ HELO_RE4 h) eqn:E; [fld|clear E].
  destruct (m_ _ _ HELO_RE5 h) eqn:E; [fld|clear E].
  destruct (m_ _ _ HELO_RE6 h) eqn:E; [fld|clear E].
  destruct (m_ _ _ HELO_RE8 h) eqn:E; [fld|clear E].
  destruct (m_ _ _ HELO_RE9 h) eqn:E; [fld|clear E].
  destruct (m_ _ _ RDNS_RE4 h) eqn:E; [fld|clear E].
  destruct (m_ _ _ HELO_RE10 h) eqn:E; [apply field_strip; fld|clear E].
  destruct (m_ _ _ HELO_RE7 h) eqn:E; [fld|clear E].
  destruct (m_ _ _ HELO_RE2 h) eqn:E; [destruct (streqb _ _)|]; fld.
Qed.
Lemma ident_field h : field (get_ident udigit uword h) h.
Proof. unfold get_ident. destruct (m_ _ _ IDENT_RE h) eqn:E; [fld|]. destruct (m_ _ _ IDENT_RE2 h) eqn:F; fld. Qed.
Lemma id_field h : field (get_id udigit uword h) h.
Proof. unfold get_id. destruct (m_ _ _ ID_RE h) eqn:E; [apply field_strip|]; fld. Qed.

(** The address has no blanks either. *)
Lemma no_blank_lower s : no_blank s -> no_blank (lower s).
Proof.
  intros H c Hc. apply in_map_iff in Hc as (x & <- & Hx). specialize (H x Hx). unfold lower_char.
  destruct (N.leb 65 x && N.leb x 90) eqn:E; [|exact H]. apply andb_true_iff in E as [A B]. apply N.leb_le in A, B.
  destruct (is_space (x + 32)) eqn:F; [|reflexivity]. exfalso.
  unfold is_space in F. rewrite ?orb_true_iff, ?andb_true_iff, ?N.leb_le, ?N.eqb_eq in F. lia.
Qed.
Lemma replace_incl p s : forall k c, In c (replace_aux p [] s k) -> In c s.
Proof.
  induction s as [|x s IH]; intros k c H; [destruct H|]. cbn [replace_aux] in H. destruct k as [|k]; [|right; eapply IH, H].
  destruct (startswith p (x :: s)); [right; eapply IH, H|]. destruct H as [<-|H]; [left; reflexivity|right; eapply IH, H].
Qed.
Lemma no_blank_replace p s : no_blank s -> no_blank (replace p [] s).
Proof. intros H c Hc. destruct p as [|x p]; [auto|]. apply H. eapply replace_incl, Hc. Qed.
Lemma no_blank_clean s : no_blank s -> no_blank (Model_Relays.clean_ip s).
Proof.
  intros H. unfold Model_Relays.clean_ip. apply no_blank_replace, no_blank_lower, no_blank_replace, no_blank_lower.
  eapply no_blank_piece; [apply strip_p_piece|exact H].
Qed.
Lemma ip_no_blank h : no_blank (get_ip udigit uword h).
Proof.
  unfold get_ip, Model_Relays.get_ip. cbv zeta.
  set (front := match split1_sub _ _ with Some _ => _ | None => _ end).
  assert (F : forall x, In x (map Model_Relays.clean_ip (findall udigit uword IP_ADDRESS front)) -> no_blank x).
  { intros x Hx. apply in_map_iff in Hx as (w & <- & Hw). apply no_blank_clean.
    apply findall_In in Hw as (u & v & st & _ & A & B). intros c Hc.
    pose proof (ways_only udigit uword (fun c => is_space c = false) ns_class ns_class_ok IP_ADDRESS eq_refl _ _ _ A B) as K.
    rewrite Forall_forall in K. apply K, Hc. }
  set (ips := map _ _) in *.
  assert (L : forall l acc, (forall x, In x l -> no_blank x) -> no_blank acc ->
    no_blank (fold_left (fun acc i => if s_ udigit uword IP_PRIVATE i then acc else i) l acc)).
  { induction l as [|i l IH]; intros acc Hl Ha; [exact Ha|]. cbn [fold_left]. apply IH.
    - intros x Hx. apply Hl. right. exact Hx.
    - destruct (s_ udigit uword IP_PRIVATE i); [exact Ha|]. apply Hl. left. reflexivity. }
  destruct (_ && _).
  - destruct (filter _ ips) as [|x l] eqn:E; [intros c []|]. cbn [hd]. apply F.
    assert (I : In x (filter (s_ udigit uword IP_PRIVATE) ips)) by (rewrite E; left; reflexivity). apply filter_In in I. tauto.
  - apply L; [exact F|intros c []].
Qed.
End Proofs.

(** ** Unfolding *)
Lemma collapse_prefix w : no_blank w -> forall t y, collapse false t = w ++ y -> exists y', t = w ++ y'.
Proof.
  induction w as [|c w IH]; intros Hw t y E; [exists t; reflexivity|].
  destruct t as [|d t]; [discriminate|]. cbn [collapse app] in E. destruct (is_space d) eqn:Ed.
  - injection E as <- _. specialize (Hw 32%N (or_introl eq_refl)). discriminate.
  - injection E as -> E. destruct (IH (fun x H => Hw x (or_intror H)) _ _ E) as [y' ->]. exists y'. reflexivity.
Qed.
Lemma collapse_piece w : no_blank w -> forall t b, piece w (collapse b t) -> piece w t.
Proof.
  intros Hw. destruct w as [|c w]; [intros; apply piece_nil|].
  induction t as [|d t IH]; intros b (x & y & E); cbn [collapse] in E; [destruct x; discriminate|].
  assert (Cons : piece (c :: w) t -> piece (c :: w) (d :: t)) by (intros (u & v & ->); exists (d :: u), v; reflexivity).
  destruct (is_space d) eqn:Ed.
  - destruct b.
    + apply Cons, (IH true). exists x, y. exact E.
    + destruct x as [|d' x]; cbn [app] in E.
      * injection E as <- _. specialize (Hw 32%N (or_introl eq_refl)). discriminate.
      * injection E as _ E. apply Cons, (IH true). exists x, y. exact E.
  - destruct x as [|d' x]; cbn [app] in E.
    + injection E as -> E. destruct (collapse_prefix w (fun z H => Hw z (or_intror H)) _ _ E) as [y' ->]. exists [], y'. reflexivity.
    + injection E as _ E. apply Cons, (IH false). exists x, y. exact E.
Qed.
Lemma prepare_from raw c t : raw = $"from" ++ c :: t -> is_space c = true ->
  prepare raw = Some (before_semicolon (collapse true t)).
Proof.
  intros -> Hc. unfold prepare. rewrite startswith_self. f_equal. f_equal.
  assert (E : collapse false ($"from" ++ c :: t) = $"from " ++ collapse true t).
  { cbn [of_string map String.list_ascii_of_string]. change ($"from") with [102; 114; 111; 109]%N. cbn [app collapse].
    change (is_space 102) with false. change (is_space 114) with false. change (is_space 111) with false. change (is_space 109) with false.
    rewrite Hc. reflexivity. }
  rewrite E. unfold drop_from. destruct (split1_sub ($"from ") ($"from " ++ collapse true t)) as [[a b]|] eqn:S.
  - assert (D : split1_sub ($"from ") ($"from " ++ collapse true t) = Some ([], collapse true t)) by (destruct (collapse true t); reflexivity).
    rewrite D in S. injection S as <- <-. reflexivity.
  - assert (D : split1_sub ($"from ") ($"from " ++ collapse true t) = Some ([], collapse true t)) by (destruct (collapse true t); reflexivity).
    rewrite D in S. discriminate.
Qed.
Lemma before_semicolon_piece s : exists y, s = before_semicolon s ++ y.
Proof.
  unfold before_semicolon. destruct (split1 59 s) as [[a b]|] eqn:E; [|exists []; rewrite app_nil_r; reflexivity].
  apply split1_Some in E as [-> _]. exists ([59%N] ++ b). reflexivity.
Qed.
Lemma prepared_piece raw h w : from_header raw -> prepare raw = Some h -> no_blank w -> piece w h -> piece w raw.
Proof.
  intros (c & t & E & Hc) Hp Hw H. rewrite (prepare_from raw c t E Hc) in Hp. injection Hp as <-.
  assert (P : piece w (collapse true t)).
  { eapply piece_trans; [exact H|]. destruct (before_semicolon_piece (collapse true t)) as [y Hy]. exists [], y. exact Hy. }
  apply collapse_piece in P; [|exact Hw]. eapply piece_trans; [exact P|]. exists ($"from" ++ [c]), []. rewrite E, app_nil_r, <- app_assoc. reflexivity.
Qed.

Lemma parse_received_In udigit uword headers r : In r (parse_received udigit uword headers) ->
  exists raw h, In raw headers /\ prepare raw = Some h /\ parse_one udigit uword h = Some r.
Proof.
  induction headers as [|raw l IH]; [intros []|]. cbn [parse_received].
  assert (K : In r (parse_received udigit uword l) -> exists raw' h, In raw' (raw :: l) /\ prepare raw' = Some h /\ parse_one udigit uword h = Some r).
  { intros H. destruct (IH H) as (raw' & h & A & B). exists raw', h. split; [right; exact A|exact B]. }
  destruct (prepare raw) as [h|] eqn:E; [|exact K]. destruct (parse_one udigit uword h) as [x|] eqn:F; [|exact K].
  intros [<-|H]; [|exact (K H)]. exists raw, h. split; [left; reflexivity|auto].
Qed.
Lemma c160 udigit uword headers r : (forall c, udigit c = true -> is_space c = false) ->
  In r (parse_received udigit uword headers) ->
  no_blank (Model_Relays.rl_ip r) /\
  exists raw, In raw headers /\
    forall f, In f (copied r) -> no_blank f /\ (from_header raw -> piece f raw).
Proof.
  intros Hd H. apply parse_received_In in H as (raw & h & Hin & Hp & Hr). unfold parse_one in Hr.
  destruct (check_for_skip udigit uword h); [discriminate|].
  assert (K : forall f, field f h -> no_blank f /\ (from_header raw -> piece f raw)).
  { intros f [F1 F2]. split; [exact F1|]. intros Hf. eapply prepared_piece; eauto. }
  destruct (startswith ($"X-ORIGINATING-IP") h); injection Hr as <-; cbn [Model_Relays.rl_ip]; (split; [apply ip_no_blank, Hd|]);
    exists raw; (split; [exact Hin|]); intros f Hf; apply K; unfold copied in Hf; cbn in Hf.
  - repeat (destruct Hf as [<-|Hf]; [apply field_nil|]). destruct Hf.
  - destruct Hf as [<-|[<-|[<-|[<-|[<-|[<-|[]]]]]]].
    + apply rdns_field, Hd.
    + apply by_field, Hd.
    + apply helo_field, Hd.
    + apply ident_field, Hd.
    + apply id_field, Hd.
    + apply envfrom_field, Hd.
Qed.

(** ** Several headers, folding and the date *)
Lemma parse_app udigit uword l1 l2 : parse_received udigit uword (l1 ++ l2) = parse_received udigit uword l1 ++ parse_received udigit uword l2.
Proof.
  induction l1 as [|h l IH]; [reflexivity|]. cbn [app parse_received]. rewrite IH.
  destruct (prepare h) as [h'|]; [|reflexivity]. destruct (parse_one udigit uword h'); reflexivity.
Qed.
Lemma parse_single udigit uword h : length (parse_received udigit uword [h]) <= 1.
Proof. cbn. destruct (prepare h) as [h'|]; [destruct (parse_one udigit uword h')|]; cbn; lia. Qed.
Lemma collapse_blanks b1 : forallb is_space b1 = true -> forall x, collapse true (b1 ++ x) = collapse true x.
Proof.
  induction b1 as [|c b1 IH]; intros H x; [reflexivity|]. cbn [forallb] in H. apply andb_true_iff in H as [H1 H2].
  cbn [app collapse]. rewrite H1. apply IH, H2.
Qed.
Lemma collapse_refolded x y : refolded x y -> forall b, collapse b x = collapse b y.
Proof.
  induction 1 as [|c x y Hc _ IH|b1 b2 x y N1 N2 H1 H2 _ IH]; intros b; [reflexivity| |].
  - cbn [collapse]. rewrite Hc. f_equal. apply IH.
  - destruct b1 as [|c1 b1]; [congruence|]. destruct b2 as [|c2 b2]; [congruence|]. cbn [forallb] in H1, H2.
    apply andb_true_iff in H1 as [A1 B1]. apply andb_true_iff in H2 as [A2 B2]. cbn [app collapse]. rewrite A1, A2.
    rewrite (collapse_blanks b1 B1 x), (collapse_blanks b2 B2 y), (IH true). reflexivity.
Qed.
Lemma refolded_word w : no_blank w -> forall x y, refolded (w ++ x) y -> exists y', y = w ++ y' /\ refolded x y'.
Proof.
  induction w as [|c w IH]; intros Hw x y H; [exists y; auto|]. cbn [app] in H.
  inversion H as [|? ? y0 Hc H0 E1 E2|b1 b2 x0 y0 N1 N2 H1 H2 H0 E1 E2]; subst.
  - destruct (IH (fun d I => Hw d (or_intror I)) x y0 H0) as (y' & -> & R). exists y'. auto.
  - exfalso. destruct b1 as [|d b1]; [congruence|]. cbn [app] in E1. injection E1 as -> _. cbn [forallb] in H1.
    apply andb_true_iff in H1 as [H1 _]. rewrite (Hw c (or_introl eq_refl)) in H1. discriminate.
Qed.
Lemma no_blank_from : no_blank ($"from").
Proof. intros c Hc. vm_compute in Hc. repeat (destruct Hc as [<-|Hc]; [reflexivity|]). destruct Hc. Qed.
Lemma refold_prepare x y : refolded x y -> (exists t, x = $"from" ++ t) -> prepare x = prepare y.
Proof.
  intros R [t ->]. destruct (refolded_word _ no_blank_from t y R) as (y' & -> & R'). unfold prepare. rewrite !startswith_self.
  rewrite (collapse_refolded _ _ R false). reflexivity.
Qed.
Lemma c161_fold udigit uword l l' : Forall2 (fun x y => x = y \/ (refolded x y /\ exists t, x = $"from" ++ t)) l l' ->
  parse_received udigit uword l = parse_received udigit uword l'.
Proof.
  induction 1 as [|x y l l' H _ IH]; [reflexivity|]. cbn [parse_received].
  assert (E : prepare x = prepare y) by (destruct H as [->|[R T]]; [reflexivity|apply refold_prepare; assumption]). rewrite E, IH. reflexivity.
Qed.
Lemma collapse_app_mark c t y : is_space c = false -> forall b, collapse b (t ++ c :: y) = collapse b t ++ c :: collapse false y.
Proof.
  intros Hc. induction t as [|d t IH]; intros b; cbn [app collapse]; [rewrite Hc; reflexivity|].
  destruct (is_space d); [|cbn [app]; f_equal; apply IH]. destruct b; [apply IH|cbn [app]; f_equal; apply IH].
Qed.
Lemma before_semicolon_app a y : before_semicolon (a ++ 59%N :: y) = before_semicolon a.
Proof.
  induction a as [|c a IH]; [reflexivity|]. unfold before_semicolon in *. cbn [app split1]. destruct (N.eqb c 59); [reflexivity|].
  destruct (split1 59 (a ++ 59%N :: y)) as [[u v]|] eqn:E1; destruct (split1 59 a) as [[u' v']|] eqn:E2; rewrite ?IH; try reflexivity.
Qed.
Lemma c161_date udigit uword raw date : from_header raw ->
  parse_received udigit uword [raw ++ $";" ++ date] = parse_received udigit uword [raw].
Proof.
  intros (c & t & -> & Hc). cbn [parse_received].
  rewrite (prepare_from ($"from" ++ c :: t) c t eq_refl Hc).
  rewrite (prepare_from (($"from" ++ c :: t) ++ $";" ++ date) c (t ++ $";" ++ date)); [| rewrite <- app_assoc; reflexivity |exact Hc].
  change ($";" ++ date) with (59%N :: date). rewrite collapse_app_mark by reflexivity. rewrite before_semicolon_app. reflexivity.
Qed.
