(** Proofs about the authentication, identification and greeting that a Received header states. *)
From Coq Require Import Lia.
From Verif Require Import PyStr Regexp Spec_Regexp Proofs_Regexp Proofs_RegexpLang Model_Received Spec_Received Spec_Template Proofs_Template Proofs_Provider Proofs_ProviderIp Spec_ReceivedFields.
From Verif Require Model_Relays Proofs_ReceivedFields Spec_Provider.

Section More.
Variable udigit uword : char -> bool.
Notation s_ := (s_ udigit uword).
Notation m_ := (m_ udigit uword).
Notation has := (has uword).
Notation fits := (fits uword).
Notation ways := (ways udigit uword).

Fixpoint firsts (n : nat) (r : re) : list re := match n, r with S k, Cat a b => a :: firsts k b | _, _ => [] end.
Lemma chain_firsts n : forall r, chain (firsts n r) (last_part n r) = r.
Proof. induction n as [|n IH]; intros r; [reflexivity|]. destruct r; try reflexivity. cbn [firsts last_part chain fold_right]. f_equal. apply IH. Qed.
Lemma not_char d c : class_in udigit uword false true [IChar d] c = true <-> c <> d.
Proof. unfold class_in. cbn. destruct (N.eqb_spec c d); cbn; split; congruence. Qed.
Ltac flikes := repeat (apply Forall2_cons || apply Forall2_nil); first [apply like_run;
  intros ?c; first [apply cls_char | apply not_char | apply cls_char_i; vm_compute; reflexivity | apply cls_nonblank | apply cls_nonblank_i | apply cls_blank | apply cls_blank_i | reflexivity] | constructor].
Ltac by_search := intros h; unfold Model_Received.s_; apply search_has with (udigit := udigit) (2 := eq_refl); [vm_compute; repeat split; repeat constructor | flikes].
Lemma contains_occurs p h : contains p h = true <-> occurs_in p h.
Proof. apply contains_app. Qed.
Lemma contains_not p h : contains p h = false <-> ~ occurs_in p h.
Proof. rewrite <- contains_occurs. destruct (contains p h); split; congruence. Qed.

(** Leading dots of a search *)
Lemma has_dots ls h : has (map (app (many anyc)) ls) h <-> has ls h.
Proof.
  split.
  - intros (l & x & w & y & Hl & -> & F). apply in_map_iff in Hl as (l' & <- & Hl). apply fits_app in F as (u & v & -> & _ & F).
    exists l', (x ++ u), v, y. split; [exact Hl|]. split; [rewrite <- !app_assoc; reflexivity|]. rewrite rev_app_distr. exact F.
  - intros (l & x & w & y & Hl & -> & F). exists (many anyc ++ l), x, w, y. split; [apply in_map, Hl|]. split; [reflexivity|]. apply fits_app. exists [], w.
    split; [reflexivity|]. split; [|exact F]. exists [], []. split; [reflexivity|]. split; [intros c []|]. split; [apply le_n|]. split; [exact I|reflexivity].
Qed.
Lemma s_postfix : forall h, s_ AUTH_RE3 h = true <-> has postfix_auth h.
Proof. by_search. Qed.
Lemma s_user h : s_ AUTH_RE2 h = true <-> has named_user h.
Proof. rewrite <- has_dots. revert h. by_search. Qed.
Lemma s_communigate h : s_ AUTH_RE5 h = true <-> has communigate h.
Proof. rewrite <- has_dots. revert h. by_search. Qed.

(** GMail *)
Lemma until_char (c : char) : forall v g x y, ~ In c v -> ~ In c g -> v ++ c :: x = g ++ c :: y -> v = g /\ x = y.
Proof.
  induction v as [|a v IH]; intros [|b g] x y V G E; cbn [app] in E.
  - injection E as ->. auto.
  - injection E as -> _. exfalso. apply G. left. reflexivity.
  - injection E as -> _. exfalso. apply V. left. reflexivity.
  - injection E as -> E2. destruct (IH g x y) as [-> ->]; auto; [intros K; apply V; right; exact K|intros K; apply G; right; exact K].
Qed.
Lemma fits_dots w b a : fits (many anyc) b w a <-> ~ In 10%N w.
Proof.
  split.
  - intros (u & v & -> & H & _ & _ & E). cbn in E. subst v. rewrite app_nil_r. intros K. exact (H _ K eq_refl).
  - intros N. exists w, []. rewrite app_nil_r. split; [reflexivity|]. split; [intros c Hc ->; contradiction|]. split; [apply Nat.le_0_l|]. split; [exact I|reflexivity].
Qed.
Lemma fits_some P w b a : fits (some_ P) b w a <-> w <> [] /\ forall c, In c w -> P c.
Proof.
  split.
  - intros (u & v & -> & H & L & _ & E). cbn in E. subst v. rewrite app_nil_r. split; [intros ->; cbn in L; lia|exact H].
  - intros [N H]. exists w, []. rewrite app_nil_r. split; [reflexivity|]. split; [exact H|]. split; [destruct w; [congruence|cbn; lia]|]. split; [exact I|reflexivity].
Qed.
Lemma tls_groups v c h : ~ In 10%N h -> tls v c h -> exists st, m_ AUTH_VC_RE h = Some st /\ g_ 1 st = v /\ g_ 2 st = c.
Proof.
  intros NL (pre & post & E & [_ O] & V & V' & C & C').
  assert (M : matched (m_ AUTH_VC_RE h) = true).
  { unfold Model_Received.m_. eapply match_starts with (udigit := udigit) (2 := eq_refl)
      (ms := [many anyc ++ text ($" (version=") ++ some_ (fun x => x <> 32%N) ++ text ($" cipher=") ++ some_ (fun x => x <> 41%N) ++ text ($")")]); [vm_compute; reflexivity|flikes|].
    eexists _, (pre ++ $" (version=" ++ v ++ $" cipher=" ++ c ++ $")"), post. split; [left; reflexivity|]. split; [rewrite E, <- !app_assoc; reflexivity|].
    apply fits_app. eexists _, _. split; [reflexivity|]. split; [apply fits_dots; intros K; apply NL; rewrite E; apply in_or_app; left; exact K|].
    apply fits_app. eexists _, _. split; [reflexivity|]. split; [apply fits_text; reflexivity|].
    apply fits_app. eexists _, _. split; [reflexivity|]. split; [apply fits_some; split; [exact V|intros x Hx ->; contradiction]|].
    apply fits_app. eexists _, _. split; [reflexivity|]. split; [apply fits_text; reflexivity|].
    apply fits_app. eexists _, _. split; [reflexivity|]. split; [apply fits_some; split; [exact C|intros x Hx ->; contradiction]|]. apply fits_text. reflexivity. }
  destruct (m_ AUTH_VC_RE h) as [st|] eqn:H; [clear M|discriminate]. exists st. split; [reflexivity|].
  unfold Model_Received.m_ in H. apply match_In in H.
  rewrite <- (chain_firsts 11 AUTH_VC_RE) in H. apply chain_In in H as (w1 & s1 & E1 & R1 & H & C1); [|vm_compute; reflexivity]. specialize (C1 eq_refl).
  change (last_part 11 AUTH_VC_RE) with (Cat (Grp 1 (Rep true 1 None (Chr false true [IChar 32]))) (last_part 12 AUTH_VC_RE)) in H.
  apply grp_In in H as (w2 & s2 & E2 & R2 & H & C2); [|reflexivity|reflexivity].
  rewrite <- (chain_firsts 8 (last_part 12 AUTH_VC_RE)) in H. apply chain_In in H as (w3 & s3 & E3 & R3 & H & C3); [|vm_compute; reflexivity]. specialize (C3 eq_refl).
  change (last_part 8 (last_part 12 AUTH_VC_RE)) with (Cat (Grp 2 (Rep true 1 None (Chr false true [IChar 41]))) (Chr false false [IChar 41])) in H.
  apply grp_In in H as (w4 & s4 & E4 & R4 & H & C4); [|reflexivity|reflexivity].
  apply rest_In in H as (w5 & E5 & R5 & C5); [|reflexivity|reflexivity].
  assert (F1 : fits (many anyc ++ text ($" (version=")) (s_before (mkS [] h [])) w1 (s_after s1)) by (revert R1; apply reads_fits with (1 := eq_refl); flikes).
  assert (F2 : fits (some_ (fun x => x <> 32%N)) (s_before s1) w2 (s_after s2)) by (revert R2; apply reads_fits with (1 := eq_refl); flikes).
  assert (F3 : fits (text ($" cipher=")) (s_before s2) w3 (s_after s3)) by (revert R3; apply reads_fits with (1 := eq_refl); flikes).
  assert (F4 : fits (some_ (fun x => x <> 41%N)) (s_before s3) w4 (s_after s4)) by (revert R4; apply reads_fits with (1 := eq_refl); flikes).
  assert (F5 : fits (text ($")")) (s_before s4) w5 (s_after st)) by (revert R5; apply reads_fits with (1 := eq_refl); flikes).
  clear R1 R2 R3 R4 R5. destruct E1 as [E1 _], E2 as [E2 _], E3 as [E3 _], E4 as [E4 _], E5 as [E5 _]. cbn [s_after] in E1.
  apply fits_app in F1 as (x & u & -> & _ & F1). apply fits_text in F1 as ->. apply fits_some in F2 as [F2 F2']. apply fits_text in F3 as ->. apply fits_some in F4 as [F4 F4']. apply fits_text in F5 as ->.
  assert (G1 : g_ 1 st = w2) by (unfold g_; rewrite C5, C4, C3, C2, C1; reflexivity).
  assert (G2 : g_ 2 st = w4) by (unfold g_; rewrite C5, C4, C3, C2, C1; reflexivity). rewrite G1, G2.
  rewrite E2, E3, E4, E5 in E1. rewrite <- app_assoc in E1. pose proof (O _ _ E1) as ->. rewrite E in E1. apply app_inv_head in E1.
  change ($" (version=" ++ v ++ $" cipher=" ++ c ++ $")" ++ post) with ($" (version=" ++ v ++ 32%N :: $"cipher=" ++ c ++ $")" ++ post) in E1.
  change ($" (version=" ++ w2 ++ $" cipher=" ++ w4 ++ $")" ++ s_after st) with ($" (version=" ++ w2 ++ 32%N :: $"cipher=" ++ w4 ++ $")" ++ s_after st) in E1.
  apply app_inv_head in E1. apply until_char in E1 as [-> E1]; [|exact V'|intros K; exact (F2' _ K eq_refl)]. apply app_inv_head in E1.
  apply until_char in E1 as [-> _]; [|exact C'|intros K; exact (F4' _ K eq_refl)]. auto.
Qed.
Lemma no_version h : ~ occurs_in ($" (version=") h -> m_ AUTH_VC_RE h = None.
Proof.
  intros N. destruct (m_ AUTH_VC_RE h) as [st|] eqn:H; [|reflexivity]. exfalso. unfold Model_Received.m_ in H. apply match_In in H.
  rewrite <- (chain_firsts 11 AUTH_VC_RE) in H. apply chain_In in H as (w1 & s1 & E1 & R1 & H & C1); [|vm_compute; reflexivity].
  assert (F1 : fits (many anyc ++ text ($" (version=")) (s_before (mkS [] h [])) w1 (s_after s1)) by (revert R1; apply reads_fits with (1 := eq_refl); flikes).
  apply fits_app in F1 as (x & u & -> & _ & F1). apply fits_text in F1 as ->. destruct E1 as [E1 _]. cbn [s_after] in E1. apply N. exists x, (s_after s1). rewrite E1, <- app_assoc. reflexivity.
Qed.
(** GMX *)
Lemma group_In n p st st' : In st' (ways (Grp n p) st) -> exists w s0, ext st s0 w /\ In s0 (ways p st) /\ s_before st' = s_before s0 /\ s_after st' = s_after s0 /\ s_caps st' = (n, w) :: s_caps s0.
Proof.
  cbn [Regexp.ways]. intros H. apply in_map_iff in H as (s0 & <- & H). destruct (ways_ext _ _ _ _ _ H) as [w E]. exists w, s0. cbn. rewrite (ext_consumed _ _ _ E). auto.
Qed.
Definition GMX_HOST : re := Eval vm_compute in match last_part 5 AUTH_RE4 with Cat (Grp _ p) _ => p | r => r end.
Definition GMX_PROTOCOL : re := Eval vm_compute in match last_part 16 AUTH_RE4 with Grp _ (Grp _ p) => p | r => r end.
Lemma gmx_search protocol server h : ~ In 10%N h -> gmx protocol server h ->
  exists st, re_search udigit uword AUTH_RE4 h = Some st /\ g_ 4 st = protocol /\ g_ 1 st = server.
Proof.
  intros NL (pre & t & post & E & S & P & T & T' & [_ O]).
  assert (M : s_ AUTH_RE4 h = true).
  { unfold Model_Received.s_. apply search_reads; [vm_compute; reflexivity|].
    exists pre, ($" by " ++ server ++ $" (" ++ t ++ $") with " ++ protocol), post. split; [rewrite E, <- !app_assoc; reflexivity|].
    set (form := fun k p => many anyc ++ text ($" by ") ++ text k ++ text ($" (") ++ some_ (fun x => x <> 41%N) ++ text ($") with ") ++ text p).
    apply fits_reads_in with (1 := eq_refl) (ms := [form ($"mail.gmx.net") ($"ESMTP"); form ($"mail.gmx.net") ($"SMTP"); form ($"mail.gmx.com") ($"ESMTP"); form ($"mail.gmx.com") ($"SMTP")]) (l := form server protocol).
    - repeat (apply Forall2_cons || apply Forall2_nil); apply like_sym; first [apply like_run; intros ?c; first [apply cls_char | apply not_char | reflexivity] | constructor].
    - destruct S as [-> | ->], P as [-> | ->]; cbn; auto.
    - unfold form. apply fits_app. exists [], ($" by " ++ server ++ $" (" ++ t ++ $") with " ++ protocol). split; [reflexivity|]. split; [apply fits_dots; intros []|].
      apply fits_app. eexists _, _. split; [reflexivity|]. split; [apply fits_text; reflexivity|]. apply fits_app. eexists _, _. split; [reflexivity|]. split; [apply fits_text; reflexivity|].
      apply fits_app. eexists _, _. split; [reflexivity|]. split; [apply fits_text; reflexivity|].
      apply fits_app. eexists _, _. split; [reflexivity|]. split; [apply fits_some; split; [exact T|intros x Hx ->; contradiction]|].
      apply fits_app. eexists _, _. split; [reflexivity|]. split; [apply fits_text; reflexivity|]. apply fits_text. reflexivity. }
  unfold Model_Received.s_ in M. destruct (re_search udigit uword AUTH_RE4 h) as [st|] eqn:H; [clear M|discriminate]. exists st. split; [reflexivity|].
  unfold re_search in H. apply search_In in H as (z & v & Ez & H).
  rewrite <- (chain_firsts 5 AUTH_RE4) in H. apply chain_In in H as (w1 & s1 & E1 & R1 & H & C1); [|vm_compute; reflexivity]. specialize (C1 eq_refl).
  change (last_part 5 AUTH_RE4) with (Cat (Grp 1 GMX_HOST) (last_part 6 AUTH_RE4)) in H. apply in_flat_map in H as (s2 & H2 & H).
  apply group_In in H2 as (w2 & s2' & E2 & R2 & _ & A2 & C2).
  rewrite <- (chain_firsts 10 (last_part 6 AUTH_RE4)) in H. apply chain_In in H as (w3 & s3 & E3 & R3 & H & C3); [|vm_compute; reflexivity]. specialize (C3 eq_refl).
  change (last_part 10 (last_part 6 AUTH_RE4)) with (Grp 3 (Grp 4 GMX_PROTOCOL)) in H. apply group_In in H as (w4 & s4 & E4 & R4 & _ & A4 & C4).
  apply group_In in R4 as (w5 & s5 & E5 & R5 & _ & A5 & C5).
  assert (F1 : fits (many anyc ++ text ($" by ")) (s_before (mkS (rev z ++ []) v [])) w1 (s_after s1)) by (revert R1; apply reads_fits with (1 := eq_refl); flikes).
  assert (F3 : fits (text ($" (") ++ some_ (fun x => x <> 41%N) ++ text ($") with ")) (s_before s2) w3 (s_after s3)) by (revert R3; apply reads_fits with (1 := eq_refl); flikes).
  assert (F2 : w2 = $"mail.gmx.net" \/ w2 = $"mail.gmx.com").
  { destruct (Proofs_Handover.literal_ok udigit uword false GMX_HOST _ eq_refl _ _ _ R2 E2) as [K|[K|[]]]; [left|right]; symmetry; exact K. }
  assert (F5 : w5 = $"ESMTP" \/ w5 = $"SMTP").
  { destruct (Proofs_Handover.literal_ok udigit uword false GMX_PROTOCOL _ eq_refl _ _ _ R5 E5) as [K|[K|[]]]; [left|right]; symmetry; exact K. }
  assert (C6 : s_caps s5 = s_caps s3) by exact (ways_same_caps udigit uword GMX_PROTOCOL eq_refl _ _ R5).
  assert (G1 : g_ 1 st = w2) by (unfold g_; rewrite C4, C5, C6, C3, C2; reflexivity).
  assert (G4 : g_ 4 st = w5) by (unfold g_; rewrite C4, C5; reflexivity). rewrite G1, G4.
  clear R1 R2 R3 R5. destruct E1 as [E1 _], E2 as [E2 _], E3 as [E3 _], E5 as [E5 _]. cbn [s_after] in E1.
  apply fits_app in F1 as (x & u & -> & _ & F1). apply fits_text in F1 as ->. apply fits_app in F3 as (y & y' & -> & Y & F3). apply fits_text in Y as ->.
  apply fits_app in F3 as (t' & y & -> & Y & F3). apply fits_some in Y as [_ Y]. apply fits_text in F3 as ->.
  rewrite E2, <- A2, E3, E5 in E1. rewrite E1, <- !app_assoc in Ez.
  assert (X : z ++ x = pre).
  { destruct F2 as [-> | ->]; [apply (O _ ($"net" ++ ($" (" ++ t' ++ $") with ") ++ w5 ++ s_after s5))|apply (O _ ($"com" ++ ($" (" ++ t' ++ $") with ") ++ w5 ++ s_after s5))]; rewrite Ez, <- !app_assoc; reflexivity. }
  rewrite E in Ez. rewrite (app_assoc z x), X in Ez. apply app_inv_head in Ez.
  assert (J : server = w2 /\ t ++ 41%N :: $" with " ++ protocol ++ post = t' ++ 41%N :: $" with " ++ w5 ++ s_after s5).
  { destruct S as [-> | ->], F2 as [-> | ->]; try discriminate Ez; (split; [reflexivity|]); cbn in Ez; injection Ez as Ez; exact Ez. }
  destruct J as [-> J]. apply until_char in J as [_ J]; [|exact T'|intros I; exact (Y _ I eq_refl)]. apply app_inv_head in J.
  destruct P as [-> | ->], F5 as [-> | ->]; try discriminate J; auto.
Qed.
Lemma no_gmx h : ~ occurs_in ($" by mail.gmx.") h -> re_search udigit uword AUTH_RE4 h = None.
Proof.
  intros N. destruct (re_search udigit uword AUTH_RE4 h) as [st|] eqn:H; [|reflexivity]. exfalso. unfold re_search in H. apply search_In in H as (z & v & Ez & H).
  rewrite <- (chain_firsts 5 AUTH_RE4) in H. apply chain_In in H as (w1 & s1 & E1 & R1 & H & _); [|vm_compute; reflexivity].
  change (last_part 5 AUTH_RE4) with (Cat (Grp 1 GMX_HOST) (last_part 6 AUTH_RE4)) in H. apply in_flat_map in H as (s2 & H2 & _).
  apply group_In in H2 as (w2 & s2' & E2 & R2 & _ & A2 & C2).
  assert (F1 : fits (many anyc ++ text ($" by ")) (s_before (mkS (rev z ++ []) v [])) w1 (s_after s1)) by (revert R1; apply reads_fits with (1 := eq_refl); flikes).
  apply fits_app in F1 as (x & u & -> & _ & F1). apply fits_text in F1 as ->.
  assert (F2 : w2 = $"mail.gmx.net" \/ w2 = $"mail.gmx.com").
  { destruct (Proofs_Handover.literal_ok udigit uword false GMX_HOST _ eq_refl _ _ _ R2 E2) as [K|[K|[]]]; [left|right]; symmetry; exact K. }
  destruct E1 as [E1 _], E2 as [E2 _]. cbn [s_after] in E1. apply N. rewrite Ez, E1, E2.
  destruct F2 as [-> | ->]; [exists (z ++ x), ($"net" ++ s_after s2')|exists (z ++ x), ($"com" ++ s_after s2')]; rewrite <- !app_assoc; reflexivity.
Qed.
(** The table *)
Lemma protocol_none h : tidy h -> without protocol_marks h -> m_ AUTH_RE h = None.
Proof.
  intros Ht Hq. apply match_None. destruct (ways AUTH_RE (mkS [] h [])) as [|st l] eqn:Wk; [reflexivity|]. exfalso.
  assert (I : In st (ways AUTH_RE (mkS [] h []))) by (rewrite Wk; left; reflexivity).
  destruct (Proofs_Handover.drop_cat_ways udigit uword 1 AUTH_RE _ _ h [] I eq_refl) as (s1 & x & H1 & X).
  destruct (Proofs_ReceivedFields.auth_with_text udigit uword s1 st h x H1 X Ht) as (m & y & Hm & E).
  apply in_map_iff in Hm as (m0 & <- & Hm). apply (Hq ($" with " ++ lower m0) (lower x) y).
  - unfold protocol_marks. apply in_map_iff. exists m0. auto.
  - rewrite X. unfold lower in *. rewrite map_app, E, <- app_assoc. reflexivity.
Qed.
Lemma user_authenticated h : has named_user h -> occurs_in ($"authenticated") h.
Proof.
  intros (l & x & w & y & [<-|[]] & -> & F). apply fits_app in F as (u & v & -> & F & _). apply fits_text in F as ->.
  exists (x ++ $" ("), ($" as " ++ v ++ y). rewrite <- !app_assoc. reflexivity.
Qed.
Lemma squirrel_authenticated h : occurs_in ($"SquirrelMail authenticated ") h -> occurs_in ($"authenticated") h.
Proof. intros (x & y & ->). exists (x ++ $"SquirrelMail "), ($" " ++ y). rewrite <- !app_assoc. reflexivity. Qed.
Lemma auth_table h a : tidy h -> without protocol_marks h -> auth_of uword h a -> get_auth udigit uword h = a.
Proof.
  intros Ht Hq A. pose proof (Proofs_ReceivedFields.tidy_newline h Ht) as NL. unfold get_auth, Model_Relays.get_auth.
  cbn [auth_patterns Model_Relays.ar_with Model_Relays.ar_postfix Model_Relays.ar_gmx Model_Relays.ar_communigate Model_Relays.ar_cipher Model_Relays.ar_as].
  rewrite (protocol_none h Ht Hq). cbn [option_map]. replace (if contains ($" by ") h then @None str else None) with (@None str) by (destruct (contains _ _); reflexivity). cbv iota beta.
  pose proof (s_postfix h) as P. pose proof (s_user h) as U. pose proof (s_communigate h) as CG. fold gmail.
  destruct A as [A|v c A B C|A B C|A B C|A B C D|A B C D E|pr sv A B C D|A B C D E|A B C D E];
    (destruct (s_ AUTH_RE3 h); [try (exfalso; tauto); try reflexivity|try (exfalso; rewrite <- P in A; discriminate)]);
    try (apply contains_occurs in B; rewrite B); try (apply contains_not in B; rewrite B).
  - destruct (tls_groups v c h NL C) as (st & M & G1 & G2). rewrite M. cbn [option_map]. rewrite G1, G2. reflexivity.
  - rewrite (no_version h C). reflexivity.
  - apply contains_occurs in C. rewrite C. reflexivity.
  - apply contains_not in C. rewrite C. pose proof (user_authenticated h D) as K. apply contains_occurs in K. rewrite K. apply U in D. rewrite D. reflexivity.
  - apply contains_not in C. rewrite C. apply contains_occurs in D. rewrite D. destruct (s_ AUTH_RE2 h); [tauto|reflexivity].
  - assert (Q : contains ($"SquirrelMail authenticated ") h = false) by (apply contains_not; intros K; apply C, squirrel_authenticated, K). rewrite Q.
    apply contains_not in C. rewrite C. cbn [andb]. destruct (gmx_search pr sv h NL D) as (st & M & G4 & G1). rewrite M. cbn [option_map]. rewrite G1, G4. reflexivity.
  - assert (Q : contains ($"SquirrelMail authenticated ") h = false) by (apply contains_not; intros K; apply C, squirrel_authenticated, K). rewrite Q.
    apply contains_not in C. rewrite C. cbn [andb]. rewrite (no_gmx h D). cbn [option_map]. apply CG in E. rewrite E. reflexivity.
  - assert (Q : contains ($"SquirrelMail authenticated ") h = false) by (apply contains_not; intros K; apply C, squirrel_authenticated, K). rewrite Q.
    apply contains_not in C. rewrite C. cbn [andb]. rewrite (no_gmx h D). cbn [option_map]. destruct (s_ AUTH_RE5 h); [tauto|reflexivity].
Qed.

(** ** Identification *)
Lemma last_paren w g post y : ~ In 41%N w -> (post = [] \/ exists t, post = $" " ++ t) -> (forall c, In c g -> nonblank c) ->
  w ++ $")" ++ post = g ++ $")" ++ y -> w = g.
Proof.
  intros P T G. revert g G P. induction w as [|c w IH]; intros [|d g] G P E; cbn [app] in E.
  - reflexivity.
  - injection E as <- E. exfalso. destruct T as [->|[t ->]].
    + destruct g; discriminate E.
    + destruct g as [|e g]; [discriminate E|]. injection E as <- _. pose proof (G 32%N (or_intror (or_introl eq_refl))) as K. discriminate K.
  - injection E as -> _. exfalso. apply P. left. reflexivity.
  - injection E as -> E. f_equal. apply IH; [intros x Hx; apply G; right; exact Hx|intros K; apply P; right; exact K|exact E].
Qed.
Lemma ident_value w h : ~ In 10%N h -> states_ident w h -> get_ident udigit uword h = w.
Proof.
  intros NL (pre & post & E & [W W'] & P & T & [_ O]).
  assert (M : matched (m_ IDENT_RE h) = true).
  { unfold Model_Received.m_. eapply match_starts with (udigit := udigit) (2 := eq_refl)
      (ms := [many anyc ++ text ($"ident=") ++ some_ nonblank ++ text ($")")]); [vm_compute; reflexivity|flikes|].
    eexists _, (pre ++ $"ident=" ++ w ++ $")"), post. split; [left; reflexivity|]. split; [rewrite E, <- !app_assoc; reflexivity|].
    apply fits_app. eexists _, _. split; [reflexivity|]. split; [apply fits_dots; intros K; apply NL; rewrite E; apply in_or_app; left; exact K|].
    apply fits_app. eexists _, _. split; [reflexivity|]. split; [apply fits_text; reflexivity|].
    apply fits_app. eexists _, _. split; [reflexivity|]. split; [apply fits_some; split; [exact W|exact W']|]. apply fits_text. reflexivity. }
  unfold get_ident. destruct (m_ IDENT_RE h) as [st|] eqn:H; [clear M|discriminate].
  unfold Model_Received.m_ in H. apply match_In in H.
  rewrite <- (chain_firsts 7 IDENT_RE) in H. apply chain_In in H as (w1 & s1 & E1 & R1 & H & C1); [|vm_compute; reflexivity]. specialize (C1 eq_refl).
  change (last_part 7 IDENT_RE) with (Cat (Grp 1 (Rep true 1 None (Chr false false [INotSpace]))) (Chr false false [IChar 41])) in H.
  apply grp_In in H as (w2 & s2 & E2 & R2 & H & C2); [|reflexivity|reflexivity]. apply rest_In in H as (w3 & E3 & R3 & C3); [|reflexivity|reflexivity].
  assert (F1 : fits (many anyc ++ text ($"ident=")) (s_before (mkS [] h [])) w1 (s_after s1)) by (revert R1; apply reads_fits with (1 := eq_refl); flikes).
  assert (F2 : fits (some_ nonblank) (s_before s1) w2 (s_after s2)) by (revert R2; apply reads_fits with (1 := eq_refl); flikes).
  assert (F3 : fits (text ($")")) (s_before s2) w3 (s_after st)) by (revert R3; apply reads_fits with (1 := eq_refl); flikes).
  clear R1 R2 R3. destruct E1 as [E1 _], E2 as [E2 _], E3 as [E3 _]. cbn [s_after] in E1.
  apply fits_app in F1 as (x & u & -> & _ & F1). apply fits_text in F1 as ->. apply fits_some in F2 as [F2 F2']. apply fits_text in F3 as ->.
  assert (G1 : g_ 1 st = w2) by (unfold g_; rewrite C3, C2, C1; reflexivity). rewrite G1.
  rewrite E2, E3 in E1. rewrite <- app_assoc in E1. pose proof (O _ _ E1) as ->. rewrite E in E1. apply app_inv_head in E1. apply app_inv_head in E1.
  symmetry. apply (last_paren w w2 post (s_after st)); assumption.
Qed.

Lemma no_ident h : ~ occurs_in ($"ident=") h -> m_ IDENT_RE h = None.
Proof.
  intros N. unfold Model_Received.m_. apply match_None. destruct (ways IDENT_RE (mkS [] h [])) as [|st l] eqn:Wk; [reflexivity|]. exfalso. apply N.
  assert (I : In st (ways IDENT_RE (mkS [] h []))) by (rewrite Wk; left; reflexivity).
  rewrite <- (chain_firsts 7 IDENT_RE) in I. apply chain_In in I as (w1 & s1 & E1 & R1 & _ & _); [|vm_compute; reflexivity].
  assert (F1 : fits (many anyc ++ text ($"ident=")) (s_before (mkS [] h [])) w1 (s_after s1)) by (revert R1; apply reads_fits with (1 := eq_refl); flikes).
  destruct E1 as [E1 _]. cbn [s_after] in E1. apply fits_app in F1 as (x & u & -> & _ & F1). apply fits_text in F1 as ->.
  exists x, (s_after s1). rewrite E1, <- app_assoc. reflexivity.
Qed.
Lemma sender_value w h : ~ In 10%N h -> sends_as w h -> get_ident udigit uword h = w.
Proof.
  intros NL (pre & post & E & [W W'] & N & O). unfold get_ident. rewrite (no_ident h N).
  assert (M : matched (m_ IDENT_RE2 h) = true).
  { unfold Model_Received.m_. eapply match_starts with (udigit := udigit) (2 := eq_refl)
      (ms := [many anyc ++ text ($"(") ++ some_ nonblank ++ text ($"@")]); [vm_compute; reflexivity|flikes|].
    eexists _, (pre ++ $"(" ++ w ++ $"@"), post. split; [left; reflexivity|]. split; [rewrite E, <- !app_assoc; reflexivity|].
    apply fits_app. eexists _, _. split; [reflexivity|]. split; [apply fits_dots; intros K; apply NL; rewrite E; apply in_or_app; left; exact K|].
    apply fits_app. eexists _, _. split; [reflexivity|]. split; [apply fits_text; reflexivity|].
    apply fits_app. eexists _, _. split; [reflexivity|]. split; [apply fits_some; split; [exact W|exact W']|]. apply fits_text. reflexivity. }
  destruct (m_ IDENT_RE2 h) as [st|] eqn:H; [clear M|discriminate].
  unfold Model_Received.m_ in H. apply match_In in H.
  rewrite <- (chain_firsts 2 IDENT_RE2) in H. apply chain_In in H as (w1 & s1 & E1 & R1 & H & C1); [|vm_compute; reflexivity]. specialize (C1 eq_refl).
  change (last_part 2 IDENT_RE2) with (Cat (Grp 1 (Rep true 1 None (Chr false false [INotSpace]))) (Chr false false [IChar 64])) in H.
  apply grp_In in H as (w2 & s2 & E2 & R2 & H & C2); [|reflexivity|reflexivity]. apply rest_In in H as (w3 & E3 & R3 & C3); [|reflexivity|reflexivity].
  assert (F1 : fits (many anyc ++ text ($"(")) (s_before (mkS [] h [])) w1 (s_after s1)) by (revert R1; apply reads_fits with (1 := eq_refl); flikes).
  assert (F2 : fits (some_ nonblank) (s_before s1) w2 (s_after s2)) by (revert R2; apply reads_fits with (1 := eq_refl); flikes).
  assert (F3 : fits (text ($"@")) (s_before s2) w3 (s_after st)) by (revert R3; apply reads_fits with (1 := eq_refl); flikes).
  clear R1 R2 R3. destruct E1 as [E1 _], E2 as [E2 _], E3 as [E3 _]. cbn [s_after] in E1.
  apply fits_app in F1 as (x & u & -> & _ & F1). apply fits_text in F1 as ->. apply fits_some in F2 as [F2 F2']. apply fits_text in F3 as ->.
  assert (G1 : g_ 1 st = w2) by (unfold g_; rewrite C3, C2, C1; reflexivity). rewrite G1.
  rewrite E2, E3 in E1. rewrite <- app_assoc in E1. apply (O _ _ _ E1). split; [exact F2|exact F2'].
Qed.

(** ** A greeting at the end of a remark *)
Lemma reads_fits_in r ls ms b w a : forms udigit uword r = Some ls -> Forall2 (Forall2 like) ls ms -> reads udigit uword r b w a -> exists l, In l ms /\ fits l b w a.
Proof.
  intros E F R. apply (reads_forms udigit uword r ls E) in R as (l0 & Hl & R). clear E. induction F as [|x y lx ly A B IH]; [destruct Hl|].
  destruct Hl as [->|Hl]; [|destruct (IH Hl) as (l & I & K); exists l; split; [right; exact I|exact K]].
  exists y. split; [left; reflexivity|]. exact (fits_like uword _ _ A _ _ _ R).
Qed.
Lemma lower_sign c d : lower_char c = d -> (d < 65)%N -> c = d.
Proof. unfold lower_char. destruct ((65 <=? c)%N && (c <=? 90)%N) eqn:E; intros; [|lia]. apply andb_true_iff in E as [E _]. apply N.leb_le in E. lia. Qed.
Lemma blanks_around m v : lower v = $" " ++ m ++ $" " -> exists k, v = $" " ++ k ++ $" " /\ lower k = m.
Proof.
  intros H. unfold lower in H. apply map_eq_app in H as (a & v1 & -> & Ha & H). apply map_eq_app in H as (k & b & -> & Hk & Hb).
  destruct a as [|c [|]]; try discriminate Ha. destruct b as [|d [|]]; try discriminate Hb. injection Ha as Ha. injection Hb as Hb.
  apply lower_sign in Ha; [|lia]. apply lower_sign in Hb; [|lia]. subst. exists k. split; reflexivity.
Qed.
Lemma same_length_split {A} (a b : list A) : forall x y, length a = length b -> a ++ x = b ++ y -> a = b /\ x = y.
Proof.
  revert b. induction a as [|c a IH]; intros [|d b] x y L E; try discriminate L; [split; [reflexivity|exact E]|].
  injection E as -> E. injection L as L. destruct (IH b x y L E) as [-> ->]. split; reflexivity.
Qed.
Definition ok_open (ci neg : bool) (l : list item) : bool :=
  negb ci && negb neg && forallb (fun i => match i with IChar c => N.eqb c 91 | _ => false end) l.
Lemma open_class ci neg l c : ok_open ci neg l = true -> class_in udigit uword ci neg l c = true -> c = 91%N.
Proof.
  intros H K. apply andb_true_iff in H as [H Hl]. apply andb_true_iff in H as [H1 H2]. apply negb_true_iff in H1, H2. subst.
  unfold Regexp.class_in in K. cbn [xorb andb] in K. rewrite orb_false_r in K.
  destruct (existsb (item_in udigit uword c) l) eqn:E; [|discriminate]. apply existsb_exists in E as (i & Hi & Hc).
  rewrite forallb_forall in Hl. specialize (Hl i Hi). destruct i; try discriminate; cbn [item_in] in Hc.
  apply N.eqb_eq in Hc. subst. apply N.eqb_eq, Hl.
Qed.
Lemma no_open r h : needs ok_open r = true -> ~ In 91%N h -> m_ r h = None.
Proof.
  intros Hr N. apply match_None. destruct (ways r (mkS [] h [])) as [|st l] eqn:Wk; [reflexivity|]. exfalso. apply N.
  assert (I : In st (ways r (mkS [] h []))) by (rewrite Wk; left; reflexivity).
  destruct (ways_ext _ _ _ _ _ I) as [w Hw]. pose proof (ways_needs udigit uword _ _ open_class r Hr _ _ _ I Hw) as X.
  apply Exists_exists in X as (c & Hc & ->). destruct Hw as [E _]. cbn [s_after] in E. rewrite E. apply in_or_app. left. exact Hc.
Qed.
Definition shape4 : list Proofs_RegexpFail.sym := [Proofs_RegexpFail.W []] ++ Proofs_Handover.Lt ($" (") ++ [Proofs_RegexpFail.W [41%N]] ++ Proofs_Handover.Lt ($" ") ++ [Proofs_RegexpFail.Any].
Lemma greeting_value w h : ~ In 10%N h -> greets_inside w h -> get_helo udigit uword h = w.
Proof.
  intros NL (name & t & u & k & rest & E & Hn & Ht & Ht' & Hu & Hk & [W W'] & W41 & W93 & H91 & Hq & O).
  assert (M : matched (m_ HELO_RE10 h) = true).
  { unfold Model_Received.m_. eapply match_starts with (udigit := udigit) (2 := eq_refl)
      (ms := [many anyc ++ text_i ($"(") ++ many anyc ++ text_i ($" helo ") ++ some_ nonblank ++ text_i ($")");
              many anyc ++ text_i ($"(") ++ many anyc ++ text_i ($" ehlo ") ++ some_ nonblank ++ text_i ($")")]); [vm_compute; reflexivity|flikes|].
    assert (B : forall m, lower k = m -> starts uword [many anyc ++ text_i ($"(") ++ many anyc ++ text_i ($" " ++ m ++ $" ") ++ some_ nonblank ++ text_i ($")")] h).
    { intros m Hm. eexists _, (name ++ $" (" ++ t ++ u ++ $" " ++ k ++ $" " ++ w ++ $")"), ($" " ++ rest). split; [left; reflexivity|].
      split; [rewrite E, <- !app_assoc; reflexivity|].
      apply fits_app. exists (name ++ $" "), ($"(" ++ (t ++ u) ++ ($" " ++ k ++ $" ") ++ w ++ $")"). split; [rewrite <- !app_assoc; reflexivity|].
      split; [apply fits_dots; intros K; apply NL; rewrite E; apply in_or_app; apply in_app_or in K as [K|K]; [left; exact K|right; apply in_or_app; left; destruct K as [K|[]]; left; exact K]|].
      apply fits_app. eexists _, _. split; [reflexivity|]. split; [apply fits_text_i; reflexivity|].
      apply fits_app. eexists _, _. split; [reflexivity|]. split; [apply fits_dots; intros K; apply NL; rewrite E; apply in_or_app; right; apply in_or_app; right;
        rewrite app_assoc; apply in_or_app; left; exact K|].
      apply fits_app. eexists _, _. split; [reflexivity|]. split; [apply fits_text_i; unfold lower in *; rewrite !map_app, Hm; reflexivity|].
      apply fits_app. eexists _, _. split; [reflexivity|]. split; [apply fits_some; split; [exact W|exact W']|]. apply fits_text_i. reflexivity. }
    destruct Hk as [Hk|Hk]; destruct (B _ Hk) as (l & a & y & [<-|[]] & Q); eexists _, a, y; (split; [|exact Q]); [left; reflexivity|right; left; reflexivity]. }
  assert (D : Proofs_RegexpFail.den shape4 h).
  { rewrite E. unfold shape4. apply Proofs_RegexpFail.den_W; [apply Hn|apply Proofs_Handover.plain_nil, Hn|]. apply Proofs_Handover.den_Lt.
    apply Proofs_RegexpFail.den_W; [apply Ht|intros c Hc; split; [apply Ht, Hc|intros [<-|[]]; exact (Ht' Hc)]|].
    destruct Hu as [->|[v ->]]; rewrite <- ?app_assoc; cbn [app]; apply (Proofs_Handover.den_Lt ($" ")); constructor. }
  unfold get_helo.
  rewrite (no_open HELO_RE4 h), (no_open HELO_RE6 h), (no_open HELO_RE8 h), (no_open HELO_RE9 h), (no_open RDNS_RE4 h) by (exact H91 || (vm_compute; reflexivity)).
  rewrite (Proofs_Handover.m_none udigit uword HELO_RE5 shape4 h) by (exact D || (vm_compute; reflexivity)).
  assert (E0 : m_ HELO_RE h = None).
  { eapply (Proofs_Handover.no_dots_match udigit uword false _ (match HELO_RE with Cat _ k => k | r => r end)); [exact Hq|].
    intros m Hm. vm_compute in Hm. destruct Hm as [<-|[<-|[]]]; [left; reflexivity|right; left; reflexivity]. }
  assert (E3 : m_ HELO_RE3 h = None).
  { eapply (Proofs_Handover.no_dots_match udigit uword false _ (match HELO_RE3 with Cat _ k => k | r => r end)); [exact Hq|].
    intros m Hm. vm_compute in Hm. destruct Hm as [<-|[]]. right. right. left. reflexivity. }
  rewrite E0, E3. clear E0 E3. destruct (m_ HELO_RE10 h) as [st|] eqn:H; [clear M|discriminate].
  unfold Model_Received.m_ in H. apply match_In in H.
  rewrite <- (chain_firsts 6 HELO_RE10) in H. apply chain_In in H as (w1 & s1 & E1 & R1 & H & _); [|vm_compute; reflexivity].
  change (last_part 6 HELO_RE10) with (Cat (Grp 2 (Rep true 1 None (Chr true false [INotSpace]))) (Chr true false [IChar 41])) in H.
  apply grp_In in H as (w2 & s2 & E2 & R2 & H & C2); [|reflexivity|reflexivity]. apply rest_In in H as (w3 & E3 & R3 & C3); [|reflexivity|reflexivity].
  assert (F1 : exists m, In m [$"helo"; $"ehlo"] /\ fits (many anyc ++ text_i ($"(") ++ many anyc ++ text_i ($" " ++ m ++ $" ")) (s_before (mkS [] h [])) w1 (s_after s1)).
  { assert (F1 : exists l, In l [many anyc ++ text_i ($"(") ++ many anyc ++ text_i ($" helo "); many anyc ++ text_i ($"(") ++ many anyc ++ text_i ($" ehlo ")] /\
      fits l (s_before (mkS [] h [])) w1 (s_after s1)) by (revert R1; apply reads_fits_in with (1 := eq_refl); flikes).
    destruct F1 as (l & [<-|[<-|[]]] & F1); [exists ($"helo")|exists ($"ehlo")]; (split; [cbn [In]; tauto|exact F1]). }
  assert (F2 : fits (some_ nonblank) (s_before s1) w2 (s_after s2)) by (revert R2; apply reads_fits with (1 := eq_refl); flikes).
  assert (F3 : fits (text_i ($")")) (s_before s2) w3 (s_after st)) by (revert R3; apply reads_fits with (1 := eq_refl); flikes).
  clear R1 R2 R3. destruct E1 as [E1 _], E2 as [E2 _], E3 as [E3 _]. cbn [s_after] in E1.
  destruct F1 as (m & Hm & F1). rewrite !app_assoc in F1. apply fits_app in F1 as (x & v & -> & _ & F1). apply fits_text_i in F1.
  apply blanks_around in F1 as (k' & -> & Hk'). apply fits_some in F2 as [F2 F2']. apply fits_text_i in F3.
  assert (P3 : w3 = $")").
  { destruct w3 as [|c3 [|]]; try discriminate F3. injection F3 as F3. apply lower_sign in F3; [subst; reflexivity|lia]. }
  subst w3. assert (G2 : g_ 2 st = w2) by (unfold g_; rewrite C3, C2; reflexivity). rewrite G2.
  rewrite E2, E3 in E1. rewrite <- !app_assoc in E1.
  assert (X : x = name ++ $" (" ++ t ++ u).
  { apply (O x k' (w2 ++ $")" ++ s_after st)); [exact E1|]. rewrite Hk'. destruct Hm as [<-|[<-|[]]]; [left|right]; reflexivity. }
  subst x. rewrite E in E1. rewrite <- !app_assoc in E1. do 5 apply app_inv_head in E1.
  assert (L : length k = length k').
  { rewrite <- (map_length lower_char k), <- (map_length lower_char k'). change (length (lower k) = length (lower k')). rewrite Hk'.
    destruct Hm as [<-|[<-|[]]], Hk as [-> | ->]; reflexivity. }
  apply same_length_split in E1 as [_ E1]; [|exact L]. apply app_inv_head in E1.
  assert (G : w = w2).
  { apply (last_paren w w2 ($" " ++ rest) (s_after st) W41); [right; exists rest; reflexivity|exact F2'|]. exact E1. }
  rewrite <- G. apply Proofs_Handover.strip_p_none. intros c Hc. destruct (mem_char c ($"[]")) eqn:K; [|reflexivity]. exfalso. apply mem_char_In in K.
  destruct K as [<-|[<-|[]]]; [|exact (W93 Hc)]. apply H91. rewrite E. rewrite !app_assoc. apply in_or_app. left. apply in_or_app. left. apply in_or_app. right. exact Hc.
Qed.

(** ** A server without a name *)
Lemma unknown_group h st : m_ UNKNOWN_RE_RDNS h = Some st -> g_ 2 st = $"unknown".
Proof.
  intros H. unfold Model_Received.m_ in H. apply match_In in H.
  rewrite <- (chain_firsts 4 UNKNOWN_RE_RDNS) in H. apply chain_In in H as (w1 & s1 & _ & _ & H & _); [|vm_compute; reflexivity].
  remember (match last_part 4 UNKNOWN_RE_RDNS with Cat _ k => k | r => r end) as q eqn:Q.
  change (In st (ways (Cat (Grp 2 (match last_part 4 UNKNOWN_RE_RDNS with Cat (Grp _ a) _ => a | r => r end)) (match last_part 4 UNKNOWN_RE_RDNS with Cat _ k => k | r => r end)) s1)) in H.
  rewrite <- Q in H.
  apply grp_In in H as (w2 & s2 & E2 & R2 & H & C2); [|vm_compute; reflexivity|vm_compute; reflexivity].
  assert (F2 : fits (text ($"unknown")) (s_before s1) w2 (s_after s2)) by (revert R2; apply reads_fits with (1 := eq_refl); flikes).
  apply fits_text in F2 as ->. subst q.
  rewrite <- (chain_firsts 2 (match last_part 4 UNKNOWN_RE_RDNS with Cat _ k => k | r => r end)) in H.
  apply chain_In in H as (w3 & s3 & _ & _ & H & C3); [|vm_compute; reflexivity]. specialize (C3 eq_refl).
  remember (match last_part 2 (match last_part 4 UNKNOWN_RE_RDNS with Cat _ k => k | r => r end) with Cat (Grp _ a) _ => a | r => r end) as p eqn:P.
  remember (match last_part 2 (match last_part 4 UNKNOWN_RE_RDNS with Cat _ k => k | r => r end) with Cat _ k => k | r => r end) as q eqn:Q.
  change (In st (ways (Cat (Grp 3 (match last_part 2 (match last_part 4 UNKNOWN_RE_RDNS with Cat _ k => k | r => r end) with Cat (Grp _ a) _ => a | r => r end))
    (match last_part 2 (match last_part 4 UNKNOWN_RE_RDNS with Cat _ k => k | r => r end) with Cat _ k => k | r => r end)) s3)) in H. rewrite <- P, <- Q in H.
  apply grp_In in H as (w4 & s4 & _ & _ & H & C4); [|subst p; vm_compute; reflexivity|subst p; vm_compute; reflexivity].
  apply rest_In in H as (w5 & _ & _ & C5); [|subst q; vm_compute; reflexivity|subst q; vm_compute; reflexivity].
  unfold g_. rewrite C5, C4, C3, C2. reflexivity.
Qed.
Lemma unknown_name name a b c d rest : word name -> bytes a b c d -> rdns_raw udigit uword (nameless name (quad a b c d) rest) = $"unknown".
Proof.
  intros Hh Hb. unfold rdns_raw, nameless, Model_Received.m_.
  change ($" (unknown [") with (32%N :: 40%N :: $"unknown" ++ [32; 91])%N. change ($"])") with [93; 41]%N. cbn [app]. rewrite <- !app_assoc. cbn [app].
  set (T := Cat (Rep true 0 (Some 1) (Chr false false [ISpace])) (Cat (Chr false false [IChar 91])
        (Cat IP_ADDRESS (Cat (Chr false false [IChar 93]) (Cat (Rep true 0 None Dot) (Chr false false [IChar 41])))))).
  set (p := rev ($"unknown") ++ 40%N :: 32%N :: rev name ++ []).
  assert (I : In (mkS (41%N :: 93%N :: rev (quad a b c d) ++ 91%N :: 32%N :: p) rest [(2, $"unknown"); (1, name)])
                 (ways T (mkS p (32%N :: 91%N :: quad a b c d ++ 93%N :: 41%N :: rest) [(2, $"unknown"); (1, name)]))).
  { unfold T. eapply in_cat; [apply first_in, opt_first; reflexivity|]. eapply in_cat; [apply in_chr; reflexivity|].
    eapply in_cat; [apply Proofs_Handover.ip_in, Hb|]. eapply in_cat; [apply in_chr; reflexivity|].
    eapply in_cat; [apply (dots_in udigit uword []); intros []|]. apply in_chr. reflexivity. }
  destruct (first_tail udigit uword T _ _ eq_refl I) as (st & F & C).
  assert (M : re_match udigit uword HELO_RE7 (name ++ 32%N :: 40%N :: $"unknown" ++ 32%N :: 91%N :: quad a b c d ++ 93%N :: 41%N :: rest) = Some st).
  { apply match_first. change HELO_RE7 with
      (Cat Bos (Cat (Grp 1 (Rep true 1 None (Chr false false [INotSpace]))) (Cat (Chr false false [ISpace]) (Cat (Chr false false [IChar 40])
        (Cat (Grp 2 (Rep true 1 None (Chr false false [INotSpace]))) T))))).
    eapply first_cat; [apply Proofs_Handover.bos_first|]. eapply first_cat; [apply Proofs_Handover.word_first, Hh|]. eapply first_cat; [apply Proofs_Handover.sp_first|].
    eapply first_cat; [apply Proofs_Handover.lit_first|]. eapply first_cat; [apply Proofs_Handover.word_first; split; [discriminate|]|exact F].
    intros x Hx. cbn in Hx. repeat (destruct Hx as [<-|Hx]; [reflexivity|]). destruct Hx. }
  rewrite M. cbv zeta. unfold g_. rewrite C. reflexivity.
Qed.
Lemma nameless_rdns name a b c d rest : word name -> bytes a b c d -> get_rdns udigit uword (nameless name (quad a b c d) rest) = [].
Proof.
  intros Hh Hb. unfold get_rdns. rewrite (unknown_name name a b c d rest Hh Hb). cbv zeta.
  assert (U : forall h, (if contains ($"(Postfix)") h then match m_ UNKNOWN_RE_RDNS h with Some st => g_ 2 st | None => $"unknown" end else $"unknown") = $"unknown").
  { intros h. destruct (contains _ _); [|reflexivity]. destruct (m_ UNKNOWN_RE_RDNS h) as [st|] eqn:E; [exact (unknown_group h st E)|reflexivity]. }
  change (contains ($"@") ($"unknown")) with false. cbv iota. rewrite U. vm_compute. reflexivity.
Qed.
(** ** Headers that name no sender *)
Lemma unlisted raw : (forall t, raw <> $"from" ++ t) -> (forall t, raw <> $"X-ORIGINATING-IP" ++ t) -> parse_received udigit uword [raw] = [].
Proof.
  intros A B. cbn [parse_received]. unfold prepare.
  destruct (startswith ($"from") raw) eqn:E; [apply startswith_app in E as [t E]; destruct (A t E)|].
  destruct (startswith ($"X-ORIGINATING-IP") raw) eqn:E'; [apply startswith_app in E' as [t E']; destruct (B t E')|]. reflexivity.
Qed.
End More.
