(** Proofs about the id and the authentication that a Received header states. *)
From Verif Require Import PyStr Regexp Proofs_Regexp Proofs_RegexpFail Model_Received Spec_Received Proofs_Received Proofs_ReceivedIp Proofs_Handover.
From Verif Require Model_Relays Spec_Relays Proofs_Relays.

Section Fields.
Variable udigit uword : char -> bool.
Notation ways := (ways udigit uword).

(** ** What a header of a hand-over gives *)
Lemma parse_fields h date r : tidy h -> ~ In 59%N h -> match h with c :: _ => is_space c = false | [] => False end -> is_date date ->
  (forall z, h <> $"X-ORIGINATING-IP" ++ z) -> parse_received udigit uword [received_header h date] = [r] ->
  r = Model_Relays.mkRelay (get_rdns udigit uword h) (get_ip udigit uword h) (get_by udigit uword h) (get_helo udigit uword h)
        (get_ident udigit uword h) (get_id udigit uword h) (get_envfrom udigit uword h) (get_auth udigit uword h) false None.
Proof.
  intros Ht H59 Hs Hd Hx H. cbn [parse_received] in H. rewrite (prepare_received h date Ht H59 Hs Hd) in H.
  unfold parse_one in H. destruct (check_for_skip udigit uword h); [discriminate|].
  assert (X : startswith ($"X-ORIGINATING-IP") h = false).
  { destruct (startswith ($"X-ORIGINATING-IP") h) eqn:E; [|reflexivity]. apply startswith_app in E as [z E]. destruct (Hx z E). }
  rewrite X in H. injection H as <-. reflexivity.
Qed.

(** ** The id *)
Lemma tidy_newline h : tidy h -> ~ In 10%N h.
Proof. intros [T _] I. specialize (T _ I eq_refl). discriminate. Qed.
Lemma id_last w h : tidy h -> last_word ($"id ") w h -> get_id udigit uword h = strip_chars ($"<>") w.
Proof.
  intros Ht (pre & post & E & Hw & Hp & Hl). pose proof (tidy_newline h Ht) as NL.
  set (K := Cat (Chr false false [IChar 105]) (Cat (Chr false false [IChar 100]) (Cat (Chr false false [IChar 32])
         (Grp 1 (Rep true 1 None (Chr false false [INotSpace])))))).
  assert (F : exists st, m_ udigit uword ID_RE h = Some st /\ g_ 1 st = w).
  { destruct Hw as [Wne Wb].
    assert (G : first udigit uword (Grp 1 (Rep true 1 None (Chr false false [INotSpace]))) (mkS (32%N :: 100%N :: 105%N :: rev pre ++ []) (w ++ post ++ []) [])
      (mkS (rev w ++ 32%N :: 100%N :: 105%N :: rev pre ++ []) (post ++ []) [(1, w)])).
    { pose proof (first_grp udigit uword 1 (Rep true 1 None (Chr false false [INotSpace])) (mkS (32%N :: 100%N :: 105%N :: rev pre ++ []) (w ++ post ++ []) [])
        (mkS (rev w ++ 32%N :: 100%N :: 105%N :: rev pre ++ []) (post ++ []) []) w) as Q.
      cbn [s_before s_after s_caps] in Q. apply Q.
      - apply plus_first; [exact Wne|apply ns_word, Wb|]. destruct Hp as [->|[t ->]]; [reflexivity|]. reflexivity.
      - split; reflexivity. }
    rewrite !app_nil_r in G.
    eexists. split.
    - apply match_first. change ID_RE with (Cat (Rep true 0 None Dot) K). rewrite E.
      apply (greedy_first udigit uword K pre [] ($"id " ++ w ++ post) []).
      + intros I. apply NL. rewrite E. apply in_or_app. left. exact I.
      + intros I. apply NL. rewrite E. apply in_or_app. right. exact I.
      + intros u v Ev Hu. destruct (ways K _) as [|st l] eqn:Wk; [reflexivity|]. exfalso.
        assert (I : In st (ways K (mkS (rev u ++ rev pre ++ []) v []))) by (rewrite Wk; left; reflexivity).
        unfold K in I. remember (Grp 1 (Rep true 1 None (Chr false false [INotSpace]))) as g eqn:Eg. cbn [Regexp.ways] in I.
        apply in_flat_map in I as (s1 & I1 & I). apply in_flat_map in I as (s2 & I2 & I). apply in_flat_map in I as (s3 & I3 & I).
        apply step_In in I1 as (c1 & C1 & X1 & _). apply step_In in I2 as (c2 & C2 & X2 & _). apply step_In in I3 as (c3 & C3 & X3 & _).
        assert (V : forall c d, class_in udigit uword false false [IChar d] c = true -> c = d).
        { intros c d Hc. unfold class_in in Hc. cbn in Hc. destruct (N.eqb c d) eqn:Q; [apply N.eqb_eq, Q|discriminate]. }
        apply V in C1, C2, C3. subst c1 c2 c3. destruct X1 as [X1 _], X2 as [X2 _], X3 as [X3 _]. cbn [s_after] in X1. rewrite X2, X3 in X1. cbn [app] in X1.
        subst g. destruct (s_after s3) as [|c y] eqn:E3.
        * cbn [Regexp.ways] in I. rewrite E3 in I. cbn [length Nat.add repeats] in I. unfold step in I. rewrite E3 in I. destruct I.
        * destruct (is_space c) eqn:Ec.
          { cbn [Regexp.ways] in I. rewrite E3 in I. cbn [length Nat.add repeats] in I. unfold step in I. rewrite E3 in I.
            assert (Cf : class_in udigit uword false false [INotSpace] c = false) by (unfold class_in; cbn; rewrite Ec; reflexivity). rewrite Cf in I. destruct I. }
          assert (L : length (pre ++ u) <= length pre).
          { apply (Hl (pre ++ u) c y); [|exact Ec]. rewrite E, Ev, X1, <- app_assoc. reflexivity. }
          rewrite app_length in L. destruct u; [congruence|cbn in L; lia].
      + change ($"id " ++ w ++ post) with (105%N :: 100%N :: 32%N :: w ++ post). unfold K.
        rewrite app_nil_r. do 3 (eapply first_cat; [apply lit_first|]). exact G.
    - reflexivity. }
  destruct F as (st & F & G). unfold get_id. rewrite F, G. reflexivity.
Qed.

(** ** Authentication *)
Lemma not_contains_lower m marks h : without marks h -> In (lower m) marks -> contains m h = false.
Proof.
  intros Hq Hm. destruct (contains m h) eqn:E; [|reflexivity]. exfalso. apply contains_app in E as (x & y & ->).
  apply (Hq (lower m) (lower x) (lower y) Hm). unfold lower. rewrite !map_app. reflexivity.
Qed.
Definition AUTH_K : re := Eval vm_compute in drop_cat 1 AUTH_RE.
Definition AUTH_M : re := Eval vm_compute in match drop_cat 6 AUTH_K with Cat m _ => m | r => r end.
Lemma auth_shape : exists e, AUTH_K = Cat (Chr true false [ISpace]) (Cat (Chr true false [IChar 119]) (Cat (Chr true false [IChar 105]) (Cat (Chr true false [IChar 116])
   (Cat (Chr true false [IChar 104]) (Cat (Chr true false [ISpace]) (Cat AUTH_M e)))))).
Proof. eexists. reflexivity. Qed.
Lemma methods_text : exists l, literal true AUTH_M = Some l /\ forall m, In m l -> In m (map lower auth_methods).
Proof.
  eexists. split; [vm_compute; reflexivity|]. intros m Hm. vm_compute in Hm. vm_compute.
  repeat (destruct Hm as [<-|Hm]; [tauto|]). destruct Hm.
Qed.
Lemma space_class c : class_in udigit uword true false [ISpace] c = true -> is_space c = true.
Proof.
  unfold class_in. cbn. destruct (is_space c) eqn:E; [reflexivity|]. cbn. intros H. exfalso.
  assert (Sw : forall x, (65 <= x <= 122)%N -> is_space x = false).
  { intros x Hx. destruct (is_space x) eqn:F; [|reflexivity]. exfalso. unfold is_space in F.
    repeat (apply orb_true_iff in F as [F|F]); repeat (apply andb_true_iff in F as [F ?]); repeat match goal with K : N.leb _ _ = true |- _ => apply N.leb_le in K | K : N.eqb _ _ = true |- _ => apply N.eqb_eq in K end; lia. }
  unfold swapcase in H. destruct (N.leb 65 c && N.leb c 90) eqn:A.
  - apply andb_true_iff in A as [A B]. apply N.leb_le in A, B. rewrite Sw in H by lia. discriminate.
  - destruct (N.leb 97 c && N.leb c 122) eqn:A2; [|rewrite E in H; discriminate].
    apply andb_true_iff in A2 as [A2 B]. apply N.leb_le in A2, B. rewrite Sw in H by lia. discriminate.
Qed.
Lemma auth_with_text st st' h x : In st' (ways AUTH_K st) -> h = x ++ s_after st -> tidy h ->
  exists m y, In m (map lower auth_methods) /\ lower (s_after st) = $" with " ++ m ++ y.
Proof.
  intros H E [T _]. destruct auth_shape as [e EA]. rewrite EA in H. destruct methods_text as (l & Hl & Hm).
  remember AUTH_M as M eqn:EM. cbn [Regexp.ways] in H.
  apply in_flat_map in H as (s1 & H1 & H). apply in_flat_map in H as (s2 & H2 & H). apply in_flat_map in H as (s3 & H3 & H).
  apply in_flat_map in H as (s4 & H4 & H). apply in_flat_map in H as (s5 & H5 & H). apply in_flat_map in H as (s6 & H6 & H).
  apply in_flat_map in H as (s7 & H7 & _).
  apply step_In in H1 as (c1 & C1 & X1 & _). apply step_In in H2 as (c2 & C2 & X2 & _). apply step_In in H3 as (c3 & C3 & X3 & _).
  apply step_In in H4 as (c4 & C4 & X4 & _). apply step_In in H5 as (c5 & C5 & X5 & _). apply step_In in H6 as (c6 & C6 & X6 & _).
  destruct (ways_ext _ _ _ _ _ H7) as [w X7]. pose proof (literal_ok udigit uword true M l Hl _ _ _ H7 X7) as Hw. cbn [norm] in Hw.
  apply space_class in C1, C6.
  assert (V : forall c d, lower_char d = d -> class_in udigit uword true false [IChar d] c = true -> lower_char c = d).
  { intros c d Ld Hc. unfold class_in in Hc. cbn in Hc. destruct (N.eqb c d) eqn:Q; [apply N.eqb_eq in Q; subst; exact Ld|].
    cbn in Hc. destruct (N.eqb (swapcase c) d) eqn:Q2; [apply N.eqb_eq in Q2; rewrite (swap_lower c d Q2); exact Ld|discriminate]. }
  apply V in C2, C3, C4, C5; try reflexivity.
  destruct X1 as [X1 _], X2 as [X2 _], X3 as [X3 _], X4 as [X4 _], X5 as [X5 _], X6 as [X6 _], X7 as [X7 _].
  rewrite X2, X3, X4, X5, X6, X7 in X1. cbn [app] in X1.
  assert (E1 : c1 = 32%N) by (apply T; [rewrite E, X1; apply in_or_app; right; left; reflexivity|exact C1]).
  assert (E6 : c6 = 32%N) by (apply T; [rewrite E, X1; apply in_or_app; right; do 5 right; left; reflexivity|exact C6]).
  subst c1 c6. exists (lower w), (lower (s_after s7)). split; [apply Hm, Hw|]. rewrite X1. unfold lower. cbn [map]. rewrite map_app.
  rewrite C2, C3, C4, C5. reflexivity.
Qed.
Lemma auth_with_none h : tidy h -> without auth_marks h -> m_ udigit uword AUTH_RE h = None.
Proof.
  intros Ht Hq. apply match_None. destruct (ways AUTH_RE (mkS [] h [])) as [|st l] eqn:Wk; [reflexivity|]. exfalso.
  assert (I : In st (ways AUTH_RE (mkS [] h []))) by (rewrite Wk; left; reflexivity).
  destruct (drop_cat_ways udigit uword 1 AUTH_RE _ _ h [] I eq_refl) as (s1 & x & H1 & X).
  change (drop_cat 1 AUTH_RE) with AUTH_K in H1. destruct (auth_with_text s1 st h x H1 X Ht) as (m & y & Hm & E).
  apply in_map_iff in Hm as (m0 & <- & Hm). apply (Hq ($" with " ++ lower m0) (lower x) y).
  - unfold auth_marks. apply in_or_app. left. apply in_map_iff. exists m0. auto.
  - rewrite X. unfold lower in *. rewrite map_app, E, <- app_assoc. reflexivity.
Qed.
Lemma mark_last m : In m [$"authenticated"; $" by mx.google.com with esmtps id "; $" by mail.gmx.net ("; $" by mail.gmx.com ("; $" (account "] -> In m auth_marks.
Proof. intros H. unfold auth_marks. apply in_or_app. right. exact H. Qed.
Lemma search_none n r marks h : without marks h -> incl (lead true (drop_cat n r)) marks -> re_search udigit uword r h = None.
Proof. intros Hq Hi. pose proof (search_deep udigit uword n r marks h Hq Hi) as K. unfold s_ in K. destruct (re_search udigit uword r h); [discriminate|reflexivity]. Qed.
Lemma unauthenticated h : tidy h -> without auth_marks h -> get_auth udigit uword h = [].
Proof.
  intros Ht Hq. unfold get_auth. apply Proofs_Relays.no_auth; cbn [auth_patterns Model_Relays.ar_with Model_Relays.ar_postfix Model_Relays.ar_gmx Model_Relays.ar_communigate Model_Relays.ar_cipher].
  - rewrite (auth_with_none h Ht Hq). reflexivity.
  - apply (search_deep udigit uword 3 AUTH_RE3 auth_marks h Hq). intros m Hm. vm_compute in Hm. destruct Hm as [<-|[]]. apply mark_last. left. reflexivity.
  - apply (not_contains_lower _ auth_marks); [exact Hq|]. apply mark_last. left. reflexivity.
  - rewrite (search_none 1 AUTH_RE4 auth_marks h Hq); [reflexivity|]. intros m Hm. vm_compute in Hm.
    destruct Hm as [<-|[<-|[]]]; apply mark_last; [do 2 right|do 3 right]; left; reflexivity.
  - apply (search_deep udigit uword 1 AUTH_RE5 auth_marks h Hq). intros m Hm. vm_compute in Hm. destruct Hm as [<-|[]]. apply mark_last. do 4 right. left. reflexivity.
  - right. apply (not_contains_lower _ auth_marks); [exact Hq|]. apply mark_last. right. left. reflexivity.
Qed.
Ltac text_first :=
  first [ apply lit_first | eapply first_cat; [text_first|text_first] | apply first_alt_l; text_first
        | apply first_alt_r; [reflexivity|text_first] | apply opt_first; reflexivity | exists []; apply opt_none; reflexivity ].
Lemma with_method m post b : In m auth_methods -> post = [] \/ (exists t, post = $" " ++ t) ->
  exists st, first udigit uword AUTH_K (mkS b ($" with " ++ m ++ post) []) st /\ g_ 1 st = m.
Proof.
  intros Hm Hp.
  set (M := match AUTH_M with Grp _ m => m | r => r end). set (e := drop_cat 7 AUTH_K).
  change AUTH_K with (Cat (Chr true false [ISpace]) (Cat (Chr true false [IChar 119]) (Cat (Chr true false [IChar 105]) (Cat (Chr true false [IChar 116])
   (Cat (Chr true false [IChar 104]) (Cat (Chr true false [ISpace]) (Cat (Grp 1 M) e))))))).
  assert (FM : forall b' k, first udigit uword M (mkS b' (m ++ post) k) (mkS (rev m ++ b') post k)).
  { intros b' k. vm_compute in Hm. unfold M. cbn [AUTH_M]. destruct Hp as [->|[t ->]]; change ($" ") with [32%N];
    repeat (destruct Hm as [<-|Hm]; [cbn [app rev]; text_first|]); destruct Hm. }
  assert (FE : forall b' k, exists st, first udigit uword e (mkS b' post k) st /\ s_caps st = k).
  { intros b' k. destruct Hp as [->|[t ->]]; eexists; (split; [eexists; vm_compute; reflexivity|reflexivity]). }
  destruct (FE (rev m ++ 32%N :: 104%N :: 116%N :: 105%N :: 119%N :: 32%N :: b) [(1, m)]) as (st & F & C).
  exists st. split; [|unfold g_; rewrite C; reflexivity].
  change ($" with " ++ m ++ post) with (32%N :: 119%N :: 105%N :: 116%N :: 104%N :: 32%N :: m ++ post).
  eapply first_cat; [apply first_chr; reflexivity|]. do 4 (eapply first_cat; [apply lit_first|]). eapply first_cat; [apply first_chr; reflexivity|].
  eapply first_cat; [|exact F].
  pose proof (first_grp udigit uword 1 M _ _ m (FM (32%N :: 104%N :: 116%N :: 105%N :: 119%N :: 32%N :: b) [])) as Q. cbn [s_before s_after s_caps] in Q.
  apply Q. split; reflexivity.
Qed.
Lemma authenticated_with h pre m post : tidy h -> h = pre ++ $" with " ++ m ++ post -> In m auth_methods -> post = [] \/ (exists t, post = $" " ++ t) ->
  contains ($" by ") h = true ->
  (forall x m' y, lower h = x ++ $" with " ++ lower m' ++ y -> In m' auth_methods -> length pre <= length x) ->
  get_auth udigit uword h = m.
Proof.
  intros Ht E Hm Hp Hby Hf. destruct (with_method m post (rev pre ++ []) Hm Hp) as (st & F & G).
  assert (A : m_ udigit uword AUTH_RE h = Some st).
  { apply match_first. change AUTH_RE with (Cat (Rep false 0 None Dot) AUTH_K). rewrite E. apply lazy_first; [| |exact F].
    - intros I. apply (tidy_newline h Ht). rewrite E. apply in_or_app. left. exact I.
    - intros u c v Ev. destruct (ways AUTH_K _) as [|s l] eqn:Wk; [reflexivity|]. exfalso.
      assert (I : In s (ways AUTH_K (mkS (rev u ++ []) (c :: v ++ $" with " ++ m ++ post) []))) by (rewrite Wk; left; reflexivity).
      destruct (auth_with_text _ _ h u I) as (m' & y & Hm' & L); [rewrite E, Ev, <- app_assoc; reflexivity|exact Ht|].
      apply in_map_iff in Hm' as (m0 & <- & Hm'). cbn [s_after] in L.
      assert (Q : length pre <= length (lower u)).
      { apply (Hf (lower u) m0 y); [|exact Hm']. rewrite E, Ev, <- app_assoc. cbn [app]. unfold lower in *. rewrite map_app, L. reflexivity. }
      unfold lower in Q. rewrite map_length, Ev, app_length in Q. cbn [length] in Q. lia. }
  unfold get_auth, Model_Relays.get_auth. rewrite Hby. cbn [auth_patterns Model_Relays.ar_with]. rewrite A. cbn [option_map]. exact G.
Qed.
Lemma auth_method_text h : option_map (g_ 1) (m_ udigit uword AUTH_RE h) <> Some [].
Proof.
  destruct (m_ udigit uword AUTH_RE h) as [st|] eqn:E; [|discriminate]. cbn [option_map]. intros K. injection K as K.
  assert (I : In st (ways AUTH_RE (mkS [] h []))).
  { unfold m_, re_match in E. destruct (Regexp.ways udigit uword AUTH_RE (mkS [] h [])); [discriminate|]. injection E as ->. left. reflexivity. }
  destruct (drop_cat_ways udigit uword 7 AUTH_RE _ _ h [] I eq_refl) as (s1 & x & H1 & _).
  set (M := match AUTH_M with Grp _ m => m | r => r end). set (e := drop_cat 7 AUTH_K).
  change (drop_cat 7 AUTH_RE) with (Cat (Grp 1 M) e) in H1.
  cbn [Regexp.ways] in H1. apply in_flat_map in H1 as (s2 & H2 & H3).
  apply in_map_iff in H2 as (s3 & <- & H2). apply (ways_same_caps udigit uword e eq_refl) in H3. cbn [s_caps] in H3.
  unfold g_ in K. rewrite H3 in K. cbn [group Nat.eqb] in K.
  destruct (ways_ext _ _ _ _ _ H2) as [w X]. rewrite (ext_consumed _ _ _ X) in K. subst w.
  assert (L : exists l, literal true M = Some l /\ ~ In [] l).
  { eexists. split; [vm_compute; reflexivity|]. intros J. vm_compute in J. repeat (destruct J as [J|J]; [discriminate J|]). destruct J. }
  destruct L as (l & Hl & Hn). apply Hn. exact (literal_ok udigit uword true M l Hl _ _ _ H2 X).
Qed.

(** ** From the header to the trust *)
Section Trust.
Variable ip_address : str -> option Model_Net.addr.
Variable is_private : Model_Net.addr -> bool.
Variable nw : Model_Net.nets.
Notation relays l := (Model_Relays.parse_relays ip_address is_private nw (parse_received udigit uword l)).
Lemma c168_outside own later helo name a b c d server rest date x st0 st :
  let h := handover helo name (quad a b c d) server rest in
  word helo -> host_name name -> bytes a b c d -> word server -> is_date date -> tidy h -> ~ In 59%N h ->
  helo <> $"Unknown/Local" -> (forall z, helo <> $"X-ORIGINATING-IP" ++ z) -> without skip_marks h -> without auth_marks h ->
  ~ taken_private a b -> ip_address (quad a b c d) = Some x -> Spec_Relays.outside is_private nw x ->
  relays own = Some st0 -> (forall p, In p (parse_received udigit uword own) -> ~ Spec_Relays.is_msa ip_address nw p) ->
  relays (own ++ received_header h date :: later) = Some st ->
  Model_Relays.trusted_relays st = Model_Relays.trusted_relays st0 /\ Model_Relays.internal_relays st = Model_Relays.internal_relays st0.
Proof.
  intros h Hh Hn Hb Hs Hd Ht H59 Hu Hx Hq Ha Hp Hip Ho H0 Hm H.
  destruct (c162 udigit uword helo name a b c d server rest date Hh Hn Hb Hs Hd Ht H59 Hu Hx Hq) as (r & E & _ & _ & _ & P & _). specialize (P Hp).
  assert (F : r = _) by (apply (parse_fields h date r Ht H59); [| exact Hd | | exact E];
    [unfold h, handover; destruct Hh as [Hne Hnb]; destruct helo as [|z w]; [congruence|]; cbn [app]; apply Hnb; left; reflexivity|];
    intros z Ez; assert (X : startswith ($"X-ORIGINATING-IP") h = true) by (apply startswith_app; exists z; exact Ez);
    assert (X' : startswith ($"X-ORIGINATING-IP") h = false) by (unfold h, handover; change ($" (") with [32; 40]%N; cbn [app]; apply origin_word; [apply Hh|exact Hx]); congruence).
  assert (Au : Model_Relays.rl_auth r = []) by (rewrite F; cbn [Model_Relays.rl_auth]; apply unauthenticated; assumption).
  change (received_header h date :: later) with ([received_header h date] ++ later) in H. rewrite parse_app, parse_app in H. fold h in E. rewrite E in H.
  refine (Proofs_Relays.forged ip_address is_private nw (parse_received udigit uword own) r (parse_received udigit uword later) x st0 st H0 _ _ _ Au Ho H).
  - apply Forall_forall. exact Hm.
  - rewrite P. unfold quad. destruct (byte_text a) eqn:Q; [destruct (byte_nonempty a Q)|discriminate].
  - rewrite P. exact Hip.
Qed.
Lemma c168_announced helo name a b c d server rest date x st :
  let h := handover helo name (quad a b c d) server rest in
  word helo -> host_name name -> bytes a b c d -> word server -> is_date date -> tidy h -> ~ In 59%N h ->
  helo <> $"Unknown/Local" -> (forall z, helo <> $"X-ORIGINATING-IP" ++ z) -> without skip_marks h ->
  piece ($"authenticated") helo -> contains ($" by mx.google.com with ESMTPS id ") h = false ->
  ~ taken_private a b -> ip_address (quad a b c d) = Some x -> Spec_Relays.outside is_private nw x ->
  relays [received_header h date] = Some st -> map Model_Relays.rl_ip (Model_Relays.trusted_relays st) = [quad a b c d].
Proof.
  intros h Hh Hn Hb Hs Hd Ht H59 Hu Hx Hq (u & v & Eh) Hg Hp Hip Ho H.
  destruct (c162 udigit uword helo name a b c d server rest date Hh Hn Hb Hs Hd Ht H59 Hu Hx Hq) as (r & E & _ & _ & _ & P & _). specialize (P Hp).
  assert (F : r = _) by (apply (parse_fields h date r Ht H59); [| exact Hd | | exact E];
    [unfold h, handover; destruct Hh as [Hne Hnb]; destruct helo as [|z w]; [congruence|]; cbn [app]; apply Hnb; left; reflexivity|];
    intros z Ez; assert (X : startswith ($"X-ORIGINATING-IP") h = true) by (apply startswith_app; exists z; exact Ez);
    assert (X' : startswith ($"X-ORIGINATING-IP") h = false) by (unfold h, handover; change ($" (") with [32; 40]%N; cbn [app]; apply origin_word; [apply Hh|exact Hx]); congruence).
  fold h in E. rewrite E in H.
  assert (Q : h = u ++ $"authenticated" ++ (v ++ $" (" ++ name ++ $" [" ++ quad a b c d ++ $"]) by " ++ server ++ $" " ++ rest)).
  { unfold h, handover. rewrite Eh, <- !app_assoc. reflexivity. }
  apply (Proofs_Relays.auth_word_trusted (auth_patterns udigit uword) u (v ++ $" (" ++ name ++ $" [" ++ quad a b c d ++ $"]) by " ++ server ++ $" " ++ rest)
    nw ip_address is_private (quad a b c d) x st r).
  - apply auth_method_text.
  - rewrite <- Q. exact Hg.
  - exact P.
  - unfold quad. destruct (byte_text a) eqn:Q'; [destruct (byte_nonempty a Q')|discriminate].
  - rewrite <- Q. rewrite F. reflexivity.
  - exact Hip.
  - exact Ho.
  - exact H.
Qed.
End Trust.
End Fields.
