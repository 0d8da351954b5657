(** Proofs for C255 and C256. *)
From Coq Require Import Lia.
From Verif Require Import PyStr PyDict PyPath Model_Rules Model_Parser Spec_Parser Proofs_Parser Model_Where Spec_Where.

Lemma sws_count : forall n s, length (split_ws_max n s) = Nat.min (S n) (length (words s)).
Proof.
  induction n as [|n IH]; intros s.
  - destruct (split_ws_max 0 s) as [|w r] eqn:Es.
    + apply sws_nil, blanks_words in Es. rewrite Es. reflexivity.
    + destruct (sws_0 _ _ _ Es) as (-> & _). destruct (words s) eqn:Ew; [|cbn; lia].
      apply blanks_words in Ew. rewrite (proj2 (sws_nil 0 s) Ew) in Es. discriminate.
  - destruct (split_ws_max (S n) s) as [|w r] eqn:Es.
    + apply sws_nil, blanks_words in Es. rewrite Es. reflexivity.
    + destruct (sws_S _ _ _ _ Es) as (b & t & -> & Hb & Hne & Hw & Ht & ->).
      rewrite words_cons by assumption. cbn [length]. rewrite IH. lia.
Qed.
Lemma words_blanks : forall b s, blanks b -> words (b ++ s) = words s.
Proof.
  induction b as [|x b IH]; intros s H; [reflexivity|]. unfold blanks in H. cbn [forallb] in H. apply andb_true_iff in H as [Hx H].
  change (words ((x :: b) ++ s)) with (words_aux (x :: (b ++ s)) []). cbn [words_aux]. rewrite Hx. apply IH. exact H.
Qed.
Lemma three_fields : forall s a b c, split_ws_max 2 s = [a; b; c] -> words s = a :: b :: words c.
Proof.
  intros s a b c H. destruct (sws_S _ _ _ _ H) as (b1 & t1 & -> & Hb & Hne & Hw & Ht & E1).
  rewrite words_cons by assumption. symmetry in E1.
  destruct (sws_S _ _ _ _ E1) as (b2 & t2 & -> & Hb2 & Hne2 & Hw2 & Ht2 & E2).
  rewrite words_cons by assumption. symmetry in E2. destruct (sws_0 _ _ _ E2) as (_ & b3 & -> & Hb3 & _).
  rewrite words_blanks by exact Hb3. reflexivity.
Qed.

Section WhereProofs.
Context {X : Type}.
Variable E : penv X.

Definition forget (e : wexn) : pexn :=
  match e with WSyntax _ => ESyntax | WPluginLoad => EPluginLoad | WMaxDepth _ => EMaxDepth | WFatal => EFatal end.
Definition outcome (r : wres X) : pres X :=
  match r with WDone s _ => PDone s | WRaise e s _ => PRaise (forget e) s end.

Lemma outcome_after : forall log (r : wres X), outcome (after log r) = outcome r.
Proof. intros log [s l|e s l]; reflexivity. Qed.
Lemma outcome_at_line : forall p (r : pres X), outcome (at_line p r) = r.
Proof. intros p [s|[] s]; reflexivity. Qed.
Lemma outcome_call : forall p (r : wres X), outcome (add_call p r) = outcome r.
Proof. intros p [s l|[] s l]; reflexivity. Qed.

Lemma line_outcome : forall inc inc' f n l (st : pstate X), (forall g s, outcome (inc g s) = inc' g s) ->
  outcome (handle_line_at E inc f n l st) = handle_line E inc' f l st.
Proof.
  intros inc inc' f n l st H. unfold handle_line_at, handle_line. cbv zeta.
  destruct (startswith ($"endif") (strip l)); [reflexivity|].
  destruct (startswith ($"else") (strip l)); [reflexivity|].
  destruct (startswith ($"require_version") (strip l)); [reflexivity|].
  destruct (strip l) as [|c r]; [reflexivity|].
  destruct (startswith ($"#") (c :: r) || p_ignore st); [reflexivity|].
  destruct (match split_ws_max 1 (bare_line l) with [t; v] => (t, v) | _ => (bare_line l, []) end) as [rtype value].
  destruct (streqb rtype ($"include")).
  - rewrite outcome_call. apply H.
  - rewrite outcome_at_line. reflexivity.
Qed.
Lemma lines_outcome : forall inc inc' f, (forall g s, outcome (inc g s) = inc' g s) -> forall ls n (st : pstate X),
  outcome (run_lines_at E inc f n ls st) = run_lines E inc' f ls st.
Proof.
  intros inc inc' f H. induction ls as [|l ls IH]; intros n st; [reflexivity|]. cbn [run_lines_at run_lines].
  rewrite <- (line_outcome inc inc' f n l st H).
  destruct (handle_line_at E inc f n l st) as [s log|[p| |calls|] s log]; cbn [outcome forget].
  - rewrite outcome_after. apply IH.
  - destruct (e_paranoid E); [reflexivity|]. rewrite outcome_after. apply IH.
  - rewrite outcome_after. apply IH.
  - reflexivity.
  - reflexivity.
Qed.
Lemma file_outcome : forall k f (st : pstate X), outcome (parse_file_at E k f st) = parse_file E k f st.
Proof.
  induction k as [|k IH]; intros f st; [reflexivity|]. cbn [parse_file_at parse_file].
  destruct (e_files E f) as [ls|]; [|reflexivity]. apply lines_outcome. exact IH.
Qed.
Lemma files_outcome : forall fs (st : pstate X), outcome (parse_files_at E fs st) = parse_files E fs st.
Proof.
  induction fs as [|f fs IH]; intros st; [reflexivity|]. cbn [parse_files_at parse_files].
  rewrite <- file_outcome. destruct (parse_file_at E max_levels f st) as [s log|e s log]; cbn [outcome].
  - rewrite outcome_after. apply IH.
  - reflexivity.
Qed.

(** What one line can do. *)
Lemma line_cases : forall inc f n l (st : pstate X),
  (exists v, include_line l v /\ let g := if isabs v then v else if isabs f then path_join (dirname f) v else v in
     handle_line_at E inc f n l st = add_call (g, n, bare_line l) (inc g st)) \/
  (forall p s log, handle_line_at E inc f n l st = WRaise (WSyntax p) s log -> log = [] /\ p = (f, n, bare_line l) /\ incomplete l) /\
  (forall s log, handle_line_at E inc f n l st = WDone s log -> log = []) /\
  (forall s log, handle_line_at E inc f n l st = WRaise WPluginLoad s log -> log = []) /\
  (forall s log, handle_line_at E inc f n l st = WRaise WFatal s log -> log = []) /\
  (forall c s log, handle_line_at E inc f n l st <> WRaise (WMaxDepth c) s log).
Proof.
  intros inc f n l st. unfold handle_line_at. cbv zeta.
  assert (Q : forall s', (forall p s log, WDone (X := X) s' [] = WRaise (WSyntax p) s log -> log = [] /\ p = (f, n, bare_line l) /\ incomplete l) /\
    (forall s log, WDone (X := X) s' [] = WDone s log -> log = []) /\
    (forall s log, WDone (X := X) s' [] = WRaise WPluginLoad s log -> log = []) /\
    (forall s log, WDone (X := X) s' [] = WRaise WFatal s log -> log = []) /\
    (forall c s log, WDone (X := X) s' [] <> WRaise (WMaxDepth c) s log)).
  { intros s'. split; [discriminate|]. split; [congruence|]. split; [discriminate|]. split; discriminate. }
  destruct (startswith ($"endif") (strip l)); [right; apply Q|].
  destruct (startswith ($"else") (strip l)); [right; apply Q|].
  destruct (startswith ($"require_version") (strip l)); [right; apply Q|].
  destruct (strip l) as [|c0 r0]; [right; apply Q|].
  destruct (startswith ($"#") (c0 :: r0) || p_ignore st); [right; apply Q|].
  change (match split_ws_max 1 (bare_line l) with [t; v] => (t, v) | _ => (bare_line l, []) end) with (line_kw l).
  destruct (streqb_spec (fst (line_kw l)) ($"include")) as [Ek|Ek].
  - left. destruct (proj1 (include_kw l) Ek) as [v Hv]. exists v. split; [exact Hv|].
    rewrite (include_value l v Hv). change (streqb ($"include") ($"include")) with true. cbv iota.
    rewrite include_path_eq; [reflexivity|]. destruct Hv as [[_ ->]|(b & _ & _ & Hv & _)]; auto.
  - right. destruct (line_kw l) as [rtype value] eqn:Ekw. cbn [fst] in Ek.
    destruct (streqb_spec rtype ($"include")) as [E'|_]; [contradiction|].
    set (r := if streqb rtype ($"ifplugin") then _ else _).
    assert (Hr : (forall s, r = PRaise ESyntax s -> incomplete l) /\ (forall s, r <> PRaise EMaxDepth s)).
    { subst r. destruct (streqb rtype ($"ifplugin")); [split; discriminate|].
      destruct (streqb rtype ($"loadplugin")).
      { unfold handle_loadplugin. destruct (match split_ws_max 1 value with [n0; p] => (n0, Some p) | _ => (value, None) end) as [nm pt].
        destruct (if contains ($"::") nm then e_known E nm else Some nm) as [[|c1 n1]|]; try (split; discriminate).
        destruct (e_load E (p_ctx st) (c1 :: n1) pt); split; discriminate. }
      assert (Ho : forall k v, (forall s, offer E k v st = PRaise ESyntax s -> incomplete l) /\ (forall s, offer E k v st <> PRaise EMaxDepth s)).
      { intros k v. unfold offer. destruct (e_option E (p_ctx st) k v); split; discriminate. }
      destruct (mem_str rtype known2 || mem_str rtype (e_cmds E (p_ctx st))); [|apply Ho].
      unfold handle_rule_line. pose proof (sws_count 2 (bare_line l)) as Hc.
      destruct (split_ws_max 2 (bare_line l)) as [|a [|b [|c [|d e]]]] eqn:Es;
        try (split; [intros _ _; left; cbn [length] in Hc; lia|discriminate]).
      pose proof (three_fields _ _ _ _ Es) as Hw.
      destruct (streqb_spec a ($"lang")) as [->|_]; [|split; discriminate].
      destruct (e_locale E) as [lg|]; [|split; discriminate].
      destruct (negb (startswith b lg)); [split; discriminate|].
      destruct (contains ($"report") c).
      - pose proof (sws_count 1 c) as H1. destruct (split_ws_max 1 c) as [|k [|v [|? ?]]]; try apply Ho; split; try discriminate; intros _ _; right;
          rewrite Hw; cbn [hd_error length] in *; split; try reflexivity; lia.
      - pose proof (sws_count 2 c) as H1. destruct (split_ws_max 2 c) as [|k [|v [|? [|? ?]]]]; split; try discriminate; intros _ _; right;
          rewrite Hw; cbn [hd_error length] in *; split; try reflexivity; lia. }
    destruct Hr as [Hs Hm]. clearbody r. destruct r as [s|[] s]; cbn [at_line].
    + apply Q.
    + split; [intros p s' log H; inversion H; subst; repeat split; eapply Hs; reflexivity|].
      repeat split; discriminate.
    + split; [discriminate|]. split; [discriminate|]. split; [congruence|]. split; discriminate.
    + exfalso. eapply Hm. reflexivity.
    + split; [discriminate|]. split; [discriminate|]. split; [discriminate|]. split; [congruence|discriminate].
Qed.

Lemma reached_trans : forall files f g h, reached files f g -> reached files g h -> reached files f h.
Proof. intros files f g h H1 H2. induction H2; [exact H1|]. econstructor; eauto. Qed.
Lemma true_place_up : forall files f g p, reached files f g -> true_place files g p -> true_place files f p.
Proof. intros files f g [[h n] t] H [Hr Hx]. split; [eapply reached_trans; eauto|exact Hx]. Qed.

(** Everything said about one run. *)
Definition told (f : str) (k : nat) (r : wres X) : Prop :=
  match r with
  | WDone _ log => Forall (true_place (e_files E) f) log
  | WRaise e _ log => Forall (true_place (e_files E) f) log /\
      match e with
      | WSyntax p => true_place (e_files E) f p
      | WMaxDepth calls => length calls = k /\ leads (e_files E) f (rev calls)
      | _ => True
      end
  end.
Lemma told_after : forall f k log r, Forall (true_place (e_files E) f) log -> told f k r -> told f k (after log r).
Proof.
  intros f k log [s l|e s l] H1 H2; cbn in *.
  - apply Forall_app. split; assumption.
  - destruct H2 as [H2 H3]. split; [apply Forall_app; split; assumption|exact H3].
Qed.
Lemma lines_told : forall k inc f all, e_files E f = Some all ->
  (forall g s, told g k (inc g s)) ->
  forall ls pre st, all = pre ++ ls -> told f (S k) (run_lines_at E inc f (S (length pre)) ls st).
Proof.
  intros k inc f all Hf Hinc. induction ls as [|l ls IH]; intros pre st Ha; [constructor|].
  assert (Hl : line_of (e_files E) f (S (length pre)) l).
  { exists all. split; [exact Hf|]. split; [lia|]. cbn [Nat.sub]. rewrite Nat.sub_0_r, Ha, nth_error_app2, Nat.sub_diag by lia. reflexivity. }
  assert (IH' : forall st', told f (S k) (run_lines_at E inc f (S (S (length pre))) ls st')).
  { intros st'. specialize (IH (pre ++ [l]) st'). rewrite app_length, Nat.add_1_r in IH. apply IH. rewrite <- app_assoc. exact Ha. }
  clear IH. cbn [run_lines_at].
  destruct (line_cases inc f (S (length pre)) l st) as [(v & Hv & Hh)|(H1 & H2 & H3 & H4 & H5)].
  - cbv zeta in Hh. set (g := if isabs v then v else _) in Hh. rewrite Hh. pose proof (Hinc g st) as Hg.
    assert (Hr : reached (e_files E) f g) by (eapply reached_include; [apply reached_self|exact Hl|exact Hv]).
    assert (Hup : forall log, Forall (true_place (e_files E) g) log -> Forall (true_place (e_files E) f) log)
      by (intros log; apply Forall_impl; intros p; apply true_place_up; exact Hr).
    destruct (inc g st) as [s log|[p| |calls|] s log]; cbn [add_call told] in *.
    + apply told_after; auto.
    + destruct Hg as [Hg Hp].
      assert (Hall : Forall (true_place (e_files E) f) (log ++ [p])).
      { apply Forall_app. split; [auto|]. constructor; [eapply true_place_up; eauto|constructor]. }
      destruct (e_paranoid E); [split; [exact Hall|eapply true_place_up; eauto]|apply told_after; auto].
    + apply told_after; [apply Hup, Hg|apply IH'].
    + destruct Hg as (Hg & Hn & Hc). split; [auto|]. split; [rewrite app_length; cbn; lia|].
      rewrite rev_app_distr. cbn [rev app]. econstructor; [exact Hl|exact Hv|reflexivity|exact Hc].
    + split; [apply Hup, Hg|exact I].
  - destruct (handle_line_at E inc f (S (length pre)) l st) as [s log|[p| |calls|] s log].
    + rewrite (H2 _ _ eq_refl). apply told_after; [constructor|apply IH'].
    + destruct (H1 _ _ _ eq_refl) as (-> & -> & Hi).
      assert (Hp : true_place (e_files E) f (f, S (length pre), bare_line l)).
      { split; [apply reached_self|]. exists l. auto. }
      destruct (e_paranoid E); [split; [exact (Forall_cons _ Hp (Forall_nil _))|exact Hp]|].
      apply told_after; [exact (Forall_cons _ Hp (Forall_nil _))|apply IH'].
    + rewrite (H3 _ _ eq_refl). apply told_after; [constructor|apply IH'].
    + exfalso. eapply H5. reflexivity.
    + rewrite (H4 _ _ eq_refl). split; [constructor|exact I].
Qed.
Lemma file_told : forall k f st, told f k (parse_file_at E k f st).
Proof.
  induction k as [|k IH]; intros f st.
  - cbn. split; [constructor|]. split; [reflexivity|constructor].
  - cbn [parse_file_at]. destruct (e_files E f) as [ls|] eqn:Ef; [|constructor].
    exact (lines_told k _ f ls Ef IH ls [] st eq_refl).
Qed.

Lemma run_at_app : forall inc f pre n rest st s log, run_lines_at E inc f n pre st = WDone s log ->
  run_lines_at E inc f n (pre ++ rest) st = after log (run_lines_at E inc f (n + length pre) rest s).
Proof.
  assert (Haa : forall l1 l2 (r : wres X), after l1 (after l2 r) = after (l1 ++ l2) r)
    by (intros l1 l2 [s l|e s l]; cbn; rewrite app_assoc; reflexivity).
  intros inc f. induction pre as [|l pre IH]; intros n rest st s log H.
  - cbn in H. inversion H; subst. cbn [length app]. rewrite Nat.add_0_r. destruct (run_lines_at E inc f n rest s); reflexivity.
  - cbn [run_lines_at app length] in *. rewrite Nat.add_succ_r, <- Nat.add_succ_l.
    assert (K : forall s1 log1, after log1 (run_lines_at E inc f (S n) pre s1) = WDone s log ->
      after log1 (run_lines_at E inc f (S n) (pre ++ rest) s1) = after log (run_lines_at E inc f (S n + length pre) rest s)).
    { intros s1 log1 H1. destruct (run_lines_at E inc f (S n) pre s1) as [s2 log2|] eqn:Er; [|discriminate].
      cbn in H1. inversion H1; subst. rewrite (IH _ rest _ _ _ Er). apply Haa. }
    destruct (handle_line_at E inc f n l st) as [s1 log1|[p| |calls|] s1 log1]; try discriminate; auto.
    destruct (e_paranoid E); [discriminate|]. auto.
Qed.

Lemma missing_at : forall inc f n l (st : pstate X), p_ignore st = false -> missing_argument l ->
  handle_line_at E inc f n l st = WRaise (WSyntax (f, n, bare_line l)) st [].
Proof.
  intros inc f n l st Hi Hm. pose proof Hm as (k & rest & Hw & Hk & Hlen).
  pose proof (words_kw l k rest Hw) as Hkw.
  destruct (kw_prefix l) as [t Ht]. rewrite Hkw in Ht.
  assert (Hl2 : length (split_ws_max 2 (bare_line l)) < 3) by (rewrite sws_count, Hw; cbn [length]; lia).
  assert (Hs : forall w, In w [$"endif"; $"else"; $"require_version"; $"#"] -> startswith w (strip l) = false).
  { intros w Hin. rewrite Ht. cbn [In keywords] in Hk, Hin.
    repeat (destruct Hk as [<-|Hk]; [repeat (destruct Hin as [<-|Hin]; [reflexivity|]); destruct Hin|]). destruct Hk. }
  unfold handle_line_at. cbv zeta. rewrite !Hs by (simpl; auto 10).
  destruct (strip l) as [|c r] eqn:El.
  { exfalso. cbn [In keywords] in Hk. repeat (destruct Hk as [<-|Hk]; [discriminate|]). destruct Hk. }
  cbn [orb]. rewrite Hi.
  change (match split_ws_max 1 (bare_line l) with [t; v] => (t, v) | _ => (bare_line l, []) end) with (line_kw l).
  destruct (line_kw l) as [rtype value]. cbn [fst] in Hkw. subst rtype.
  assert (streqb k ($"include") = false /\ streqb k ($"ifplugin") = false /\ streqb k ($"loadplugin") = false /\ mem_str k known2 = true) as (-> & -> & -> & ->).
  { cbn [In keywords] in Hk. repeat (destruct Hk as [<-|Hk]; [repeat split; reflexivity|]). destruct Hk. }
  cbn [orb]. unfold handle_rule_line.
  destruct (split_ws_max 2 (bare_line l)) as [|a1 [|a2 [|a3 [|a4 a5]]]]; try reflexivity; cbn [length] in Hl2; lia.
Qed.

Lemma include_at : forall inc f n l (st : pstate X) g, asks f l st g ->
  handle_line_at E inc f n l st = add_call (g, n, bare_line l) (inc g st).
Proof.
  intros inc f n line st g (Hi & v & Hv & ->). pose proof (include_value line v Hv) as Hkw.
  destruct (kw_prefix line) as [t Ht]. rewrite Hkw in Ht. cbn [fst] in Ht.
  unfold handle_line_at. cbv zeta.
  change (match split_ws_max 1 (bare_line line) with [t; v] => (t, v) | _ => (bare_line line, []) end) with (line_kw line).
  rewrite Hkw, Ht.
  change (startswith ($"endif") ($"include" ++ t)) with false. change (startswith ($"else") ($"include" ++ t)) with false.
  change (startswith ($"require_version") ($"include" ++ t)) with false. change (startswith ($"#") ($"include" ++ t)) with false.
  rewrite Hi. change ($"include" ++ t) with (105%N :: ($"nclude" ++ t)). cbn [orb]. cbv iota.
  change (streqb ($"include") ($"include")) with true. cbv iota.
  rewrite include_path_eq; [reflexivity|]. destruct Hv as [[_ ->]|(b & _ & _ & Hv & _)]; auto.
Qed.
End WhereProofs.
