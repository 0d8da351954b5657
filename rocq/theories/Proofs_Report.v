(** Proofs about templates, tags and header edits. *)
From Verif Require Import PyStr PyDict Model_Rules Model_Net Model_Report Spec_Rules Spec_Report Proofs_Rules.
From Coq Require Import Lia.

(** ** Templates *)
Lemma is_capital_spec c : is_capital c = true <-> capital c.
Proof. unfold is_capital, capital. rewrite Bool.andb_true_iff, !N.leb_le. reflexivity. Qed.
Lemma under_not_capital : is_capital underscore = false.
Proof. reflexivity. Qed.

Lemma take_capitals t r : Forall capital t -> take_while is_capital (t ++ underscore :: r) = t.
Proof.
  induction 1 as [|c t Hc Ht IH]; [reflexivity|]. cbn [app take_while].
  rewrite (proj2 (is_capital_spec c) Hc), IH. reflexivity.
Qed.
Lemma drop_capitals t r : Forall capital t -> drop_while is_capital (t ++ underscore :: r) = underscore :: r.
Proof.
  induction 1 as [|c t Hc Ht IH]; [reflexivity|]. cbn [app drop_while].
  rewrite (proj2 (is_capital_spec c) Hc), IH. reflexivity.
Qed.
Lemma conv_skip t r : conv (t ++ r) (length t) = conv r 0.
Proof. induction t as [|c t IH]; [reflexivity|]. cbn [app length conv]. exact IH. Qed.

Definition piece_conv (p : piece) : str := match p with Tag t => $"%(" ++ t ++ $")s" | Chr c => [c] end.
Lemma take_while_all {A} (p : A -> bool) s : Forall (fun x => p x = true) (take_while p s).
Proof.
  induction s as [|x s IH]; cbn [take_while]; [constructor|]. destruct (p x) eqn:E; constructor; assumption.
Qed.
Lemma starts_tag_dec c r :
  starts_tag (c :: r) <-> c = underscore /\ exists d u, drop_while is_capital r = d :: u /\ d = underscore.
Proof.
  split.
  - intros [t [u [Ht E]]]. cbn [app] in E. injection E as -> ->. split; [reflexivity|].
    exists underscore, u. split; [apply drop_capitals; assumption | reflexivity].
  - intros [-> [d [u [E ->]]]]. exists (take_while is_capital r), u. split.
    + eapply Forall_impl; [|apply take_while_all]. intros x Hx. apply is_capital_spec. exact Hx.
    + cbn [app]. f_equal. rewrite <- (take_drop_while is_capital r) at 1. rewrite E. reflexivity.
Qed.

Lemma conv_reads s ps : reads s ps -> conv s 0 = (concat (map piece_conv ps), tags_in ps).
Proof.
  induction 1 as [|t r ps Ht Hr IH|c r ps Hn Hr IH]; [reflexivity| |].
  - cbn [app conv]. change (95 =? underscore)%N with true. cbv iota.
    change (95%N :: r) with (underscore :: r).
    rewrite take_capitals, drop_capitals by assumption. change (underscore =? underscore)%N with true. cbv iota.
    replace (conv (t ++ underscore :: r) (S (length t))) with (conv r 0).
    2:{ replace (t ++ underscore :: r) with ((t ++ [underscore]) ++ r) by (rewrite <- app_assoc; reflexivity).
        replace (S (length t)) with (length (t ++ [underscore])) by (rewrite app_length; cbn; lia).
        symmetry. apply conv_skip. }
    rewrite IH. cbn [map concat piece_conv tags_in flat_map app]. rewrite <- !app_assoc. reflexivity.
  - cbn [conv]. rewrite starts_tag_dec in Hn. rewrite IH.
    destruct (N.eqb_spec c underscore) as [->|Hc].
    + destruct (drop_while is_capital r) as [|d u] eqn:E; [reflexivity|].
      destruct (N.eqb_spec d underscore) as [->|Hd]; [|reflexivity].
      exfalso. apply Hn. split; [reflexivity|]. exists underscore, u. split; reflexivity.
    + reflexivity.
Qed.

Lemma reads_total s : exists ps, reads s ps.
Proof.
  assert (H : forall n s, length s <= n -> exists ps, reads s ps).
  { clear s. induction n as [|n IH]; intros [|c r] Hl; try (exists []; constructor).
    - cbn in Hl. lia.
    - cbn [length] in Hl.
      destruct (N.eqb_spec c underscore) as [->|Hc].
      + destruct (drop_while is_capital r) as [|d u] eqn:E.
        * destruct (IH r) as [ps Hps]; [lia|]. exists (Chr underscore :: ps). constructor; [|exact Hps].
          rewrite starts_tag_dec. intros [_ [d [u [E' _]]]]. congruence.
        * destruct (N.eqb_spec d underscore) as [->|Hd].
          -- assert (Er : r = take_while is_capital r ++ underscore :: u).
             { rewrite <- (take_drop_while is_capital r) at 1. rewrite E. reflexivity. }
             destruct (IH u) as [ps Hps].
             { rewrite Er, app_length in Hl. cbn [length] in Hl. lia. }
             exists (Tag (take_while is_capital r) :: ps). rewrite Er at 1.
             change (underscore :: take_while is_capital r ++ underscore :: u)
               with ([95%N] ++ take_while is_capital r ++ [95%N] ++ u).
             constructor; [|exact Hps].
             eapply Forall_impl; [|apply take_while_all]. intros x Hx. apply is_capital_spec. exact Hx.
          -- destruct (IH r) as [ps Hps]; [lia|]. exists (Chr underscore :: ps). constructor; [|exact Hps].
             rewrite starts_tag_dec. intros [_ [d' [u' [E' ->]]]]. rewrite E in E'. injection E' as -> _. congruence.
      + destruct (IH r) as [ps Hps]; [lia|]. exists (Chr c :: ps). constructor; [|exact Hps].
        rewrite starts_tag_dec. intros [-> _]. congruence. }
  exact (H (length s) s (le_n _)).
Qed.

Lemma reads_unique s p1 : reads s p1 -> forall p2, reads s p2 -> p1 = p2.
Proof.
  induction 1 as [|t r ps Ht Hr IH|c r ps Hn Hr IH]; intros p2 H2.
  - inversion H2. reflexivity.
  - inversion H2 as [E|t' r' ps' Ht' Hr' E E'|c' r' ps' Hn' Hr' E E'].
    + assert (Et : t' = t /\ r' = r).
      { cbn [app] in E. pose proof (f_equal (take_while is_capital) E) as E1.
        pose proof (f_equal (drop_while is_capital) E) as E2.
        change (95%N :: ?x) with (underscore :: x) in E1, E2.
        rewrite !take_capitals in E1 by assumption. rewrite !drop_capitals in E2 by assumption.
        injection E2 as E2. split; assumption. }
      destruct Et as [-> ->]. f_equal. apply IH. assumption.
    + exfalso. apply Hn'. exists t, r. split; [assumption|]. reflexivity.
  - inversion H2 as [E|t' r' ps' Ht' Hr' E E'|c' r' ps' Hn' Hr' E E'].
    + exfalso. apply Hn. exists t', r'. split; [assumption|]. cbn [app]. congruence.
    + f_equal. apply IH. assumption.
Qed.

(** ** Formatting *)
Lemma format_fuel d : forall n k s, length s < n -> length s < k -> format n d s = format k d s.
Proof.
  induction n as [|n IH]; intros k s Hn Hk; [lia|]. destruct k as [|k]; [lia|].
  destruct s as [|c r]; [reflexivity|]. cbn [length] in Hn, Hk. cbn [format].
  destruct (N.eqb c 37); [|rewrite (IH k r); [reflexivity|lia|lia]].
  destruct r as [|e r]; [reflexivity|]. cbn [length] in Hn, Hk.
  destruct (N.eqb e 37); [rewrite (IH k r); [reflexivity|lia|lia]|].
  destruct (N.eqb e 40); [|reflexivity].
  destruct (split1 41 r) as [[name [|x r']]|] eqn:E; try reflexivity.
  destruct (mem_char 40 name); [reflexivity|]. destruct (N.eqb x 115); [|reflexivity].
  destruct (dget name d); [|reflexivity].
  apply split1_Some in E. destruct E as [-> _]. rewrite app_length in Hn, Hk. cbn [length] in Hn, Hk.
  rewrite (IH k r'); [reflexivity|lia|lia].
Qed.
Definition fmt (d : dict str) (s : str) : fres := format (S (length s)) d s.
Lemma fmt_chr d c r : c <> 37%N -> fmt d (c :: r) = fcons [c] (fmt d r).
Proof.
  intros H. unfold fmt at 1. cbn [format]. rewrite (proj2 (N.eqb_neq c 37) H). f_equal.
Qed.
Lemma mem_char_In c s : mem_char c s = true <-> In c s.
Proof.
  induction s as [|x s IH]; cbn [mem_char existsb In].
  - split; [discriminate|tauto].
  - change (mem_char c (x :: s)) with (N.eqb c x || mem_char c s)%bool.
    rewrite Bool.orb_true_iff, IH, N.eqb_eq. split; intros [H|H]; auto.
Qed.
Lemma fmt_tag d t r v : Forall capital t -> dget t d = Some v ->
  fmt d ($"%(" ++ t ++ $")s" ++ r) = fcons v (fmt d r).
Proof.
  intros Ht Hv. unfold fmt at 1. change ($"%(" ++ t ++ $")s" ++ r) with (37%N :: 40%N :: (t ++ 41%N :: 115%N :: r)).
  cbn [format]. change (37 =? 37)%N with true. change (40 =? 37)%N with false. change (40 =? 40)%N with true. cbv iota.
  assert (H41 : ~ In 41%N t).
  { intros H. rewrite Forall_forall in Ht. specialize (Ht _ H). unfold capital in Ht. lia. }
  rewrite (proj2 (split1_Some 41 (t ++ 41%N :: 115%N :: r) t (115%N :: r)) (conj eq_refl H41)).
  destruct (mem_char 40 t) eqn:E.
  { apply mem_char_In in E. rewrite Forall_forall in Ht. specialize (Ht _ E). unfold capital in Ht. lia. }
  change (115 =? 115)%N with true. cbv iota. rewrite Hv. f_equal. unfold fmt. apply format_fuel.
  - cbn [length]. rewrite app_length. cbn [length]. lia.
  - lia.
Qed.

Lemma fmt_pieces d (val : piece -> str -> Prop) ps :
  Forall (fun p => match p with Tag t => Forall capital t | Chr c => c <> 37%N end) ps ->
  (forall t, In t (tags_in ps) -> exists v, dget t d = Some v /\ val (Tag t) v) ->
  (forall c, val (Chr c) [c]) ->
  exists vs, Forall2 val ps vs /\ fmt d (concat (map piece_conv ps)) = FText (concat vs).
Proof.
  intros Hps Hd Hc. induction Hps as [|p ps Hp Hps IH].
  - exists []. split; [constructor|reflexivity].
  - destruct IH as [vs [F2 E]].
    { intros t Ht. apply Hd. cbn [tags_in flat_map]. apply in_or_app. right. exact Ht. }
    destruct p as [t|c].
    + destruct (Hd t) as [v [Ev Hv]]; [left; reflexivity|].
      exists (v :: vs). split; [constructor; assumption|]. cbn [map concat piece_conv].
      rewrite <- !app_assoc, (fmt_tag d t _ v Hp Ev), E. reflexivity.
    + exists ([c] :: vs). split; [constructor; auto|]. cbn [map concat piece_conv].
      change ([c] ++ ?x) with (c :: x). rewrite fmt_chr, E by exact Hp. reflexivity.
Qed.
Lemma reads_ok s ps : reads s ps -> ~ In 37%N s ->
  Forall (fun p => match p with Tag t => Forall capital t | Chr c => c <> 37%N end) ps.
Proof.
  induction 1 as [|t r ps Ht Hr IH|c r ps Hn Hr IH]; intros H; [constructor| |].
  - constructor; [exact Ht|]. apply IH. intros Hi. apply H. rewrite !in_app_iff. auto.
  - constructor; [intros ->; apply H; left; reflexivity|]. apply IH. intros Hi. apply H. right. exact Hi.
Qed.

Lemma fcons_app a b r : fcons a (fcons b r) = fcons (a ++ b) r.
Proof. destruct r; cbn [fcons]; [rewrite app_assoc|..]; reflexivity. Qed.
Lemma fcons_FText a r x : fcons a r = FText x -> exists y, r = FText y /\ x = a ++ y.
Proof. destruct r; cbn [fcons]; try discriminate. intros H. injection H as <-. eauto. Qed.
Lemma fmt_step d c r : fmt d (c :: r) =
  if N.eqb c 37 then
    match r with
    | [] => FValueError
    | e :: r' =>
        if N.eqb e 37 then fcons [37%N] (fmt d r')
        else if N.eqb e 40 then
          match split1 41 r' with
          | Some (name, z :: r'') =>
              if mem_char 40 name then FOther
              else if N.eqb z 115 then
                match dget name d with Some v => fcons v (fmt d r'') | None => FKeyError end
              else FOther
          | _ => FOther
          end
        else FOther
    end
  else fcons [c] (fmt d r).
Proof.
  unfold fmt at 1. cbn [format]. destruct (N.eqb c 37); [|reflexivity].
  destruct r as [|e r]; [reflexivity|]. destruct (N.eqb e 37).
  - f_equal. apply format_fuel; cbn [length]; lia.
  - destruct (N.eqb e 40); [|reflexivity].
    destruct (split1 41 r) as [[name [|z r']]|] eqn:Es; try reflexivity.
    destruct (mem_char 40 name); [reflexivity|]. destruct (N.eqb z 115); [|reflexivity].
    destruct (dget name d) as [v|]; [|reflexivity]. f_equal.
    apply split1_Some in Es. destruct Es as [-> _]. apply format_fuel; cbn [length]; rewrite ?app_length; cbn [length]; lia.
Qed.
Lemma fmt_app d b : forall n a x, length a <= n -> fmt d a = FText x -> fmt d (a ++ b) = fcons x (fmt d b).
Proof.
  induction n as [|n IH]; intros a x Hl H.
  { destruct a; [|cbn in Hl; lia]. injection H as <-. cbn [app]. destruct (fmt d b); reflexivity. }
  destruct a as [|c r]. { injection H as <-. cbn [app]. destruct (fmt d b); reflexivity. }
  cbn [length] in Hl. cbn [app]. rewrite fmt_step in H |- *.
  destruct (N.eqb c 37).
  - destruct r as [|e r]; [discriminate|]. cbn [app length] in *. destruct (N.eqb e 37).
    + apply fcons_FText in H. destruct H as [y [E ->]].
      rewrite (IH r y) by (try assumption; lia). rewrite fcons_app. reflexivity.
    + destruct (N.eqb e 40); [|discriminate].
      destruct (split1 41 r) as [[name [|z r']]|] eqn:Es; try discriminate.
      apply split1_Some in Es. destruct Es as [-> Hn].
      rewrite (proj2 (split1_Some 41 ((name ++ 41%N :: z :: r') ++ b) name (z :: r' ++ b))).
      2:{ split; [rewrite <- app_assoc; reflexivity|exact Hn]. }
      destruct (mem_char 40 name); [discriminate|]. destruct (N.eqb z 115); [|discriminate].
      destruct (dget name d) as [v|]; [|discriminate].
      apply fcons_FText in H. destruct H as [y [E ->]]. rewrite !app_length in *. cbn [length] in *.
      rewrite (IH r' y) by (try assumption; lia). rewrite fcons_app. reflexivity.
  - apply fcons_FText in H. destruct H as [y [E ->]].
    rewrite (IH r y) by (try assumption; lia). rewrite fcons_app. reflexivity.
Qed.
Lemma fmt_join d : forall l vs, Forall2 (fun a v => fmt d a = FText v) l vs ->
  fmt d (join [10%N] l) = FText (join [10%N] vs).
Proof.
  induction 1 as [|a v l vs H F IH]; [reflexivity|].
  destruct F as [|a' v' l vs H' F]; [exact H|].
  change (join [10%N] (a :: a' :: l)) with (a ++ [10%N] ++ join [10%N] (a' :: l)).
  change (join [10%N] (v :: v' :: vs)) with (v ++ [10%N] ++ join [10%N] (v' :: vs)).
  rewrite (fmt_app d _ (length a) a v (le_n _) H). change ([10%N] ++ ?x) with (10%N :: x).
  rewrite fmt_chr by discriminate. rewrite IH. reflexivity.
Qed.

(** ** Tags *)
Lemma dget_update (d e : dict str) k : NoDup (dkeys e) ->
  dget k (update d e) = match dget k e with Some v => Some v | None => dget k d end.
Proof.
  revert d. induction e as [|[k' v'] e IH]; intros d H; [reflexivity|].
  unfold update in *. cbn [fold_left fst snd]. cbn [dkeys map fst] in H. inversion H as [|? ? Hn Hd]; subst.
  rewrite IH by assumption. cbn [dget]. rewrite dget_dset.
  destruct (streqb_spec k k') as [->|Hk].
  - assert (E : dget k' e = None) by (apply dget_None; exact Hn). rewrite E.
    destruct (streqb_spec k' k') as [_|C]; [reflexivity|contradiction].
  - destruct (dget k e); [reflexivity|]. destruct (streqb_spec k' k) as [->|_]; [contradiction|reflexivity].
Qed.

Lemma set_if_Some b k v od d' : set_if b k v od = Some d' ->
  exists d, od = Some d /\ (b = true -> exists w, v = Some w) /\
    forall x, dget x d' = if streqb x k then (if b then v else dget x d) else dget x d.
Proof.
  unfold set_if. destruct od as [d|]; [|discriminate]. intros H. exists d. split; [reflexivity|].
  destruct b.
  - destruct v as [v|]; [|discriminate]. injection H as <-. split; [eauto|]. intros x.
    rewrite dget_dset, (streqb_sym k x). destruct (streqb x k); reflexivity.
  - injection H as <-. split; [discriminate|]. intros x. destruct (streqb x k); reflexivity.
Qed.
Lemma dget_dset_r {V} k k' (v : V) d : dget k' (dset k v d) = if streqb k' k then Some v else dget k' d.
Proof. rewrite dget_dset, streqb_sym. reflexivity. Qed.
Lemma dget_marks (tags : list str) t : forall d,
  dget t (fold_left (fun d t => dset t ($"@@" ++ t ++ $"@@") d) tags d) =
  if mem_str t tags then Some ($"@@" ++ t ++ $"@@") else dget t d.
Proof.
  induction tags as [|x tags IH]; intros d; [reflexivity|]. cbn [fold_left]. rewrite IH, dget_dset.
  change (mem_str t (x :: tags)) with (streqb t x || mem_str t tags)%bool.
  destruct (mem_str t tags); [rewrite Bool.orb_true_r; reflexivity|]. rewrite Bool.orb_false_r.
  rewrite (streqb_sym x t). destruct (streqb_spec t x) as [->|]; reflexivity.
Qed.

Section Tags.
Context {X : Type}.
Implicit Types (m : msg X) (rs : ruleset X) (rc : rconf (X := X)).

Lemma tag_data_value rc rs tags m d t : NoDup (dkeys (m_tags m)) -> tag_data rc rs tags m = Some d ->
  In t tags -> exists v, dget t d = Some v /\ tag_value rc rs m t v.
Proof.
  intros Hnd H Hin. apply mem_str_In in Hin. unfold tag_data in H. cbv zeta in H.
  destruct (set_if _ ($"PREVIEW") _ _) as [d5|] eqn:E5; [|discriminate]. cbn [option_map] in H. injection H as <-.
  apply set_if_Some in E5. destruct E5 as [d4 [E4 [_ H5]]].
  apply set_if_Some in E4. destruct E4 as [d3 [E3 [Hsum H4]]].
  apply set_if_Some in E3. destruct E3 as [d2 [E2 [Hts H3]]].
  apply set_if_Some in E2. destruct E2 as [d1 [E1 [_ H2]]].
  apply set_if_Some in E1. destruct E1 as [d0 [E0 [Hrep H1]]]. injection E0 as <-.
  rewrite dget_update by assumption. unfold tag_value.
  destruct (dget t (m_tags m)) as [w|]; [exists w; split; reflexivity|].
  rewrite H5, H4, H3, H2, H1, !dget_dset_r, dget_marks, Hin. clear H5 H4 H3 H2 H1.
  unfold own_tags. cbn [dget].
  Ltac lits := repeat match goal with
    | |- context [streqb ?a ?b] => let v := eval vm_compute in (streqb a b) in
        match v with true => change (streqb a b) with true | false => change (streqb a b) with false end end; cbv iota.
  Ltac tagcase t k := destruct (streqb_spec t k) as [->|]; [lits | cbv iota].
  tagcase t ($"PREVIEW"). { rewrite Hin. eexists; split; reflexivity. }
  tagcase t ($"SUMMARY"). { rewrite Hin. destruct (Hsum Hin) as [w ->]. exists w. split; reflexivity. }
  tagcase t ($"TESTSSCORES"). { rewrite Hin. destruct (Hts Hin) as [w ->]. exists w. split; reflexivity. }
  tagcase t ($"TESTS"). { rewrite Hin. eexists; split; reflexivity. }
  tagcase t ($"REPORT"). { rewrite Hin. destruct (Hrep Hin) as [w ->]. exists w. split; reflexivity. }
  tagcase t ($"VERSION"). { eexists; split; reflexivity. }
  tagcase t ($"SUBVERSION"). { eexists; split; reflexivity. }
  tagcase t ($"REQD"). { eexists; split; reflexivity. }
  tagcase t ($"SCORE"). { eexists; split; reflexivity. }
  tagcase t ($"YESNO"). { eexists; split; reflexivity. }
  tagcase t ($"YESNOCAPS"). { eexists; split; reflexivity. }
  tagcase t ($"HOSTNAME"). { eexists; split; reflexivity. }
  tagcase t ($"CONTACTADDRESS"). { eexists; split; reflexivity. }
  eexists; split; reflexivity.
Qed.

Lemma tag_data_yesno rc rs tags m d k : NoDup (dkeys (m_tags m)) -> tag_data rc rs tags m = Some d ->
  In k [$"YESNO"; $"YESNOCAPS"] -> dget k (m_tags m) = None ->
  match dget k (own_tags rc rs m) with Some o => dget k d = o | None => False end.
Proof.
  intros Hnd H Hk Hn. unfold tag_data in H. cbv zeta in H.
  destruct (set_if _ ($"PREVIEW") _ _) as [d5|] eqn:E5; [|discriminate]. cbn [option_map] in H. injection H as <-.
  apply set_if_Some in E5. destruct E5 as [d4 [E4 [_ H5]]].
  apply set_if_Some in E4. destruct E4 as [d3 [E3 [Hsum H4]]].
  apply set_if_Some in E3. destruct E3 as [d2 [E2 [Hts H3]]].
  apply set_if_Some in E2. destruct E2 as [d1 [E1 [_ H2]]].
  apply set_if_Some in E1. destruct E1 as [d0 [E0 [Hrep H1]]]. injection E0 as <-.
  rewrite dget_update, Hn by assumption. rewrite H5, H4, H3, H2, H1, !dget_dset_r. clear H5 H4 H3 H2 H1.
  unfold own_tags. cbn [dget]. destruct Hk as [<-|[<-|[]]]; lits; reflexivity.
Qed.

Lemma own_tag_needed (o : option str) (b : bool) : (b = true -> o <> None) -> forall k d, set_if b k o (Some d) <> None.
Proof. intros H k d. unfold set_if. destruct b; [|discriminate]. destruct o; [discriminate|]. exfalso. apply H; reflexivity. Qed.

(** The values can be made if the three that may fail can, where they are used. *)
Lemma tag_data_total rc rs tags m :
  (In ($"REPORT") tags -> get_matched_report (rc_fmt rc) rs m <> None) ->
  (In ($"SUMMARY") tags -> get_summary_report rc rs m <> None) ->
  (In ($"TESTSSCORES") tags -> tests_scores_tag m <> None) ->
  tag_data rc rs tags m <> None.
Proof.
  intros Hr Hs Ht. unfold tag_data. cbv zeta.
  assert (W : forall t o, (In t tags -> o <> @None str) -> mem_str t tags = true -> o <> None).
  { intros t o H Hm. apply H. apply mem_str_In. exact Hm. }
  destruct (set_if _ ($"REPORT") _ _) eqn:E1; [|exfalso; revert E1; apply own_tag_needed, W, Hr].
  destruct (set_if _ ($"TESTS") _ _) eqn:E2; [|exfalso; revert E2; apply own_tag_needed; discriminate].
  destruct (set_if _ ($"TESTSSCORES") _ _) eqn:E3; [|exfalso; revert E3; apply own_tag_needed, W, Ht].
  destruct (set_if _ ($"SUMMARY") _ _) eqn:E4; [|exfalso; revert E4; apply own_tag_needed, W, Hs].
  destruct (set_if _ ($"PREVIEW") _ _) eqn:E5; [|exfalso; revert E5; apply own_tag_needed; discriminate].
  discriminate.
Qed.

Lemma interpolate_template rc rs tags m text ps :
  reads (strip_chars quotes text) ps -> ~ In 37%N text -> NoDup (dkeys (m_tags m)) ->
  (forall t, In t (tags_in ps) -> In t tags) -> tag_data rc rs tags m <> None ->
  exists vs, Forall2 (piece_value rc rs m) ps vs /\
    interpolate rc rs tags m (fst (convert_tags text)) = FText (concat vs).
Proof.
  intros Hr H37 Hnd Hin Hd. unfold convert_tags. rewrite (conv_reads _ _ Hr). cbn [fst].
  unfold interpolate. destruct (tag_data rc rs tags m) as [d|] eqn:Ed; [|contradiction].
  apply (fmt_pieces d (piece_value rc rs m) ps).
  - apply (reads_ok _ _ Hr). intros Hi. apply H37. unfold strip_chars, strip_p in Hi.
    revert Hi. generalize (fun c => mem_char c quotes). intros p Hi.
    unfold rstrip_p, lstrip_p in Hi. rewrite <- in_rev in Hi.
    destruct (drop_while_suffix p text) as [a [Ea _]]. rewrite Ea. apply in_or_app. right.
    destruct (drop_while_suffix p (rev (drop_while p text))) as [b [Eb _]].
    apply in_rev. rewrite Eb. apply in_or_app. right. exact Hi.
  - intros t Ht. destruct (tag_data_value rc rs tags m d t Hnd Ed (Hin t Ht)) as [v [E V]]. eauto.
  - intros c. reflexivity.
Qed.

Lemma convert_tags_tags text ps : reads (strip_chars quotes text) ps -> snd (convert_tags text) = tags_in ps.
Proof. intros H. unfold convert_tags. rewrite (conv_reads _ _ H). reflexivity. Qed.

Lemma interpolate_lines rc rs tags m lines pss :
  Forall2 (fun line ps => reads (strip_chars quotes line) ps) lines pss ->
  Forall (fun line => ~ In 37%N line) lines -> NoDup (dkeys (m_tags m)) ->
  (forall t, In t (concat (map tags_in pss)) -> In t tags) -> tag_data rc rs tags m <> None ->
  exists vss, Forall2 (Forall2 (piece_value rc rs m)) pss vss /\
    interpolate rc rs tags m (fst (convert_lines lines)) = FText (join [10%N] (map (@concat _) vss)).
Proof.
  intros Hr H37 Hnd Hin Hd. unfold convert_lines. cbn [fst]. rewrite map_map.
  assert (H : exists vss, Forall2 (Forall2 (piece_value rc rs m)) pss vss /\
     Forall2 (fun line v => interpolate rc rs tags m (fst (convert_tags line)) = FText v) lines (map (@concat _) vss)).
  { induction Hr as [|line ps lines pss Hp Hr IH]; [exists []; split; constructor|].
    apply Forall_cons_iff in H37. destruct H37 as [Ha Hb].
    destruct IH as [vss [F1 F2]]; [exact Hb| |].
    { intros t Ht. apply Hin. cbn [map concat]. apply in_or_app. right. exact Ht. }
    destruct (interpolate_template rc rs tags m line ps Hp Ha Hnd) as [vs [F E]]; [|exact Hd|].
    { intros t Ht. apply Hin. cbn [map concat]. apply in_or_app. left. exact Ht. }
    exists (vs :: vss). split; constructor; assumption. }
  destruct H as [vss [F1 F2]]. exists vss. split; [exact F1|].
  unfold interpolate in *. destruct (tag_data rc rs tags m) as [d|]; [|contradiction].
  change (format (S (length ?x)) d ?x) with (fmt d x). apply fmt_join.
  revert F2. generalize (map (@concat N) vss). intros l F2. clear - F2.
  induction F2; constructor; assumption.
Qed.

(** ** Header edits *)
Lemma without_app a b h : without (a ++ b) h = without b (without a h).
Proof.
  unfold without. rewrite map_app. induction h as [|x h IH]; [reflexivity|]. cbn [filter].
  assert (Ex : mem_str (lower (fst x)) (map lower a ++ map lower b) =
          (mem_str (lower (fst x)) (map lower a) || mem_str (lower (fst x)) (map lower b))%bool).
  { apply Bool.eq_true_iff_eq. rewrite Bool.orb_true_iff, !mem_str_In, in_app_iff. reflexivity. }
  rewrite Ex. destruct (mem_str (lower (fst x)) (map lower a)); cbn [orb negb]; [exact IH|].
  cbn [filter]. destruct (mem_str (lower (fst x)) (map lower b)); cbn [negb]; rewrite IH; reflexivity.
Qed.
Lemma without_plus a h1 h2 : without a (h1 ++ h2) = without a h1 ++ without a h2.
Proof. apply filter_app. Qed.
Definition edits_of (kind : str) (ed : edits) : list edit :=
  if streqb kind ($"spam") then ed_spam ed else if streqb kind ($"ham") then ed_ham ed
  else if streqb kind ($"all") then ed_all ed else [].

Definition add_edit_of (e : str * str) : edit := (false, fst e, fst (convert_tags (snd e))).
Definition del_edit_of (n : str) : edit := (true, n, []).

Lemma add_header_rule_add line ed ed' : add_header_rule line false ed = Some ed' ->
  forall kind, edits_of kind ed' = edits_of kind ed ++ map add_edit_of (additions kind [line]).
Proof.
  unfold add_header_rule, additions. cbn [flat_map]. intros H kind. rewrite app_nil_r.
  destruct (split_ws_max 2 line) as [|s [|n [|v [|? ?]]]]; try discriminate.
  destruct (convert_tags v) as [tp tg] eqn:Ev.
  unfold edits_of.
  destruct (streqb_spec (lower s) ($"spam")) as [E|E1].
  { injection H as <-. cbn [ed_spam ed_ham ed_all]. rewrite E.
    destruct (streqb_spec kind ($"spam")) as [->|K]; [lits; cbn [map add_edit_of fst snd]; unfold add_edit_of; cbn [fst snd]; rewrite Ev; reflexivity|].
    destruct (streqb_spec ($"spam") kind); [congruence|]. rewrite app_nil_r. reflexivity. }
  destruct (streqb_spec (lower s) ($"ham")) as [E|E2].
  { injection H as <-. cbn [ed_spam ed_ham ed_all]. rewrite E.
    destruct (streqb_spec kind ($"ham")) as [->|K]; [lits; cbn [map add_edit_of fst snd]; unfold add_edit_of; cbn [fst snd]; rewrite Ev; reflexivity|].
    destruct (streqb_spec ($"ham") kind); [congruence|]. rewrite app_nil_r.
    destruct (streqb kind ($"spam")); reflexivity. }
  destruct (streqb_spec (lower s) ($"all")) as [E|E3]; [|discriminate].
  injection H as <-. cbn [ed_spam ed_ham ed_all]. rewrite E.
  destruct (streqb_spec kind ($"all")) as [->|K]; [lits; cbn [map add_edit_of fst snd]; unfold add_edit_of; cbn [fst snd]; rewrite Ev; reflexivity|].
  destruct (streqb_spec ($"all") kind); [congruence|]. rewrite app_nil_r.
  destruct (streqb kind ($"spam")); [reflexivity|]. destruct (streqb kind ($"ham")); reflexivity.
Qed.
Lemma add_header_rule_del line ed ed' : add_header_rule line true ed = Some ed' ->
  forall kind, edits_of kind ed' = edits_of kind ed ++ map del_edit_of (removals kind [line]).
Proof.
  unfold add_header_rule, removals. cbn [flat_map]. intros H kind. rewrite app_nil_r.
  destruct (split_ws_max 1 line) as [|s [|n [|? ?]]]; try discriminate.
  unfold edits_of.
  destruct (streqb_spec (lower s) ($"spam")) as [E|E1].
  { injection H as <-. cbn [ed_spam ed_ham ed_all]. rewrite E.
    destruct (streqb_spec kind ($"spam")) as [->|K]; [lits; reflexivity|].
    destruct (streqb_spec ($"spam") kind); [congruence|]. rewrite app_nil_r. reflexivity. }
  destruct (streqb_spec (lower s) ($"ham")) as [E|E2].
  { injection H as <-. cbn [ed_spam ed_ham ed_all]. rewrite E.
    destruct (streqb_spec kind ($"ham")) as [->|K]; [lits; reflexivity|].
    destruct (streqb_spec ($"ham") kind); [congruence|]. rewrite app_nil_r.
    destruct (streqb kind ($"spam")); reflexivity. }
  destruct (streqb_spec (lower s) ($"all")) as [E|E3]; [|discriminate].
  injection H as <-. cbn [ed_spam ed_ham ed_all]. rewrite E.
  destruct (streqb_spec kind ($"all")) as [->|K]; [lits; reflexivity|].
  destruct (streqb_spec ($"all") kind); [congruence|]. rewrite app_nil_r.
  destruct (streqb kind ($"spam")); [reflexivity|]. destruct (streqb kind ($"ham")); reflexivity.
Qed.
Lemma additions_cons kind l r : additions kind (l :: r) = additions kind [l] ++ additions kind r.
Proof. unfold additions. cbn [flat_map]. rewrite app_nil_r. reflexivity. Qed.
Lemma removals_cons kind l r : removals kind (l :: r) = removals kind [l] ++ removals kind r.
Proof. unfold removals. cbn [flat_map]. rewrite app_nil_r. reflexivity. Qed.

Lemma add_edits_add lines : forall ed ed', add_edits lines false ed = Some ed' ->
  forall kind, edits_of kind ed' = edits_of kind ed ++ map add_edit_of (additions kind lines).
Proof.
  induction lines as [|l r IH]; intros ed ed' H kind; cbn [add_edits] in H.
  - injection H as <-. rewrite app_nil_r. reflexivity.
  - destruct (add_header_rule l false ed) as [e1|] eqn:E; [|discriminate].
    rewrite (IH e1 ed' H), (add_header_rule_add _ _ _ E), (additions_cons kind l r), map_app, app_assoc. reflexivity.
Qed.
Lemma add_edits_del lines : forall ed ed', add_edits lines true ed = Some ed' ->
  forall kind, edits_of kind ed' = edits_of kind ed ++ map del_edit_of (removals kind lines).
Proof.
  induction lines as [|l r IH]; intros ed ed' H kind; cbn [add_edits] in H.
  - injection H as <-. rewrite app_nil_r. reflexivity.
  - destruct (add_header_rule l true ed) as [e1|] eqn:E; [|discriminate].
    rewrite (IH e1 ed' H), (add_header_rule_del _ _ _ E), (removals_cons kind l r), map_app, app_assoc. reflexivity.
Qed.
Lemma load_edits_of adds removes ed : load_edits adds removes = Some ed ->
  forall kind, edits_of kind ed = map add_edit_of (additions kind adds) ++ map del_edit_of (removals kind removes).
Proof.
  unfold load_edits. intros H kind. destruct (add_edits adds false no_edits) as [e1|] eqn:E; [|discriminate].
  rewrite (add_edits_del _ _ _ H), (add_edits_add _ _ _ E). f_equal.
  unfold edits_of, no_edits. cbn [ed_spam ed_ham ed_all].
  destruct (streqb kind ($"spam")), (streqb kind ($"ham")), (streqb kind ($"all")); reflexivity.
Qed.

Lemma adjust_app render a b : forall h, adjust render h (a ++ b) =
  match adjust render h a with Some h' => adjust render h' b | None => None end.
Proof.
  induction a as [|[[[] n] t] a IH]; intros h; cbn [app adjust]; [reflexivity|apply IH|].
  destruct (render t); [apply IH|reflexivity].
Qed.
Lemma adjust_dels render names : forall h, adjust render h (map del_edit_of names) = Some (without names h).
Proof.
  induction names as [|n names IH]; intros h; cbn [map adjust del_edit_of].
  - f_equal. unfold without. cbn [map]. induction h as [|x h IH]; [reflexivity|]. cbn [filter].
    change (mem_str (lower (fst x)) []) with false. cbn [negb]. rewrite <- IH. reflexivity.
  - rewrite IH. f_equal. unfold without. induction h as [|x h IHh]; [reflexivity|]. cbn [filter map].
    change (mem_str (lower (fst x)) (lower n :: map lower names))
      with (streqb (lower (fst x)) (lower n) || mem_str (lower (fst x)) (map lower names))%bool.
    rewrite (streqb_sym (lower n)). destruct (streqb (lower (fst x)) (lower n)); cbn [orb negb].
    + exact IHh.
    + cbn [filter]. destruct (mem_str (lower (fst x)) (map lower names)); cbn [negb]; rewrite IHh; reflexivity.
Qed.
Lemma adjust_adds render l : forall h h', adjust render h (map add_edit_of l) = Some h' ->
  exists r, Forall2 (fun e x => fst x = fst e /\ render (fst (convert_tags (snd e))) = Some (snd x)) l r /\ h' = h ++ r.
Proof.
  induction l as [|[n v] l IH]; intros h h' H; cbn [map adjust add_edit_of fst snd] in H.
  - injection H as <-. exists []. rewrite app_nil_r. split; [constructor|reflexivity].
  - unfold add_edit_of in H. cbn [fst snd adjust] in H.
    destruct (render (fst (convert_tags v))) as [w|] eqn:E; [|discriminate].
    destruct (IH _ _ H) as [r [F ->]]. exists ((n, w) :: r). split.
    + constructor; [|exact F]. cbn [fst snd]. split; [reflexivity|exact E].
    + rewrite <- app_assoc. reflexivity.
Qed.
Lemma adjust_adds_ok render l : (forall e, In e l -> render (fst (convert_tags (snd e))) <> None) ->
  forall h, adjust render h (map add_edit_of l) <> None.
Proof.
  induction l as [|[n v] l IH]; intros H h; [discriminate|]. cbn [map]. unfold add_edit_of at 1. cbn [adjust fst snd].
  destruct (render (fst (convert_tags v))) as [w|] eqn:E.
  - apply IH. intros e He. apply H. right. exact He.
  - exfalso. apply (H (n, v)); [left; reflexivity|exact E].
Qed.

Lemma adjusted_exact rc rs report unsafe adds removes t safe ho received now h body raw m h' c :
  load_templates report unsafe adds removes = Some t ->
  get_adjusted rc rs t safe ho received now h body raw m = Some (h', c) ->
  exists start a_all a_kind,
    (if (Qle_bool (rc_required rc) (m_score m) && negb ho && negb (Z.eqb safe 0))%bool
     then start = bounce_headers received now h /\
          exists r u, get_report rc rs t m = FText r /\ get_unsafe_report rc rs t m = FText u /\
                      c = Wrapped (r ++ u) raw (if Z.eqb safe 2 then $"text/plain" else $"message/rfc882")
     else c = Same body /\
          (if Z.eqb safe 0 then exists x, get_matched_report (rc_fmt rc) rs m = Some x /\ start = h ++ [($"X-Spam-Report", x)]
           else start = h)) /\
    Forall2 (fun e x => fst x = fst e /\ interpolate rc rs (t_tags t) m (fst (convert_tags (snd e))) = FText (snd x))
      (additions ($"all") adds) a_all /\
    Forall2 (fun e x => fst x = fst e /\ interpolate rc rs (t_tags t) m (fst (convert_tags (snd e))) = FText (snd x))
      (additions (kind_of rc m) adds) a_kind /\
    h' = without (removals (kind_of rc m) removes)
           (without (removals ($"all") removes) (start ++ a_all) ++ a_kind).
Proof.
  intros Hl H. unfold load_templates in Hl. destruct (convert_lines report) as [r0 rt]. destruct (convert_lines unsafe) as [u0 ut].
  destruct (load_edits adds removes) as [ed|] eqn:Ee; [|discriminate]. injection Hl as <-.
  pose proof (load_edits_of _ _ _ Ee) as Hed.
  unfold get_adjusted in H. cbv zeta in H. cbn [t_edits t_tags] in *.
  set (tags := rt ++ ut ++ ed_tags ed) in *. set (T := mkT r0 u0 ed tags) in *.
  unfold is_spam in H.
  match type of H with match ?x with _ => _ end = _ => destruct x as [[h1 c1]|] eqn:E1; [|discriminate] end.
  match type of H with match ?x with _ => _ end = _ => destruct x as [h2|] eqn:E2; [|discriminate] end.
  match type of H with match ?x with _ => _ end = _ => destruct x as [h3|] eqn:E3; [|discriminate] end.
  match type of H with option_map _ ?x = _ => destruct x as [h4|] eqn:E4; [|discriminate] end.
  cbn [option_map] in H. injection H as <- <-.
  assert (Hall : ed_all ed = map add_edit_of (additions ($"all") adds) ++ map del_edit_of (removals ($"all") removes)) by exact (Hed ($"all")).
  assert (Hkind : (if Qle_bool (rc_required rc) (m_score m) then ed_spam ed else ed_ham ed) =
     map add_edit_of (additions (kind_of rc m) adds) ++ map del_edit_of (removals (kind_of rc m) removes)).
  { rewrite <- Hed. unfold kind_of. destruct (Qle_bool (rc_required rc) (m_score m)); reflexivity. }
  rewrite Hall, adjust_app in E3. rewrite Hkind, adjust_app in E4.
  match type of E3 with match ?x with _ => _ end = _ => destruct x as [h3a|] eqn:E3a; [|discriminate] end.
  match type of E4 with match ?x with _ => _ end = _ => destruct x as [h4a|] eqn:E4a; [|discriminate] end.
  rewrite adjust_dels in E3, E4. injection E3 as <-. injection E4 as <-.
  apply adjust_adds in E3a. destruct E3a as [a_all [F3 ->]].
  apply adjust_adds in E4a. destruct E4a as [a_kind [F4 ->]].
  assert (W : forall l r, Forall2 (fun e x => fst x = fst e /\ text_of (interpolate rc rs tags m (fst (convert_tags (snd e)))) = Some (snd x)) l r ->
     Forall2 (fun (e x : str * str) => fst x = fst e /\ interpolate rc rs tags m (fst (convert_tags (snd e))) = FText (snd x)) l r).
  { intros l r F. induction F as [|e x l r [A B] F IH]; constructor; [|exact IH]. split; [exact A|].
    destruct (interpolate rc rs tags m (fst (convert_tags (snd e)))); try discriminate. injection B as ->. reflexivity. }
  exists h2, a_all, a_kind. split; [|split; [apply W; exact F3|split; [apply W; exact F4|reflexivity]]].
  destruct (Qle_bool (rc_required rc) (m_score m)); cbn [negb orb andb] in *.
  - destruct ho; cbn [negb orb andb] in *.
    + injection E1 as <- <-. split; [reflexivity|]. destruct (Z.eqb safe 0).
      * destruct (get_matched_report (rc_fmt rc) rs m) as [x|]; [|discriminate]. injection E2 as <-. eauto.
      * injection E2 as <-. reflexivity.
    + destruct (Z.eqb safe 0) eqn:Es; cbn [negb orb andb] in *.
      * injection E1 as <- <-. split; [reflexivity|].
        destruct (get_matched_report (rc_fmt rc) rs m) as [x|]; [|discriminate]. injection E2 as <-. eauto.
      * destruct (get_report rc rs T m) as [r| | |]; try discriminate.
        destruct (get_unsafe_report rc rs T m) as [u| | |]; try discriminate.
        injection E1 as <- <-. injection E2 as <-. split; [reflexivity|]. eauto.
  - injection E1 as <- <-. split; [reflexivity|]. destruct (Z.eqb safe 0).
    + destruct (get_matched_report (rc_fmt rc) rs m) as [x|]; [|discriminate]. injection E2 as <-. eauto.
    + injection E2 as <-. reflexivity.
Qed.

Lemma split_ws_max_In n : forall s x c, In x (split_ws_max n s) -> In c x -> In c s.
Proof.
  assert (D : forall (p : char -> bool) s c, In c (drop_while p s) -> In c s).
  { intros p s c H. destruct (drop_while_suffix p s) as [a [E _]]. rewrite E. apply in_or_app. right. exact H. }
  assert (T : forall (p : char -> bool) s c, In c (take_while p s) -> In c s).
  { intros p s c H. rewrite <- (take_drop_while p s). apply in_or_app. left. exact H. }
  induction n as [|n IH]; intros s x c Hx Hc; cbn [split_ws_max] in Hx;
    destruct (drop_while is_space s) as [|y t] eqn:E; try contradiction; apply (D is_space); rewrite E.
  - destruct Hx as [<-|[]]. exact Hc.
  - destruct Hx as [<-|Hx]; [apply T in Hc; exact Hc|]. apply (IH _ _ _ Hx) in Hc. apply D in Hc. exact Hc.
Qed.
Lemma additions_in kind adds e : In e (additions kind adds) ->
  exists line s n, In line adds /\ split_ws_max 2 line = [s; n; snd e].
Proof.
  unfold additions. rewrite in_flat_map. intros [line [Hl He]].
  destruct (split_ws_max 2 line) as [|s [|n [|v [|? ?]]]] eqn:E; try contradiction.
  destruct (streqb (lower s) kind); [|contradiction]. destruct He as [<-|[]]. exists line, s, n. auto.
Qed.
Lemma add_header_rule_tags line ed ed' b : add_header_rule line b ed = Some ed' ->
  incl (ed_tags ed) (ed_tags ed') /\
  (b = false -> forall s n v, split_ws_max 2 line = [s; n; v] -> incl (snd (convert_tags v)) (ed_tags ed')).
Proof.
  unfold add_header_rule. intros H. destruct b.
  - destruct (split_ws_max 1 line) as [|s [|n [|? ?]]]; try discriminate. split; [|discriminate].
    destruct (streqb (lower s) ($"spam")), (streqb (lower s) ($"ham")), (streqb (lower s) ($"all"));
      try discriminate; injection H as <-; cbn [ed_tags]; rewrite app_nil_r; apply incl_refl.
  - destruct (split_ws_max 2 line) as [|s [|n [|v [|? ?]]]]; try discriminate.
    destruct (convert_tags v) as [tp tg] eqn:Ev.
    assert (E : ed_tags ed' = ed_tags ed ++ tg).
    { destruct (streqb (lower s) ($"spam")), (streqb (lower s) ($"ham")), (streqb (lower s) ($"all"));
        try discriminate; injection H as <-; reflexivity. }
    rewrite E. split; [apply incl_appl, incl_refl|]. intros _ s' n' v' E'. injection E' as <- <- <-.
    rewrite Ev. apply incl_appr, incl_refl.
Qed.
Lemma add_edits_tags lines b : forall ed ed', add_edits lines b ed = Some ed' ->
  incl (ed_tags ed) (ed_tags ed') /\
  (b = false -> forall line s n v, In line lines -> split_ws_max 2 line = [s; n; v] -> incl (snd (convert_tags v)) (ed_tags ed')).
Proof.
  induction lines as [|l r IH]; intros ed ed' H; cbn [add_edits] in H.
  - injection H as <-. split; [apply incl_refl|]. intros _ line s n v [].
  - destruct (add_header_rule l b ed) as [e1|] eqn:E; [|discriminate].
    destruct (add_header_rule_tags _ _ _ _ E) as [I1 I2]. destruct (IH _ _ H) as [J1 J2].
    split; [eapply incl_tran; eassumption|]. intros Hb line s n v [<-|Hi] Es.
    + eapply incl_tran; [apply (I2 Hb s n v Es)|exact J1].
    + apply (J2 Hb line s n v Hi Es).
Qed.
Lemma load_edits_tags adds removes ed line s n v : load_edits adds removes = Some ed ->
  In line adds -> split_ws_max 2 line = [s; n; v] -> incl (snd (convert_tags v)) (ed_tags ed).
Proof.
  unfold load_edits. intros H Hi Es. destruct (add_edits adds false no_edits) as [e1|] eqn:E; [|discriminate].
  destruct (add_edits_tags _ _ _ _ E) as [_ I]. destruct (add_edits_tags _ _ _ _ H) as [J _].
  eapply incl_tran; [apply (I eq_refl line s n v Hi Es)|exact J].
Qed.

Lemma convert_lines_tags lines pss :
  Forall2 (fun line ps => reads (strip_chars quotes line) ps) lines pss -> snd (convert_lines lines) = concat (map tags_in pss).
Proof.
  intros H. unfold convert_lines. cbn [snd]. rewrite map_map. f_equal.
  induction H as [|l p lines pss H F IH]; [reflexivity|]. cbn [map]. rewrite IH, (convert_tags_tags _ _ H). reflexivity.
Qed.
Lemma reads_lines lines : exists pss, Forall2 (fun line ps => reads (strip_chars quotes line) ps) lines pss.
Proof.
  induction lines as [|l lines [pss IH]]; [exists []; constructor|].
  destruct (reads_total (strip_chars quotes l)) as [ps H]. exists (ps :: pss). constructor; assumption.
Qed.

Lemma adjusted_total rc rs report unsafe adds removes t safe ho received now h body raw m :
  load_templates report unsafe adds removes = Some t ->
  Forall (fun line => ~ In 37%N line) (report ++ unsafe ++ adds) -> NoDup (dkeys (m_tags m)) ->
  tag_data rc rs (t_tags t) m <> None -> (safe = 0%Z -> get_matched_report (rc_fmt rc) rs m <> None) ->
  get_adjusted rc rs t safe ho received now h body raw m <> None.
Proof.
  intros Hl H37 Hnd Hd Hm. rewrite !Forall_app in H37. destruct H37 as [Hr [Hu Ha]].
  unfold load_templates in Hl. destruct (convert_lines report) as [r0 rt] eqn:Er. destruct (convert_lines unsafe) as [u0 ut] eqn:Eu.
  destruct (load_edits adds removes) as [ed|] eqn:Ee; [|discriminate]. injection Hl as <-.
  pose proof (load_edits_of _ _ _ Ee) as Hed. cbn [t_tags] in Hd.
  unfold get_adjusted. cbv zeta. cbn [t_edits t_tags]. set (tags := rt ++ ut ++ ed_tags ed) in *.
  assert (R : forall lines tp tg, convert_lines lines = (tp, tg) -> Forall (fun line => ~ In 37%N line) lines -> incl tg tags ->
     exists x, render_report rc rs tags m tp = FText x).
  { intros lines tp tg E Hn Hi. unfold render_report. destruct tp as [|c tp']; [eauto|].
    destruct (reads_lines lines) as [pss F]. pose proof (convert_lines_tags _ _ F) as Et. rewrite E in Et. cbn [snd] in Et.
    destruct (interpolate_lines rc rs tags m lines pss F Hn Hnd) as [vss [_ Ei]]; [|exact Hd|].
    { intros x Hx. apply Hi. rewrite Et. exact Hx. }
    rewrite E in Ei. cbn [fst] in Ei. rewrite Ei. eauto. }
  assert (A : forall kind h0, adjust (fun v => text_of (interpolate rc rs tags m v)) h0 (edits_of kind ed) <> None).
  { intros kind h0. rewrite Hed, adjust_app.
    destruct (adjust _ h0 (map add_edit_of (additions kind adds))) as [h1|] eqn:E.
    - rewrite adjust_dels. discriminate.
    - exfalso. revert E. apply adjust_adds_ok. intros e He.
      destruct (additions_in _ _ _ He) as [line [s [n [Hi Es]]]].
      destruct (reads_total (strip_chars quotes (snd e))) as [ps Hps].
      destruct (interpolate_template rc rs tags m (snd e) ps Hps) as [vs [_ Ei]]; [|exact Hnd| |exact Hd|].
      + intros H. rewrite Forall_forall in Ha. apply (Ha line Hi).
        apply (split_ws_max_In 2 line (snd e)); [rewrite Es; right; right; left; reflexivity|exact H].
      + intros x Hx. apply in_or_app. right. apply in_or_app. right.
        apply (load_edits_tags _ _ _ _ _ _ _ Ee Hi Es). rewrite (convert_tags_tags _ _ Hps). exact Hx.
      + rewrite Ei. discriminate. }
  destruct (R report r0 rt Er Hr) as [xr Er']. { unfold tags. apply incl_appl, incl_refl. }
  destruct (R unsafe u0 ut Eu Hu) as [xu Eu']. { unfold tags. apply incl_appr, incl_appl, incl_refl. }
  unfold get_report, get_unsafe_report. cbn [t_report t_unsafe t_tags].
  fold tags. rewrite Er', Eu'.
  assert (B : forall h1 c, match (if Z.eqb safe 0
             then option_map (fun x => h1 ++ [($"X-Spam-Report", x)]) (get_matched_report (rc_fmt rc) rs m)
             else Some h1) with
      | None => None
      | Some h2 =>
          match adjust (fun v => text_of (interpolate rc rs tags m v)) h2 (ed_all ed) with
          | None => None
          | Some h3 => option_map (fun h4 => (h4, c : content))
                         (adjust (fun v => text_of (interpolate rc rs tags m v)) h3 (if is_spam rc m then ed_spam ed else ed_ham ed))
          end
      end <> None).
  { intros h1 c.
    match goal with |- match ?x with _ => _ end <> _ => destruct x as [h2|] eqn:E2 end.
    2:{ exfalso. destruct (Z.eqb_spec safe 0) as [Ez|]; [|discriminate]. specialize (Hm Ez).
        destruct (get_matched_report (rc_fmt rc) rs m); [discriminate|contradiction]. }
    match goal with |- match ?x with _ => _ end <> _ => destruct x as [h3|] eqn:E3 end.
    2:{ exact (False_ind _ (A ($"all") h2 E3)). }
    match goal with |- option_map _ ?x <> _ => destruct x as [h4|] eqn:E4 end; [discriminate|].
    exfalso. destruct (is_spam rc m); [exact (A ($"spam") h3 E4)|exact (A ($"ham") h3 E4)]. }
  destruct (negb (is_spam rc m) || ho || (safe =? 0)%Z)%bool; apply B.
Qed.

(** ** Lists of hits *)
Lemma summary_lines_spec rc rs l ls : summary_lines rc rs l = Some ls ->
  Forall2 (line_of_hit rc rs) (map fst (filter (fun e => truthy (snd e)) l)) ls.
Proof.
  revert ls. induction l as [|[name v] l IH]; intros ls H; cbn [summary_lines] in H.
  - injection H as <-. constructor.
  - cbn [filter snd]. destruct (truthy v); [|apply IH; exact H]. cbn [map fst].
    destruct (get_rule rs name false) as [r|] eqn:E; [|discriminate].
    destruct (summary_lines rc rs l) as [rest|] eqn:E2; [|discriminate]. injection H as <-.
    constructor; [exists r; split; [exact E|reflexivity] | apply IH; reflexivity].
Qed.
Lemma summary_lines_ok rc rs l : (forall n v, In (n, v) l -> truthy v = true -> get_rule rs n false <> None) ->
  exists ls, summary_lines rc rs l = Some ls.
Proof.
  induction l as [|[name v] l IH]; intros H; cbn [summary_lines]; [eauto|].
  destruct IH as [ls E]. { intros n w Hi. apply H. right. exact Hi. }
  destruct (truthy v) eqn:Ev; [|eauto]. rewrite E.
  destruct (get_rule rs name false) eqn:Er; [eauto|]. exfalso. apply (H name v); [left; reflexivity|exact Ev|exact Er].
Qed.
Lemma scores_list_spec l ls : scores_list l = Some ls ->
  Forall2 (fun n x => exists z, x = n ++ $"=" ++ show_z z) (map fst (filter (fun e => truthy (snd e)) l)) ls.
Proof.
  revert ls. induction l as [|[name v] l IH]; intros ls H; cbn [scores_list] in H.
  - injection H as <-. constructor.
  - cbn [filter snd]. destruct (truthy v); [|apply IH; exact H]. cbn [map fst].
    destruct (int_of v) as [z|]; [|discriminate].
    destruct (scores_list l) as [rest|]; [|discriminate]. injection H as <-.
    constructor; [exists z; reflexivity | apply IH; reflexivity].
Qed.
Lemma first_lines_join n ls : ls <> [] -> Forall (fun l => ~ In 10%N l) ls -> first_lines n (join [10%N] ls) = firstn n ls.
Proof.
  revert n. induction ls as [|a ls IH]; intros n N F; [contradiction|]. inversion F; subst. destruct n as [|n]; [reflexivity|]. cbn [first_lines firstn].
  destruct ls as [|b ls].
  - cbn [join]. rewrite (proj2 (split1_None _ _)) by assumption. destruct n; reflexivity.
  - change (join [10%N] (a :: b :: ls)) with (a ++ 10%N :: join [10%N] (b :: ls)).
    rewrite (proj2 (split1_Some _ _ _ _)) by (split; [reflexivity | assumption]). rewrite IH by (discriminate || assumption). reflexivity.
Qed.
Lemma show_writes z : writes_whole z (show_z z).
Proof. destruct z as [|p|p]; [left; split; [lia | reflexivity] | left; split; [lia | reflexivity] | right; split; [lia | reflexivity]]. Qed.
Lemma quot_whole q : whole_part q (Z.quot (Qnum q) (Zpos (Qden q))).
Proof.
  destruct q as [n d]. cbn [Qnum Qden]. unfold whole_part, Qle, Qlt. cbn [inject_Z Qnum Qden]. rewrite !Z.mul_1_r, Z.mul_0_l, ?Z.mul_0_l.
  pose proof (Z.quot_rem' n (Zpos d)) as E. split; intros H.
  - pose proof (Z.rem_bound_pos n (Zpos d) H ltac:(lia)). assert (0 <= Z.quot n (Zpos d))%Z by (apply Z.quot_pos; lia). nia.
  - pose proof (Z.rem_bound_neg_pos n (Zpos d)) as B. assert (Z.quot n (Zpos d) <= 0)%Z.
    { rewrite <- (Z.opp_involutive n), Z.quot_opp_l by lia. assert (0 <= Z.quot (- n) (Zpos d))%Z by (apply Z.quot_pos; lia). lia. }
    assert (- Zpos d < Z.rem n (Zpos d) <= 0)%Z.
    { rewrite <- (Z.opp_involutive n), Z.rem_opp_l by lia. pose proof (Z.rem_bound_pos (- n) (Zpos d) ltac:(lia) ltac:(lia)). lia. }
    nia.
Qed.
Lemma scores_list_shown l ls : scores_list l = Some ls ->
  Forall2 (fun e x => exists t, x = fst e ++ $"=" ++ t /\ shown (snd e) t) (filter (fun e => truthy (snd e)) l) ls.
Proof.
  revert ls. induction l as [|[name v] l IH]; intros ls H; cbn [scores_list] in H.
  - injection H as <-. constructor.
  - cbn [filter snd]. destruct (truthy v); [|apply IH; exact H].
    destruct (int_of v) as [z|] eqn:Ez; [|discriminate].
    destruct (scores_list l) as [rest|]; [|discriminate]. injection H as <-.
    constructor; [|apply IH; reflexivity]. exists (show_z z). split; [reflexivity|]. cbn [snd].
    destruct v as [|b|q|s]; cbn [int_of] in Ez; try discriminate; injection Ez as <-.
    + destruct b; reflexivity.
    + exists (Z.quot (Qnum q) (Zpos (Qden q))). split; [apply quot_whole | apply show_writes].
Qed.
Lemma hits_are_rules rs m : Forall (fun e => observer (snd e)) (rs_checked rs) -> m_checked m = [] ->
  forall n, In n (dkeys (m_checked (fst (match_loop (rs_checked rs) m)))) -> get_rule rs n false <> None.
Proof.
  intros Hobs Hc n Hn. assert (Hin : In n (dkeys (rs_checked rs))).
  { destruct (in_dec str_eq_dec n (dkeys (rs_checked rs))) as [H|H]; [exact H|].
    exfalso. pose proof (match_loop_checked_other (rs_checked rs) m n Hobs H) as He.
    rewrite Hc in He. cbn [dget] in He. apply dget_None in He. contradiction. }
  unfold get_rule. destruct (dget n (rs_checked rs)) eqn:E; [discriminate|]. apply dget_None in E. contradiction.
Qed.
End Tags.
