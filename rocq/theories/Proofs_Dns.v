(** Proofs about DNS restrictions, availability and block lists. *)
From Coq Require Import Lia ZArith.
From Verif Require Import PyStr PyDict Model_Net Model_Relays Model_Dns Spec_Dns.

(** ** Restrictions *)
Lemma below_parent d name a parent :
  split1 46%N name = Some (a, parent) -> (at_or_below d name <-> name = d \/ at_or_below d parent).
Proof.
  intros H. apply split1_Some in H as [-> Hna]. unfold at_or_below. change ($".") with [46%N]. cbn [app].
  split.
  - intros [H | [p H]]; [now left|]. right.
    revert p H. induction a as [|x a IH]; intros [|y p] H; cbn [app] in H.
    + injection H as H. now left.
    + injection H as <- H. right. now exists p.
    + injection H as -> H. exfalso. apply Hna. now left.
    + injection H as -> H. apply (IH (fun h => Hna (or_intror h)) p H).
  - intros [H | [H | [p H]]]; [now left| |].
    + right. exists a. now rewrite H.
    + right. exists (a ++ 46%N :: p). now rewrite H, <- app_assoc.
Qed.
Lemma below_last d name : split1 46%N name = None -> (at_or_below d name <-> name = d).
Proof.
  intros H. apply split1_None in H. unfold at_or_below. split; [|now left]. intros [->|[p ->]]; [reflexivity|].
  exfalso. apply H. apply in_or_app. right. now left.
Qed.
Lemma below_length d name : at_or_below d name -> length d <= length name.
Proof. intros [->|[p ->]]; [lia|]. rewrite !app_length. lia. Qed.

Definition nearest (table : dict bool) (name : str) (b : bool) : Prop :=
  exists d, dget d table = Some b /\ at_or_below d name /\
    forall d' b', dget d' table = Some b' -> at_or_below d' name -> length d' <= length d.

Lemma restricted_loop_spec fuel : forall table name, length name < fuel ->
  exists b, restricted_loop fuel table name = Some b /\ (b = true <-> nearest table name true).
Proof.
  induction fuel as [|fuel IH]; intros table name H; [lia|]. cbn [restricted_loop].
  destruct (dget name table) as [b|] eqn:E.
  - exists b. split; [reflexivity|]. split.
    + intros ->. exists name. split; [exact E|]. split; [now left|]. intros d' b' _. apply below_length.
    + intros [d [Hd [Hb Hn]]].
      pose proof (Hn name b E (or_introl eq_refl)). pose proof (below_length _ _ Hb).
      assert (name = d) as ->. { destruct Hb as [->|[p ->]]; [reflexivity|]. rewrite !app_length in H0. change (length ($".")) with 1 in H0. lia. }
      congruence.
  - destruct (split1 46%N name) as [[a parent]|] eqn:S1.
    + assert (length parent < fuel). { apply split1_Some in S1 as [-> _]. rewrite app_length in H. cbn [length] in H. lia. }
      destruct (IH table parent H0) as [b [-> Hb]]. exists b. split; [reflexivity|]. rewrite Hb. unfold nearest.
      split; intros [d [Hd [Hx Hn]]]; exists d; (split; [exact Hd|]).
      * split; [apply (below_parent d _ _ _ S1); now right|]. intros d' b' Hd' Hb'. apply (Hn d' b' Hd').
        apply (below_parent d' _ _ _ S1) in Hb' as [->|?]; [congruence|assumption].
      * split. { apply (below_parent d _ _ _ S1) in Hx as [->|?]; [congruence|assumption]. }
        intros d' b' Hd' Hb'. apply (Hn d' b' Hd'). apply (below_parent d' _ _ _ S1). now right.
    + exists false. split; [reflexivity|]. split; [discriminate|]. intros [d [Hd [Hx _]]].
      apply (below_last d _ S1) in Hx. congruence.
Qed.
Lemma is_query_restricted_spec table name :
  exists b, is_query_restricted table name = Some b /\ (b = true <-> nearest table name true).
Proof.
  unfold is_query_restricted. destruct table as [|p t]; [|apply restricted_loop_spec; lia].
  exists false. split; [reflexivity|]. split; [discriminate|]. intros [d [Hd _]]. discriminate.
Qed.

Lemma line_split b d : split1 32%N (restriction_line b d) = Some (if b then $"deny" else $"allow", d).
Proof. now destruct b. Qed.
Lemma line_inj b d b' d' : restriction_line b d = restriction_line b' d' -> b = b' /\ d = d'.
Proof.
  intros H. apply (f_equal (split1 32%N)) in H. rewrite !line_split in H. injection H as H ->. split; [|reflexivity].
  destruct b, b'; try reflexivity; discriminate.
Qed.
Lemma split_line v opt q : split1 32%N v = Some (opt, q) ->
  (streqb opt ($"allow") || streqb opt ($"deny") = true -> v = restriction_line (streqb opt ($"deny")) q) /\
  (streqb opt ($"allow") || streqb opt ($"deny") = false -> forall b d, v <> restriction_line b d).
Proof.
  intros H. split; intros E.
  - apply split1_Some in H as [-> _]. apply orb_true_iff in E as [E|E]; apply streqb_eq in E; subst opt; reflexivity.
  - intros b d ->. rewrite line_split in H. injection H as <- <-. destruct b; discriminate.
Qed.
(** The table says what the last line says. *)
Lemma last_says_snoc lines v d b :
  last_says (lines ++ [v]) d b <-> v = restriction_line b d \/ ((forall x, v <> restriction_line x d) /\ last_says lines d b).
Proof.
  split.
  - intros [before [after [H Hn]]]. destruct after as [|y after] using rev_ind.
    + apply app_inj_tail in H as [_ ->]. now left.
    + clear IHafter. rewrite app_comm_cons, app_assoc in H. apply app_inj_tail in H as [-> ->]. right. split.
      * intros x ->. apply (Hn x). apply in_or_app. right. now left.
      * exists before, after. split; [reflexivity|]. intros x Hx. apply (Hn x). apply in_or_app. now left.
  - intros [->|[Hv [before [after [-> Hn]]]]].
    + exists lines, []. split; [reflexivity|]. intros x [].
    + exists before, (after ++ [v]). split; [now rewrite <- app_assoc|]. intros x Hx. apply in_app_or in Hx as [Hx|[Hx|[]]].
      * now apply (Hn x).
      * now apply (Hv x).
Qed.
Definition says (table : dict bool) (lines : list str) : Prop :=
  forall d b, dget d table = Some b <-> last_says lines d b.
Lemma restriction_lines_spec lines : forall done table opt q,
  says table done ->
  ((streqb opt ($"allow") || streqb opt ($"deny")) = true -> dget q table = Some (streqb opt ($"deny"))) ->
  exists t, restriction_lines lines (Some (opt, q)) table = Some t /\ says t (done ++ lines).
Proof.
  induction lines as [|v rest IH]; intros done table opt q Hs Hl; cbn [restriction_lines].
  { exists table. now rewrite app_nil_r. }
  change (done ++ v :: rest) with (done ++ [v] ++ rest). rewrite app_assoc.
  destruct (split1 32%N v) as [[o n]|] eqn:E.
  - destruct (split_line _ _ _ E) as [Hy Hn].
    destruct (streqb o ($"allow") || streqb o ($"deny")) eqn:Eo.
    + apply IH; [|intros _; apply dget_dset_same]. specialize (Hy eq_refl).
      intros d b. rewrite last_says_snoc, dget_dset. destruct (streqb_spec n d) as [<-|Hne].
      * split.
        -- intros H. injection H as <-. now left.
        -- intros [H|[H _]]; [|now apply H in Hy]. rewrite Hy in H. now apply line_inj in H as [-> _].
      * rewrite (Hs d b). split.
        -- intros H. right. split; [|exact H]. intros x Hx. rewrite Hx in Hy. apply line_inj in Hy as [_ Hy]. congruence.
        -- intros [H|[_ H]]; [|exact H]. rewrite H in Hy. apply line_inj in Hy as [_ Hy]. congruence.
    + apply IH; [|rewrite Eo; discriminate]. specialize (Hn eq_refl).
      intros d b. rewrite last_says_snoc, (Hs d b). split; [intros H; right; split; [intros x; apply Hn|exact H]|].
      intros [H|[_ H]]; [now apply Hn in H|exact H].
  - assert (Hv : forall b d, v <> restriction_line b d). { intros b d ->. rewrite line_split in E. discriminate. }
    assert (Hs' : says table (done ++ [v])).
    { intros d b. rewrite last_says_snoc, (Hs d b). split; [intros H; right; split; [intros x; apply Hv|exact H]|].
      intros [H|[_ H]]; [now apply Hv in H|exact H]. }
    destruct (streqb opt ($"allow") || streqb opt ($"deny")) eqn:Eo; [|apply IH; [exact Hs'|rewrite Eo; discriminate]].
    assert (dset q (streqb opt ($"deny")) table = table) as ->; [|apply IH; [exact Hs'|intros _; now apply Hl]].
    specialize (Hl eq_refl). clear - Hl. revert Hl. generalize (streqb opt ($"deny")) as w. intros w.
    induction table as [|[k x] t IHt]; intros Hl; [discriminate|]. cbn [dget dset] in *.
    destruct (streqb q k) eqn:Ek; [injection Hl as ->; reflexivity|]. now rewrite (IHt Hl).
Qed.
Lemma restrictions_spec first rest : In 32%N first ->
  exists table, restriction_lines (first :: rest) None [] = Some table /\ says table (first :: rest).
Proof.
  intros H. cbn [restriction_lines]. destruct (split1 32%N first) as [[o n]|] eqn:E; [|now apply split1_None in E].
  assert (H1 : says [] []). { intros d b. split; [discriminate|]. intros [x [y [Hx _]]]. now destruct x. }
  destruct (split_line _ _ _ E) as [Hy Hn].
  destruct (streqb o ($"allow") || streqb o ($"deny")) eqn:Eo.
  - apply (restriction_lines_spec rest [first]); [|intros _; apply dget_dset_same]. specialize (Hy eq_refl).
    intros d b. change [first] with ([] ++ [first]). rewrite last_says_snoc, dget_dset. destruct (streqb_spec n d) as [<-|Hne].
    + split; [intros H2; injection H2 as <-; now left|]. intros [H2|[_ H2]]; [|now apply H1 in H2].
      rewrite H2 in Hy. now apply line_inj in Hy as [-> _].
    + split; [discriminate|]. intros [H2|[_ H2]]; [|now apply H1 in H2]. rewrite H2 in Hy. apply line_inj in Hy as [_ Hy]. congruence.
  - apply (restriction_lines_spec rest [first]); [|rewrite Eo; discriminate]. specialize (Hn eq_refl).
    intros d b. change [first] with ([] ++ [first]). rewrite last_says_snoc. split; [discriminate|].
    intros [H2|[_ H2]]; [now apply Hn in H2|now apply H1 in H2].
Qed.
Lemma nearest_denied table lines name : says table lines -> (nearest table name true <-> denied lines name).
Proof.
  intros Hs. unfold nearest, denied. split; intros [d [H1 [H2 H3]]]; exists d; (split; [now apply Hs|]); split; try exact H2.
  - intros d' b Hd. apply (H3 d' b). now apply Hs.
  - intros d' b Hd. apply (H3 d' b). now apply Hs.
Qed.
Theorem restricted_denied first rest : In 32%N first ->
  exists table, restriction_lines (first :: rest) None [] = Some table /\
  forall name, exists b, is_query_restricted table name = Some b /\ (b = true <-> denied (first :: rest) name).
Proof.
  intros H. destruct (restrictions_spec first rest H) as [table [Ht Hs]]. exists table. split; [exact Ht|]. intros name.
  destruct (is_query_restricted_spec table name) as [b [Hb Hn]]. exists b. split; [exact Hb|].
  rewrite Hn. now apply nearest_denied.
Qed.
Theorem query_suppressed resolve sample first rest d now qname qtype : In 32%N first ->
  restriction_lines (first :: rest) None [] = Some (d_restrictions d) -> d_test d = false -> d_available d = true ->
  (denied (first :: rest) qname -> query resolve sample now qname qtype d = Some ([], [], d)) /\
  (~ denied (first :: rest) qname ->
   query resolve sample now qname qtype d = Some (resolve now qname qtype, [Asked now qname qtype], d)).
Proof.
  intros H Ht H1 H2. destruct (restricted_denied first rest H) as [table [Ht' Hr]]. rewrite Ht in Ht'. injection Ht' as <-.
  destruct (Hr qname) as [b [Hb Hd]]. unfold query. rewrite Hb. unfold available. rewrite H1. cbn [andb]. rewrite H2.
  destruct b; split; intros Hx; try reflexivity.
  - exfalso. apply Hx. now apply Hd.
  - apply Hd in Hx. discriminate.
Qed.

(** ** Availability *)
Section Avail.
Variable resolve : N -> str -> str -> list str.
Variable sample : N -> list str -> nat -> list str.
Notation query := (query resolve sample).
Notation queries := (queries resolve sample).

Definition is_test (e : event) : Prop := match e with Tested _ _ _ => True | _ => False end.

(** One query: at most one round of tests, before the lookup. *)
Lemma query_inv now q ty d ans ev d' : query now q ty d = Some (ans, ev, d') ->
  d_interval d' = d_interval d /\ d_test d' = d_test d /\
  ((d' = d /\ (ev = [] \/ (ev = [Asked now q ty] /\ d_available d = true /\ (d_test d = true -> now < d_next d)%N))) \/
   (exists names ok, d_test d = true /\ (d_next d <= now)%N /\ d_next d' = (now + d_interval d)%N /\ d_available d' = ok /\
      (ok = true <-> exists n, In n names /\ resolve now n ($"A") <> []) /\
      names = sample now (nodup str_eq_dec (d_names d)) (Nat.min 3 (length (d_names d))) /\ d_names d' = d_names d /\
      ((ok = false /\ ev = [Tested now names ok]) \/ (ok = true /\ ev = [Tested now names ok; Asked now q ty])))).
Proof.
  unfold Model_Dns.query, available. destruct (is_query_restricted (d_restrictions d) q) as [[]|]; [|..|discriminate].
  { intros H. injection H as <- <- <-. repeat split; auto. }
  destruct (d_test d) eqn:Et; cbn [andb].
  - destruct (N.leb_spec (d_next d) now) as [Hle|Hlt].
    + destruct (_ <? _); [discriminate|].
      set (names := sample now _ _). set (ok := existsb _ names).
      assert (Hok : ok = true <-> exists n, In n names /\ resolve now n ($"A") <> []).
      { unfold ok. rewrite existsb_exists. split; intros [n [Hn H]]; exists n; (split; [exact Hn|]); unfold answered in *;
          destruct (resolve now n ($"A")); try congruence. }
      destruct ok eqn:Eok; intros H; injection H as <- <- <-; cbn; repeat split; auto; right;
        exists names; [exists true|exists false]; repeat split; auto; try discriminate; try apply Hok.
    + destruct (d_available d) eqn:Ea; intros H; injection H as <- <- <-; repeat split; auto.
      left. split; auto.
  - destruct (d_available d) eqn:Ea; intros H; injection H as <- <- <-; repeat split; auto.
    left. split; [reflexivity|]. right. repeat split; discriminate.
Qed.

Lemma queries_cons now q ty rest d :
  queries ((now, q, ty) :: rest) d =
  match query now q ty d with
  | None => queries rest d
  | Some (_, ev, d) => (ev ++ fst (queries rest d), snd (queries rest d))
  end.
Proof. cbn [Model_Dns.queries]. destruct (query now q ty d) as [[[a ev] d']|]; [|reflexivity]. now destruct (queries rest d'). Qed.

Lemma tests_from h : forall d t names ok, In (Tested t names ok) (fst (queries h d)) -> (d_next d <= t)%N.
Proof.
  induction h as [|[[now q] ty] rest IH]; intros d t names ok H; [easy|]. rewrite queries_cons in H.
  destruct (query now q ty d) as [[[a ev] d']|] eqn:E; [|eauto]. cbn [fst] in H. apply in_app_or in H.
  apply query_inv in E as [Hi [Ht [[-> Hev]|[names' [ok' [Htest [Hle [Hn [Hok [_ [_ [_ Hev]]]]]]]]]]]].
  - destruct H as [H|H]; [|eauto]. destruct Hev as [->|[-> _]]; [easy|]. now destruct H as [H|[]].
  - destruct H as [H|H].
    + destruct Hev as [[-> ->]|[-> ->]].
      * destruct H as [H|[]]. injection H as <- _ _. exact Hle.
      * destruct H as [H|[H|[]]]; [|discriminate]. injection H as <- _ _. exact Hle.
    + apply IH in H. rewrite Hn in H. lia.
Qed.
Lemma tests_apart h : forall d a t1 n1 o1 b t2 n2 o2 c,
  fst (queries h d) = a ++ Tested t1 n1 o1 :: b ++ Tested t2 n2 o2 :: c -> (t1 + d_interval d <= t2)%N.
Proof.
  induction h as [|[[now q] ty] rest IH]; intros d a t1 n1 o1 b t2 n2 o2 c H; [now destruct a|]. rewrite queries_cons in H.
  destruct (query now q ty d) as [[[an ev] d']|] eqn:E; [|eauto]. cbn [fst] in H.
  apply query_inv in E as [Hi [Ht [[-> Hev]|[names' [ok' [Htest [Hle [Hn [Hok [_ [_ [_ Hev]]]]]]]]]]]].
  - destruct Hev as [->|[-> _]]; [now apply (IH _ a t1 n1 o1 b t2 n2 o2 c)|].
    destruct a as [|e a]; [discriminate|]. injection H as _ H. now apply (IH _ a t1 n1 o1 b t2 n2 o2 c).
  - rewrite <- Hi.
    destruct a as [|e a].
    + cbn [app] in H.
      assert (Ht1 : t1 = now /\ In (Tested t2 n2 o2) (fst (queries rest d'))).
      { destruct Hev as [[-> ->]|[-> ->]]; cbn [app] in H.
        - injection H as H1 _ _ H2. split; [congruence|]. rewrite H2. apply in_or_app. right. now left.
        - injection H as H1 _ _ H2. split; [congruence|]. destruct b as [|e b]; [discriminate|]. injection H2 as _ H2.
          rewrite H2. apply in_or_app. right. now left. }
      destruct Ht1 as [-> Hin]. apply tests_from in Hin. rewrite Hn in Hin. lia.
    + destruct Hev as [[-> ->]|[-> ->]]; cbn [app] in H.
      * injection H as _ H. now apply (IH _ a t1 n1 o1 b t2 n2 o2 c).
      * destruct a as [|e2 a]; [discriminate|]. injection H as _ _ H. now apply (IH _ a t1 n1 o1 b t2 n2 o2 c).
Qed.

Definition fresh (d : dns) (pre : list event) : Prop :=
  d_available d = true -> exists a1 t1 names a2, pre = a1 ++ Tested t1 names true :: a2 /\
    (forall e, In e a2 -> ~ is_test e) /\ d_next d = (t1 + d_interval d)%N.
Lemma asked_after_test h : forall d pre a t q ty c, (0 < d_interval d)%N -> d_test d = true -> fresh d pre ->
  fst (queries h d) = a ++ Asked t q ty :: c ->
  exists a1 t1 names a2, pre ++ a = a1 ++ Tested t1 names true :: a2 /\
    (forall e, In e a2 -> ~ is_test e) /\ (t < t1 + d_interval d)%N.
Proof.
  induction h as [|[[now q0] ty0] rest IH]; intros d pre a t q ty c Hpos Htt Hf H; [now destruct a|]. rewrite queries_cons in H.
  destruct (query now q0 ty0 d) as [[[an ev] d']|] eqn:E; [|eauto]. cbn [fst] in H.
  apply query_inv in E as [Hi [Ht [[-> Hev]|[names' [ok' [Htest [Hle [Hn [Hok [_ [_ [_ Hev]]]]]]]]]]]].
  - destruct Hev as [->|[-> [Hav Hlt]]]; [now apply (IH _ pre a t q ty c)|].
    destruct a as [|e a].
    + injection H as -> _ _ _. destruct (Hf Hav) as [a1 [t1 [names [a2 [-> [Ha2 Hnx]]]]]].
      exists a1, t1, names, a2. rewrite app_nil_r. repeat split; auto. rewrite <- Hnx. now apply Hlt.
    + injection H as <- H. destruct (Hf Hav) as [a1 [t1 [names [a2 [Hpre [Ha2 Hnx]]]]]].
      assert (Hf' : fresh d (pre ++ [Asked now q0 ty0])).
      { intros _. exists a1, t1, names, (a2 ++ [Asked now q0 ty0]). rewrite Hpre, <- app_assoc. repeat split; auto.
        intros x Hx. apply in_app_or in Hx as [Hx|[<-|[]]]; [now apply Ha2|intros []]. }
      destruct (IH d _ a t q ty c Hpos Htt Hf' H) as [b1 [u1 [ns [b2 [Hb Hr]]]]].
      exists b1, u1, ns, b2. rewrite <- Hb, <- app_assoc. split; [reflexivity|exact Hr].
  - rewrite <- Hi in *. rewrite <- Ht in Htt.
    destruct Hev as [[-> ->]|[-> ->]]; cbn [app] in H.
    + destruct a as [|e a]; [discriminate|]. injection H as <- H.
      assert (Hf' : fresh d' (pre ++ [Tested now names' false])). { intros Hx. congruence. }
      destruct (IH d' _ a t q ty c Hpos Htt Hf' H) as [b1 [u1 [ns [b2 [Hb Hr]]]]].
      exists b1, u1, ns, b2. rewrite <- Hb, <- app_assoc. split; [reflexivity|exact Hr].
    + destruct a as [|e a]; [discriminate|]. injection H as <- H.
      destruct a as [|e a].
      * injection H as -> _ _ _. exists pre, t, names', []. repeat split; [intros x []|lia].
      * injection H as <- H.
        assert (Hf' : fresh d' (pre ++ [Tested now names' true; Asked now q0 ty0])).
        { intros _. exists pre, now, names', [Asked now q0 ty0]. repeat split; [|exact Hn]. intros x [<-|[]] []. }
        destruct (IH d' _ a t q ty c Hpos Htt Hf' H) as [b1 [u1 [ns [b2 [Hb Hr]]]]].
        exists b1, u1, ns, b2. rewrite <- Hb, <- app_assoc. split; [reflexivity|exact Hr].
Qed.
Lemma round_meaning h : forall d t names ok, In (Tested t names ok) (fst (queries h d)) ->
  names = sample t (nodup str_eq_dec (d_names d)) (Nat.min 3 (length (d_names d))) /\
  (ok = true <-> exists n, In n names /\ resolve t n ($"A") <> []).
Proof.
  induction h as [|[[now q] ty] rest IH]; intros d t names ok H; [easy|]. rewrite queries_cons in H.
  destruct (query now q ty d) as [[[a ev] d']|] eqn:E; [|eauto]. cbn [fst] in H. apply in_app_or in H.
  apply query_inv in E as [Hi [Ht [[-> Hev]|[names' [ok' [Htest [Hle [Hn [Hok [Hmean [Hs [Hnm Hev]]]]]]]]]]]].
  - destruct H as [H|H]; [|eauto]. destruct Hev as [->|[-> _]]; [easy|]. now destruct H as [H|[]].
  - destruct H as [H|H]; [|apply IH in H; now rewrite Hnm in H].
    assert (t = now /\ names = names' /\ ok = ok') as [-> [-> ->]].
    { destruct Hev as [[-> ->]|[-> ->]].
      - destruct H as [H|[]]. now injection H as -> -> ->.
      - destruct H as [H|[H|[]]]; [|discriminate]. now injection H as -> -> ->. }
    auto.
Qed.
Lemma no_tests h : forall d, d_test d = false -> forall e, In e (fst (queries h d)) -> ~ is_test e.
Proof.
  induction h as [|[[now q] ty] rest IH]; intros d Hd e H; [easy|]. rewrite queries_cons in H.
  destruct (query now q ty d) as [[[a ev] d']|] eqn:E; [|eauto]. cbn [fst] in H. apply in_app_or in H.
  apply query_inv in E as [Hi [Ht [[-> Hev]|[names' [ok' [Htest _]]]]]]; [|congruence].
  destruct H as [H|H]; [|now apply (IH d Hd)]. destruct Hev as [->|[-> _]]; [easy|]. destruct H as [<-|[]]. intros [].
Qed.
End Avail.

(** ** Reversed addresses *)
Lemma dec_no_dot n : ~ In 46%N (dec n).
Proof.
  unfold dec. generalize (N.to_uint n). intros u. induction u; cbn [uint_str In]; intuition discriminate.
Qed.
Lemma rstrip_dot s c : c <> 46%N -> rstrip_chars ($".") ((s ++ [c]) ++ [46%N]) = s ++ [c].
Proof.
  intros H. unfold rstrip_chars, rstrip_p. rewrite rev_app_distr. cbn [rev app drop_while].
  change (mem_char 46%N ($".")) with true. cbn [drop_while]. rewrite rev_app_distr. cbn [rev app drop_while].
  assert (mem_char c ($".") = false) as ->. { apply mem_char_notIn. intros [Hc|[]]. apply H. now rewrite <- Hc. }
  cbn [rev]. now rewrite rev_involutive.
Qed.
Lemma rsplit_suffix s t : ~ In 46%N t -> rsplit1 46%N (s ++ $"." ++ t) = Some (s, t).
Proof. intros H. apply rsplit1_Some. now split. Qed.
Lemma reverse4 n : reverse_ip (mkA V4 n) = join ($".") (map dec (rev (octets n))).
Proof.
  unfold reverse_ip, reverse_name. cbn [a_ver a_val]. set (j := join _ _).
  change ($".in-addr.arpa.") with ($".in-addr" ++ $".arp" ++ [97%N] ++ [46%N]). rewrite !app_assoc, rstrip_dot by discriminate.
  rewrite <- !app_assoc. change ($".in-addr" ++ $".arp" ++ [97%N]) with ($"." ++ $"in-addr" ++ $"." ++ $"arpa").
  rewrite 2 app_assoc. rewrite rsplit_suffix by (vm_compute; intuition discriminate).
  rewrite <- app_assoc. rewrite rsplit_suffix by (vm_compute; intuition discriminate). reflexivity.
Qed.
Lemma reverse6 n : reverse_ip (mkA V6 n) = join ($".") (map (fun n => [hex_digit n]) (low_nibbles 32 n)).
Proof.
  unfold reverse_ip, reverse_name. cbn [a_ver a_val]. set (j := join _ _).
  change ($".ip6.arpa.") with ($".ip6" ++ $".arp" ++ [97%N] ++ [46%N]). rewrite !app_assoc, rstrip_dot by discriminate.
  rewrite <- !app_assoc. change ($".ip6" ++ $".arp" ++ [97%N]) with ($"." ++ $"ip6" ++ $"." ++ $"arpa").
  rewrite 2 app_assoc. rewrite rsplit_suffix by (vm_compute; intuition discriminate).
  rewrite <- app_assoc. rewrite rsplit_suffix by (vm_compute; intuition discriminate). reflexivity.
Qed.
Lemma dec_injective n m : dec n = dec m -> n = m.
Proof.
  unfold dec. intros H.
  assert (Hu : forall u v, uint_str u = uint_str v -> u = v).
  { induction u; destruct v; cbn; intros E; try discriminate; try reflexivity; injection E as E; f_equal; auto. }
  apply Hu in H. now apply DecimalN.Unsigned.to_uint_inj in H.
Qed.
Lemma join_injective l m : l <> [] -> m <> [] -> Forall (fun w => ~ In 46%N w) l -> Forall (fun w => ~ In 46%N w) m ->
  join ($".") l = join ($".") m -> l = m.
Proof.
  intros H1 H2 H3 H4 E. rewrite <- (split_char_join 46%N l H1 H3), <- (split_char_join 46%N m H2 H4).
  now change ([46%N]) with ($"."); rewrite E.
Qed.
Lemma Forall_map_no_dot {A} (f : A -> str) l : (forall x, ~ In 46%N (f x)) -> Forall (fun w => ~ In 46%N w) (map f l).
Proof. intros H. apply Forall_forall. intros w Hw. apply in_map_iff in Hw as [x [<- _]]. apply H. Qed.
Lemma map_injective {A B} (f : A -> B) : (forall x y, f x = f y -> x = y) -> forall l m, map f l = map f m -> l = m.
Proof. intros H l. induction l as [|x l IH]; intros [|y m] E; try discriminate; [reflexivity|]. injection E as E1 E2. f_equal; auto. Qed.
Lemma octets_value n : (n < 2 ^ 32)%N ->
  exists a b c d, octets n = [a; b; c; d] /\ n = (a * 2 ^ 24 + b * 2 ^ 16 + c * 2 ^ 8 + d)%N /\
    (a < 256 /\ b < 256 /\ c < 256 /\ d < 256)%N.
Proof.
  intros H. unfold octets. cbn [map].
  exists (n / 2 ^ (8 * 3) mod 256)%N, (n / 2 ^ (8 * 2) mod 256)%N, (n / 2 ^ (8 * 1) mod 256)%N, (n / 2 ^ (8 * 0) mod 256)%N.
  split; [reflexivity|].
  change (2 ^ (8 * 3))%N with 16777216%N. change (2 ^ (8 * 2))%N with 65536%N. change (2 ^ (8 * 1))%N with 256%N.
  change (2 ^ (8 * 0))%N with 1%N. change (2 ^ 24)%N with 16777216%N. change (2 ^ 16)%N with 65536%N. change (2 ^ 8)%N with 256%N.
  change (2 ^ 32)%N with 4294967296%N in H. rewrite N.div_1_r.
  pose proof (N.div_mod n 256 ltac:(lia)) as E0. pose proof (N.mod_lt n 256 ltac:(lia)) as L0.
  pose proof (N.div_mod (n / 256) 256 ltac:(lia)) as E1. pose proof (N.mod_lt (n / 256) 256 ltac:(lia)) as L1.
  pose proof (N.div_mod (n / 256 / 256) 256 ltac:(lia)) as E2. pose proof (N.mod_lt (n / 256 / 256) 256 ltac:(lia)) as L2.
  rewrite N.div_div in E1, E2, L2 by lia. rewrite N.div_div in E2 by lia. change (256 * 256)%N with 65536%N in *. change (65536 * 256)%N with 16777216%N in *.
  assert (L3 : (n / 16777216 < 256)%N) by (apply N.div_lt_upper_bound; lia).
  rewrite (N.mod_small (n / 16777216)) by exact L3. repeat split; lia.
Qed.
Lemma octets_injective n m : (n < 2 ^ 32)%N -> (m < 2 ^ 32)%N -> octets n = octets m -> n = m.
Proof.
  intros Hn Hm E. destruct (octets_value n Hn) as [a [b [c [d [En [Vn _]]]]]]. destruct (octets_value m Hm) as [a' [b' [c' [d' [Em [Vm _]]]]]].
  rewrite En, Em in E. injection E as -> -> -> ->. congruence.
Qed.
Lemma nibbles_injective k : forall n m, (n < 16 ^ N.of_nat k)%N -> (m < 16 ^ N.of_nat k)%N -> low_nibbles k n = low_nibbles k m -> n = m.
Proof.
  induction k as [|k IH]; intros n m Hn Hm E.
  - change (16 ^ N.of_nat 0)%N with 1%N in *. lia.
  - cbn [low_nibbles] in E. injection E as E1 E2. rewrite Nat2N.inj_succ, N.pow_succ_r in Hn, Hm by lia.
    apply IH in E2; [|apply N.div_lt_upper_bound; lia..].
    rewrite (N.div_mod n 16), (N.div_mod m 16) by lia. congruence.
Qed.
Lemma low_nibbles_lt k : forall n x, In x (low_nibbles k n) -> (x < 16)%N.
Proof. induction k as [|k IH]; intros n x H; [easy|]. destruct H as [<-|H]; [apply N.mod_lt; lia|eauto]. Qed.
Lemma low_nibbles_length k n : length (low_nibbles k n) = k.
Proof. revert n. induction k as [|k IH]; intros n; [reflexivity|]. cbn [low_nibbles length]. now rewrite IH. Qed.
Lemma hex_injective x y : (x < 16)%N -> (y < 16)%N -> hex_digit x = hex_digit y -> x = y.
Proof. unfold hex_digit. intros Hx Hy. destruct (N.ltb_spec x 10), (N.ltb_spec y 10); lia. Qed.
Lemma hex_no_dot x : ~ In 46%N [hex_digit x].
Proof. intros [H|[]]. unfold hex_digit in H. destruct (N.ltb_spec x 10); lia. Qed.

Theorem reverse_ip4 a b c d : (a < 256)%N -> (b < 256)%N -> (c < 256)%N -> (d < 256)%N ->
  reverse_ip (mkA V4 (a * 2 ^ 24 + b * 2 ^ 16 + c * 2 ^ 8 + d)) = dec d ++ $"." ++ dec c ++ $"." ++ dec b ++ $"." ++ dec a.
Proof.
  intros Ha Hb Hc Hd. set (n := (a * 2 ^ 24 + b * 2 ^ 16 + c * 2 ^ 8 + d)%N).
  assert (Hn : (n < 2 ^ 32)%N). { unfold n. change (2 ^ 24)%N with 16777216%N. change (2 ^ 16)%N with 65536%N. change (2 ^ 8)%N with 256%N. change (2 ^ 32)%N with 4294967296%N. lia. }
  destruct (octets_value n Hn) as [a' [b' [c' [d' [E [V [H1 [H2 [H3 H4]]]]]]]]].
  assert (a' = a /\ b' = b /\ c' = c /\ d' = d) as [-> [-> [-> ->]]].
  { unfold n in V. change (2 ^ 24)%N with 16777216%N in V. change (2 ^ 16)%N with 65536%N in V. change (2 ^ 8)%N with 256%N in V.
    clear - V Ha Hb Hc Hd H1 H2 H3 H4. lia. }
  rewrite reverse4, E. reflexivity.
Qed.
Theorem reverse_ip_injective x y : valid_addr x -> valid_addr y -> reverse_ip x = reverse_ip y -> x = y.
Proof.
  destruct x as [vx n], y as [vy m]. unfold valid_addr. cbn [a_ver a_val].
  assert (H46 : forall n m, reverse_ip (mkA V4 n) <> reverse_ip (mkA V6 m)).
  { clear. intros n m E. rewrite reverse4, reverse6 in E. apply join_injective in E;
      [|discriminate|discriminate|apply Forall_map_no_dot; apply dec_no_dot|apply Forall_map_no_dot; apply hex_no_dot].
    apply (f_equal (@length _)) in E. rewrite !map_length, rev_length, low_nibbles_length in E. discriminate. }
  destruct vx, vy; cbn [bits]; intros Hn Hm E.
  - f_equal. rewrite !reverse4 in E. apply join_injective in E; [|discriminate|discriminate|apply Forall_map_no_dot; apply dec_no_dot..].
    apply (map_injective dec dec_injective) in E. apply (f_equal (@rev _)) in E. rewrite !rev_involutive in E. now apply octets_injective.
  - now apply H46 in E.
  - symmetry in E. now apply H46 in E.
  - f_equal. rewrite !reverse6 in E. apply join_injective in E; [|discriminate|discriminate|apply Forall_map_no_dot; apply hex_no_dot..].
    apply (nibbles_injective 32); [exact Hn|exact Hm|].
    assert (Hl : forall l m, (forall x, In x l -> (x < 16)%N) -> (forall x, In x m -> (x < 16)%N) ->
      map (fun n => [hex_digit n]) l = map (fun n => [hex_digit n]) m -> l = m).
    { clear. induction l as [|x l IH]; intros [|y m] H1 H2 E; try discriminate; [reflexivity|]. injection E as E1 E2. f_equal.
      - apply hex_injective; [apply H1; now left|apply H2; now left|exact E1].
      - apply IH; [intros z Hz; apply H1; now right|intros z Hz; apply H2; now right|exact E2]. }
    apply Hl; [apply low_nibbles_lt|apply low_nibbles_lt|exact E].
Qed.

(** ** Block lists *)
Section Eval.
Variable ask : str -> str -> list str.
Variable re_ok : str -> str -> option bool.
Variable to_int : str -> option Z.
Variable ip_int : str -> option N.

Lemma first_hit_total ok qtype names :
  (forall n, In n names -> ok (ask n qtype) <> None) ->
  exists b, fst (first_hit ask ok qtype names) = Some b /\
    (b = true <-> exists n, In n names /\ ok (ask n qtype) = Some true) /\
    (b = false -> snd (first_hit ask ok qtype names) = map (fun n => (n, qtype)) names).
Proof.
  induction names as [|n rest IH]; intros H; cbn [first_hit].
  - exists false. repeat split; [discriminate|]. intros [n [[] _]].
  - destruct (ok (ask n qtype)) as [[]|] eqn:E.
    + exists true. repeat split; try discriminate. intros _. exists n. split; [now left|exact E].
    + destruct IH as [b [H1 [H2 H3]]]. { intros m Hm. apply H. now right. }
      destruct (first_hit ask ok qtype rest) as [r asked]. cbn [fst snd] in *. exists b. split; [exact H1|]. split.
      * rewrite H2. split; intros [m [Hm Hx]]; exists m; (split; [|exact Hx]); [now right|].
        destruct Hm as [->|Hm]; [congruence|exact Hm].
      * intros Hb. cbn [map]. now rewrite (H3 Hb).
    + exfalso. apply (H n); [now left|exact E].
Qed.
Lemma first_hit_prefix ok qtype names : exists k, snd (first_hit ask ok qtype names) = map (fun n => (n, qtype)) (firstn k names).
Proof.
  induction names as [|n rest [k IH]]; cbn [first_hit]; [now exists 0|].
  destruct (ok (ask n qtype)) as [[]|]; [now exists 1|..|now exists 1].
  exists (S k). destruct (first_hit ask ok qtype rest) as [r asked]. cbn [fst snd] in *. now rewrite IH.
Qed.
(** Up to and including the first that hits. *)
Lemma first_hit_stops ok qtype names before n after :
  names = before ++ n :: after -> (forall m, In m before -> ok (ask m qtype) = Some false) -> ok (ask n qtype) <> Some false ->
  snd (first_hit ask ok qtype names) = map (fun n => (n, qtype)) (before ++ [n]).
Proof.
  intros -> Hb Hn. induction before as [|m before IH]; cbn [app first_hit map].
  - destruct (ok (ask n qtype)) as [[]|]; [reflexivity|congruence|reflexivity].
  - rewrite (Hb m (or_introl eq_refl)). assert (IH' := IH (fun x h => Hb x (or_intror h))).
    destruct (first_hit ask ok qtype (before ++ n :: after)) as [r asked]. cbn [fst snd] in *. now rewrite IH'.
Qed.

Lemma result_ok_total subtest results :
  (forall t r, subtest = Some t -> re_ok t r <> None) ->
  exists b, result_ok re_ok subtest results = Some b /\ (b = true <-> exists r, In r results /\ passes re_ok subtest r).
Proof.
  intros H. unfold result_ok, passes. destruct subtest as [t|].
  - induction results as [|r rest IH]; cbn [any_ok].
    + exists false. split; [reflexivity|]. split; [discriminate|]. intros [r [[] _]].
    + destruct (re_ok t r) as [[]|] eqn:E.
      * exists true. repeat split; auto. intros _. exists r. split; [now left|exact E].
      * destruct IH as [b [-> Hb]]. exists b. split; [reflexivity|]. rewrite Hb. split; intros [x [Hx Hp]]; exists x; (split; [|exact Hp]); [now right|].
        destruct Hx as [->|Hx]; [congruence|exact Hx].
      * now apply H in E.
  - destruct results as [|r rest]; [exists false|exists true]; (split; [reflexivity|]); split; auto.
    + discriminate.
    + intros [r [[] _]].
    + intros _. exists r. split; [now left|exact I].
Qed.
Theorem check_rbl_hits ips rbl_server qtype subtest :
  (forall t r, subtest = Some t -> re_ok t r <> None) ->
  exists b, fst (check_rbl ask re_ok false (Some ips) rbl_server qtype subtest) = Some b /\
    (b = true <-> exists ip r, In ip ips /\ In r (ask (reverse_ip ip ++ $"." ++ rbl_server) qtype) /\ passes re_ok subtest r) /\
    (b = false -> snd (check_rbl ask re_ok false (Some ips) rbl_server qtype subtest) =
       map (fun ip => (reverse_ip ip ++ $"." ++ rbl_server, qtype)) ips).
Proof.
  intros H. unfold check_rbl. destruct (first_hit_total (result_ok re_ok subtest) qtype (map (fun a => under rbl_server (reverse_ip a)) ips)) as [b [H1 [H2 H3]]].
  { intros n _. destruct (result_ok_total subtest (ask n qtype) H) as [b [-> _]]. discriminate. }
  exists b. split; [exact H1|]. split.
  - rewrite H2. split.
    + intros [n [Hn Hr]]. apply in_map_iff in Hn as [ip [<- Hip]]. destruct (result_ok_total subtest (ask (under rbl_server (reverse_ip ip)) qtype) H) as [b' [E Hb']].
      rewrite E in Hr. injection Hr as ->. destruct (proj1 Hb' eq_refl) as [r [Hr Hp]]. now exists ip, r.
    + intros [ip [r [Hip [Hr Hp]]]]. exists (under rbl_server (reverse_ip ip)). split; [apply in_map_iff; now exists ip|].
      destruct (result_ok_total subtest (ask (under rbl_server (reverse_ip ip)) qtype) H) as [b' [E Hb']]. rewrite E. f_equal. apply Hb'. now exists r.
  - intros Hb. rewrite (H3 Hb), map_map. reflexivity.
Qed.
Theorem check_rbl_stops ips rbl_server qtype subtest before ip after :
  let passing a := exists r, In r (ask (reverse_ip a ++ $"." ++ rbl_server) qtype) /\ passes re_ok subtest r in
  (forall t r, subtest = Some t -> re_ok t r <> None) ->
  ips = before ++ ip :: after -> (forall a, In a before -> ~ passing a) -> passing ip ->
  snd (check_rbl ask re_ok false (Some ips) rbl_server qtype subtest) =
  map (fun a => (reverse_ip a ++ $"." ++ rbl_server, qtype)) (before ++ [ip]).
Proof.
  intros passing H -> Hb Hp. unfold check_rbl. set (f := fun a => under rbl_server (reverse_ip a)).
  rewrite (first_hit_stops (result_ok re_ok subtest) qtype (map f (before ++ ip :: after)) (map f before) (f ip) (map f after)).
  - change [f ip] with (map f [ip]). now rewrite <- map_app, map_map.
  - now rewrite map_app.
  - intros m Hm. apply in_map_iff in Hm as [a [<- Ha]]. destruct (result_ok_total subtest (ask (f a) qtype) H) as [b [-> Hx]].
    destruct b; [|reflexivity]. exfalso. apply (Hb a Ha). now apply Hx.
  - destruct (result_ok_total subtest (ask (f ip) qtype) H) as [b [-> Hx]]. apply Hx in Hp. now subst b.
Qed.

Lemma not_in_In l ips out : not_in l ips = Some out -> forall a, In a out -> In a ips /\ contains_addr l a = Some false.
Proof.
  revert out. induction ips as [|x rest IH]; intros out H a Ha; cbn [not_in] in H.
  - injection H as <-. easy.
  - destruct (contains_addr l x) as [b|] eqn:E; [|discriminate]. destruct (not_in l rest) as [o|]; [|discriminate]. injection H as <-.
    destruct b.
    + destruct (IH o eq_refl a Ha). split; [now right|assumption].
    + destruct Ha as [<-|Ha]; [split; [now left|exact E]|]. destruct (IH o eq_refl a Ha). split; [now right|assumption].
Qed.
Lemma header_ips_In ip_address l ips : header_ips ip_address l = Some ips -> forall a, In a ips -> exists r, In r l /\ ip_address (rl_ip r) = Some a.
Proof.
  revert ips. induction l as [|x rest IH]; intros ips H a Ha; cbn [header_ips] in H.
  - injection H as <-. easy.
  - destruct (ip_address (rl_ip x)) as [y|] eqn:E; [|discriminate]. destruct (header_ips ip_address rest) as [o|]; [|discriminate]. injection H as <-.
    destruct Ha as [<-|Ha]; [exists x; split; [now left|exact E]|]. destruct (IH o eq_refl a Ha) as [r [Hr Hx]]. exists r. split; [now right|exact Hx].
Qed.
Theorem check_rbl_untrusted ip_address nw relays skip rbl_server qtype subtest name ty :
  In (name, ty) (snd (check_rbl ask re_ok skip (untrusted_ips ip_address nw relays) rbl_server qtype subtest)) ->
  ty = qtype /\ skip = false /\ exists r a, In r relays /\ ip_address (rl_ip r) = Some a /\
    contains_addr (n_trusted nw) a = Some false /\ name = reverse_ip a ++ $"." ++ rbl_server.
Proof.
  unfold check_rbl. destruct skip; [intros []|]. unfold untrusted_ips. destruct (header_ips ip_address relays) as [ips|] eqn:E; [|intros []].
  destruct (not_in (n_trusted nw) ips) as [out|] eqn:E2; [|intros []].
  destruct (first_hit_prefix (result_ok re_ok subtest) qtype (map (fun a => under rbl_server (reverse_ip a)) out)) as [k ->].
  intros H. apply in_map_iff in H as [n [Hn H]]. injection Hn as -> ->. split; [reflexivity|]. split; [reflexivity|].
  assert (In name (map (fun a => under rbl_server (reverse_ip a)) out)) as Hin.
  { rewrite <- (firstn_skipn k). apply in_or_app. now left. }
  apply in_map_iff in Hin as [a [<- Ha]]. destruct (not_in_In _ _ _ E2 a Ha) as [H1 H2]. destruct (header_ips_In _ _ _ E a H1) as [r [Hr Hx]].
  now exists r, a.
Qed.

Lemma land_zero a mask : Z.eqb (Z.land (Z.of_N a) mask) 0 = true <-> forall i, N.testbit a i = true -> Z.testbit mask (Z.of_N i) = false.
Proof.
  rewrite Z.eqb_eq. split.
  - intros H i Hi. assert (E := Z.land_spec (Z.of_N a) mask (Z.of_N i)). rewrite H, Z.bits_0 in E. rewrite Z.testbit_of_N, Hi in E. symmetry. exact E.
  - intros H. apply Z.bits_inj'. intros n Hn. rewrite Z.land_spec, Z.bits_0. rewrite <- (Z2N.id n Hn).
    rewrite Z.testbit_of_N. destruct (N.testbit a (Z.to_N n)) eqn:E; [|reflexivity]. now rewrite (H _ E).
Qed.
Lemma shares_bit_dec mask a : (mask <> 0)%Z -> (Z.eqb (Z.land (Z.of_N a) mask) 0 = false <-> shares_bit mask a).
Proof.
  intros Hm. unfold shares_bit. split.
  - intros H. right. destruct (Z.eqb_spec (Z.land (Z.of_N a) mask) 0) as [|Hne]; [discriminate|].
    assert (Hp := Z.land_spec (Z.of_N a) mask).
    destruct (Z.eq_dec (Z.land (Z.of_N a) mask) 0) as [|_]; [contradiction|].
    set (w := Z.land (Z.of_N a) mask) in *.
    assert (Hw : (0 < w)%Z). { assert (0 <= w)%Z by (apply Z.land_nonneg; left; lia). lia. }
    exists (Z.to_N (Z.log2 w)). assert (Hb := Z.bit_log2 w Hw). rewrite Hp in Hb. apply andb_true_iff in Hb as [B1 B2].
    rewrite Z2N.id by apply Z.log2_nonneg. split; [|exact B2]. rewrite <- (Z2N.id (Z.log2 w)) in B1 by apply Z.log2_nonneg. now rewrite Z.testbit_of_N in B1.
  - intros [H|[i [H1 H2]]]; [contradiction|]. destruct (Z.eqb (Z.land (Z.of_N a) mask) 0) eqn:E; [|reflexivity].
    assert (E' := proj1 (land_zero a mask) E i H1). congruence.
Qed.
Lemma mask_ok_total mask results :
  (forall r, In r results -> ip_int r <> None) ->
  exists b, mask_ok ip_int mask results = Some b /\ (b = true <-> exists r a, In r results /\ ip_int r = Some a /\ shares_bit mask a).
Proof.
  intros H. unfold mask_ok. destruct results as [|r0 rest0] eqn:Er.
  { exists false. split; [reflexivity|]. split; [discriminate|]. intros [r [a [[] _]]]. }
  destruct (Z.eqb_spec mask 0) as [->|Hm].
  { exists true. repeat split; auto. intros _. destruct (ip_int r0) as [a|] eqn:E; [|now apply H in E; [|now left]].
    exists r0, a. repeat split; [now left|exact E|now left]. }
  rewrite <- Er in *. clear Er r0 rest0.
  induction results as [|r rest IH]; cbn [any_bit].
  { exists false. split; [reflexivity|]. split; [discriminate|]. intros [r [a [[] _]]]. }
  destruct (ip_int r) as [a|] eqn:E; [|now apply H in E; [|now left]].
  destruct (Z.eqb (Z.land (Z.of_N a) mask) 0) eqn:El.
  - destruct IH as [b [-> Hb]]. { intros x Hx. apply H. now right. }
    exists b. split; [reflexivity|]. rewrite Hb. split; intros [x [y [Hx [Hy Hs]]]]; exists x, y; (split; [|now split]); [now right|].
    destruct Hx as [<-|Hx]; [|exact Hx]. rewrite E in Hy. injection Hy as <-. apply (shares_bit_dec mask a Hm) in Hs. congruence.
  - exists true. repeat split; auto. intros _. exists r, a. repeat split; [now left|exact E|]. now apply shares_bit_dec.
Qed.
Theorem check_multi_hits ips rbl_server mask m :
  read_mask to_int ip_int mask = Some m ->
  (forall n r, In r (ask n ($"A")) -> ip_int r <> None) ->
  exists b, fst (check_multi_rbl ask to_int ip_int false (Some ips) rbl_server mask) = Some b /\
    (b = true <-> exists ip r a, In ip ips /\ In r (ask (reverse_ip ip ++ $"." ++ rbl_server) ($"A")) /\ ip_int r = Some a /\ shares_bit m a).
Proof.
  intros Hm H. unfold check_multi_rbl. rewrite Hm.
  destruct (first_hit_total (mask_ok ip_int m) ($"A") (map (fun a => under rbl_server (reverse_ip a)) ips)) as [b [H1 [H2 _]]].
  { intros n _. destruct (mask_ok_total m (ask n ($"A")) (H n)) as [b [-> _]]. discriminate. }
  exists b. split; [exact H1|]. rewrite H2. split.
  - intros [n [Hn Hr]]. apply in_map_iff in Hn as [ip [<- Hip]]. destruct (mask_ok_total m (ask (under rbl_server (reverse_ip ip)) ($"A")) (H _)) as [b' [E Hb']].
    rewrite E in Hr. injection Hr as ->. destruct (proj1 Hb' eq_refl) as [r [a [Hr Hp]]]. now exists ip, r, a.
  - intros [ip [r [a [Hip [Hr Hp]]]]]. exists (under rbl_server (reverse_ip ip)). split; [apply in_map_iff; now exists ip|].
    destruct (mask_ok_total m (ask (under rbl_server (reverse_ip ip)) ($"A")) (H _)) as [b' [E Hb']]. rewrite E. f_equal. apply Hb'. now exists r, a.
Qed.
Lemma bit30 n : (127 * 2 ^ 24 <= n)%N -> (n < 128 * 2 ^ 24)%N -> N.testbit n 30 = true.
Proof.
  intros H1 H2. rewrite N.testbit_true. change (2 ^ 30)%N with 1073741824%N. change (127 * 2 ^ 24)%N with 2130706432%N in H1. change (128 * 2 ^ 24)%N with 2147483648%N in H2.
  assert ((n / 1073741824)%N = 1%N) as ->; [|reflexivity]. symmetry. apply (N.div_unique n 1073741824 1 (n - 1073741824)); lia.
Qed.
Lemma loopback_share m a : (127 * 2 ^ 24 <= m < 128 * 2 ^ 24)%N -> (127 * 2 ^ 24 <= a < 128 * 2 ^ 24)%N -> shares_bit (Z.of_N m) a.
Proof. intros [H1 H2] [H3 H4]. right. exists 30%N. rewrite Z.testbit_of_N. split; now apply bit30. Qed.

(** ** Zones *)
Lemma split_hd c s : exists p, hd [] (split_char c s) = p /\ ~ In c p /\ (s = p \/ exists r, s = p ++ c :: r).
Proof.
  exists (hd [] (split_char c s)). split; [reflexivity|].
  pose proof (join_split_char c s) as J. pose proof (split_char_no_sep c s) as Hn.
  destruct (split_char c s) as [|p l] eqn:E; [now apply split_char_nonempty in E|]. cbn [hd]. split; [apply Hn; now left|].
  destruct l as [|q l]; [left; now rewrite <- J|]. right. rewrite join_cons_sep in J by discriminate. now exists (join [c] (q :: l)).
Qed.
Lemma split_hd_unique c s p : ~ In c p -> (s = p \/ exists r, s = p ++ c :: r) -> hd [] (split_char c s) = p.
Proof.
  intros Hp Hs. destruct (split_hd c s) as [q [-> [Hq Hs']]].
  assert (forall a b x y, ~ In c a -> ~ In c b -> a ++ c :: x = b ++ c :: y -> a = b) as Hu.
  { clear. induction a as [|h a IH]; intros [|k b] x y Ha Hb E; [reflexivity|..]; cbn [app] in E.
    - injection E as -> _. exfalso. apply Hb. now left.
    - injection E as -> _. exfalso. apply Ha. now left.
    - injection E as -> E. f_equal. apply (IH b x y); [intros h; apply Ha; now right|intros h; apply Hb; now right|exact E]. }
  destruct Hs as [Hs|[r Hs]], Hs' as [Hs'|[r' Hs']].
  - congruence.
  - exfalso. apply Hp. rewrite <- Hs, Hs'. apply in_or_app. right. now left.
  - exfalso. apply Hq. rewrite <- Hs', Hs. apply in_or_app. right. now left.
  - apply (Hu q p r' r Hq Hp). congruence.
Qed.
Lemma before_dash_iff s p : before_dash s p <-> hd [] (split_char 45%N s) = p.
Proof.
  unfold before_dash. split.
  - intros [H Hn]. now apply split_hd_unique.
  - intros <-. destruct (split_hd 45%N s) as [p [-> [H1 H2]]]. split; [exact H2|exact H1].
Qed.
Definition last_declares (rules : list (str * list str)) (z server : str) : Prop :=
  exists before r after, rules = before ++ r :: after /\ declares r z server /\ forall r' s', In r' after -> ~ declares r' z s'.
Lemma zones_spec rules : forall d zs, zones rules d = Some zs -> forall z server,
  dget z zs = Some server <-> last_declares rules z server \/ (dget z d = Some server /\ forall r s', In r rules -> ~ declares r z s').
Proof.
  induction rules as [|[name args] rest IH]; intros d zs H z server; cbn [zones] in H.
  - injection H as <-. split; [intros H; right; split; [exact H|intros r s' []]|]. intros [[b [r [a [E _]]]]|[H _]]; [now destruct b|exact H].
  - assert (Hskip : forall d', zones rest d' = Some zs -> (forall s', ~ declares (name, args) z s') -> dget z d' = dget z d ->
      (dget z zs = Some server <-> last_declares ((name, args) :: rest) z server \/ (dget z d = Some server /\ forall r s', In r ((name, args) :: rest) -> ~ declares r z s'))).
    { intros d' H' Hno Hd. rewrite (IH d' zs H' z server). rewrite Hd. split.
      - intros [[b [r [a [-> Hr]]]]|[Hx Hr]].
        + left. exists ((name, args) :: b), r, a. now split.
        + right. split; [exact Hx|]. intros r s' [<-|Hin]; [apply Hno|now apply Hr].
      - intros [[b [r [a [E [Hr Ha]]]]]|[Hx Hr]].
        + left. destruct b as [|b0 b]; [injection E as <- ->; now apply Hno in Hr|]. injection E as _ ->. exists b, r, a. split; [reflexivity|]. now split.
        + right. split; [exact Hx|]. intros r s' Hin. apply Hr. now right. }
    destruct (mem_str name zone_evals) eqn:Em.
    + destruct args as [|zone [|srv more]]; try discriminate.
      set (z0 := strip (hd [] (split_char 45%N zone))) in H.
      destruct (streqb_spec z0 z) as [Ez|Hz].
      * rewrite (IH _ zs H z server). rewrite <- Ez at 2. rewrite dget_dset_same.
        assert (Hd : declares (name, zone :: srv :: more) z srv).
        { split; [now apply mem_str_In in Em|]. exists zone, more, (hd [] (split_char 45%N zone)). split; [reflexivity|]. split; [now apply before_dash_iff|now symmetry]. }
        split.
        -- intros [[b [r [a [-> Hr]]]]|[Hx Hr]].
           ++ left. exists ((name, zone :: srv :: more) :: b), r, a. now split.
           ++ left. injection Hx as <-. exists [], (name, zone :: srv :: more), rest. split; [reflexivity|]. now split.
        -- intros [[b [r [a [E [Hr Ha]]]]]|[Hx Hr]].
           ++ destruct b as [|b0 b].
              ** injection E as <- <-. right. split; [|exact Ha]. destruct Hr as [_ [zz [mm [pp [Hs _]]]]]. cbn in Hs. injection Hs as _ -> _. reflexivity.
              ** injection E as _ ->. left. exists b, r, a. split; [reflexivity|]. now split.
           ++ exfalso. apply (Hr _ srv (or_introl eq_refl) Hd).
      * apply (Hskip _ H).
        -- intros s' [_ [zz [mm [pp [Hs [Hb Hp]]]]]]. cbn in Hs. injection Hs as <- _ _. apply before_dash_iff in Hb. apply Hz. unfold z0. congruence.
        -- rewrite dget_dset. apply streqb_neq in Hz. now rewrite Hz.
    + apply (Hskip _ H); [|reflexivity]. intros s' [Hin _]. cbn [fst] in Hin. apply mem_str_In in Hin. change zone_rules with zone_evals in Hin. congruence.
Qed.
Lemma zones_fail rules : forall d, zones rules d = None <-> exists r, In r rules /\ In (fst r) zone_evals /\ length (snd r) < 2.
Proof.
  induction rules as [|[name args] rest IH]; intros d; cbn [zones].
  - split; [discriminate|]. intros [r [[] _]].
  - destruct (mem_str name zone_evals) eqn:Em.
    + apply mem_str_In in Em. destruct args as [|zone [|srv more]].
      * split; [|reflexivity]. intros _. exists (name, []). repeat split; [now left|exact Em|cbn; lia].
      * split; [|reflexivity]. intros _. exists (name, [zone]). repeat split; [now left|exact Em|cbn; lia].
      * rewrite IH. split; intros [r [Hr Hx]]; exists r; (split; [|exact Hx]); [now right|]. destruct Hr as [<-|Hr]; [|exact Hr]. destruct Hx as [_ Hx]. cbn in Hx. lia.
    + rewrite IH. split; intros [r [Hr Hx]]; exists r; (split; [|exact Hx]); [now right|]. destruct Hr as [<-|Hr]; [|exact Hr].
      destruct Hx as [Hx _]. cbn [fst] in Hx. apply mem_str_In in Hx. congruence.
Qed.

(** ** Senders *)
Lemma domain_part_iff a d : domain_part a d <-> d = match rsplit1 64%N a with Some (_, d) => d | None => a end.
Proof.
  unfold domain_part. destruct (rsplit1 64%N a) as [[l x]|] eqn:E.
  - apply rsplit1_Some in E as [-> Hx]. split.
    + intros [[Hn _]|[Hd [l' El]]]; [exfalso; apply Hn; apply in_or_app; right; now left|].
      assert (H1 : rsplit1 64%N (l ++ 64%N :: x) = Some (l, x)) by now apply rsplit1_Some.
      assert (H2 : rsplit1 64%N (l ++ 64%N :: x) = Some (l', d)) by now apply rsplit1_Some. congruence.
    + intros ->. right. split; [exact Hx|]. now exists l.
  - apply rsplit1_None in E. split.
    + intros [[_ ->]|[_ [l ->]]]; [reflexivity|]. exfalso. apply E. apply in_or_app. right. now left.
    + intros ->. now left.
Qed.
Lemma address_domain_part a d : domain_part a d -> address_domain a = strip d.
Proof. intros H. apply domain_part_iff in H as ->. unfold address_domain. now destruct (rsplit1 64%N a) as [[l x]|]. Qed.
Theorem check_addr_hits addresses rbl_server subtest :
  (forall t r, subtest = Some t -> re_ok t r <> None) ->
  exists b, fst (check_rbl_addr ask re_ok false addresses rbl_server subtest) = Some b /\
    (b = true <-> exists a d r, In a addresses /\ domain_part a d /\ In r (ask (strip d ++ $"." ++ rbl_server) ($"A")) /\ passes re_ok subtest r).
Proof.
  intros H. unfold check_rbl_addr. destruct (first_hit_total (result_ok re_ok subtest) ($"A") (map (fun a => under rbl_server (address_domain a)) addresses)) as [b [H1 [H2 _]]].
  { intros n _. destruct (result_ok_total subtest (ask n ($"A")) H) as [b [-> _]]. discriminate. }
  exists b. split; [exact H1|]. rewrite H2. split.
  - intros [n [Hn Hr]]. apply in_map_iff in Hn as [a [<- Ha]]. destruct (result_ok_total subtest (ask (under rbl_server (address_domain a)) ($"A")) H) as [b' [E Hb']].
    rewrite E in Hr. injection Hr as ->. destruct (proj1 Hb' eq_refl) as [r [Hr Hp]].
    assert (Hd := proj2 (domain_part_iff a _) eq_refl). exists a, (match rsplit1 64%N a with Some (_, d) => d | None => a end), r.
    rewrite (address_domain_part _ _ Hd) in Hr. now repeat split.
  - intros [a [d [r [Ha [Hd [Hr Hp]]]]]]. exists (under rbl_server (address_domain a)). split; [apply in_map_iff; now exists a|].
    destruct (result_ok_total subtest (ask (under rbl_server (address_domain a)) ($"A")) H) as [b' [E Hb']]. rewrite E. f_equal. apply Hb'. exists r.
    rewrite (address_domain_part _ _ Hd). now split.
Qed.
Theorem check_dns_sender_spec sender d : sender <> [] -> domain_part sender d ->
  (fst (check_dns_sender ask sender) = Some true <-> ask d ($"A") = [] /\ ask d ($"MX") = []) /\
  fst (check_dns_sender ask sender) <> None /\
  (forall n ty, In (n, ty) (snd (check_dns_sender ask sender)) -> n = d /\ (ty = $"A" \/ ty = $"MX")).
Proof.
  intros Hs Hd. apply domain_part_iff in Hd. unfold check_dns_sender. destruct sender as [|c s]; [congruence|]. rewrite <- Hd.
  destruct (ask d ($"A")) as [|x l]; [destruct (ask d ($"MX")) as [|y m]|]; cbn [fst snd]; (split; [|split; [discriminate|]]).
  - tauto.
  - intros n ty [H|[H|[]]]; injection H as <- <-; auto.
  - split; [discriminate|]. intros [_ H]. discriminate.
  - intros n ty [H|[H|[]]]; injection H as <- <-; auto.
  - split; [discriminate|]. intros [H _]. discriminate.
  - intros n ty [H|[]]. injection H as <- <-. auto.
Qed.
Lemma lists_tag_iff header tag : lists_tag header tag <-> In tag (header_tags header).
Proof.
  unfold lists_tag, header_tags. split.
  - intros [parts [part [p [-> [Hno [Hin [Hp [Hc ->]]]]]]]]. change ($";") with [59%N].
    rewrite split_char_join; [|intros ->; easy|now apply Forall_forall]. apply in_map_iff. exists part. split; [|exact Hin].
    f_equal. apply split_hd_unique; [exact Hc|exact Hp].
  - intros H. apply in_map_iff in H as [part [<- Hin]]. destruct (split_hd 44%N part) as [p [-> [H1 H2]]].
    exists (split_char 59%N header), part, p. split; [symmetry; apply join_split_char|]. split; [apply split_char_no_sep|]. repeat split; auto.
Qed.
Theorem accreditor_spec skip ips sender_tag headers rbl_server subtest accreditor :
  ((sender_tag = Some accreditor \/ exists h, In h headers /\ lists_tag h accreditor) ->
   check_rbl_accreditor ask re_ok skip ips sender_tag headers rbl_server subtest accreditor =
   check_rbl ask re_ok skip ips rbl_server ($"A") (Some subtest)) /\
  (~ (sender_tag = Some accreditor \/ exists h, In h headers /\ lists_tag h accreditor) ->
   check_rbl_accreditor ask re_ok skip ips sender_tag headers rbl_server subtest accreditor = (Some false, [])).
Proof.
  unfold check_rbl_accreditor. set (tags := _ ++ _).
  assert (Ht : In accreditor tags <-> (sender_tag = Some accreditor \/ exists h, In h headers /\ lists_tag h accreditor)).
  { unfold tags. rewrite in_app_iff, in_concat. split.
    - intros [H|[l [Hl H]]].
      + left. destruct sender_tag as [t|]; [|easy]. destruct H as [->|[]]. reflexivity.
      + right. apply in_map_iff in Hl as [h [<- Hh]]. exists h. split; [exact Hh|]. now apply lists_tag_iff.
    - intros [->|[h [Hh H]]]; [left; now left|]. right. exists (header_tags h). split; [apply in_map; exact Hh|]. now apply lists_tag_iff. }
  rewrite <- Ht. destruct (mem_str accreditor tags) eqn:E; split; intros H; try reflexivity.
  - exfalso. apply H. now apply mem_str_In.
  - apply mem_str_In in H. congruence.
Qed.
End Eval.
