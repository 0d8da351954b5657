(** Proofs about URI checks. *)
From Coq Require Import Lia.
From Verif Require Import PyStr PyDict Model_Uri Spec_Uri.

Lemma take_while_prefix {A} (p : A -> bool) s : exists r, s = take_while p s ++ r.
Proof. exists (drop_while p s). symmetry. apply take_drop_while. Qed.
Lemma skip_prefix p s : startswith p s = true -> s = p ++ skipn (length p) s.
Proof. intros H. apply startswith_app in H as [t ->]. now rewrite skipn_app, skipn_all, Nat.sub_diag. Qed.

(** ** The expression *)
Lemma after_colon_prefix s x : after_colon s = Some x -> exists r, s = x ++ r.
Proof.
  unfold after_colon.
  assert (K : forall p r y, run_from p r = Some y -> exists z, p ++ r = y ++ z).
  { intros p r y H. unfold run_from in H. destruct r as [|c r]; [discriminate|]. destruct (cls c) eqn:E; [|discriminate]. injection H as <-.
    pose proof (take_drop_while cls (c :: r)) as E1. destruct (take_while_prefix not_nl (drop_while cls (c :: r))) as [z E2].
    exists z. transitivity (p ++ take_while cls (c :: r) ++ drop_while cls (c :: r)); [now rewrite E1|]. rewrite E2 at 1. now rewrite <- !app_assoc. }
  destruct (run_from [] s) as [y|] eqn:E1.
  - intros H. injection H as <-. apply K in E1. exact E1.
  - destruct (startswith ($"/") s) eqn:S1.
    + destruct (run_from ($"/") (skipn 1 s)) as [y|] eqn:E2.
      * intros H. injection H as <-. apply K in E2. apply skip_prefix in S1. change (length ($"/")) with 1 in S1. now rewrite <- S1 in E2.
      * destruct (startswith ($"//") s) eqn:S2; [|discriminate]. intros H. apply K in H. apply skip_prefix in S2. change (length ($"//")) with 2 in S2. now rewrite <- S2 in H.
    + destruct (startswith ($"//") s) eqn:S2; [|discriminate]. intros H. apply K in H. apply skip_prefix in S2. change (length ($"//")) with 2 in S2. now rewrite <- S2 in H.
Qed.
Lemma dest_at_prefix s d : dest_at s = Some d ->
  (exists r, s = d ++ r) /\ (startswith ($"http:") d = true \/ startswith ($"https:") d = true).
Proof.
  unfold dest_at. destruct (startswith ($"http:") s) eqn:S1; [|destruct (startswith ($"https:") s) eqn:S2; [|discriminate]].
  - destruct (after_colon (skipn 5 s)) as [x|] eqn:E; [|discriminate]. intros H. assert (d = $"http:" ++ x) as -> by (cbn [option_map] in H; congruence). clear H. apply after_colon_prefix in E as [r E].
    apply skip_prefix in S1. change (length ($"http:")) with 5 in S1. split; [exists r; rewrite <- app_assoc, <- E; exact S1|]. left. apply startswith_self.
  - destruct (after_colon (skipn 6 s)) as [x|] eqn:E; [|discriminate]. intros H. assert (d = $"https:" ++ x) as -> by (cbn [option_map] in H; congruence). clear H. apply after_colon_prefix in E as [r E].
    apply skip_prefix in S2. change (length ($"https:")) with 6 in S2. split; [exists r; rewrite <- app_assoc, <- E; exact S2|]. right. apply startswith_self.
Qed.
Lemma lazy_dest_parts s : forall m d, lazy_dest s = Some (m, d) ->
  (exists r, s = m ++ d ++ r) /\ (startswith ($"http:") d = true \/ startswith ($"https:") d = true).
Proof.
  induction s as [|c s IH]; intros m d H; [discriminate|]. cbn [lazy_dest] in H. destruct (not_nl c); [|discriminate].
  destruct (dest_at s) as [x|] eqn:E.
  - injection H as <- <-. apply dest_at_prefix in E as [[r ->] Hs]. split; [now exists r|exact Hs].
  - destruct (lazy_dest s) as [[m' d']|]; [|discriminate]. injection H as <- <-. destruct (IH m' d' eq_refl) as [[r ->] Hs]. split; [now exists r|exact Hs].
Qed.
Lemma host_then_parts s : forall m d, host_then s = Some (m, d) ->
  (exists r, s = m ++ d ++ r) /\ (startswith ($"http:") d = true \/ startswith ($"https:") d = true).
Proof.
  induction s as [|c s IH]; intros m d H; [discriminate|]. cbn [host_then] in H. destruct (cls c); [|discriminate].
  destruct (host_then s) as [[m' d']|] eqn:E.
  - injection H as <- <-. destruct (IH m' d' eq_refl) as [[r ->] Hs]. split; [now exists r|exact Hs].
  - destruct (lazy_dest s) as [[m' d']|] eqn:E2; [|discriminate]. injection H as <- <-. apply lazy_dest_parts in E2 as [[r ->] Hs]. split; [now exists r|exact Hs].
Qed.
Lemma redir_embeds u a b : redir u = Some (a, b) -> embeds u a b.
Proof.
  unfold redir, embeds. destruct (startswith ($"http://") u) eqn:S1; [|destruct (startswith ($"https://") u) eqn:S2; [|discriminate]].
  - destruct (host_then (skipn 7 u)) as [[m d]|] eqn:E; [|discriminate]. intros H. assert (a = $"http://" ++ m /\ b = d) as [-> ->] by (split; congruence). clear H. apply host_then_parts in E as [[r E] Hs].
    apply skip_prefix in S1. change (length ($"http://")) with 7 in S1. split; [exists r; rewrite <- app_assoc, <- E; exact S1|]. split; [left; apply startswith_self|exact Hs].
  - destruct (host_then (skipn 8 u)) as [[m d]|] eqn:E; [|discriminate]. intros H. assert (a = $"https://" ++ m /\ b = d) as [-> ->] by (split; congruence). clear H. apply host_then_parts in E as [[r E] Hs].
    apply skip_prefix in S2. change (length ($"https://")) with 8 in S2. split; [exists r; rewrite <- app_assoc, <- E; exact S2|]. split; [right; apply startswith_self|exact Hs].
Qed.
Lemma redir_shorter u a b : redir u = Some (a, b) -> length b < length u.
Proof.
  intros H. apply redir_embeds in H as [[r ->] [Ha _]]. rewrite !app_length.
  assert (1 <= length a); [|lia]. destruct a as [|c a]; [destruct Ha; discriminate|cbn; lia].
Qed.
Lemma follow_terminates fuel : forall u, length u < fuel -> follow fuel u <> OutOfFuel.
Proof.
  induction fuel as [|fuel IH]; intros u H; [lia|]. cbn [follow]. destruct (redir u) as [[a b]|] eqn:E; [|discriminate].
  apply redir_shorter in E. destruct (netloc a); [|discriminate]. destruct (netloc b); [|discriminate]. destruct (streqb l l0); [|discriminate].
  apply IH. lia.
Qed.
Lemma check_terminates uris : check_for_http_redirector uris <> OutOfFuel.
Proof.
  induction uris as [|u rest IH]; [discriminate|]. cbn [check_for_http_redirector]. pose proof (follow_terminates (S (length u)) u (Nat.lt_succ_diag_r _)) as H.
  destruct (follow (S (length u)) u); congruence.
Qed.
Lemma follow_sound fuel : forall u, follow fuel u = Hit ->
  exists x v y a b ha hb, u = x ++ v ++ y /\ embeds v a b /\ netloc a = Some ha /\ netloc b = Some hb /\ ha <> hb.
Proof.
  induction fuel as [|fuel IH]; intros u H; [discriminate|]. cbn [follow] in H. destruct (redir u) as [[a b]|] eqn:E; [|discriminate].
  apply redir_embeds in E. destruct (netloc a) as [ha|] eqn:Ea; [|discriminate]. destruct (netloc b) as [hb|] eqn:Eb; [|discriminate].
  destruct (streqb_spec ha hb) as [->|Hne].
  - destruct (IH b H) as [x [v [y [a' [b' [ha' [hb' [Hu Hr]]]]]]]]. destruct E as [[r ->] _].
    exists (a ++ x), v, (y ++ r), a', b', ha', hb'. split; [|exact Hr]. rewrite Hu, <- !app_assoc. reflexivity.
  - exists [], u, [], a, b, ha, hb. rewrite app_nil_r. auto.
Qed.
Lemma check_sound uris : check_for_http_redirector uris = Hit ->
  exists u x v y a b ha hb, In u uris /\ u = x ++ v ++ y /\ embeds v a b /\ netloc a = Some ha /\ netloc b = Some hb /\ ha <> hb.
Proof.
  induction uris as [|u rest IH]; [discriminate|]. cbn [check_for_http_redirector]. destruct (follow (S (length u)) u) eqn:E; try discriminate; intros H.
  - apply follow_sound in E as [x [v [y [a [b [ha [hb Hr]]]]]]]. exists u, x, v, y, a, b, ha, hb. split; [now left|exact Hr].
  - destruct (IH H) as [w [x [v [y [a [b [ha [hb [Hw Hr]]]]]]]]]. exists w, x, v, y, a, b, ha, hb. split; [now right|exact Hr].
Qed.
Lemma check_list uris :
  (forall u, In u uris -> check_for_http_redirector [u] <> Raises) ->
  (check_for_http_redirector uris = Hit <-> exists u, In u uris /\ check_for_http_redirector [u] = Hit).
Proof.
  induction uris as [|u rest IH]; intros Hr.
  - split; [discriminate|]. intros [u [[] _]].
  - cbn [check_for_http_redirector]. pose proof (follow_terminates (S (length u)) u (Nat.lt_succ_diag_r _)) as Ht.
    pose proof (Hr u (or_introl eq_refl)) as Hu. cbn [check_for_http_redirector] in Hu.
    assert (IH' := IH (fun v hv => Hr v (or_intror hv))). destruct (follow (S (length u)) u) eqn:E; try congruence.
    + split; [|reflexivity]. intros _. exists u. split; [now left|]. now rewrite E.
    + rewrite IH'. split; intros [v [Hv H]]; exists v; (split; [|exact H]); [now right|]. destruct Hv as [->|Hv]; [|exact Hv].
      cbn [check_for_http_redirector] in H. rewrite E in H. discriminate.
Qed.

(** ** Two hosts *)
Lemma take_while_all (p : char -> bool) a b : (forall c, In c a -> p c = true) -> (match b with x :: _ => p x = false | [] => True end) ->
  take_while p (a ++ b) = a /\ drop_while p (a ++ b) = b.
Proof.
  intros Ha Hb. induction a as [|c a IH]; cbn [app take_while drop_while].
  - destruct b as [|x b]; [now split|]. cbn [take_while drop_while]. now rewrite Hb.
  - rewrite (Ha c (or_introl eq_refl)). destruct IH as [-> ->]; [intros d Hd; apply Ha; now right|]. now split.
Qed.
Definition tail_ok (t : str) : Prop := match t with [] => True | c :: _ => c = 47%N end.
Lemma host_char h c : host_name h -> In c h -> cls c = true /\ not_nl c = true /\ mem_char c ($"/?#") = false /\ c <> 91%N /\ c <> 93%N.
Proof.
  intros [_ H] Hc. specialize (H c Hc).
  assert (K : forall l, (forall x, In x l -> In x ($"/:?#[]" ++ [10%N])) -> mem_char c l = false).
  { intros l Hl. apply mem_char_notIn. intros Hin. apply H. now apply Hl. }
  repeat split.
  - unfold cls. rewrite K; [reflexivity|]. intros x Hx. vm_compute in Hx |- *. tauto.
  - unfold not_nl. destruct (N.eqb_spec c 10) as [->|]; [exfalso; apply H; vm_compute; tauto|reflexivity].
  - apply K. intros x Hx. vm_compute in Hx |- *. tauto.
  - intros ->. apply H. vm_compute. tauto.
  - intros ->. apply H. vm_compute. tauto.
Qed.
Lemma netloc_host secure h t : host_name h -> tail_ok t -> netloc (scheme secure ++ h ++ t) = Some h.
Proof.
  intros Hh Ht.
  assert (K : netloc_of_rest ($"//" ++ h ++ t) = Some h).
  { unfold netloc_of_rest. rewrite startswith_self. change (skipn 2 ($"//" ++ h ++ t)) with (h ++ t).
    destruct (take_while_all (fun c => negb (mem_char c ($"/?#"))) h t) as [-> _].
    - intros c Hc. now rewrite (proj1 (proj2 (proj2 (host_char h c Hh Hc)))).
    - destruct t as [|x t]; [exact I|]. cbn in Ht. now subst x.
    - assert (mem_char 91%N h = false) as ->. { apply mem_char_notIn. intros Hin. now apply (host_char h _ Hh) in Hin. }
      assert (mem_char 93%N h = false) as ->. { apply mem_char_notIn. intros Hin. now apply (host_char h _ Hh) in Hin. }
      reflexivity. }
  destruct secure; unfold netloc, scheme.
  - change (startswith ($"http:") ($"https://" ++ h ++ t)) with false. change (startswith ($"https:") ($"https://" ++ h ++ t)) with true. exact K.
  - change (startswith ($"http:") ($"http://" ++ h ++ t)) with true. exact K.
Qed.
Lemma no_http_dest s : contains ($"http") s = false -> dest_at s = None.
Proof.
  intros H. unfold dest_at.
  assert (K : forall p, startswith ($"http") p = true -> startswith p s = false).
  { intros p Hp. destruct (startswith p s) eqn:E; [|reflexivity]. apply startswith_app in E as [r ->]. apply startswith_app in Hp as [q ->].
    assert (contains ($"http") (($"http" ++ q) ++ r) = true); [|congruence]. apply contains_app. exists [], (q ++ r). now rewrite <- app_assoc. }
  now rewrite !K by reflexivity.
Qed.
Lemma contains_tail p c s : contains p (c :: s) = false -> contains p s = false.
Proof. intros H. destruct (contains p s) eqn:E; [|reflexivity]. apply contains_app in E as [a [b ->]].
  assert (contains p (c :: a ++ p ++ b) = true); [|congruence]. apply contains_app. now exists (c :: a), b. Qed.
Lemma no_http_lazy s : contains ($"http") s = false -> lazy_dest s = None.
Proof.
  induction s as [|c s IH]; intros H; [reflexivity|]. cbn [lazy_dest]. destruct (not_nl c); [|reflexivity].
  apply contains_tail in H. now rewrite (no_http_dest s H), (IH H).
Qed.
Lemma no_http_host s : contains ($"http") s = false -> host_then s = None.
Proof.
  induction s as [|c s IH]; intros H; [reflexivity|]. cbn [host_then]. destruct (cls c); [|reflexivity].
  apply contains_tail in H. now rewrite (IH H), (no_http_lazy s H).
Qed.
(** Where "http" does not occur in a text, it does not start in the text when
    "http" follows. *)
Lemma no_early_http c p z : contains ($"http") (c :: p) = false -> startswith ($"http") (c :: p ++ $"http" ++ z) = false.
Proof.
  intros H. destruct (startswith ($"http") (c :: p ++ $"http" ++ z)) eqn:E; [|reflexivity]. exfalso.
  apply startswith_app in E as [r E]. change ($"http") with [104; 116; 116; 112]%N in *. cbn [app] in E.
  destruct p as [|a [|b [|d p]]]; cbn [app] in E; try (injection E; intros; subst; discriminate).
Qed.
Lemma dest_none_early c p z : contains ($"http") (c :: p) = false -> dest_at (c :: p ++ $"http" ++ z) = None.
Proof.
  intros H. pose proof (no_early_http c p z H) as E. unfold dest_at.
  assert (K : forall q, startswith ($"http") q = true -> startswith q (c :: p ++ $"http" ++ z) = false).
  { intros q Hq. destruct (startswith q (c :: p ++ $"http" ++ z)) eqn:E2; [|reflexivity]. apply startswith_app in Hq as [w ->]. apply startswith_app in E2 as [r E2].
    assert (startswith ($"http") (c :: p ++ $"http" ++ z) = true); [|congruence]. rewrite E2. apply startswith_app. exists (w ++ r). now rewrite <- app_assoc. }
  now rewrite !K by reflexivity.
Qed.
Lemma dest_whole secure h t : host_name h -> tail_ok t -> (forall c, In c t -> c <> 10%N) ->
  dest_at (scheme secure ++ h ++ t) = Some (scheme secure ++ h ++ t).
Proof.
  intros Hh Ht Hnl.
  assert (K : after_colon ($"//" ++ h ++ t) = Some ($"//" ++ h ++ t)).
  { unfold after_colon. change (run_from [] ($"//" ++ h ++ t)) with (@None str).
    change (startswith ($"/") ($"//" ++ h ++ t)) with true. change (run_from ($"/") (skipn 1 ($"//" ++ h ++ t))) with (@None str). cbv iota.
    rewrite startswith_self. change (skipn 2 ($"//" ++ h ++ t)) with (h ++ t). unfold run_from.
    destruct h as [|c h]; [now destruct Hh|]. cbn [app].
    rewrite (proj1 (host_char (c :: h) c Hh (or_introl eq_refl))).
    change (c :: h ++ t) with ((c :: h) ++ t).
    destruct (take_while_all cls (c :: h) t) as [-> ->].
    - intros d Hd. now apply (host_char (c :: h)).
    - destruct t as [|x t]; [exact I|]. cbn in Ht. now subst x.
    - destruct (take_while_all not_nl t []) as [E _]; [|exact I|rewrite app_nil_r in E; now rewrite E].
      intros d Hd. unfold not_nl. destruct (N.eqb_spec d 10) as [->|]; [now apply Hnl in Hd|reflexivity]. }
  destruct secure; unfold dest_at, scheme.
  - change (startswith ($"http:") ($"https://" ++ h ++ t)) with false. change (startswith ($"https:") ($"https://" ++ h ++ t)) with true. cbv iota.
    change (skipn 6 ($"https://" ++ h ++ t)) with ($"//" ++ h ++ t). now rewrite K.
  - change (startswith ($"http:") ($"http://" ++ h ++ t)) with true. cbv iota.
    change (skipn 5 ($"http://" ++ h ++ t)) with ($"//" ++ h ++ t). now rewrite K.
Qed.
Lemma lazy_cons c s : lazy_dest (c :: s) = if not_nl c then match dest_at s with
  | Some d => Some ([c], d) | None => match lazy_dest s with Some (m, d) => Some (c :: m, d) | None => None end end else None.
Proof. reflexivity. Qed.
Lemma lazy_first c p d : (forall x, In x (c :: p) -> x <> 10%N) -> contains ($"http") p = false ->
  startswith ($"http") d = true -> dest_at d = Some d -> lazy_dest (c :: p ++ d) = Some (c :: p, d).
Proof.
  intros Hnl Hp Hs Hd. apply startswith_app in Hs as [z ->]. revert c Hnl. induction p as [|x p IH]; intros c Hnl; cbn [app]; rewrite lazy_cons.
  - assert (not_nl c = true) as ->. { unfold not_nl. destruct (N.eqb_spec c 10) as [->|]; [exfalso; now apply (Hnl 10%N (or_introl eq_refl))|reflexivity]. }
    now rewrite Hd.
  - assert (not_nl c = true) as ->. { unfold not_nl. destruct (N.eqb_spec c 10) as [->|]; [exfalso; now apply (Hnl 10%N (or_introl eq_refl))|reflexivity]. }
    pose proof (dest_none_early x p z Hp) as E. cbn [app] in E. rewrite E. pose proof (IH (contains_tail _ _ _ Hp) x) as E2. cbn [app] in E2. rewrite E2; [reflexivity|]. intros y Hy. apply Hnl. now right.
Qed.
Lemma host_longest h rest m d : (forall c, In c h -> cls c = true) -> h <> [] -> (match rest with x :: _ => cls x = false | [] => True end) ->
  lazy_dest rest = Some (m, d) -> host_then (h ++ rest) = Some (h ++ m, d).
Proof.
  intros Hc Hne Hr Hl. induction h as [|c h IH]; [congruence|]. cbn [app host_then]. rewrite (Hc c (or_introl eq_refl)).
  destruct h as [|c' h].
  - cbn [app]. rewrite Hl. destruct rest as [|x rest]; [reflexivity|]. cbn [host_then]. now rewrite Hr.
  - rewrite IH; [reflexivity|intros x Hx; apply Hc; now right|discriminate].
Qed.
Lemma redir_scheme secure r : redir (scheme secure ++ r) = match host_then r with Some (m, d) => Some (scheme secure ++ m, d) | None => None end.
Proof.
  destruct secure; unfold redir, scheme.
  - change (startswith ($"http://") ($"https://" ++ r)) with false. change (startswith ($"https://") ($"https://" ++ r)) with true. reflexivity.
  - change (startswith ($"http://") ($"http://" ++ r)) with true. reflexivity.
Qed.
Theorem two_hosts s1 s2 h1 h2 p t :
  host_name h1 -> host_name h2 -> contains ($"http") p = false -> (forall c, In c p -> c <> 10%N) ->
  (t = [] \/ exists t', t = $"/" ++ t') -> contains ($"http") (h2 ++ t) = false -> (forall c, In c t -> c <> 10%N) ->
  check_for_http_redirector [scheme s1 ++ h1 ++ $"/" ++ p ++ scheme s2 ++ h2 ++ t] = if streqb h1 h2 then NoHit else Hit.
Proof.
  intros H1 H2 Hp Hpn Ht Hht Htn.
  assert (Ht' : tail_ok t) by (destruct Ht as [->|[t' ->]]; [exact I|reflexivity]).
  cbn [check_for_http_redirector].
  set (d := scheme s2 ++ h2 ++ t).
  assert (Hd : dest_at d = Some d) by now apply dest_whole.
  assert (Hl : lazy_dest ($"/" ++ p ++ d) = Some ($"/" ++ p, d)).
  { change ($"/" ++ p ++ d) with (47%N :: p ++ d). change ($"/" ++ p) with (47%N :: p). apply lazy_first; [|exact Hp| |exact Hd].
    - intros x [<-|Hx]; [discriminate|now apply Hpn].
    - unfold d. destruct s2; reflexivity. }
  assert (Hr : redir (scheme s1 ++ h1 ++ $"/" ++ p ++ d) = Some (scheme s1 ++ h1 ++ $"/" ++ p, d)).
  { rewrite redir_scheme. rewrite (host_longest h1 ($"/" ++ p ++ d) ($"/" ++ p) d); [reflexivity| |apply H1|reflexivity|exact Hl].
    intros c Hc. now apply (host_char h1). }
  set (u := scheme s1 ++ h1 ++ $"/" ++ p ++ d) in *.
  cbn [follow]. rewrite Hr. rewrite (netloc_host s1 h1 ($"/" ++ p) H1 eq_refl). unfold d at 1. rewrite (netloc_host s2 h2 t H2 Ht').
  destruct (streqb h1 h2); [|reflexivity].
  assert (Hu : exists k, length u = S k). { unfold u. rewrite app_length. destruct s1; eexists; reflexivity. }
  destruct Hu as [k ->]. cbn [follow]. unfold d. rewrite redir_scheme, (no_http_host _ Hht). reflexivity.
Qed.

(** ** Link texts *)
Section Links.
Variable parse_link : str -> item.
Notation on_event := (on_event parse_link).
Notation run_events := (run_events parse_link).

Lemma run_app a : forall b st, run_events (a ++ b) st = match run_events a st with Some st => run_events b st | None => None end.
Proof. induction a as [|e a IH]; intros b st; [reflexivity|]. cbn [app Model_Uri.run_events]. destruct (on_event st e); [apply IH|reflexivity]. Qed.
(** Data outside of links changes nothing. *)
Lemma data_outside l : forall st, p_current st = None -> run_events (map Data l) st = Some st.
Proof.
  induction l as [|t l IH]; intros st H; [reflexivity|]. cbn [map Model_Uri.run_events Model_Uri.on_event].
  rewrite H. assert ((match t with [] => Some st | _ :: _ => match p_tag st with Some (_ :: _) => Some st | _ => Some st end end) = Some st) as E.
  { destruct t; [reflexivity|]. destruct (p_tag st) as [[|]|]; reflexivity. }
  destruct t as [|x t]; [now apply IH|]. destruct (p_tag st) as [[|y tag]|]; now apply IH.
Qed.
Lemma data_inside l : forall links u texts i e, ~ In [] l -> u <> [] -> dget u links = Some e -> dget ($"a") e = Some i -> i_text i = Some texts ->
  run_events (map Data l) (mkP links (Some ($"a")) (Some u)) =
  Some (mkP (match l with [] => links | _ => dset u (dset ($"a") (with_text (texts ++ l) i) e) links end) (Some ($"a")) (Some u)).
Proof.
  induction l as [|t l IH]; intros links u texts i e Hl Hu He Hi Ht; [reflexivity|]. cbn [map Model_Uri.run_events].
  destruct t as [|x t]; [exfalso; apply Hl; now left|]. destruct u as [|y u]; [congruence|].
  cbn [Model_Uri.on_event p_tag p_current p_links]. change ($"a") with [97%N] in *. cbv iota beta zeta. rewrite He, Hi, Ht.
  rewrite (IH _ (y :: u) (texts ++ [x :: t]) (with_text (texts ++ [x :: t]) i) (dset [97%N] (with_text (texts ++ [x :: t]) i) e)).
  - f_equal. f_equal. destruct l as [|t2 l]; [reflexivity|]. clear.
    assert (K : forall V k (v w : V) d, dset k w (dset k v d) = dset k w d).
    { intros V k v w. induction d as [|[k' z] d IH]; cbn [dset]; [now rewrite streqb_refl|]. destruct (streqb k k') eqn:E; cbn [dset]; rewrite E; [reflexivity|]. now rewrite IH. }
    rewrite !K. now rewrite <- app_assoc.
  - intros Hin. apply Hl. now right.
  - discriminate.
  - apply dget_dset_same.
  - apply dget_dset_same.
  - reflexivity.
Qed.
(** What is known about the links after a part of the document. *)
Definition good (doc : list block) (links : dict (dict item)) : Prop :=
  forall u, (match dget u links with
             | Some e => dkeys e = [$"a"] /\ dget ($"a") e = Some (with_text (texts_of u doc) (parse_link u)) /\ exists b, In b doc /\ leads_to u b
             | None => forall b, In b doc -> ~ leads_to u b
             end).
Lemma texts_of_snoc u doc b : texts_of u (doc ++ [b]) = texts_of u doc ++ match b with Anchor v texts => if streqb v u then texts else [] | _ => [] end.
Proof. unfold texts_of. rewrite map_app, concat_app. cbn [map concat]. now rewrite app_nil_r. Qed.
Lemma texts_of_none u doc : (forall b, In b doc -> ~ leads_to u b) -> texts_of u doc = [].
Proof.
  unfold texts_of. induction doc as [|b doc IH]; intros H; [reflexivity|]. cbn [map concat]. rewrite IH by (intros x Hx; apply H; now right).
  pose proof (H b (or_introl eq_refl)) as Hb. destruct b as [v texts| |]; try reflexivity. cbn in Hb. destruct (streqb_spec v u); [contradiction|reflexivity].
Qed.
Lemma good_other doc links b : good doc links -> (forall u, ~ leads_to u b) -> (match b with Anchor _ _ => False | _ => True end) -> good (doc ++ [b]) links.
Proof.
  intros H Hb Hn u. specialize (H u). rewrite texts_of_snoc. assert ((match b with Anchor v texts => if streqb v u then texts else [] | _ => [] end) = []) as -> by now destruct b.
  rewrite app_nil_r. destruct (dget u links) as [e|].
  - destruct H as [H1 [H2 [x [Hx Hl]]]]. repeat split; auto. exists x. split; [apply in_or_app; now left|exact Hl].
  - intros x Hx. apply in_app_or in Hx as [Hx|[<-|[]]]; [now apply H|apply Hb].
Qed.
Lemma block_step doc links tag b : block_ok b -> good doc links ->
  exists links' tag', run_events (block_events b) (mkP links tag None) = Some (mkP links' tag' None) /\ good (doc ++ [b]) links'.
Proof.
  intros Hb Hg. destruct b as [u texts|t|tg attrs contents].
  - destruct Hb as [Hu Ht]. cbn [block_events]. cbn [Model_Uri.run_events Model_Uri.on_event].
    change (mem_str ($"a") [$"a"; $"link"]) with true. cbv iota. cbn [fold_left]. unfold add_attr at 1. change (mem_str ($"href") [$"href"; $"src"]) with true. cbv iota.
    cbn [p_links p_tag p_current].
    set (entry := match dget u links with Some e => e | None => [] end).
    set (old := match dget ($"a") entry with Some i => match i_text i with Some t => t | None => [] end | None => [] end).
    assert (Hold : old = texts_of u doc).
    { unfold old, entry. pose proof (Hg u) as G. destruct (dget u links) as [e|]; [destruct G as [_ [-> _]]; reflexivity|]. cbn [dget]. now rewrite texts_of_none. }
    set (i0 := with_text old (parse_link u)). set (links1 := dset u (dset ($"a") i0 entry) links).
    rewrite run_app. rewrite (data_inside texts links1 u old i0 (dset ($"a") i0 entry) Ht Hu); [|apply dget_dset_same|apply dget_dset_same|reflexivity].
    cbn [Model_Uri.run_events Model_Uri.on_event p_links]. eexists. eexists. split; [reflexivity|].
    assert (Hfin : forall v, dget v (match texts with [] => links1 | _ => dset u (dset ($"a") (with_text (old ++ texts) i0) (dset ($"a") i0 entry)) links1 end) =
                   if streqb u v then Some (dset ($"a") (with_text (old ++ texts) (parse_link u)) entry) else dget v links).
    { assert (K : forall V k (v w : V) d, dset k w (dset k v d) = dset k w d).
      { clear. intros V k v w. induction d as [|[k' z] d IH]; cbn [dset]; [now rewrite streqb_refl|]. destruct (streqb k k') eqn:E; cbn [dset]; rewrite E; [reflexivity|]. now rewrite IH. }
      intros v. destruct texts as [|t0 texts].
      - rewrite app_nil_r. unfold links1. rewrite dget_dset. reflexivity.
      - rewrite dget_dset. unfold links1. rewrite K, dget_dset. destruct (streqb u v); reflexivity. }
    intros v. rewrite Hfin, texts_of_snoc. destruct (streqb_spec u v) as [<-|Hne].
    + assert (Hent : dkeys (dset ($"a") (with_text (old ++ texts) (parse_link u)) entry) = [$"a"]).
      { unfold entry. pose proof (Hg u) as G. destruct (dget u links) as [e|]; [|reflexivity]. destruct G as [G1 _].
        destruct e as [|[k z] [|]]; try discriminate. cbn in G1. injection G1 as ->. reflexivity. }
      repeat split; [exact Hent|rewrite dget_dset_same, Hold; reflexivity|]. exists (Anchor u texts). split; [apply in_or_app; right; now left|reflexivity].
    + rewrite app_nil_r. pose proof (Hg v) as G. destruct (dget v links) as [e|].
      * destruct G as [G1 [G2 [x [Hx Hlx]]]]. repeat split; auto. exists x. split; [apply in_or_app; now left|exact Hlx].
      * intros x Hx. apply in_app_or in Hx as [Hx|[<-|[]]]; [now apply G|]. cbn. congruence.
  - cbn [block_events]. change [Data t] with (map Data [t]). rewrite data_outside by reflexivity. exists links, tag. split; [reflexivity|].
    apply good_other; auto.
  - destruct Hb as [H1 H2]. cbn [block_events]. cbn [Model_Uri.run_events Model_Uri.on_event].
    assert (mem_str tg [$"a"; $"link"] = false) as ->. { apply mem_str_notIn. intros [E|[E|[]]]; congruence. }
    rewrite run_app, data_outside by reflexivity. cbn [Model_Uri.run_events Model_Uri.on_event p_links]. exists links, None. split; [reflexivity|]. apply good_other; auto.
Qed.
Lemma document doc2 : forall doc links tag, (forall b, In b doc2 -> block_ok b) -> good doc links ->
  exists st, run_events (concat (map block_events doc2)) (mkP links tag None) = Some st /\ good (doc ++ doc2) (p_links st).
Proof.
  induction doc2 as [|b doc2 IH]; intros doc links tag Hok Hg.
  - exists (mkP links tag None). split; [reflexivity|]. now rewrite app_nil_r.
  - cbn [map concat]. destruct (block_step doc links tag b (Hok b (or_introl eq_refl)) Hg) as [links' [tag' [E G]]]. rewrite run_app, E.
    destruct (IH (doc ++ [b]) links' tag' (fun x hx => Hok x (or_intror hx)) G) as [st [E2 G2]]. exists st. split; [exact E2|]. now rewrite <- app_assoc in G2.
Qed.
Theorem collect_document doc : (forall b, In b doc -> block_ok b) ->
  exists links, collect parse_link (concat (map block_events doc)) = Some links /\
  forall u, ((exists b, In b doc /\ leads_to u b) ->
              exists e, dget u links = Some e /\ dkeys e = [$"a"] /\ dget ($"a") e = Some (with_text (texts_of u doc) (parse_link u))) /\
            ((forall b, In b doc -> ~ leads_to u b) -> dget u links = None).
Proof.
  intros Hok. destruct (document doc [] [] None Hok) as [st [E G]]; [intros u; cbn; intros b []|]. cbn [app] in G.
  exists (p_links st). split; [unfold collect; now rewrite E|]. intros u. specialize (G u). destruct (dget u (p_links st)) as [e|].
  - split; [intros _; exists e; now repeat split|]. intros H. destruct G as [_ [_ [b [Hb Hl]]]]. now apply H in Hl.
  - split; [|reflexivity]. intros [b [Hb Hl]]. now apply G in Hl.
Qed.
Lemma all_links_spec events uris links0 links : collect parse_link events = Some links0 -> all_links parse_link events uris = Some links ->
  forall u, dget u links = match dget u links0 with
                           | Some e => Some e
                           | None => if mem_str u uris then Some [($"parsed", parse_link u)] else None
                           end.
Proof.
  unfold all_links. intros ->. cbn [option_map]. intros H. injection H as <-. revert links0.
  induction uris as [|v uris IH]; intros links0 u; cbn [fold_left]; [now destruct (dget u links0)|]. rewrite IH.
  change (mem_str u (v :: uris)) with (streqb u v || mem_str u uris).
  assert (K : dhas v links0 = match dget v links0 with Some _ => true | None => false end) by reflexivity.
  rewrite K. clear K. destruct (dget v links0) as [e|] eqn:E.
  - destruct (streqb_spec u v) as [->|]; [now rewrite E|reflexivity].
  - rewrite dget_dset. destruct (streqb_spec v u) as [->|Hne]; [rewrite E, streqb_refl; reflexivity|].
    assert (streqb u v = false) as -> by (apply streqb_neq; congruence). reflexivity.
Qed.
End Links.

(** ** Mismatch, length *)
Section Checks.
Variable is_ip : str -> bool.
Variable url_netloc : str -> option str.
Lemma extract_In texts w : In w (extract_url_from_text texts) <-> startswith ($"https://") w = true /\ exists t, In t texts /\ In w (words t).
Proof.
  unfold extract_url_from_text. rewrite filter_In, in_concat. split.
  - intros [[l [Hl Hw]] Hs]. apply in_map_iff in Hl as [t [<- Ht]]. split; [exact Hs|]. now exists t.
  - intros [Hs [t [Ht Hw]]]. split; [|exact Hs]. exists (words t). split; [now apply in_map|exact Hw].
Qed.
Lemma names_host_spec uris : (forall u, In u uris -> url_netloc u <> None) ->
  (names_host is_ip url_netloc uris = Hit <-> exists u d, In u uris /\ url_netloc u = Some d /\ is_ip d = false) /\
  (names_host is_ip url_netloc uris = Hit \/ names_host is_ip url_netloc uris = NoHit).
Proof.
  induction uris as [|u rest IH]; intros H; cbn [names_host].
  - split; [|now right]. split; [discriminate|]. intros [u [d [[] _]]].
  - destruct (url_netloc u) as [d|] eqn:E; [|now apply H in E; [|now left]].
    destruct IH as [IH1 IH2]; [intros v Hv; apply H; now right|]. destruct (is_ip d) eqn:Ei.
    + split; [|exact IH2]. rewrite IH1. split; intros [v [x [Hv [Hx Hi]]]]; exists v, x; (split; [|now split]); [now right|].
      destruct Hv as [<-|Hv]; [congruence|exact Hv].
    + split; [|now left]. split; [|reflexivity]. intros _. exists u, d. repeat split; [now left|exact E|exact Ei].
Qed.
Notation mismatch := (mismatch is_ip url_netloc).
Lemma shows_names texts : (forall u, In u (extract_url_from_text texts) -> url_netloc u <> None) ->
  (names_host is_ip url_netloc (extract_url_from_text texts) = Hit <-> shows_host is_ip url_netloc texts) /\
  (names_host is_ip url_netloc (extract_url_from_text texts) = Hit \/ names_host is_ip url_netloc (extract_url_from_text texts) = NoHit).
Proof.
  intros H. destruct (names_host_spec _ H) as [E1 E2]. split; [|exact E2]. rewrite E1. unfold shows_host. split.
  - intros [u [d [Hu [Hd Hi]]]]. apply extract_In in Hu as [Hs [t [Ht Hw]]]. exists t, u, d. auto.
  - intros [t [w [d [Ht [Hw [Hs [Hd Hi]]]]]]]. exists w, d. split; [apply extract_In; eauto|auto].
Qed.
Lemma mismatch_sound links : (forall u, url_netloc u <> None) -> check_https_ip_mismatch is_ip url_netloc links = Hit -> exists u e, In (u, e) links /\ mismatch e.
Proof.
  intros Hu. induction links as [|[u e] rest IH]; [discriminate|]. cbn [check_https_ip_mismatch].
  destruct (dget ($"a") e) as [i|] eqn:E; [|intros H; destruct (IH H) as [v [x [Hv Hm]]]; exists v, x; split; [now right|exact Hm]].
  destruct (is_ip (i_domain i)) eqn:Ei; [|discriminate].
  set (texts := match i_text i with Some t => t | None => [] end).
  destruct (shows_names texts (fun u _ => Hu u)) as [S1 S2]. destruct (names_host is_ip url_netloc (extract_url_from_text texts)) eqn:En; try discriminate.
  - intros _. exists u, e. split; [now left|]. exists i. repeat split; auto. now apply S1.
  - intros H. destruct (IH H) as [v [x [Hv Hm]]]. exists v, x. split; [now right|exact Hm].
Qed.
Lemma mismatch_complete links : (forall u, url_netloc u <> None) ->
  (forall u e i, In (u, e) links -> dget ($"a") e = Some i -> is_ip (i_domain i) = true) ->
  (exists u e, In (u, e) links /\ mismatch e) -> check_https_ip_mismatch is_ip url_netloc links = Hit.
Proof.
  intros Hu. induction links as [|[u e] rest IH]; intros Hip [v [x [Hv Hm]]]; [easy|]. cbn [check_https_ip_mismatch].
  assert (IH' : (exists u e, In (u, e) rest /\ mismatch e) -> check_https_ip_mismatch is_ip url_netloc rest = Hit).
  { apply IH. intros w y i Hw. apply (Hip w y). now right. }
  destruct (dget ($"a") e) as [i|] eqn:E.
  - rewrite (Hip u e i (or_introl eq_refl) E). set (texts := match i_text i with Some t => t | None => [] end).
    destruct (shows_names texts (fun u _ => Hu u)) as [S1 S2]. destruct Hv as [Hv|Hv].
    + injection Hv as <- <-. destruct Hm as [i' [Hi [_ Hs]]]. rewrite E in Hi. injection Hi as <-. apply S1 in Hs. fold texts in Hs. now rewrite Hs.
    + destruct S2 as [-> | ->]; [reflexivity|]. apply IH'. now exists v, x.
  - destruct Hv as [Hv|Hv]; [injection Hv as <- <-; destruct Hm as [i' [Hi _]]; congruence|]. apply IH'. now exists v, x.
Qed.
End Checks.
Lemma truncated_spec links : check_uri_truncated links = true <->
  exists u e t, In (u, e) links /\ In t (dkeys e) /\ (t = $"a" \/ t = $"link") /\ (8192 < N.of_nat (length u))%N.
Proof.
  unfold check_uri_truncated. rewrite existsb_exists. split.
  - intros [[u e] [Hin H]]. apply existsb_exists in H as [t [Ht H]]. apply andb_true_iff in H as [H1 H2]. apply N.ltb_lt in H2.
    apply mem_str_In in H1. exists u, e, t. repeat split; auto. destruct H1 as [<-|[<-|[]]]; auto.
  - intros [u [e [t [Hin [Ht [Hx Hl]]]]]]. exists (u, e). split; [exact Hin|]. apply existsb_exists. exists t. split; [exact Ht|]. apply andb_true_iff. split.
    + apply mem_str_In. destruct Hx as [-> | ->]; cbn; auto.
    + apply N.ltb_lt. exact Hl.
Qed.

(** ** uri_detail *)
Section Detail.
Variable pattern : Type.
Variable re_match : pattern -> str -> bool.
Lemma item_spec patterns i : (forall re, ~ In ($"text", re) patterns) ->
  exists b, check_single_item pattern re_match patterns i = Some b /\
    (b = true <-> forall key re, In (key, re) patterns -> exists s, field_of key i = Text s /\ re_match re s = true).
Proof.
  induction patterns as [|[key re] rest IH]; intros H; cbn [check_single_item].
  - exists true. split; [reflexivity|]. split; [|reflexivity]. intros _ key re [].
  - destruct IH as [b [E Hb]]; [intros r Hr; apply (H r); now right|]. destruct (field_of key i) as [|s|l] eqn:Ef.
    + exists false. split; [reflexivity|]. split; [discriminate|]. intros Ha. destruct (Ha key re (or_introl eq_refl)) as [s [Hs _]]. congruence.
    + destruct (re_match re s) eqn:Er.
      * rewrite E. exists b. split; [reflexivity|]. rewrite Hb. split; intros Ha k r Hin; [|apply Ha; now right]. destruct Hin as [Hk|Hin]; [|now apply Ha].
        injection Hk as <- <-. now exists s.
      * exists false. split; [reflexivity|]. split; [discriminate|]. intros Ha. destruct (Ha key re (or_introl eq_refl)) as [s' [Hs Hr]]. congruence.
    + exfalso. apply (H re). left. f_equal. unfold field_of in Ef.
      destruct (streqb_spec key ($"raw")); [discriminate|]. destruct (streqb_spec key ($"scheme")); [discriminate|].
      destruct (streqb_spec key ($"cleaned")); [discriminate|]. destruct (streqb_spec key ($"domain")); [discriminate|].
      destruct (streqb_spec key ($"text")) as [Hk|]; [exact Hk|discriminate].
Qed.
Theorem match_links_spec patterns links : (forall re, ~ In ($"text", re) patterns) ->
  exists b, match_links pattern re_match patterns links = Some b /\
    (b = true <-> exists u e t i, In (u, e) links /\ In (t, i) e /\
       forall key re, In (key, re) patterns -> exists s, field_of key i = Text s /\ re_match re s = true).
Proof.
  intros H. unfold match_links.
  assert (K : forall items, exists b, detail_match pattern re_match patterns items = Some b /\
    (b = true <-> exists i, In i items /\ forall key re, In (key, re) patterns -> exists s, field_of key i = Text s /\ re_match re s = true)).
  { induction items as [|i items IH]; cbn [detail_match].
    - exists false. split; [reflexivity|]. split; [discriminate|]. intros [i [[] _]].
    - destruct (item_spec patterns i H) as [b [-> Hb]]. destruct b.
      + exists true. split; [reflexivity|]. split; [|reflexivity]. intros _. exists i. split; [now left|]. now apply Hb.
      + destruct IH as [b [-> Hb']]. exists b. split; [reflexivity|]. rewrite Hb'. split; intros [x [Hx Ha]]; exists x; (split; [|exact Ha]); [now right|].
        destruct Hx as [<-|Hx]; [|exact Hx]. apply Hb in Ha. discriminate. }
  destruct (K (concat (map (fun l => dvalues (snd l)) links))) as [b [E Hb]]. exists b. split; [exact E|]. rewrite Hb. split.
  - intros [i [Hi Ha]]. apply in_concat in Hi as [l [Hl Hi]]. apply in_map_iff in Hl as [[u e] [<- Hue]]. cbn [snd] in Hi.
    unfold dvalues in Hi. apply in_map_iff in Hi as [[t i'] [<- Hti]]. exists u, e, t, i'. auto.
  - intros [u [e [t [i [Hue [Hti Ha]]]]]]. exists i. split; [|exact Ha]. apply in_concat. exists (dvalues e). split.
    + apply in_map_iff. exists (u, e). auto.
    + unfold dvalues. apply in_map_iff. exists (t, i). auto.
Qed.
End Detail.
