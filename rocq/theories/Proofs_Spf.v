(** Proofs about SPF. *)
From Coq Require Import Lia.
From Verif Require Import PyStr PyDict PyRe Proofs_PyRe Model_Wlbl Spec_Wlbl Proofs_Wlbl Model_Spf Spec_Spf.

(** ** Keys *)
Lemma mfrom_inj a b : mfrom_key a = mfrom_key b <-> a = b.
Proof. unfold mfrom_key. split; [apply app_inv_head|congruence]. Qed.
Lemma helo_inj a b : helo_key a = helo_key b <-> a = b.
Proof. unfold helo_key. split; [apply app_inv_head|congruence]. Qed.
Lemma key_mix a b : mfrom_key a = helo_key b -> startswith ($"helo_") a = true.
Proof.
  unfold mfrom_key, helo_key. change ($"check_spf_helo_" ++ b) with ($"check_spf_" ++ $"helo_" ++ b). intros H. apply app_inv_head in H. subst. apply startswith_self.
Qed.
Lemma result_plain r : is_result r -> startswith ($"helo_") r = false.
Proof. intros H. unfold is_result in H. repeat (destruct H as [<-|H]; [reflexivity|]). destruct H. Qed.
Lemma check_set r k st : check_for_spf r (set_result k st) = streqb (mfrom_key r) k || check_for_spf r st.
Proof. reflexivity. Qed.
Lemma helo_set r k st : check_for_spf_helo r (set_result k st) = streqb (helo_key r) k || check_for_spf_helo r st.
Proof. reflexivity. Qed.
Lemma streqb_mfrom a b : streqb (mfrom_key a) (mfrom_key b) = streqb a b.
Proof. destruct (streqb_spec a b) as [->|H]; [apply streqb_refl|]. apply streqb_neq. now rewrite mfrom_inj. Qed.
Lemma streqb_helo a b : streqb (helo_key a) (helo_key b) = streqb a b.
Proof. destruct (streqb_spec a b) as [->|H]; [apply streqb_refl|]. apply streqb_neq. now rewrite helo_inj. Qed.
Lemma streqb_mix a b : startswith ($"helo_") a = false -> streqb (mfrom_key a) (helo_key b) = false /\ streqb (helo_key b) (mfrom_key a) = false.
Proof.
  intros H. assert (mfrom_key a <> helo_key b) by (intros E; apply key_mix in E; congruence). split; apply streqb_neq; congruence.
Qed.
(** What the expression finds as a result is no name with "helo_". *)
Lemma one_of_word ws s a b : one_of ws s = Some (a, b) -> exists w, In w ws /\ lower a = lower w.
Proof.
  induction ws as [|w ws IH]; [discriminate|]. cbn [one_of]. destruct (ci_prefix w s) eqn:E.
  - intros H. injection H as <- _. exists w. split; [now left|]. unfold ci_prefix in E. apply startswith_app in E as [t E].
    unfold lower in *. rewrite <- firstn_map, E. rewrite <- (map_length lower_char w). rewrite firstn_app, firstn_all, Nat.sub_diag. cbn. now rewrite app_nil_r.
  - intros H. destruct (IH H) as [w' [H1 H2]]. exists w'. split; [now right|exact H2].
Qed.
Lemma lower_app a b : lower (a ++ b) = lower a ++ lower b.
Proof. apply map_app. Qed.
Lemma received_result h r i : received_re h = Some (r, i) -> startswith ($"helo_") r = false.
Proof.
  unfold received_re. destruct (one_of spf_words h) as [[a b]|] eqn:E; [|discriminate]. destruct (boundary true b); [|discriminate].
  intros H. injection H as <- _. apply one_of_word in E as [w [Hw E]].
  destruct (startswith ($"helo_") a) eqn:S; [|reflexivity]. apply startswith_app in S as [t ->]. rewrite lower_app in E.
  unfold spf_words in Hw. repeat (destruct Hw as [<-|Hw]; [discriminate|]). destruct Hw.
Qed.

(** ** Headers *)
Lemma mem_two i : mem_str (lower i) [$"mfrom"; $"mailfrom"] = true <-> (lower i = $"mfrom" \/ lower i = $"mailfrom").
Proof. rewrite mem_str_In. cbn [In]. intuition. Qed.
(** One header: what it does to the sender's result. *)
Lemma read_sender st h : 
  (forall r, about_sender h r -> spf_check st = false ->
     spf_check (read_received st h) = true /\ no_valid_identity (read_received st h) = true /\ check_result (read_received st h) = mfrom_key r :: check_result st) /\
  ((forall r, ~ about_sender h r) \/ spf_check st = true ->
     spf_check (read_received st h) = spf_check st /\ forall q, is_result q -> check_for_spf q (read_received st h) = check_for_spf q st).
Proof.
  unfold read_received. split.
  - intros r H Hs. destruct H as [H|[i [H Hi]]]; rewrite H, Hs.
    + repeat split.
    + assert (streqb (lower i) ($"none") = false) as -> by (apply streqb_neq; destruct Hi as [-> | ->]; discriminate).
      apply mem_two in Hi. rewrite Hi. repeat split.
  - intros H. destruct (received_re h) as [[r [i|]]|] eqn:E; [| |now split].
    + destruct (streqb (lower i) ($"none")); [now split|]. destruct (mem_str (lower i) [$"mfrom"; $"mailfrom"]) eqn:M.
      * apply mem_two in M. destruct H as [H|H]; [exfalso; apply (H r); right; now exists i|]. rewrite H. now split.
      * destruct (streqb i ($"helo")); [|now split]. destruct (spf_check_helo st); [now split|]. split; [reflexivity|]. intros q Hq. rewrite check_set.
        now rewrite (proj1 (streqb_mix q r (result_plain q Hq))).
    + destruct H as [H|H]; [exfalso; apply (H r); now left|]. rewrite H. now split.
Qed.
Lemma about_sender_one h a b : about_sender h a -> about_sender h b -> a = b.
Proof. intros [H|[i [H _]]] [G|[j [G _]]]; congruence. Qed.
Lemma about_dec h : (exists r, about_sender h r) \/ forall r, ~ about_sender h r.
Proof.
  destruct (received_re h) as [[r [i|]]|] eqn:E.
  - destruct (mem_str (lower i) [$"mfrom"; $"mailfrom"]) eqn:M.
    + left. exists r. right. exists i. split; [exact E|]. now apply mem_two.
    + right. intros q [H|[j [H Hj]]]; [congruence|]. rewrite E in H. injection H as -> ->. apply mem_two in Hj. congruence.
  - left. exists r. now left.
  - right. intros q [H|[j [H _]]]; congruence.
Qed.
Lemma first_cons kind h l r : first_of kind (h :: l) r <-> kind h r \/ ((forall q, ~ kind h q) /\ first_of kind l r).
Proof.
  split.
  - intros [a [x [b [E [K N]]]]]. destruct a as [|y a]; injection E as -> E.
    + now left.
    + right. split; [intros q; apply N; now left|]. exists a, x, b. split; [exact E|]. split; [exact K|]. intros z q Hz. apply N. now right.
  - intros [K|[N [a [x [b [-> [K N2]]]]]]].
    + exists [], h, l. split; [reflexivity|]. split; [exact K|]. intros x q [].
    + exists (h :: a), x, b. split; [reflexivity|]. split; [exact K|]. intros z q [<-|Hz]; [apply N|now apply N2].
Qed.
Lemma sender_results l : forall st q, is_result q ->
  (check_for_spf q (check_spf_received_header l st) = true <-> check_for_spf q st = true \/ (spf_check st = false /\ first_of about_sender l q)).
Proof.
  induction l as [|h l IH]; intros st q Hq.
  - cbn. split; [now left|]. intros [H|[_ [a [x [b [E _]]]]]]; [exact H|]. destruct a; discriminate.
  - unfold check_spf_received_header. cbn [fold_left]. fold (check_spf_received_header l (read_received st h)). rewrite IH by exact Hq. rewrite first_cons.
    destruct (read_sender st h) as [R1 R2]. destruct (spf_check st) eqn:S.
    + destruct R2 as [E1 E2]; [now right|]. rewrite E1, E2 by exact Hq. intuition discriminate.
    + destruct (about_dec h) as [[r Hr]|N].
      * destruct (R1 r Hr eq_refl) as [E1 [_ E2]]. rewrite E1. unfold check_for_spf at 1. rewrite E2. change (mem_str (mfrom_key q) (mfrom_key r :: check_result st)) with (streqb (mfrom_key q) (mfrom_key r) || check_for_spf q st).
        rewrite streqb_mfrom. destruct (streqb_spec q r) as [->|Hne]; cbn [orb].
        -- split; [intros _; right; split; [reflexivity|now left]|now left].
        -- split; [intros [H|[H _]]; [now left|discriminate]|]. intros [H|[_ [H|[N _]]]]; [now left| |exfalso; now apply (N r)].
           exfalso. apply Hne. symmetry. eapply about_sender_one; eauto.
      * destruct R2 as [E1 E2]; [now left|]. rewrite E1, E2 by exact Hq. split; intros [H|[_ H]]; auto.
        destruct H as [H|[_ H]]; [exfalso; now apply (N q)|auto].
Qed.
Lemma read_helo st h :
  (forall r, about_helo h r -> spf_check_helo st = false ->
     spf_check_helo (read_received st h) = true /\ check_result (read_received st h) = helo_key r :: check_result st) /\
  ((forall r, ~ about_helo h r) \/ spf_check_helo st = true ->
     spf_check_helo (read_received st h) = spf_check_helo st /\ forall q, check_for_spf_helo q (read_received st h) = check_for_spf_helo q st).
Proof.
  unfold read_received. split.
  - intros r H Hs. rewrite H. change (streqb (lower ($"helo")) ($"none")) with false. change (mem_str (lower ($"helo")) [$"mfrom"; $"mailfrom"]) with false.
    rewrite streqb_refl, Hs. now split.
  - intros H. destruct (received_re h) as [[r i]|] eqn:E; [|now split].
    assert (K : forall q st', check_for_spf_helo q (set_result (mfrom_key r) st') = check_for_spf_helo q st').
    { intros q st'. rewrite helo_set. now rewrite (proj2 (streqb_mix r q (received_result h r i E))). }
    destruct i as [i|].
    + destruct (streqb (lower i) ($"none")); [now split|]. destruct (mem_str (lower i) [$"mfrom"; $"mailfrom"]).
      * destruct (spf_check st); [now split|]. split; [reflexivity|]. intros q. now rewrite K.
      * destruct (streqb_spec i ($"helo")) as [->|]; [|now split]. destruct H as [H|H]; [exfalso; now apply (H r)|]. rewrite H. now split.
    + destruct (spf_check st); [now split|]. split; [reflexivity|]. intros q. now rewrite K.
Qed.
Lemma helo_dec h : (exists r, about_helo h r) \/ forall r, ~ about_helo h r.
Proof.
  unfold about_helo. destruct (received_re h) as [[r [i|]]|]; try (right; intros q H; discriminate).
  destruct (str_eq_dec i ($"helo")) as [->|Hne]; [left; now exists r|right; intros q H; congruence].
Qed.
Lemma helo_results l : forall st q,
  (check_for_spf_helo q (check_spf_received_header l st) = true <-> check_for_spf_helo q st = true \/ (spf_check_helo st = false /\ first_of about_helo l q)).
Proof.
  induction l as [|h l IH]; intros st q.
  - cbn. split; [now left|]. intros [H|[_ [a [x [b [E _]]]]]]; [exact H|]. destruct a; discriminate.
  - unfold check_spf_received_header. cbn [fold_left]. fold (check_spf_received_header l (read_received st h)). rewrite IH. rewrite first_cons.
    destruct (read_helo st h) as [R1 R2]. destruct (spf_check_helo st) eqn:S.
    + destruct R2 as [E1 E2]; [now right|]. rewrite E1, E2. intuition discriminate.
    + destruct (helo_dec h) as [[r Hr]|N].
      * destruct (R1 r Hr eq_refl) as [E1 E2]. rewrite E1. unfold check_for_spf_helo at 1. rewrite E2. change (mem_str (helo_key q) (helo_key r :: check_result st)) with (streqb (helo_key q) (helo_key r) || check_for_spf_helo q st).
        rewrite streqb_helo. destruct (streqb_spec q r) as [->|Hne]; cbn [orb].
        -- split; [intros _; right; split; [reflexivity|now left]|now left].
        -- split; [intros [H|[H _]]; [now left|discriminate]|]. intros [H|[_ [H|[N _]]]]; [now left| |exfalso; now apply (N r)].
           exfalso. apply Hne. unfold about_helo in *. congruence.
      * destruct R2 as [E1 E2]; [now left|]. rewrite E1, E2. split; intros [H|[_ H]]; auto.
        destruct H as [H|[_ H]]; [exfalso; now apply (N q)|auto].
Qed.

(** ** A message with headers and no known relay *)
Section Messages.
Variable query : str -> str -> str -> str.
Lemma no_relay m sender st : m_relay m = None -> received_headers query m sender st = st.
Proof. intros H. unfold received_headers. now rewrite H. Qed.
Lemma headers_meta newest m st : m_relay m = None -> m_received_spf m <> [] ->
  parsed_metadata query false newest st m = check_spf_received_header (in_order newest (m_received_spf m)) st.
Proof.
  intros Hr Hn. unfold parsed_metadata, check_spf_header. fold (in_order newest (m_received_spf m)).
  assert (Hin : in_order newest (m_received_spf m) <> []).
  { destruct newest; cbn; [exact Hn|]. intros E. apply Hn. rewrite <- (rev_involutive (m_received_spf m)), E. reflexivity. }
  destruct (in_order newest (m_received_spf m)) as [|h l]; [congruence|].
  rewrite !no_relay by exact Hr. destruct (no_valid_identity _); (destruct (m_received m); [|reflexivity]); (destruct (m_sender m); [reflexivity|]);
  rewrite !no_relay by exact Hr; now destruct (spf_check_helo _).
Qed.
Theorem headers_only newest m : m_relay m = None -> m_received_spf m <> [] -> forall r, is_result r ->
  (check_for_spf r (parsed_metadata query false newest fresh m) = true <-> first_of about_sender (in_order newest (m_received_spf m)) r) /\
  (check_for_spf_helo r (parsed_metadata query false newest fresh m) = true <-> first_of about_helo (in_order newest (m_received_spf m)) r).
Proof.
  intros Hr Hn r Hres. rewrite headers_meta by assumption. rewrite sender_results by exact Hres. rewrite helo_results. cbn.
  split; (split; [intros [H|[_ H]]; [discriminate|exact H]|intros H; right; now split]).
Qed.
(** ** A message that is looked up *)
Theorem query_only ignore newest m mx ip : m_received m = true -> m_relay m = Some (mx, ip) ->
  (forall a b c, startswith ($"helo_") (query a b c) = false) ->
  ignore = true \/ (m_received_spf m = [] /\ (m_authres m = None \/ m_authres m = Some [])) -> forall r, is_result r ->
  (check_for_spf r (parsed_metadata query ignore newest fresh m) = true <-> m_sender m <> [] /\ r = result_name (query ip (m_sender m) mx)) /\
  (check_for_spf_helo r (parsed_metadata query ignore newest fresh m) = true <->
     In 46%N (take_while (fun c => negb (N.eqb c 10)) mx) /\ r = result_name (query ip [] mx)).
Proof.
  intros Hrec Hr Hq Hc r Hres.
  assert (E : parsed_metadata query ignore newest fresh m =
     match m_sender m with [] => received_headers query m [] fresh | s => received_headers query m s (received_headers query m [] fresh) end).
  { assert (H1 : spf_check_helo (received_headers query m [] fresh) = true) by (unfold received_headers; rewrite Hr; cbn; now destruct (mem_char _ _)).
    unfold parsed_metadata, check_spf_header. rewrite Hrec. destruct ignore; [reflexivity|]. destruct Hc as [Hc|[H2 H3]]; [discriminate|].
    rewrite H2. assert ((if newest then [] else rev (@nil str)) = []) as -> by now destruct newest.
    destruct H3 as [-> | ->]; destruct (m_sender m); try reflexivity; now rewrite H1. }
  assert (P : forall a b c, startswith ($"helo_") (result_name (query a b c)) = false) by (intros a b c; unfold result_name; destruct (streqb _ _); [reflexivity|apply Hq]).
  rewrite E. clear E. set (x := result_name (query ip [] mx)) in *.
  assert (H0 : received_headers query m [] fresh = if mem_char 46%N (take_while (fun c => negb (N.eqb c 10)) mx) then mkSpf false true false [helo_key x] else mkSpf false true false []).
  { unfold received_headers. rewrite Hr. reflexivity. }
  assert (H1 : forall s, received_headers query m s (received_headers query m [] fresh) = set_result (mfrom_key (result_name (query ip s mx))) (received_headers query m [] fresh)).
  { intros s. rewrite H0. unfold received_headers at 1. rewrite Hr. destruct (mem_char _ _); reflexivity. }
  assert (Hd : mem_char 46%N (take_while (fun c => negb (N.eqb c 10)) mx) = true <-> In 46%N (take_while (fun c => negb (N.eqb c 10)) mx)) by apply mem_char_In.
  assert (F0 : check_for_spf r (received_headers query m [] fresh) = false).
  { rewrite H0. destruct (mem_char _ _); [|reflexivity].
    change (streqb (mfrom_key r) (helo_key x) || false = false). now rewrite (proj1 (streqb_mix r x (result_plain r Hres))). }
  assert (F1 : check_for_spf_helo r (received_headers query m [] fresh) = true <-> In 46%N (take_while (fun c => negb (N.eqb c 10)) mx) /\ r = x).
  { rewrite H0, <- Hd. destruct (mem_char _ _); [|cbn; intuition discriminate].
    change (streqb (helo_key r) (helo_key x) || false = true <-> true = true /\ r = x). rewrite streqb_helo, orb_false_r. destruct (streqb_spec r x); intuition (congruence || discriminate). }
  split.
  - destruct (m_sender m) as [|c s]; [rewrite F0; split; [discriminate|intros [H _]; congruence]|].
    rewrite H1, check_set, streqb_mfrom, F0, orb_false_r. destruct (streqb_spec r (result_name (query ip (c :: s) mx))) as [->|Hne]; split; try easy.
  - destruct (m_sender m) as [|c s]; [exact F1|]. rewrite H1, helo_set, (proj2 (streqb_mix _ r (P ip (c :: s) mx))). exact F1.
Qed.
(** ** Nothing is ever unset *)
Lemma read_keeps st h k : In k (check_result st) -> In k (check_result (read_received st h)).
Proof.
  intros H. unfold read_received. destruct (received_re h) as [[r [i|]]|]; [| |exact H].
  - destruct (streqb _ _); [exact H|]. destruct (mem_str _ _); [destruct (spf_check st); [exact H|now right]|]. destruct (streqb i _); [|exact H].
    destruct (spf_check_helo st); [exact H|now right].
  - destruct (spf_check st); [exact H|now right].
Qed.
Lemma received_keeps m s st k : In k (check_result st) -> In k (check_result (received_headers query m s st)).
Proof.
  intros H. unfold received_headers. destruct (m_relay m) as [[mx ip]|]; [|exact H]. destruct (spf_check_helo st); [now right|]. destruct (mem_char _ _); [now right|exact H].
Qed.
Lemma headers_keep l : forall st k, In k (check_result st) -> In k (check_result (check_spf_received_header l st)).
Proof. induction l as [|h l IH]; intros st k H; [exact H|]. apply IH. now apply read_keeps. Qed.
Lemma authres_keeps h st k : In k (check_result st) -> In k (check_result (check_authres_header h st)).
Proof.
  intros H. unfold check_authres_header. destruct (last_spf h); [|exact H]. destruct (authres_re _) as [[r i]|]; [|exact H]. destruct (mem_str _ _); now right.
Qed.
Lemma meta_keeps ignore newest m st k : In k (check_result st) -> In k (check_result (parsed_metadata query ignore newest st m)).
Proof.
  intros H. unfold parsed_metadata, check_spf_header. destruct ignore.
  - destruct (m_received m); [|exact H]. destruct (m_sender m); repeat apply received_keeps; exact H.
  - set (hs := if newest then _ else _).
    assert (K : forall st', In k (check_result st') -> In k (check_result (match m_sender m with [] => st' | s => if spf_check_helo st' then received_headers query m s st' else received_headers query m [] st' end))).
    { intros st' H'. destruct (m_sender m); [exact H'|]. destruct (spf_check_helo st'); now apply received_keeps. }
    destruct hs as [|h hs].
    + assert (H2 : In k (check_result (match m_authres m with Some (c :: h) => check_authres_header (c :: h) st | _ => st end))).
      { destruct (m_authres m) as [[|c h]|]; [exact H|now apply authres_keeps|exact H]. }
      destruct (m_received m); [|exact H2]. apply K. now apply received_keeps.
    + pose proof (headers_keep (h :: hs) st k H) as H2. cbv zeta. set (st1 := check_spf_received_header (h :: hs) st) in *.
      assert (H3 : In k (check_result (if no_valid_identity st1 then st1 else received_headers query m [] st1))) by (destruct (no_valid_identity st1); [exact H2|now apply received_keeps]).
      destruct (m_received m); [now apply K|exact H3].
Qed.
Theorem spf_sticky ignore newest r ms : forall st,
  (check_for_spf r st = true -> check_for_spf r (fold_left (parsed_metadata query ignore newest) ms st) = true) /\
  (check_for_spf_helo r st = true -> check_for_spf_helo r (fold_left (parsed_metadata query ignore newest) ms st) = true).
Proof.
  induction ms as [|m ms IH]; intros st; [now split|]. cbn [fold_left]. destruct (IH (parsed_metadata query ignore newest st m)) as [I1 I2]. split; intros H.
  - apply I1. apply mem_str_In. apply meta_keeps. now apply mem_str_In.
  - apply I2. apply mem_str_In. apply meta_keeps. now apply mem_str_In.
Qed.
End Messages.

(** ** Headers as text *)
Lemma one_of_result w rest : is_result w -> boundary true rest = true -> one_of spf_words (w ++ rest) = Some (w, rest).
Proof.
  intros H _. unfold is_result in H. unfold spf_words. repeat (destruct H as [<-|H]; [reflexivity|]). destruct H.
Qed.
Lemma no_identity s : contains ($"identity=") (lower s) = false -> forall b, last_identity b s = None.
Proof.
  induction s as [|c s IH]; intros H b; [reflexivity|]. cbn [last_identity].
  assert (Hs : contains ($"identity=") (lower s) = false).
  { destruct (contains ($"identity=") (lower s)) eqn:E; [|reflexivity]. apply contains_app in E as [x [y E]].
    assert (contains ($"identity=") (lower (c :: s)) = true); [|congruence]. apply contains_app. exists (lower_char c :: x), y. cbn [lower map app]. fold (lower s). now rewrite E. }
  rewrite (IH Hs). destruct (ci_prefix ($"identity=") (c :: s)) eqn:E; [|now rewrite andb_false_r].
  exfalso. unfold ci_prefix in E. apply startswith_app in E as [t E]. assert (contains ($"identity=") (lower (c :: s)) = true); [|congruence].
  apply contains_app. exists [], t. exact E.
Qed.
Lemma last_identity_app p : forall b c s x, last_identity (is_alnum c) s = Some x -> last_identity b (p ++ c :: s) = Some x.
Proof.
  induction p as [|d p IH]; intros b c s x H; cbn [app last_identity]; [now rewrite H|]. now rewrite (IH _ c s x H).
Qed.
Lemma lazy_word i : forall acc t, i <> [] -> (forall c, In c i -> is_alnum c = true) ->
  match t with [] => True | c :: _ => is_alnum c = false end -> lazy_token acc (i ++ t) = Some (acc ++ i).
Proof.
  assert (Hsp : forall c, is_alnum c = true -> is_space c = false).
  { intros c H. destruct (is_space c) eqn:E; [|reflexivity]. unfold is_space in E. unfold is_alnum, is_digit in H.
    repeat (apply orb_true_iff in E as [E|E]); repeat (apply orb_true_iff in H as [H|H]);
    repeat match goal with
           | X : (_ && _)%bool = true |- _ => apply andb_true_iff in X as [? ?]
           | X : N.leb _ _ = true |- _ => apply N.leb_le in X
           | X : N.eqb _ _ = true |- _ => apply N.eqb_eq in X
           end; subst; try lia; try discriminate. }
  induction i as [|c i IH]; intros acc t Hne Ha Ht; [congruence|]. cbn [app lazy_token]. rewrite (Hsp c (Ha c (or_introl eq_refl))).
  assert (Hc := Ha c (or_introl eq_refl)). destruct i as [|d i].
  - cbn [app]. assert (boundary (is_alnum c) t = true) as ->; [|now rewrite orb_true_r]. rewrite Hc. unfold boundary, word_at. destruct t; [reflexivity|]. now rewrite Ht.
  - assert (Hd := Ha d (or_intror (or_introl eq_refl))). cbn [app].
    assert (N.eqb d 59 = false) as -> by (destruct (N.eqb_spec d 59) as [->|]; [discriminate|reflexivity]).
    assert (boundary (is_alnum c) (d :: i ++ t) = false) as -> by (unfold boundary, word_at; now rewrite Hc, Hd). cbn [andb orb].
    change (d :: i ++ t) with ((d :: i) ++ t). rewrite IH; [now rewrite <- app_assoc|discriminate|intros e He; apply Ha; now right|exact Ht].
Qed.
Theorem received_text w c sep i t : is_result w -> is_alnum sep = false ->
  i <> [] -> (forall x, In x i -> is_alnum x = true) -> match t with [] => True | x :: _ => is_alnum x = false end ->
  contains ($"identity=") (lower ($"dentity=" ++ i ++ t)) = false -> boundary true (c ++ [sep]) = true ->
  received_re (w ++ c ++ [sep] ++ $"identity=" ++ i ++ t) = Some (w, Some i).
Proof.
  intros Hw Hs Hne Ha Ht Hn Hb. unfold received_re.
  assert (Hb2 : boundary true (c ++ [sep] ++ $"identity=" ++ i ++ t) = true).
  { unfold boundary, word_at in *. destruct c; exact Hb. }
  rewrite one_of_result by assumption. rewrite Hb2. f_equal. f_equal. cbn [app]. apply last_identity_app. rewrite Hs.
  change ($"identity=" ++ i ++ t) with (105%N :: $"dentity=" ++ i ++ t). cbn [last_identity]. rewrite (no_identity _ Hn).
  change (105%N :: $"dentity=" ++ i ++ t) with ($"identity=" ++ i ++ t).
  assert (boundary false ($"identity=" ++ i ++ t) = true) as -> by reflexivity.
  assert (ci_prefix ($"identity=") ($"identity=" ++ i ++ t) = true) as -> by (unfold ci_prefix; rewrite lower_app; apply startswith_self).
  cbn [andb]. change (skipn 9 ($"identity=" ++ i ++ t)) with (i ++ t). now apply lazy_word.
Qed.
Theorem received_text_plain w t : is_result w -> match t with [] => True | x :: _ => is_alnum x = false end ->
  contains ($"identity=") (lower t) = false -> received_re (w ++ t) = Some (w, None).
Proof.
  intros Hw Ht Hn. unfold received_re. assert (boundary true t = true) as Hb by (unfold boundary, word_at; destruct t; [reflexivity|now rewrite Ht]).
  rewrite one_of_result by assumption. now rewrite Hb, no_identity.
Qed.

(** Authentication-Results *)
Lemma last_spf_app p s x : last_spf s = Some x -> last_spf (p ++ s) = Some x.
Proof. intros H. induction p as [|c p IH]; [exact H|]. cbn [app last_spf]. now rewrite IH. Qed.
Lemma no_semi s : ~ In 59%N s -> last_spf s = None.
Proof.
  induction s as [|c s IH]; intros H; [reflexivity|]. cbn [last_spf]. rewrite IH by (intros X; apply H; now right).
  destruct (N.eqb_spec c 59) as [->|]; [exfalso; apply H; now left|reflexivity].
Qed.
Lemma take_all {A} (p : A -> bool) s : (forall c, In c s -> p c = true) -> take_while p s = s.
Proof. induction s as [|c s IH]; intros H; [reflexivity|]. cbn [take_while]. rewrite (H c (or_introl eq_refl)), IH; [reflexivity|]. intros d Hd. apply H. now right. Qed.
Lemma no_key v : (forall c, In c v -> c <> 61%N) -> longest_key v = None.
Proof.
  induction v as [|c v IH]; intros H; [reflexivity|]. cbn [longest_key]. destruct (is_space c); [reflexivity|]. rewrite IH by (intros d Hd; apply H; now right).
  destruct (drop_while is_space v) as [|d r] eqn:E; [reflexivity|].
  assert (Hd : In d v). { pose proof (take_drop_while is_space v) as T. rewrite <- T, E. apply in_or_app. right. now left. }
  assert (d <> 61%N) as Hne by (apply H; now right).
  destruct d as [|p]; [reflexivity|]. repeat (destruct p as [p|p|]; try reflexivity). congruence.
Qed.
Lemma key_of_value k v : k <> [] -> v <> [] -> (forall c, In c k -> is_space c = false /\ c <> 61%N) -> (forall c, In c v -> is_space c = false /\ c <> 61%N) ->
  longest_key (k ++ 61%N :: v) = Some k.
Proof.
  intros Hk Hv Hc Hw. induction k as [|c k IH]; [congruence|]. cbn [app longest_key]. rewrite (proj1 (Hc c (or_introl eq_refl))).
  destruct k as [|d k].
  - cbn [app]. assert (longest_key (61%N :: v) = None) as ->.
    { cbn [longest_key]. change (is_space 61%N) with false. cbv iota. rewrite (no_key v) by (intros x Hx; now apply Hw).
      destruct v as [|x v]; [reflexivity|]. cbn [drop_while]. rewrite (proj1 (Hw x (or_introl eq_refl))).
      assert (x <> 61%N) as Hne by (apply Hw; now left). destruct x as [|p]; [reflexivity|]. repeat (destruct p as [p|p|]; try reflexivity). congruence. }
    destruct v as [|x v]; [congruence|]. reflexivity.
  - rewrite IH; [reflexivity|discriminate|intros x Hx; apply Hc; now right].
Qed.
Lemma one_of_auth w rest : is_result w -> one_of auth_words (w ++ rest) = Some (w, rest).
Proof. intros H. unfold is_result in H. unfold auth_words. repeat (destruct H as [<-|H]; [reflexivity|]). destruct H. Qed.
Theorem authres_text pre w k v st : is_result w -> k = $"mfrom" \/ k = $"mailfrom" -> v <> [] ->
  (forall c, In c v -> is_space c = false /\ c <> 61%N /\ c <> 59%N) ->
  check_authres_header (pre ++ $"; spf=" ++ w ++ $" smtp." ++ k ++ $"=" ++ v) st = set_result (mfrom_key w) st.
Proof.
  intros Hw Hk Hv Hc. unfold check_authres_header.
  assert (Hk2 : forall c, In c k -> is_space c = false /\ c <> 61%N /\ c <> 59%N).
  { intros c Hin. destruct Hk as [-> | ->]; vm_compute in Hin; repeat (destruct Hin as [<-|Hin]; [repeat split; discriminate|]); destruct Hin. }
  assert (Hw2 : forall c, In c w -> c <> 59%N).
  { intros c Hin. unfold is_result in Hw. repeat (destruct Hw as [<-|Hw]; [vm_compute in Hin; repeat (destruct Hin as [<-|Hin]; [discriminate|]); destruct Hin|]). destruct Hw. }
  set (t := w ++ $" smtp." ++ k ++ $"=" ++ v).
  assert (Ht : forall c, In c t -> c <> 59%N).
  { intros c Hin. unfold t in Hin. apply in_app_or in Hin as [Hin|Hin]; [now apply Hw2|]. apply in_app_or in Hin as [Hin|Hin].
    - vm_compute in Hin. repeat (destruct Hin as [<-|Hin]; [discriminate|]). destruct Hin.
    - apply in_app_or in Hin as [Hin|Hin]; [now apply Hk2|]. apply in_app_or in Hin as [Hin|Hin]; [|now apply Hc].
      vm_compute in Hin. destruct Hin as [<-|[]]. discriminate. }
  assert (E : last_spf ($"; spf=" ++ t) = Some t).
  { change ($"; spf=" ++ t) with (59%N :: 32%N :: $"spf=" ++ t). cbn [last_spf].
    assert (last_spf ($"spf=" ++ t) = None) as ->.
    { apply no_semi. intros Hin. apply in_app_or in Hin as [Hin|Hin]; [vm_compute in Hin; intuition discriminate|]. now apply Ht in Hin. }
    change (32 =? 59)%N with false. change (59 =? 59)%N with true. cbv iota. change (drop_while is_space (32%N :: $"spf=" ++ t)) with ($"spf=" ++ t).
    cbv zeta. assert (ci_prefix ($"spf") ($"spf=" ++ t) = true) as -> by reflexivity. change (drop_while is_space (skipn 3 ($"spf=" ++ t))) with (61%N :: t). cbv iota beta.
    f_equal. assert (drop_while is_space t = t) as ->.
    { unfold t. unfold is_result in Hw. repeat (destruct Hw as [<-|Hw]; [reflexivity|]). destruct Hw. }
    apply take_all. intros c Hin. destruct (N.eqb_spec c 59) as [->|]; [now apply Ht in Hin|reflexivity]. }
  rewrite (last_spf_app pre _ _ E). unfold authres_re, t. rewrite one_of_auth by exact Hw.
  assert (F : first_smtp (match rev w with c :: _ => is_alnum c | [] => false end) ($" smtp." ++ k ++ $"=" ++ v) = Some k).
  { assert ((match rev w with c :: _ => is_alnum c | [] => false end) = true) as -> by (unfold is_result in Hw; repeat (destruct Hw as [<-|Hw]; [reflexivity|]); destruct Hw).
    change ($" smtp." ++ k ++ $"=" ++ v) with (32%N :: $"smtp." ++ k ++ $"=" ++ v). cbn [first_smtp].
    assert (boundary true (32%N :: $"smtp." ++ k ++ $"=" ++ v) && ci_prefix ($"smtp.") (32%N :: $"smtp." ++ k ++ $"=" ++ v) = false) as -> by reflexivity.
    change (is_alnum 32) with false. set (z := $"smtp." ++ k ++ $"=" ++ v). assert (Hz : z = 115%N :: ($"mtp." ++ k ++ $"=" ++ v)) by reflexivity.
    rewrite Hz at 1. cbn [first_smtp]. rewrite <- Hz.
    assert (boundary false z && ci_prefix ($"smtp.") z = true) as -> by reflexivity.
    change (skipn 5 z) with (k ++ 61%N :: v). rewrite key_of_value; [reflexivity|destruct Hk as [-> | ->]; discriminate|exact Hv| |].
    - intros c Hin. specialize (Hk2 c Hin). tauto.
    - intros c Hin. specialize (Hc c Hin). tauto. }
  rewrite F. assert (streqb w ($"hardfail") = false) as -> by (unfold is_result in Hw; repeat (destruct Hw as [<-|Hw]; [reflexivity|]); destruct Hw).
  destruct Hk as [-> | ->]; reflexivity.
Qed.

(** ** The list of senders *)
Section Whitelist.
Variable escaped : char -> bool.
Hypothesis Hesc : escapes_right escaped.
Lemma any_match_entries entries a : exists b, any_match (Model_Spf.parse_list escaped entries) a = Some b /\
  (b = true <-> exists e, In e entries /\ usable e /\ front_like (whole e) a).
Proof.
  change (Model_Spf.parse_list escaped entries) with (Model_Wlbl.parse_list escaped entries). unfold Model_Wlbl.parse_list. induction entries as [|e l (b & IH1 & IH2)].
  - exists false. split; [reflexivity|]. split; [discriminate | intros (e & [] & _)].
  - cbn [filter]. destruct (check_input e) eqn:Ec.
    + cbn [map any_match]. unfold re_match_text. rewrite (entry_compile escaped Hesc). cbn [option_map].
      destruct (re_match _ a) eqn:Es.
      * exists true. split; [reflexivity|]. split; [|reflexivity]. intros _. exists e. split; [left; reflexivity|]. split; [apply check_input_usable, Ec|].
        apply re_match_den in Es as (w & y & -> & D). exists w, y. split; [reflexivity|]. apply (like_den _ _ star_any), D.
      * exists b. split; [exact IH1|]. rewrite IH2. split.
        -- intros (e' & H & H2). exists e'. split; [right; exact H | exact H2].
        -- intros (e' & [<- | H] & H2 & H3); [|exists e'; auto]. exfalso. destruct H3 as (w & y & -> & D).
           apply (like_den _ _ star_any) in D. rewrite (proj2 (re_match_den _ _)) in Es; [discriminate|]. exists w, y. auto.
    + exists b. split; [exact IH1|]. rewrite IH2. split.
      * intros (e' & H & H2). exists e'. split; [right; exact H | exact H2].
      * intros (e' & [<- | H] & H2 & H3); [|exists e'; auto]. apply check_input_usable in H2. congruence.
Qed.
Theorem whitelist_exact entries sender st : exists b, check_spf_whitelist escaped entries sender st = Some b /\
  (b = true <-> check_for_spf ($"pass") st = true /\ exists e, In e entries /\ usable e /\ front_like (whole e) sender).
Proof.
  destruct (any_match_entries entries sender) as [b [E Hb]]. unfold check_spf_whitelist. destruct entries as [|e entries].
  - exists false. split; [reflexivity|]. split; [discriminate|]. intros [_ [e [[] _]]].
  - destruct (check_for_spf ($"pass") st).
    + exists b. split; [exact E|]. rewrite Hb. tauto.
    + exists false. split; [reflexivity|]. split; [discriminate|]. intros [H _]. discriminate.
Qed.
End Whitelist.
