(** Proofs about the DKIM rules. *)
From Coq Require Import Lia.
From Verif Require Import PyStr PyDict PyRe Proofs_PyRe Model_Spf Model_Dkim Spec_Dkim Spec_Wlbl Proofs_Wlbl.

(** ** Authors *)
Lemma tail_ok_plain c r : blank_char c = false -> c <> 10%N -> tail_ok (c :: r) = false.
Proof.
  intros H H2. unfold tail_ok. cbn [drop_while]. rewrite H. destruct r; [|reflexivity].
  apply N.eqb_neq. exact H2.
Qed.
Lemma lazy_group_plain r : forall c, ~ In 32%N r -> ~ In 9%N r -> ~ In 10%N r -> lazy_group c r = c :: r.
Proof.
  induction r as [|d r IH]; intros c H1 H2 H3; [reflexivity|]. cbn [lazy_group]. rewrite tail_ok_plain.
  - rewrite IH; [reflexivity| | |]; intros H; [apply H1 | apply H2 | apply H3]; right; exact H.
  - unfold blank_char. apply orb_false_iff. split; apply N.eqb_neq; intros ->; [apply H1 | apply H2]; left; reflexivity.
  - intros ->. apply H3. left. reflexivity.
Qed.
Lemma tail_ok_blanks t : Forall (fun c => blank_char c = true) t -> tail_ok t = true.
Proof.
  intros H. unfold tail_ok. replace (drop_while blank_char t) with (@nil char); [reflexivity|].
  induction H as [|c t H1 H2 IH]; [reflexivity|]. cbn [drop_while]. rewrite H1. exact IH.
Qed.
Lemma lazy_group_blanks r t : Forall (fun c => blank_char c = true) t -> forall c, ~ In 32%N r -> ~ In 9%N r -> ~ In 10%N r ->
  lazy_group c (r ++ t) = c :: r.
Proof.
  intros B. induction r as [|d r IH]; intros c H1 H2 H3.
  - cbn [app]. destruct t; cbn [lazy_group]; rewrite (tail_ok_blanks _ B); reflexivity.
  - cbn [app lazy_group]. rewrite tail_ok_plain.
    + rewrite IH; [reflexivity| | |]; intros H; [apply H1 | apply H2 | apply H3]; right; exact H.
    + unfold blank_char. apply orb_false_iff. split; apply N.eqb_neq; intros ->; [apply H1 | apply H2]; left; reflexivity.
    + intros ->. apply H3. left. reflexivity.
Qed.
Lemma author_of_blanks a d t : plain_address a -> domain_of a d -> Forall (fun c => c = 32%N \/ c = 9%N) t -> author_of (a ++ t) = Some d.
Proof.
  intros (H1 & H2 & H3) (NE & N1 & u & ->) B. unfold author_of. change ($"@") with [64%N] in *.
  assert (Forall (fun c => blank_char c = true) t) as B'.
  { eapply Forall_impl; [|exact B]. intros c [-> | ->]; reflexivity. }
  assert (~ In 64%N (d ++ t)) as N2.
  { rewrite in_app_iff. intros [H | H]; [exact (N1 H)|]. rewrite Forall_forall in B. destruct (B _ H); discriminate. }
  rewrite <- !app_assoc. pose proof (proj2 (rsplit1_Some 64%N (u ++ [64%N] ++ d ++ t) u (d ++ t)) (conj eq_refl N2)) as ->.
  destruct d as [|c r]; [congruence|]. cbn [app]. rewrite lazy_group_blanks; [reflexivity|exact B'| | |]; intros H; [apply H1 | apply H2 | apply H3];
    apply in_or_app; right; right; right; exact H.
Qed.
Lemma author_of_iff a d : plain_address a -> (author_of a = Some d <-> domain_of a d).
Proof.
  intros (H1 & H2 & H3). unfold author_of, domain_of. change ($"@") with [64%N]. split.
  - destruct (rsplit1 64%N a) as [[u [|c r]]|] eqn:E; try discriminate. apply rsplit1_Some in E as [-> N1].
    rewrite lazy_group_plain.
    + intros H. injection H as <-. repeat split; [discriminate | exact N1 | exists u; reflexivity].
    + intros H. apply H1. apply in_or_app. right. right. right. exact H.
    + intros H. apply H2. apply in_or_app. right. right. right. exact H.
    + intros H. apply H3. apply in_or_app. right. right. right. exact H.
  - intros (NE & N1 & u & ->). pose proof (proj2 (rsplit1_Some 64%N (u ++ [64%N] ++ d) u d) (conj eq_refl N1)) as ->.
    destruct d as [|c r]; [congruence|]. rewrite lazy_group_plain; [reflexivity| | |]; intros H; [apply H1 | apply H2 | apply H3];
      apply in_or_app; right; right; right; exact H.
Qed.
Lemma authors_iff l d : Forall plain_address l -> (In d (authors l) <-> exists a, In a l /\ domain_of a d).
Proof.
  intros F. unfold authors. rewrite in_flat_map. split; intros (a & Ha & H); exists a; (split; [exact Ha|]);
    pose proof (proj1 (Forall_forall _ _) F a Ha) as P.
  - apply (author_of_iff a d P). destruct (author_of a) as [x|]; [destruct H as [-> | []]; reflexivity | destruct H].
  - apply (author_of_iff a d P) in H. rewrite H. left. reflexivity.
Qed.

(** ** The first check *)
Lemma first_domains m : ds_domains (get_authors m new_process) = authors (dm_from m).
Proof. reflexivity. Qed.
Lemma first_addresses m : dk_addresses (ds_me (get_authors m new_process)) = dm_from m.
Proof. reflexivity. Qed.

(** The flags after a check that did not raise *)
Definition known (m : dmsg) (l : list str) : Prop := exists d, names m d /\ In d l.
Lemma check_flags m s : checkable m -> dk_is_valid (ds_me s) = true ->
  let s1 := get_authors m s in
  let '(s', raised) := check_signature m s in
  raised = false /\ ds_domains s' = ds_domains s1 /\ dk_addresses (ds_me s') = dk_addresses (ds_me s1) /\ dk_checked (ds_me s') = true /\
  dk_match_adsp (ds_me s') = dk_match_adsp (ds_me s1) /\
  (dk_valid (ds_me s') = true <-> known m (ds_domains s1) /\ dm_verify m = Passed /\ dm_fields m = true) /\
  (dk_is_valid (ds_me s') = true <-> dm_verify m <> Failed) /\
  (dk_signed (ds_me s') = true <-> dm_signature m <> [] /\ (dm_tags m = Some None \/ known m (ds_domains s1))) /\
  (dk_author_sig (ds_me s') = true <-> (dm_tags m = Some None \/ known m (ds_domains s1)) /\ dm_verify m <> Rejected /\ dm_fields m = true) /\
  (dk_dependable (ds_me s') = true <-> dm_tags m = Some None \/ known m (ds_domains s1)).
Proof.
  intros [C1 C2] IV. assert (IV1 : dk_is_valid (ds_me (get_authors m s)) = true) by (unfold get_authors; destruct (ds_domains s); exact IV).
  cbv zeta. unfold check_signature. cbv zeta. set (s1 := get_authors m s) in *. unfold known, names.
  destruct (dm_tags m) as [[d|]|] eqn:T; [| |congruence].
  - destruct (mem_str d (ds_domains s1)) eqn:M.
    + apply mem_str_In in M. assert (K : exists d', Some (Some d) = Some (Some d') /\ In d' (ds_domains s1)) by (exists d; auto).
      destruct (dm_verify m) eqn:V, (dm_fields m) eqn:F; try congruence; destruct (dm_signature m);
        cbn; rewrite ?IV1; repeat split; intuition congruence.
    + assert (K : ~ exists d', Some (Some d) = Some (Some d') /\ In d' (ds_domains s1)).
      { intros (d' & E & H). injection E as <-. apply mem_str_In in H. congruence. }
      destruct (dm_verify m) eqn:V, (dm_fields m) eqn:F; try congruence;
        cbn; rewrite ?IV1; repeat split; intuition congruence.
  - assert (K : ~ exists d', @Some (option str) None = Some (Some d') /\ In d' (ds_domains s1)).
    { intros (d' & E & _). discriminate. }
    destruct (dm_verify m) eqn:V, (dm_fields m) eqn:F; try congruence; destruct (dm_signature m);
        cbn; rewrite ?IV1; repeat split; intuition congruence.
Qed.
Lemma known_first m : Forall plain_address (dm_from m) ->
  (known m (ds_domains (get_authors m new_process)) <-> exists d, names m d /\ author_domain m d).
Proof.
  intros F. rewrite first_domains. unfold known, author_domain. split; intros (d & H1 & H2); exists d; (split; [exact H1|]).
  - apply (authors_iff _ d F), H2.
  - apply (authors_iff _ d F), H2.
Qed.

Lemma iff_true (b : bool) (P : Prop) : (b = true <-> P) -> (b = true <-> P). Proof. tauto. Qed.

Lemma flag_rule_first (flag : dkim -> bool) mv ma m s : dk_checked (ds_me s) = false -> snd (check_signature m s) = false ->
  fst (flag_rule flag mv ma [] m s) = flag (ds_me (fst (check_signature m s))).
Proof.
  intros C R. unfold flag_rule, ensure. rewrite C. destruct (check_signature m s) as [s' r]. cbn in R. subst r. cbn [fst].
  destruct (flag (ds_me s')); reflexivity.
Qed.
Ltac first_check m s Hc :=
  let CF := fresh "CF" in
  pose proof (check_flags m s Hc eq_refl) as CF; cbv zeta in CF;
  destruct (check_signature m s) as [s' r] eqn:ES; destruct CF as (-> & Ed & Ea & Ech & Em & Hv & Hi & Hs & Hau & Hd).

Lemma valid_first m : Forall plain_address (dm_from m) -> checkable m ->
  (fst (check_dkim_valid [] m new_process) = true <-> properly_signed m).
Proof.
  intros F C. first_check m new_process C. unfold check_dkim_valid. rewrite flag_rule_first; [|reflexivity | rewrite ES; reflexivity].
  rewrite ES. cbn [fst]. rewrite Hv, (known_first m F). reflexivity.
Qed.
Lemma signed_first m : Forall plain_address (dm_from m) -> checkable m ->
  (fst (check_dkim_signed [] m new_process) = true <->
   dm_signature m <> [] /\ (dm_tags m = Some None \/ exists d, names m d /\ author_domain m d)).
Proof.
  intros F C. first_check m new_process C. unfold check_dkim_signed. rewrite flag_rule_first; [|reflexivity | rewrite ES; reflexivity].
  rewrite ES. cbn [fst]. rewrite Hs, (known_first m F). reflexivity.
Qed.
Lemma author_first m : Forall plain_address (dm_from m) -> checkable m ->
  (fst (check_dkim_valid_author_sig [] m new_process) = true <->
   (dm_tags m = Some None \/ exists d, names m d /\ author_domain m d) /\ dm_verify m <> Rejected /\ dm_fields m = true).
Proof.
  intros F C. first_check m new_process C. unfold check_dkim_valid_author_sig. rewrite flag_rule_first; [|reflexivity | rewrite ES; reflexivity].
  rewrite ES. cbn [fst]. rewrite Hau, (known_first m F). reflexivity.
Qed.
Lemma dependable_first m : Forall plain_address (dm_from m) -> checkable m ->
  (fst (check_dkim_dependable m new_process) = true <-> dm_tags m = Some None \/ exists d, names m d /\ author_domain m d).
Proof.
  intros F C. first_check m new_process C. unfold check_dkim_dependable, ensure. cbn [new_process ds_me dkim0 dk_checked].
  fold new_process. rewrite ES. cbn [fst]. rewrite Hd, (known_first m F). reflexivity.
Qed.

(** ** Later questions leave the flags alone *)
Definition same_flags (k k' : dkim) : Prop :=
  dk_checked k' = dk_checked k /\ dk_signed k' = dk_signed k /\ dk_valid k' = dk_valid k /\ dk_author_sig k' = dk_author_sig k /\
  dk_dependable k' = dk_dependable k /\ dk_is_valid k' = dk_is_valid k.
Lemma same_refl k : same_flags k k. Proof. repeat split. Qed.
Lemma same_trans a b c : same_flags a b -> same_flags b c -> same_flags a c.
Proof. unfold same_flags. intuition congruence. Qed.
Lemma get_authors_same m s : same_flags (ds_me s) (ds_me (get_authors m s)).
Proof. unfold get_authors. destruct (ds_domains s); repeat split. Qed.
Lemma signed_by_same m mv ma x s : same_flags (ds_me s) (ds_me (snd (signed_by m mv ma x s))).
Proof.
  unfold signed_by. destruct (dm_tags m) as [d|]; [|apply same_refl].
  destruct (_ && _ && _); [apply same_refl|]. destruct d as [d|]; [|apply same_refl]. destruct ma; cbn [andb].
  - destruct (negb _); apply get_authors_same.
  - apply same_refl.
Qed.
Lemma any_signed_by_same m mv ma args : forall s, same_flags (ds_me s) (ds_me (snd (any_signed_by m mv ma args s))).
Proof.
  induction args as [|x l IH]; intros s; [apply same_refl|]. cbn [any_signed_by].
  pose proof (signed_by_same m mv ma x s) as H. destruct (signed_by m mv ma x s) as [[[|]|] s']; cbn in H; [exact H | | exact H].
  exact (same_trans _ _ _ H (IH s')).
Qed.
Lemma flag_rule_same flag mv ma args m s : dk_checked (ds_me s) = true -> same_flags (ds_me s) (ds_me (snd (flag_rule flag mv ma args m s))).
Proof.
  intros C. unfold flag_rule, ensure. rewrite C. destruct (negb (flag (ds_me s))); [apply same_refl|].
  destruct args; [apply same_refl | apply any_signed_by_same].
Qed.
Lemma ask_same q m s : dk_checked (ds_me s) = true -> same_flags (ds_me s) (ds_me (snd (ask q m s))).
Proof.
  intros C. destruct q as [args|args|args| |u e|u o p d]; cbn [ask].
  - pose proof (flag_rule_same dk_signed false false args m s C) as H. unfold check_dkim_signed. destruct (flag_rule _ _ _ _ _ _). exact H.
  - pose proof (flag_rule_same dk_valid true false args m s C) as H. unfold check_dkim_valid. destruct (flag_rule _ _ _ _ _ _). exact H.
  - pose proof (flag_rule_same dk_author_sig true true args m s C) as H. unfold check_dkim_valid_author_sig. destruct (flag_rule _ _ _ _ _ _). exact H.
  - unfold check_dkim_dependable, ensure. rewrite C. apply same_refl.
  - unfold check_whitelist, ensure. rewrite C. destruct (negb _); [apply same_refl|]. destruct (parse_input _ _ _); apply same_refl.
  - unfold check_dkim_adsp, ensure. rewrite C. destruct (dk_valid _); [apply same_refl|]. destruct (Nat.ltb _ _); [apply same_refl|].
    destruct (parse_input _ _ _) as [items|]; [|apply same_refl]. destruct (adsp_authors _ _ _ _) as [[| |]|]; repeat split.
Qed.
Lemma asked_same l : forall s, dk_checked (ds_me s) = true -> same_flags (ds_me s) (ds_me (asked l s)).
Proof.
  induction l as [|[q m] l IH]; intros s C; [apply same_refl|]. cbn [asked]. pose proof (ask_same q m s C) as H.
  refine (same_trans _ _ _ H (IH _ _)). destruct H as [-> _]. exact C.
Qed.

(** The state a first question leaves, seen from its flags *)
Lemma flag_rule_sets flag mv ma args m s : dk_checked (ds_me s) = false -> dk_checked (ds_me (fst (check_signature m s))) = true ->
  same_flags (ds_me (fst (check_signature m s))) (ds_me (snd (flag_rule flag mv ma args m s))).
Proof.
  intros C C'. unfold flag_rule, ensure. rewrite C. destruct (check_signature m s) as [s' r]. cbn [fst] in *. destruct r; [apply same_refl|].
  destruct (negb (flag (ds_me s'))); [apply same_refl|]. destruct args; [apply same_refl | apply any_signed_by_same].
Qed.
Lemma check_signature_checked m s : dk_checked (ds_me (fst (check_signature m s))) = true.
Proof.
  unfold check_signature. cbv zeta. destruct (dm_tags m) as [[d|]|]; [| |reflexivity].
  - destruct (mem_str d _); destruct (dm_verify m); try reflexivity; destruct (dm_fields m); reflexivity.
  - destruct (dm_verify m); try reflexivity; destruct (dm_fields m); reflexivity.
Qed.
Lemma ask_sets q m s : dk_checked (ds_me s) = false -> same_flags (ds_me (fst (check_signature m s))) (ds_me (snd (ask q m s))).
Proof.
  intros C. pose proof (check_signature_checked m s) as C'. destruct q as [args|args|args| |u e|u o p d]; cbn [ask].
  - pose proof (flag_rule_sets dk_signed false false args m s C C') as H. unfold check_dkim_signed. destruct (flag_rule _ _ _ _ _ _). exact H.
  - pose proof (flag_rule_sets dk_valid true false args m s C C') as H. unfold check_dkim_valid. destruct (flag_rule _ _ _ _ _ _). exact H.
  - pose proof (flag_rule_sets dk_author_sig true true args m s C C') as H. unfold check_dkim_valid_author_sig. destruct (flag_rule _ _ _ _ _ _). exact H.
  - unfold check_dkim_dependable, ensure. rewrite C. destruct (check_signature m s) as [s' [|]]; apply same_refl.
  - unfold check_whitelist, ensure. rewrite C. destruct (check_signature m s) as [s' [|]]; cbn [fst snd]; [apply same_refl|].
    destruct (negb _); [apply same_refl|]. destruct (parse_input _ _ _); apply same_refl.
  - unfold check_dkim_adsp, ensure. rewrite C. destruct (check_signature m s) as [s' [|]]; cbn [fst snd]; [apply same_refl|].
    destruct (dk_valid _); [apply same_refl|]. destruct (Nat.ltb _ _); [apply same_refl|].
    destruct (parse_input _ _ _) as [items|]; [|apply same_refl]. destruct (adsp_authors _ _ _ _) as [[| |]|]; repeat split.
Qed.
Lemma asked_flags q m l s : dk_checked (ds_me s) = false -> same_flags (ds_me (fst (check_signature m s))) (ds_me (asked ((q, m) :: l) s)).
Proof.
  intros C. pose proof (ask_sets q m s C) as H. pose proof (check_signature_checked m s) as C'. cbn [asked].
  refine (same_trans _ _ _ H (asked_same l _ _)). destruct H as [-> _]. exact C'.
Qed.
Lemma flag_rule_later flag mv ma m s : dk_checked (ds_me s) = true -> fst (flag_rule flag mv ma [] m s) = flag (ds_me s).
Proof. intros C. unfold flag_rule, ensure. rewrite C. destruct (flag (ds_me s)); reflexivity. Qed.

Lemma valid_sticky q m l m' : checkable m ->
  fst (check_dkim_valid [] m' (asked ((q, m) :: l) new_process)) = fst (check_dkim_valid [] m new_process).
Proof.
  intros C. destruct (asked_flags q m l new_process eq_refl) as (E1 & _ & E2 & _). rewrite check_signature_checked in E1.
  unfold check_dkim_valid. rewrite flag_rule_later by exact E1. rewrite flag_rule_first; [exact E2 | reflexivity|].
  first_check m new_process C. reflexivity.
Qed.

(** ** Checks that raise *)
Lemma raised_false q m s : dk_checked (ds_me s) = false -> ~ checkable m -> fst (ask q m s) = Some false.
Proof.
  intros C H. assert (R : snd (check_signature m s) = true).
  { unfold check_signature. cbv zeta. unfold checkable in H. destruct (dm_tags m) as [d|]; [|reflexivity].
    assert (V : dm_verify m = Raised). { destruct (dm_verify m); try reflexivity; exfalso; apply H; split; discriminate. }
    rewrite V. destruct d as [d|]; [destruct (mem_str d _)|]; reflexivity. }
  destruct q as [args|args|args| |u e|u o p d]; cbn [ask];
    unfold check_dkim_signed, check_dkim_valid, check_dkim_valid_author_sig, flag_rule, check_dkim_dependable, check_whitelist, check_dkim_adsp, ensure;
    rewrite C; destruct (check_signature m s) as [s' r]; cbn [snd] in R; subst r; reflexivity.
Qed.
Lemma malformed_flags m s : dm_tags m = None ->
  dk_valid (ds_me (fst (check_signature m s))) = true /\ dk_author_sig (ds_me (fst (check_signature m s))) = true /\
  dk_dependable (ds_me (fst (check_signature m s))) = true.
Proof. intros T. unfold check_signature. rewrite T. repeat split. Qed.
Lemma malformed_valid q m l m' : dm_tags m = None ->
  fst (check_dkim_valid [] m' (asked ((q, m) :: l) new_process)) = true /\
  fst (check_dkim_valid_author_sig [] m' (asked ((q, m) :: l) new_process)) = true /\
  fst (check_dkim_dependable m' (asked ((q, m) :: l) new_process)) = true.
Proof.
  intros T. destruct (asked_flags q m l new_process eq_refl) as (E1 & _ & E2 & E3 & E4 & _). rewrite check_signature_checked in E1.
  destruct (malformed_flags m new_process T) as (H1 & H2 & H3). unfold check_dkim_valid, check_dkim_valid_author_sig.
  rewrite !flag_rule_later by exact E1. repeat split; [congruence | congruence|].
  unfold check_dkim_dependable, ensure. rewrite E1. cbn [fst]. congruence.
Qed.
Lemma unanswered_valid q m l m' d : Forall plain_address (dm_from m) -> names m d -> author_domain m d -> dm_verify m = Raised ->
  fst (check_dkim_valid [] m' (asked ((q, m) :: l) new_process)) = true.
Proof.
  intros F N A V. destruct (asked_flags q m l new_process eq_refl) as (E1 & _ & E2 & _). rewrite check_signature_checked in E1.
  unfold check_dkim_valid. rewrite flag_rule_later by exact E1. rewrite E2. unfold check_signature, names in *. cbv zeta. rewrite N.
  rewrite first_domains. assert (M : mem_str d (authors (dm_from m)) = true) by (apply mem_str_In, (authors_iff _ d F), A).
  rewrite M, V. reflexivity.
Qed.

(** ** Another context *)
Lemma other_context l m : l <> [] -> checkable m ->
  (fst (check_dkim_valid [] m (new_context l)) = true <->
   (exists d, names m d /\ In d l) /\ dm_verify m = Passed /\ dm_fields m = true).
Proof.
  intros NE C. first_check m (new_context l) C. unfold check_dkim_valid. rewrite flag_rule_first; [|reflexivity | rewrite ES; reflexivity].
  rewrite ES. cbn [fst]. rewrite Hv. unfold known, get_authors. destruct l; [congruence|]. reflexivity.
Qed.

(** ** The lists *)
Lemma star_key_one p : star_key p = concat (map (fun c => if N.eqb c 42 then [46%N; 42%N] else [c]) p).
Proof. unfold star_key. change ($"*") with [42%N]. change ($".*") with [46%N; 42%N]. apply replace_one. Qed.
Lemma star_key_inj p : forall q, star_key p = star_key q -> p = q.
Proof.
  induction p as [|c p IH]; intros [|e q]; rewrite !star_key_one; cbn [map concat]; try reflexivity.
  - destruct (N.eqb e 42); discriminate.
  - destruct (N.eqb c 42); discriminate.
  - destruct (N.eqb_spec c 42) as [-> | Hc], (N.eqb_spec e 42) as [-> | He]; cbn [app]; intros E.
    + injection E as E. f_equal. apply IH. rewrite !star_key_one. exact E.
    + injection E as E1 E2. destruct q as [|x q]; [discriminate|]. cbn [map concat] in E2. destruct (N.eqb_spec x 42) as [-> | Hx]; cbn [app] in E2; [discriminate | congruence].
    + injection E as E1 E2. destruct p as [|x p]; [discriminate|]. cbn [map concat] in E2. destruct (N.eqb_spec x 42) as [-> | Hx]; cbn [app] in E2; [discriminate | congruence].
    + injection E as -> E. f_equal. apply IH. rewrite !star_key_one. exact E.
Qed.

Definition loose_item (c : char) : list item :=
  if N.eqb c 42 then [(None, QStar)] else if N.eqb c 46 then [(None, QOne)] else [(Some c, QOne)].
Definition loose_toks (c : char) : list tok :=
  if N.eqb c 42 then [TDot; TStar] else if N.eqb c 46 then [TDot] else [TLit c].
Lemma loose_compile p : plain_pattern p -> re_compile (star_key p) = Some (concat (map loose_item p)).
Proof.
  intros H. assert (T : re_tokens (star_key p) = Some (concat (map loose_toks p))).
  { rewrite star_key_one. induction p as [|c p IH]; [reflexivity|]. cbn [map concat].
    apply re_tokens_app; [|apply IH; intros x Hx; apply H; right; exact Hx]. unfold loose_toks.
    destruct (N.eqb_spec c 42) as [-> | H42]; [reflexivity|]. destruct (N.eqb_spec c 46) as [-> | H46]; [reflexivity|].
    assert (S : mem_char c re_special = false).
    { apply mem_char_notIn. destruct (H c (or_introl eq_refl)) as [E | [E | E]]; congruence. }
    cbn [re_tokens]. apply N.eqb_neq in H42, H46. rewrite H42, H46, S.
    assert (S2 : N.eqb c 92 = false /\ N.eqb c 63 = false).
    { apply mem_char_notIn in S. split; apply N.eqb_neq; intros ->; apply S; vm_compute; tauto. }
    destruct S2 as [-> ->]. reflexivity. }
  unfold re_compile. rewrite T. clear T H.
  assert (K : headed (concat (map loose_toks p)) /\ re_items (concat (map loose_toks p)) = Some (concat (map loose_item p))); [|apply K].
  induction p as [|c p [I1 I2]]; [split; [exact I | reflexivity]|]. cbn [map concat]. unfold loose_toks at 1 3, loose_item at 1.
  destruct (N.eqb c 42); [split; [exact I|]; cbn [app re_items]; rewrite I2; reflexivity|].
  destruct (N.eqb c 46); (split; [exact I|]); cbn [app re_items]; rewrite I2; destruct (concat (map loose_toks p)) as [|[| | |] ?]; cbn in I1; try contradiction; reflexivity.
Qed.
Lemma loosely_den p : forall w, den (concat (map loose_item p)) w <-> loosely p w.
Proof.
  induction p as [|c p IH]; intros w; [reflexivity|]. cbn [map concat loosely]. rewrite den_app. unfold loose_item at 1.
  assert (K : forall a, den (if N.eqb c 42 then [(None, QStar)] else if N.eqb c 46 then [(None, QOne)] else [(Some c, QOne)]) a <->
    (if N.eqb c 42 then ~ In 10%N a else if N.eqb c 46 then exists d, a = [d] /\ d <> 10%N else a = [c])).
  { intros a. destruct (N.eqb c 42); [apply star_any|]. destruct (N.eqb c 46); rewrite den_one; unfold item_lang; cbn [snd fst atom_ok].
    - split; intros (d & -> & H); exists d; (split; [reflexivity|]); [apply negb_true_iff, N.eqb_neq in H; exact H | apply negb_true_iff, N.eqb_neq; exact H].
    - split; [intros (d & -> & H); apply N.eqb_eq in H; congruence | intros ->; exists c; split; [reflexivity | apply N.eqb_refl]]. }
  split; intros (a & b & -> & H1 & H2); exists a, b; (split; [reflexivity|]).
  - split; [apply IH, H2 | apply K, H1].
  - split; [apply K, H2 | apply IH, H1].
Qed.
Lemma match_loose p a : plain_pattern p -> exists b, re_match_text (star_key p) a = Some b /\ (b = true <-> begins_like p a).
Proof.
  intros H. unfold re_match_text. rewrite (loose_compile p H). cbn [option_map]. eexists. split; [reflexivity|].
  rewrite re_match_den. unfold begins_like. split; intros (w & y & -> & D); exists w, y; (split; [reflexivity|]); apply loosely_den, D.
Qed.
Lemma search_loose p a : plain_pattern p -> exists b, re_search (star_key p) a = Some b /\ (b = true <-> has_like p a).
Proof.
  intros H. unfold re_search. rewrite (loose_compile p H). cbn [option_map]. eexists. split; [reflexivity|].
  rewrite search_items_den. unfold has_like. split; intros (x & w & y & -> & D); exists x, w, y; (split; [reflexivity|]); apply loosely_den, D.
Qed.

(** What [parse_input] makes of a list *)
Lemma parse_snoc u l : forall d e, parse_input u (l ++ [e]) d =
  match parse_input u l d with None => None | Some d' => parse_input u [e] d' end.
Proof.
  induction l as [|x l IH]; intros d e; [reflexivity|]. cbn [app parse_input]. destruct (words x) as [|p doms]; [reflexivity|].
  destruct (mem_str p u); rewrite IH; reflexivity.
Qed.
Lemma parse_exact u entries : plain_list entries -> exists d, parse_input u entries [] = Some d /\ NoDup (dkeys d) /\
  (forall k v, In (k, v) d <-> exists p, k = star_key p /\ listed u entries p v).
Proof.
  induction entries as [|e l IH] using rev_ind; intros PL.
  - exists []. split; [reflexivity|]. split; [constructor|]. intros k v. split; [intros [] | intros (p & _ & l1 & e & l2 & doms & E & _)].
    destruct l1; discriminate.
  - destruct IH as (d & E & ND & HD); [intros x Hx; apply PL, in_or_app; left; exact Hx|].
    destruct (PL e) as (p & doms & W & _); [apply in_or_app; right; left; reflexivity|].
    rewrite parse_snoc, E. cbn [parse_input]. rewrite W.
    assert (Old : forall q v, q <> p -> (listed u (l ++ [e]) q v <-> listed u l q v)).
    { intros q v Hq. split.
      - intros (l1 & e' & l2 & ds & E2 & W2 & V2 & L2 & U2). destruct l2 as [|z l2] using rev_ind.
        + apply app_inj_tail in E2 as [-> ->]. congruence.
        + change (l1 ++ e' :: l2 ++ [z]) with (l1 ++ (e' :: l2) ++ [z]) in E2. rewrite app_assoc in E2. apply app_inj_tail in E2 as [-> ->].
          exists l1, e', l2, ds. repeat split; try assumption. intros x Hx. apply L2, in_or_app. left. exact Hx.
      - intros (l1 & e' & l2 & ds & -> & W2 & V2 & L2 & U2). exists l1, e', (l2 ++ [e]), ds. rewrite <- app_assoc. repeat split; try assumption.
        intros x Hx. apply in_app_or in Hx as [Hx | [<- | []]]; [apply L2, Hx|]. rewrite W. cbn. congruence. }
    assert (New : forall v, ~ In p u -> (listed u (l ++ [e]) p v <-> v = last doms [])).
    { intros v Hp. split.
      - intros (l1 & e' & l2 & ds & E2 & W2 & V2 & L2 & U2). destruct l2 as [|z l2] using rev_ind.
        + apply app_inj_tail in E2 as [-> ->]. congruence.
        + change (l1 ++ e' :: l2 ++ [z]) with (l1 ++ (e' :: l2) ++ [z]) in E2. rewrite app_assoc in E2. apply app_inj_tail in E2 as [-> ->].
          exfalso. apply (L2 z); [apply in_or_app; right; left; reflexivity | rewrite W; reflexivity].
      - intros ->. exists l, e, [], doms. repeat split; try assumption. intros x []. }
    destruct (mem_str p u) eqn:U.
    + apply mem_str_In in U. exists d. split; [reflexivity|]. split; [exact ND|]. intros k v. rewrite HD.
      split; intros (q & -> & L); exists q; (split; [reflexivity|]).
      * apply Old; [|exact L]. intros ->. destruct L as (? & ? & ? & ? & _ & _ & _ & _ & U2). exact (U2 U).
      * apply Old; [|exact L]. intros ->. destruct L as (? & ? & ? & ? & _ & _ & _ & _ & U2). exact (U2 U).
    + assert (Hp : ~ In p u) by (intros H; apply mem_str_In in H; congruence).
      exists (dset (star_key p) (last doms []) d). split; [reflexivity|]. split; [apply dset_NoDup, ND|].
      intros k v. split.
      * intros H. apply In_dget in H; [|apply dset_NoDup, ND]. rewrite dget_dset in H. destruct (streqb_spec (star_key p) k) as [<- | NE].
        -- injection H as <-. exists p. split; [reflexivity|]. apply New; [exact Hp | reflexivity].
        -- apply dget_In, HD in H as (q & -> & L). exists q. split; [reflexivity|]. apply Old; [congruence | exact L].
      * intros (q & -> & L). apply dget_In. rewrite dget_dset. destruct (streqb_spec (star_key p) (star_key q)) as [EQ | NE].
        -- apply star_key_inj in EQ as <-. apply New in L; [|exact Hp]. congruence.
        -- apply In_dget; [exact ND|]. apply HD. exists q. split; [reflexivity|]. apply Old; [congruence | exact L].
Qed.
Lemma listed_plain u entries p v : plain_list entries -> listed u entries p v -> plain_pattern p.
Proof.
  intros PL (l1 & e & l2 & doms & -> & W & _). destruct (PL e) as (q & ds & W2 & P); [apply in_or_app; right; left; reflexivity|].
  rewrite W in W2. injection W2 as -> _. exact P.
Qed.

Lemma wl_address_exact domains a items : (forall k v, In (k, v) items -> exists p, k = star_key p /\ plain_pattern p) ->
  exists b, wl_address domains items a = Some b /\
  (b = true <-> exists p v, In (star_key p, v) items /\ begins_like p a /\ (v = [] \/ In v domains)).
Proof.
  induction items as [|[k v] items IH]; intros PL.
  - exists false. split; [reflexivity|]. split; [discriminate | intros (p & v & [] & _)].
  - destruct IH as (b & E & H); [intros k' v' Hk; apply (PL k' v'); right; exact Hk|].
    destruct (PL k v (or_introl eq_refl)) as (p & -> & PP). destruct (match_loose p a PP) as (bm & Em & Hm).
    cbn [wl_address]. rewrite Em.
    assert (V : (match v with [] => true | _ => mem_str v domains end) = true <-> (v = [] \/ In v domains)).
    { destruct v; [tauto|]. rewrite mem_str_In. split; [tauto | intros [? | ?]; [discriminate | assumption]]. }
    set (vb := match v with [] => true | _ => mem_str v domains end) in *.
    destruct (bm && vb) eqn:B.
    + apply andb_true_iff in B as [-> B]. exists true. split; [reflexivity|]. split; [intros _|reflexivity].
      exists p, v. split; [left; reflexivity|]. split; [apply Hm; reflexivity | apply V, B].
    + exists b. split; [exact E|]. rewrite H. split.
      * intros (q & w & Hin & Hb & Hv). exists q, w. split; [right; exact Hin | auto].
      * intros (q & w & [Hin | Hin] & Hb & Hv); [|exists q, w; auto]. injection Hin as E1 <-. apply star_key_inj in E1 as <-.
        apply Hm in Hb. apply V in Hv. rewrite Hb, Hv in B. discriminate.
Qed.
Lemma wl_addresses_exact domains items l : (forall k v, In (k, v) items -> exists p, k = star_key p /\ plain_pattern p) ->
  exists b, wl_addresses domains items l = Some b /\
  (b = true <-> exists a p v, In a l /\ In (star_key p, v) items /\ begins_like p a /\ (v = [] \/ In v domains)).
Proof.
  intros PL. induction l as [|a l (b & E & H)].
  - exists false. split; [reflexivity|]. split; [discriminate | intros (a & p & v & [] & _)].
  - cbn [wl_addresses]. destruct (wl_address_exact domains a items PL) as ([|] & -> & H1).
    + exists true. split; [reflexivity|]. split; [intros _|reflexivity]. destruct (proj1 H1 eq_refl) as (p & v & Hp). exists a, p, v. split; [left; reflexivity | exact Hp].
    + exists b. split; [exact E|]. rewrite H. split.
      * intros (a' & p & v & Hin & Hp). exists a', p, v. split; [right; exact Hin | exact Hp].
      * intros (a' & p & v & [<- | Hin] & Hp); [|exists a', p, v; auto]. exfalso. assert (false = true) by (apply H1; exists p, v; exact Hp). discriminate.
Qed.

Lemma whitelist_exact u entries m : Forall plain_address (dm_from m) -> checkable m -> plain_list entries ->
  exists b, fst (check_whitelist u entries m new_process) = Some b /\
  (b = true <-> properly_signed m /\
     exists a p v, In a (dm_from m) /\ listed u entries p v /\ begins_like p a /\ (v = [] \/ author_domain m v)).
Proof.
  intros F C PL. pose proof (valid_first m F C) as VF. unfold check_dkim_valid in VF. revert VF. first_check m new_process C.
  rewrite flag_rule_first; [|reflexivity | rewrite ES; reflexivity]. rewrite ES. cbn [fst]. intros VF.
  unfold check_whitelist, ensure. change (dk_checked (ds_me new_process)) with false. cbv iota. rewrite ES.
  destruct (dk_valid (ds_me s')) eqn:V; cbn [negb].
  - destruct (parse_exact u entries PL) as (d & -> & ND & HD). cbn [fst]. rewrite Ed, Ea, first_addresses, first_domains.
    destruct (wl_addresses_exact (authors (dm_from m)) d (dm_from m)) as (b & -> & H).
    { intros k v Hin. apply HD in Hin as (p & -> & L). exists p. split; [reflexivity | exact (listed_plain u entries p v PL L)]. }
    exists b. split; [reflexivity|]. rewrite H. split.
    + intros (a & p & v & Ha & Hin & Hb & Hw). split; [apply VF; reflexivity|]. exists a, p, v.
      apply HD in Hin as (q & EQ & L). apply star_key_inj in EQ as <-. repeat split; try assumption.
      destruct Hw as [-> | Hw]; [left; reflexivity | right; apply (authors_iff _ v F), Hw].
    + intros (_ & a & p & v & Ha & L & Hb & Hw). exists a, p, v. split; [exact Ha|]. split; [apply HD; exists p; auto|]. split; [exact Hb|].
      destruct Hw as [-> | Hw]; [left; reflexivity | right; apply (authors_iff _ v F), Hw].
  - exists false. split; [reflexivity|]. split; [discriminate|]. intros [P _]. apply VF in P. discriminate.
Qed.

Lemma whitelist_other_context l u entries m : l <> [] -> checkable m -> plain_list entries ->
  fst (check_whitelist u entries m (new_context l)) = Some false.
Proof.
  intros NE C PL. first_check m (new_context l) C. unfold check_whitelist, ensure. change (dk_checked (ds_me (new_context l))) with false. cbv iota. rewrite ES.
  destruct (negb _); [reflexivity|]. destruct (parse_exact u entries PL) as (d & -> & _). rewrite Ea. unfold get_authors. destruct l; [congruence|]. reflexivity.
Qed.

(** ** Acceptable domains *)
Lemma accepts_iff x d : accepts x d = true <-> exists t, last_two x t /\ occurs t d.
Proof.
  unfold accepts, last_two, occurs. split.
  - destruct (rev (split_char 46%N x)) as [|b [|a l]] eqn:E; try discriminate. intros H. apply contains_app in H as (p & q & ->).
    exists (a ++ $"." ++ b). split; [|exists p, q; reflexivity]. exists (rev l), a, b.
    assert (R : split_char 46%N x = rev l ++ [a; b]).
    { rewrite <- (rev_involutive (split_char 46%N x)), E. cbn [rev]. rewrite <- app_assoc. reflexivity. }
    split; [rewrite <- R; symmetry; apply (join_split_char 46%N x)|]. split; [|reflexivity].
    intros y Hy. rewrite <- R in Hy. eapply split_char_no_sep. exact Hy.
  - intros (t & (pre & a & b & -> & N1 & ->) & p & q & ->).
    pose proof (split_char_join 46%N (pre ++ [a; b])) as S. change ($".") with [46%N]. rewrite S.
    + rewrite rev_app_distr. cbn [rev app]. apply contains_app. exists p, q. reflexivity.
    + destruct pre; discriminate.
    + apply Forall_forall. exact N1.
Qed.

(** Whether an argument is accepted, once the flag is set *)
Lemma any_signed_by_iff m mv ma args : forall s, dm_tags m <> None -> (mv = true -> dk_is_valid (ds_me s) = true) -> ma = false ->
  (fst (any_signed_by m mv ma args s) = true <-> exists x d, In x args /\ names m d /\ accepts x d = true).
Proof.
  induction args as [|x args IH]; intros s T V MA; cbn [any_signed_by].
  - split; [discriminate | intros (x & d & [] & _)].
  - unfold signed_by. subst ma. unfold names in *. destruct (dm_tags m) as [d|] eqn:E; [|congruence].
    assert (G : mv && negb (match x with [] => true | _ => false end) && negb (dk_is_valid (ds_me s)) = false).
    { destruct mv; [rewrite V by reflexivity; apply andb_false_r | reflexivity]. }
    rewrite G. destruct d as [d|]; cbn [andb].
    + destruct (accepts x d) eqn:A.
      * split; [intros _|reflexivity]. exists x, d. split; [left; reflexivity | split; [reflexivity | exact A]].
      * rewrite IH by (congruence || exact V || reflexivity). split.
        -- intros (y & d' & Hy & H). exists y, d'. split; [right; exact Hy | exact H].
        -- intros (y & d' & [<- | Hy] & H); [|exists y, d'; auto]. destruct H as [Ed H]. injection Ed as <-. congruence.
    + rewrite IH by (congruence || exact V || reflexivity). split.
      * intros (y & d' & _ & H & _). discriminate.
      * intros (y & d' & _ & H & _). discriminate.
Qed.
Lemma valid_for m args : args <> [] -> Forall plain_address (dm_from m) -> checkable m ->
  (fst (check_dkim_valid args m new_process) = true <->
   properly_signed m /\ exists x d t, In x args /\ names m d /\ last_two x t /\ occurs t d).
Proof.
  intros NE F C. pose proof (valid_first m F C) as VF. unfold check_dkim_valid in VF. revert VF. first_check m new_process C.
  rewrite flag_rule_first; [|reflexivity | rewrite ES; reflexivity]. rewrite ES. cbn [fst]. intros VF.
  unfold check_dkim_valid, flag_rule, ensure. change (dk_checked (ds_me new_process)) with false. cbv iota. rewrite ES.
  destruct (dk_valid (ds_me s')) eqn:V; cbn [negb].
  - destruct args as [|x0 args0] eqn:EA; [congruence|]. rewrite <- EA in *. clear NE EA.
    pose proof (proj1 VF eq_refl) as PS. rewrite any_signed_by_iff.
    + split.
      * intros (x & d & Hx & N1 & A). split; [exact PS|]. apply accepts_iff in A as (t & L & O). exists x, d, t. auto.
      * intros (_ & x & d & t & Hx & N1 & L & O). exists x, d. split; [exact Hx|]. split; [exact N1|]. apply accepts_iff. exists t. auto.
    + apply C.
    + intros _. apply Hi. destruct PS as (_ & -> & _). discriminate.
    + reflexivity.
  - split; [discriminate|]. intros [P _]. apply VF in P. discriminate.
Qed.

(** ** Practices *)
Lemma adsp_scan_exact c name a items : dget c adsp_options = Some name -> name <> [] ->
  (forall k v, In (k, v) items -> exists p, k = star_key p /\ plain_pattern p) ->
  exists b, adsp_scan c a items = Some (if b : bool then Hit else GoOn) /\
  (b = true <-> exists p v, In (star_key p, v) items /\ has_like p a /\ lower v = name).
Proof.
  intros HC HN. induction items as [|[k v] items IH]; intros PL.
  - exists false. split; [reflexivity|]. split; [discriminate | intros (p & v & [] & _)].
  - destruct IH as (b & E & H); [intros k' v' Hk; apply (PL k' v'); right; exact Hk|].
    destruct (PL k v (or_introl eq_refl)) as (p & -> & PP). destruct (search_loose p a PP) as (bm & Em & Hm).
    cbn [adsp_scan]. rewrite Em, HC.
    assert (Skip : (bm = true -> lower v = name -> False) ->
       (b = true <-> exists q w, In (star_key q, w) ((star_key p, v) :: items) /\ has_like q a /\ lower w = name)).
    { intros S. rewrite H. split.
      - intros (q & w & Hin & Hb). exists q, w. split; [right; exact Hin | auto].
      - intros (q & w & [Hin | Hin] & Hb & Hw); [|exists q, w; auto]. injection Hin as E1 <-. apply star_key_inj in E1 as <-.
        exfalso. apply S; [apply Hm, Hb | exact Hw]. }
    destruct bm; cbn [andb].
    + destruct v as [|x v'] eqn:EV.
      * exists b. split; [exact E|]. apply Skip. intros _ L. cbn in L. congruence.
      * rewrite <- EV in *. destruct (streqb_spec name (lower v)) as [EQ | NE].
        -- exists true. split; [reflexivity|]. split; [intros _|reflexivity]. exists p, v. split; [left; reflexivity|]. split; [apply Hm; reflexivity | congruence].
        -- exists b. split; [exact E|]. apply Skip. congruence.
    + exists b. split; [exact E|]. apply Skip. discriminate.
Qed.
Lemma only_iff only a : (match only with [] => false | _ => negb (streqb only a) end) = false <-> (only = [] \/ only = a).
Proof.
  destruct only as [|c r]; [tauto|]. rewrite negb_false_iff. split.
  - intros H. right. apply streqb_eq, H.
  - intros [H | ->]; [discriminate | apply streqb_eq; reflexivity].
Qed.
Lemma adsp_authors_exact c name only items l : dget c adsp_options = Some name -> name <> [] ->
  streqb c ($"D") = false -> streqb c ($"*") = false ->
  (forall k v, In (k, v) items -> exists p, k = star_key p /\ plain_pattern p) ->
  exists b, adsp_authors c only items l = Some (if b : bool then Hit else GoOn) /\
  (b = true <-> exists a p v, In a l /\ (only = [] \/ only = a) /\ In (star_key p, v) items /\ has_like p a /\ lower v = name).
Proof.
  intros HC HN ND NS PL. induction l as [|a l (b & E & H)].
  - exists false. split; [reflexivity|]. split; [discriminate | intros (a & p & v & [] & _)].
  - cbn [adsp_authors]. pose proof (only_iff only a) as O. destruct (match only with [] => false | _ => negb (streqb only a) end).
    + exists b. split; [exact E|]. rewrite H. split.
      * intros (a' & p & v & Hin & Hp). exists a', p, v. split; [right; exact Hin | exact Hp].
      * intros (a' & p & v & [<- | Hin] & Ho & Hp); [apply O in Ho; discriminate | exists a', p, v; auto].
    + rewrite ND, andb_false_r, NS. destruct (adsp_scan_exact c name a items HC HN PL) as ([|] & -> & H1).
      * exists true. split; [reflexivity|]. split; [intros _|reflexivity]. destruct (proj1 H1 eq_refl) as (p & v & Hp). exists a, p, v.
        split; [left; reflexivity|]. split; [apply O; reflexivity | exact Hp].
      * exists b. split; [exact E|]. rewrite H. split.
        -- intros (a' & p & v & Hin & Hp). exists a', p, v. split; [right; exact Hin | exact Hp].
        -- intros (a' & p & v & [<- | Hin] & Ho & Hp); [|exists a', p, v; auto]. exfalso. assert (false = true) by (apply H1; exists p, v; exact Hp). discriminate.
Qed.

Lemma adsp_named u overrides c name only m : practice_name c name -> Forall plain_address (dm_from m) -> checkable m -> plain_list overrides ->
  exists b, fst (check_dkim_adsp u overrides c only m new_process) = Some b /\
  (b = true <-> ~ properly_signed m /\ length overrides <= 3 /\
     exists d p v, concerned m only d /\ listed u overrides p v /\ has_like p d /\ lower v = name).
Proof.
  intros PN F C PL. pose proof (valid_first m F C) as VF. unfold check_dkim_valid in VF. revert VF. first_check m new_process C.
  rewrite flag_rule_first; [|reflexivity | rewrite ES; reflexivity]. rewrite ES. cbn [fst]. intros VF.
  unfold check_dkim_adsp, ensure. change (dk_checked (ds_me new_process)) with false. cbv iota. rewrite ES.
  destruct (dk_valid (ds_me s')) eqn:V.
  { exists false. split; [reflexivity|]. split; [discriminate|]. intros [P _]. exfalso. apply P, VF. reflexivity. }
  destruct (Nat.ltb_spec 3 (length overrides)) as [L | L].
  { exists false. split; [reflexivity|]. split; [discriminate|]. intros (_ & L' & _). lia. }
  destruct (parse_exact u overrides PL) as (d & -> & ND & HD). rewrite Ed, first_domains.
  assert (Facts : dget c adsp_options = Some name /\ name <> [] /\ streqb c ($"D") = false /\ streqb c ($"*") = false /\ streqb c ($"U") = false).
  { destruct PN as [[-> ->] | [[-> ->] | [[-> ->] | [[-> ->] | [-> ->]]]]]; repeat split; try reflexivity; discriminate. }
  destruct Facts as (F1 & F2 & F3 & F4 & F5).
  destruct (adsp_authors_exact c name only d (authors (dm_from m)) F1 F2 F3 F4) as (b & -> & H).
  { intros k v Hin. apply HD in Hin as (p & -> & LL). exists p. split; [reflexivity | exact (listed_plain u overrides p v PL LL)]. }
  exists b. split; [destruct b; cbn [fst]; [reflexivity | rewrite F5, andb_false_r; reflexivity]|].
  rewrite H. split.
  - intros (a & p & v & Ha & Ho & Hin & Hk & Hl). split; [intros P; apply VF in P; discriminate|]. split; [exact L|].
    apply HD in Hin as (q & EQ & LL). apply star_key_inj in EQ as <-. exists a, p, v. split; [split; [apply (authors_iff _ a F), Ha | exact Ho] | auto].
  - intros (_ & _ & a & p & v & [Ha Ho] & LL & Hk & Hl). exists a, p, v. split; [apply (authors_iff _ a F), Ha|]. split; [exact Ho|].
    split; [apply HD; exists p; auto | auto].
Qed.
(** Without overrides *)
Lemma adsp_authors_D only l : exists b, adsp_authors ($"D") only [] l = Some (if b : bool then Hit else GoOn) /\
  (b = true <-> exists a, In a l /\ (only = [] \/ only = a)).
Proof.
  induction l as [|a l (b & E & H)].
  - exists false. split; [reflexivity|]. split; [discriminate | intros (a & [] & _)].
  - cbn [adsp_authors]. pose proof (only_iff only a) as O. destruct (match only with [] => false | _ => negb (streqb only a) end).
    + exists b. split; [exact E|]. rewrite H. split.
      * intros (a' & Hin & Hp). exists a'. split; [right; exact Hin | exact Hp].
      * intros (a' & [<- | Hin] & Ho); [apply O in Ho; discriminate | exists a'; auto].
    + exists true. split; [reflexivity|]. split; [intros _|reflexivity]. exists a. split; [left; reflexivity | apply O; reflexivity].
Qed.
Lemma adsp_discardable only m : Forall plain_address (dm_from m) -> checkable m ->
  (fst (check_dkim_adsp [] [] ($"D") only m new_process) = Some true <-> ~ properly_signed m /\ exists d, concerned m only d).
Proof.
  intros F C. pose proof (valid_first m F C) as VF. unfold check_dkim_valid in VF. revert VF. first_check m new_process C.
  rewrite flag_rule_first; [|reflexivity | rewrite ES; reflexivity]. rewrite ES. cbn [fst]. intros VF.
  unfold check_dkim_adsp, ensure. change (dk_checked (ds_me new_process)) with false. cbv iota. rewrite ES.
  destruct (dk_valid (ds_me s')) eqn:V.
  { split; [discriminate|]. intros [P _]. exfalso. apply P, VF. reflexivity. }
  change (Nat.ltb 3 (length (@nil str))) with false. cbv iota. cbn [parse_input]. rewrite Ed, first_domains.
  destruct (adsp_authors_D only (authors (dm_from m))) as (b & -> & H). destruct b; cbn [fst].
  - split; [intros _|reflexivity]. split; [intros P; apply VF in P; discriminate|]. destruct (proj1 H eq_refl) as (a & Ha & Ho).
    exists a. split; [apply (authors_iff _ a F), Ha | exact Ho].
  - change (streqb ($"D") ($"U")) with false. rewrite andb_false_r. split; [discriminate|]. intros (_ & d & Hd1 & Hd2).
    assert (false = true); [|discriminate]. apply H. exists d. split; [apply (authors_iff _ d F), Hd1 | exact Hd2].
Qed.
Lemma adsp_many u overrides c only m s : 3 < length overrides -> fst (check_dkim_adsp u overrides c only m s) = Some false.
Proof.
  intros L. unfold check_dkim_adsp. destruct (ensure m s) as [s' r]. destruct r; [reflexivity|]. destruct (dk_valid (ds_me s')); [reflexivity|].
  apply Nat.ltb_lt in L. rewrite L. reflexivity.
Qed.
