(** From the lines of a configuration and the text of a mail to the score. *)
From Coq Require Import Lia Sorting.Permutation QArith.
From Verif Require Import PyStr PyDict Regexp Spec_Regexp Proofs_Regexp Proofs_RegexpLang Proofs_RegexpSub Proofs_Dynamic Proofs_BayesStop Proofs_Rules.
From Verif Require Import Model_Rules Spec_Rules Model_Headers Spec_Headers Proofs_Headers Model_Parser Spec_Parser Proofs_Parser Model_Build Spec_Build Proofs_Build Model_Load Spec_Load Proofs_Load Model_Message Spec_Message Proofs_Message Model_Program Spec_Program Proofs_Round.
From Verif Require Model_Meta Spec_Meta Proofs_Meta Proofs_Files.
Open Scope nat_scope.

(** ** A word as a pattern *)
Lemma plain_char c : alphanumeric c -> in_s c special = false /\ ch c "." = false /\ is_space c = false /\ c <> 47%N /\ c <> 40%N /\ c <> 92%N.
Proof.
  intros A. assert (B : forall d, ~ alphanumeric d -> c <> d) by (intros d D ->; exact (D A)).
  assert (D : forall d, In d (of_string special ++ $". /(\") -> c <> d).
  { intros d K. apply B. unfold alphanumeric. vm_compute in K. repeat (destruct K as [<-|K]; [lia|]). destruct K. }
  split.
  { unfold in_s. destruct (mem_char c (of_string special)) eqn:E; [|reflexivity]. apply mem_char_In in E. destruct (D c); [apply in_or_app; auto|reflexivity]. }
  split. { unfold ch. apply N.eqb_neq. apply D. vm_compute. tauto. }
  split. { destruct (is_space c) eqn:E; [|reflexivity]. exfalso. unfold is_space in E. unfold alphanumeric in A. rewrite ?orb_true_iff, ?andb_true_iff, ?N.eqb_eq, ?N.leb_le in E. lia. }
  repeat split; apply D; vm_compute; tauto.
Qed.
Lemma lit_lits w c : Forall alphanumeric w -> lits false w (Chr false false [IChar c]) = lit (w ++ [c]).
Proof.
  induction 1 as [|d w D W IH]; [reflexivity|]. cbn [lits fold_right app]. fold (lits false w (Chr false false [IChar c])). rewrite IH. unfold atom. rewrite (proj1 (proj2 (plain_char d D))).
  cbn [lit]. destruct (w ++ [c]) eqn:E; [destruct w; discriminate|reflexivity].
Qed.
Lemma compile_word w : w <> [] -> Forall alphanumeric w -> compile false false w = Some (lit w).
Proof.
  intros N W. destruct (exists_last N) as (v & c & ->). apply Forall_app in W as [V C]. inversion C as [|? ? C1 _]; subst.
  rewrite <- lit_lits by exact V. destruct (plain_char c C1) as (S & D & _).
  apply (compile_seq false (v ++ [c]) (length v + 2) _ 1); [rewrite app_length; cbn; lia|].
  apply (parse_lits false 1 1 [c]); [intros d K; rewrite Forall_forall in V; apply plain_char, V, K| | |discriminate].
  - unfold in_s in S |- *. destruct (mem_char c (of_string "*+?{")) eqn:E; [|reflexivity]. apply mem_char_In in E. assert (X : mem_char c (of_string special) = true) by (apply mem_char_In; vm_compute in E |- *; tauto). congruence.
  - rewrite seq_eq. change (skip false [c]) with [c]. cbv iota. rewrite (ch_not special "|" c S), (ch_not special ")" c S) by reflexivity. cbn [orb]. rewrite atom_eq. cbv zeta. rewrite D.
    rewrite (ch_not special "^" c S), (ch_not special "$" c S), (ch_not special "\" c S), (ch_not special "[" c S), (ch_not special "(" c S) by reflexivity.
    assert (Q : in_s c "*+?" = false). { unfold in_s in S |- *. destruct (mem_char c (of_string "*+?")) eqn:E; [|reflexivity]. apply mem_char_In in E. assert (X : mem_char c (of_string special) = true) by (apply mem_char_In; vm_compute in E |- *; tauto). congruence. }
    rewrite Q. reflexivity.
Qed.
Lemma lit_ordered w : ordered (lit w) = true.
Proof. induction w as [|c [|d w] IH]; [reflexivity..|]. cbn [lit ordered] in *. exact IH. Qed.
Lemma lit_ways udigit uword w : forall b a k, In (mkS (rev w ++ b) a k) (ways udigit uword (lit w) (mkS b (w ++ a) k)).
Proof.
  induction w as [|c w IH]; intros b a k; [left; reflexivity|].
  assert (S : ways udigit uword (Chr false false [IChar c]) (mkS b (c :: w ++ a) k) = [mkS (c :: b) (w ++ a) k]).
  { cbn [Regexp.ways]. unfold step. cbn [s_after s_before s_caps]. replace (class_in udigit uword false false [IChar c] c) with true by (symmetry; apply class_lit; reflexivity). reflexivity. }
  cbn [rev]. rewrite <- app_assoc. cbn [app]. destruct w as [|d w]; [change (lit [c]) with (Chr false false [IChar c]); change ([c] ++ a) with (c :: [] ++ a); rewrite S; left; reflexivity|].
  change (lit (c :: d :: w)) with (Cat (Chr false false [IChar c]) (lit (d :: w))). cbn [Regexp.ways]. change ((c :: d :: w) ++ a) with (c :: (d :: w) ++ a). cbn [Regexp.ways] in S. rewrite S. cbn [flat_map]. rewrite app_nil_r. apply (IH (c :: b) a k).
Qed.
Lemma search_word udigit uword w s : matched (re_search udigit uword (lit w) s) = true <-> occurs w s.
Proof.
  rewrite search_iff. split.
  - intros (u & v & st & -> & K). apply way_reads in K as (x & -> & _ & R & _); [|apply lit_ordered]. apply lit_reads in R. subst x. exists u, (s_after st). reflexivity.
  - intros (a & b & ->). exists a, (w ++ b), (mkS (rev w ++ rev a) b []). split; [reflexivity|]. apply lit_ways.
Qed.

(** ** The lines *)
Definition key (s : setting) : str := en_name (definition s).
Lemma solid_trimmed w : w <> [] -> (forall c, In c w -> is_space c = false) -> trimmed w.
Proof. intros N S. split; [exact N|]. apply strip_solid. exact S. Qed.
Lemma no_hash w : ~ In 35%N w -> hashes_escaped w.
Proof. intros H a b ->. exfalso. apply H. apply in_or_app. right. left. reflexivity. Qed.
Lemma slash_in w c : In c ($"/" ++ w ++ $"/") -> c = 47%N \/ In c w.
Proof. intros K. apply in_app_or in K as [[<-|[]]|K]; [auto|]. apply in_app_or in K as [K|[<-|[]]]; auto. Qed.
Lemma slashes_ok w : Forall alphanumeric w -> trimmed ($"/" ++ w ++ $"/") /\ hashes_escaped ($"/" ++ w ++ $"/").
Proof.
  intros A. assert (S : forall c, In c ($"/" ++ w ++ $"/") -> is_space c = false /\ c <> 35%N).
  { intros c C. apply slash_in in C as [->|C]; [split; [reflexivity|discriminate]|]. rewrite Forall_forall in A. specialize (A c C). split; [apply plain_char, A|]. unfold alphanumeric in A. lia. }
  split; [apply solid_trimmed; [discriminate|intros c C; apply S, C]|]. apply no_hash. intros C. apply S in C. lia.
Qed.
Lemma field_char f c : plain_field f -> In c f -> is_space c = false /\ (45 <= c)%N /\ c <> 58%N /\ c <> 126%N.
Proof.
  intros (_ & F & _) I. rewrite Forall_forall in F. destruct (F c I) as [A| ->]; [|split; [reflexivity|lia]]. split; [apply plain_char, A|]. unfold alphanumeric in A. lia.
Qed.
Lemma field_ok f w : plain_field f -> Forall alphanumeric w -> trimmed (f ++ $" =~ /" ++ w ++ $"/") /\ hashes_escaped (f ++ $" =~ /" ++ w ++ $"/").
Proof.
  intros F A. assert (F' := F). destruct F' as (N & _). split.
  - split; [destruct f; [contradiction|discriminate]|]. apply strip_id.
    + intros c r K. destruct f as [|d f]; [contradiction|]. injection K as <- _. apply (field_char (d :: f)); [exact F|left; reflexivity].
    + intros c r K. apply (f_equal (@rev char)) in K. rewrite !rev_app_distr in K. cbn [rev app] in K. injection K as <- _. reflexivity.
  - apply no_hash. intros K. apply in_app_or in K as [K|K]; [apply (field_char f _ F) in K; lia|]. apply in_app_or in K as [K|K]; [vm_compute in K; repeat (destruct K as [K|K]; [discriminate|]); destruct K|].
    apply in_app_or in K as [K|[K|[]]]; [|discriminate]. rewrite Forall_forall in A. specialize (A _ K). unfold alphanumeric in A. lia.
Qed.
(** Keyword and value of a rule *)
Definition kind_of (p : place) : str := match p with Body => $"body" | Raw => $"rawbody" | Full => $"full" | Field _ => $"header" end.
Definition value_of (p : place) (w : str) : str := match p with Field f => f ++ $" =~ /" ++ w ++ $"/" | _ => $"/" ++ w ++ $"/" end.
Lemma definition_search p n w : definition (Search p n w) = mkEntry (kind_of p) n (value_of p w).
Proof. destruct p; reflexivity. Qed.
Lemma not_eval f w : plain_field f -> startswith ($"eval:") (f ++ $" =~ /" ++ w ++ $"/") = false.
Proof.
  intros F. destruct (startswith ($"eval:") (f ++ $" =~ /" ++ w ++ $"/")) eqn:K; [|reflexivity]. exfalso. apply startswith_app in K as [r K].
  assert (G : forall (a g b : str), ~ In 58%N g -> ~ In 32%N a -> a ++ 58%N :: b = g ++ $" =~ /" ++ w ++ $"/" -> False).
  { induction a as [|x a IH]; intros [|z g] b G1 G2 EQ; cbn [app] in EQ; try discriminate.
    - injection EQ as <- _. apply G1. left. reflexivity.
    - injection EQ as -> _. apply G2. left. reflexivity.
    - injection EQ as <- EQ. apply (IH g b); [intros I; apply G1; right; exact I|intros I; apply G2; right; exact I|exact EQ]. }
  apply (G ($"eval") f r); [intros I; apply (field_char f _ F) in I; lia|intros I; vm_compute in I; repeat (destruct I as [I|I]; [discriminate|]); destruct I|]. rewrite K. reflexivity.
Qed.
Lemma search_effects p n w : (forall f, p = Field f -> plain_field f) -> effects (definition (Search p n w)) = [($"type", AStr (kind_of p)); ($"value", AStr (value_of p w))].
Proof.
  intros F. destruct p as [| | |f]; try reflexivity. specialize (F f eq_refl). rewrite definition_search. unfold effects. cbn [en_kw en_value kind_of value_of]. rewrite not_eval by exact F. reflexivity.
Qed.
Lemma search_name p n w : en_name (definition (Search p n w)) = n.
Proof. destruct p; reflexivity. Qed.
(** The characters of an expression *)
Lemma lexed_chars k : forall s cur, length s <= k -> Model_Meta.lex_from s cur <> None -> forall c, In c s -> c <> 35%N /\ c <> 58%N.
Proof.
  induction k as [|k IH]; intros s cur L H c K; [destruct s; [destruct K|cbn in L; lia]|]. destruct s as [|d s]; [destruct K|]. cbn [Model_Meta.lex_from] in H. cbn [length] in L.
  assert (OA : forall a b, Model_Meta.oapp a b <> None -> b <> None) by (intros [?|] [?|] Z; cbn in Z |- *; congruence).
  assert (ST : forall t, Model_Meta.lex_from s t <> None -> d <> 35%N /\ d <> 58%N -> c <> 35%N /\ c <> 58%N) by (intros t Z D; destruct K as [<-|K]; [exact D|apply (IH s t); [lia|exact Z|exact K]]).
  destruct (Model_Meta.is_word d) eqn:W; [apply (ST _ H); split; intros ->; discriminate|]. apply OA in H.
  destruct (is_space d) eqn:B; [apply (ST _ H); split; intros ->; discriminate|].
  destruct (N.eqb_spec d 40) as [->|]; [apply OA in H; apply (ST _ H); split; discriminate|].
  destruct (N.eqb_spec d 41) as [->|]; [apply OA in H; apply (ST _ H); split; discriminate|].
  destruct (N.eqb_spec d 43) as [->|]; [apply OA in H; apply (ST _ H); split; discriminate|].
  destruct (N.eqb_spec d 45) as [->|]; [apply OA in H; apply (ST _ H); split; discriminate|].
  destruct (N.eqb_spec d 42) as [->|]; [apply OA in H; apply (ST _ H); split; discriminate|].
  destruct (N.eqb_spec d 33) as [->|]; [apply OA in H; apply (ST _ H); split; discriminate|].
  destruct s as [|g s]; [congruence|].
  assert (TW : forall x z, N.eqb d x && N.eqb g z = true -> Model_Meta.lex_from s [] <> None -> (x <> 35%N /\ x <> 58%N) /\ (z <> 35%N /\ z <> 58%N) -> c <> 35%N /\ c <> 58%N).
  { intros x z Q Z D. apply andb_true_iff in Q as [Q1 Q2]. apply N.eqb_eq in Q1, Q2. subst x z. destruct K as [<-|[<-|K]]; [apply D|apply D|]. apply (IH s []); [cbn in L; lia|exact Z|exact K]. }
  destruct (N.eqb d 38 && N.eqb g 38) eqn:Q1; [apply OA in H; apply (TW _ _ Q1 H); repeat split; discriminate|].
  destruct (N.eqb d 124 && N.eqb g 124) eqn:Q2; [apply OA in H; apply (TW _ _ Q2 H); repeat split; discriminate|].
  destruct (N.eqb d 62 && N.eqb g 61) eqn:Q3; [apply OA in H; apply (TW _ _ Q3 H); repeat split; discriminate|].
  destruct (N.eqb d 60 && N.eqb g 61) eqn:Q4; [apply OA in H; apply (TW _ _ Q4 H); repeat split; discriminate|].
  destruct (N.eqb d 61 && N.eqb g 61) eqn:Q5; [apply OA in H; apply (TW _ _ Q5 H); repeat split; discriminate|].
  destruct (N.eqb_spec d 62) as [->|]; [apply OA in H; apply (ST _ H); split; discriminate|].
  destruct (N.eqb_spec d 60) as [->|]; [apply OA in H; apply (ST _ H); split; discriminate|]. congruence.
Qed.
Lemma writes_chars t e : Spec_Meta.writes t e -> forall c, In c t -> c <> 35%N /\ c <> 58%N.
Proof.
  intros W. apply Proofs_Meta.compile_writes in W. unfold Model_Meta.compile_text, Model_Meta.lex in W. apply (lexed_chars (length t) t []); [lia|]. intros Z. rewrite Z in W. discriminate.
Qed.
Lemma combine_effects n t e : Spec_Meta.writes t e -> effects (definition (Combine n t)) = [($"type", AStr ($"meta")); ($"value", AStr t)].
Proof.
  intros W. unfold effects. cbn [definition en_kw en_value]. replace (startswith ($"eval:") t) with false; [reflexivity|]. symmetry. destruct (startswith ($"eval:") t) eqn:Z; [|reflexivity]. exfalso. apply startswith_app in Z as [r Z].
  apply (writes_chars t e W 58%N); [|reflexivity]. rewrite Z. apply in_or_app. left. vm_compute. tauto.
Qed.
Definition type_of (k : task) : str := match k with Look p _ => kind_of p | Compute _ => $"meta" end.
Definition text_of (k : task) : str := match k with Look p w => value_of p w | Compute t => t end.
Definition proper_task (k : task) : Prop :=
  match k with Look p w => (forall f, p = Field f -> plain_field f) /\ w <> [] /\ Forall alphanumeric w | Compute t => exists e, Spec_Meta.writes t e end.
Section Lines.
Context {Y : Type}.
Variable E : penv Y.
Variable py_float : str -> option Q.
Hypothesis clash : no_clash E.
Notation proper := (proper_setting py_float).

Lemma definition_ok s : proper s -> entry_ok (definition s).
Proof.
  intros (N & P). destruct s as [k n w|n t|n q|n t]; unfold entry_ok.
  - destruct P as (K & W & A). rewrite definition_search in *. cbn [en_kw en_name en_value] in *. split; [destruct k; vm_compute; tauto|]. split; [exact N|]. destruct k; try (apply slashes_ok, A). apply field_ok; [apply K; reflexivity|exact A].
  - cbn [definition en_kw en_name en_value] in *. destruct P as (T & e & W). split; [vm_compute; tauto|]. split; [exact N|]. split; [exact T|]. apply no_hash. intros K. apply (writes_chars t e W) in K. destruct K as [K _]. congruence.
  - cbn [definition en_kw en_name en_value] in *. destruct P as ((Q & S & H) & _). split; [vm_compute; tauto|]. split; [exact N|]. split; [apply solid_trimmed; assumption|apply no_hash, H].
  - cbn [definition en_kw en_name en_value] in *. destruct P as (T & H). split; [vm_compute; tauto|]. auto.
Qed.
Definition put (st : pstate Y) (s : setting) : pstate Y := store E (en_kw (definition s)) (en_name (definition s)) (entry_value (definition s)) st.
Lemma put_ignore st s : p_ignore (put st s) = p_ignore st. Proof. reflexivity. Qed.
Lemma puts_ignore ss : forall st, p_ignore (fold_left put ss st) = p_ignore st.
Proof. induction ss as [|s ss IH]; intros st; [reflexivity|]. cbn [fold_left]. rewrite IH. reflexivity. Qed.
Lemma puts_ctx ss : forall st, p_ctx (fold_left put ss st) = p_ctx st.
Proof. induction ss as [|s ss IH]; intros st; [reflexivity|]. cbn [fold_left]. rewrite IH. reflexivity. Qed.
Lemma present_step inc f l y (st : pstate Y) : present E y l -> p_ctx st = y -> p_ignore st = false -> handle_line E inc f l st = PDone st.
Proof.
  intros (P & c & H1 & H2 & H3) C G. rewrite (ifplugin_step E inc f l P c st H1 H2 G), C. apply mem_str_In in H3. rewrite H3. reflexivity.
Qed.
Lemma missing_step' inc f l y (st : pstate Y) : missing E y l -> p_ctx st = y -> p_ignore st = false -> handle_line E inc f l st = PDone (set_ignore true st).
Proof.
  intros (P & c & H1 & H2 & H3) C G. rewrite (ifplugin_step E inc f l P c st H1 H2 G), C.
  destruct (mem_str c (e_plugins E y)) eqn:M; [apply mem_str_In in M; contradiction|reflexivity].
Qed.
Lemma run_written y d f ls ss : e_paranoid E = false -> written E y d f ls ss -> Forall proper ss -> forall st, p_ignore st = false -> p_ctx st = y -> run_lines E (parse_file E d) f ls st = PDone (fold_left put ss st).
Proof.
  intros PA. induction 1 as [|d f l ls ss C W IH|d f l s ls ss C W IH|d f l ls ss C W IH|d f l v inner here ls ss C F W1 IH1 W2 IH2|d f l v ls ss C F W IH
    |d f l body e here ls ss B W1 IH1 N W2 IH2|d f l body e ls ss B S N W IH|d f l body a other e here ls ss B W1 IH1 A S N W2 IH2
    |d f l body a other e here ls ss B S A W1 IH1 N W2 IH2]; intros P st G Y0; [reflexivity|..]; cbn [run_lines].
  - rewrite inert_line by exact C. apply IH; assumption.
  - inversion P as [|? ? P1 P2]; subst. rewrite (spelled_line E _ f l (definition s) st (definition_ok s P1) C G). cbn [fold_left]. apply IH; [exact P2|rewrite put_ignore; exact G|reflexivity].
  - destruct C as [C|C]; [|rewrite (unknown_step E _ f l st C); apply IH; assumption].
    destruct (missing_step E (parse_file E d) f l st C) as [-> | ->]; [|rewrite PA]; apply IH; assumption.
  - apply Forall_app in P as [P1 P2]. rewrite (include_step E _ f l st (named_file f v)) by (split; [exact G|exists v; split; [exact C|reflexivity]]).
    cbn [parse_file]. rewrite F, (IH1 P1 st G Y0), fold_left_app. apply IH2; [exact P2|rewrite puts_ignore; exact G|rewrite puts_ctx; exact Y0].
  - rewrite (include_step E _ f l st (named_file f v)) by (split; [exact G|exists v; split; [exact C|reflexivity]]).
    cbn [parse_file]. rewrite F. apply IH; assumption.
  - apply Forall_app in P as [P1 P2]. rewrite (present_step _ f l y st B Y0 G), run_lines_app, (IH1 P1 st G Y0). cbn [then_run].
    rewrite (run_line_done E _ f _ _ _ _ (endif_step E _ f e _ N)), set_ignore_id by (rewrite puts_ignore; exact G).
    rewrite fold_left_app. apply IH2; [exact P2|rewrite puts_ignore; exact G|rewrite puts_ctx; exact Y0].
  - rewrite (missing_step' _ f l y st B Y0 G), skipped_lines_all by (exact S || reflexivity).
    rewrite (run_line_done E _ f _ _ _ _ (endif_step E _ f e _ N)).
    replace (set_ignore false (set_ignore true st)) with st by (destruct st as [r i x]; cbn in G; subst; reflexivity). apply IH; assumption.
  - apply Forall_app in P as [P1 P2]. rewrite (present_step _ f l y st B Y0 G), run_lines_app, (IH1 P1 st G Y0). cbn [then_run].
    rewrite (run_line_done E _ f _ _ _ _ (else_step E _ f a _ A)), puts_ignore, G. cbn [negb].
    rewrite skipped_lines_all by (exact S || reflexivity). rewrite (run_line_done E _ f _ _ _ _ (endif_step E _ f e _ N)).
    replace (set_ignore false (set_ignore true (fold_left put here st))) with (fold_left put here st)
      by (pose proof (puts_ignore here st) as Q; rewrite G in Q; destruct (fold_left put here st) as [r i x]; cbn in Q; subst; reflexivity).
    rewrite fold_left_app. apply IH2; [exact P2|rewrite puts_ignore; exact G|rewrite puts_ctx; exact Y0].
  - apply Forall_app in P as [P1 P2]. rewrite (missing_step' _ f l y st B Y0 G), skipped_lines_all by (exact S || reflexivity).
    rewrite (run_line_done E _ f _ _ _ _ (else_step E _ f a _ A)). cbn [p_ignore set_ignore negb].
    replace (set_ignore false (set_ignore true st)) with st by (destruct st as [r i x]; cbn in G; subst; reflexivity).
    rewrite run_lines_app, (IH1 P1 st G Y0). cbn [then_run].
    rewrite (run_line_done E _ f _ _ _ _ (endif_step E _ f e _ N)), set_ignore_id by (rewrite puts_ignore; exact G).
    rewrite fold_left_app. apply IH2; [exact P2|rewrite puts_ignore; exact G|rewrite puts_ctx; exact Y0].
Qed.
Lemma put_attrs ss : Forall proper ss -> forall st n k, attr_of (p_results (fold_left put ss st)) n k = last_set n k (map definition ss) (attr_of (p_results st) n k).
Proof.
  induction 1 as [|s ss P _ IH]; intros st n k; [reflexivity|]. cbn [fold_left map last_set]. rewrite IH. f_equal. unfold put. rewrite store_effects; [reflexivity|apply definition_ok, P|]. intros c. apply clash.
Qed.
Lemma set_attr_keys n k v r : In n (dkeys r) -> dkeys (set_attr n k v r) = dkeys r.
Proof. intros I. unfold set_attr. rewrite dkeys_dset. apply dhas_In in I. rewrite I. reflexivity. Qed.
Lemma touch_keys n r x : In x (dkeys (touch n r)) <-> In x (dkeys r) \/ x = n.
Proof.
  unfold touch. destruct (dhas n r) eqn:H; [apply dhas_In in H; split; [auto|intros [K| ->]; assumption]|]. rewrite dkeys_dset, H. rewrite in_app_iff. cbn [In]. intuition.
Qed.
Lemma touch_nodup n r : NoDup (dkeys r) -> NoDup (dkeys (touch n r)).
Proof. intros N. unfold touch. destruct (dhas n r); [exact N|apply dset_NoDup, N]. Qed.
Lemma put_keys st s : dkeys (p_results (put st s)) = dkeys (touch (en_name (definition s)) (p_results st)).
Proof.
  unfold put, store. cbn [p_results]. set (n := en_name (definition s)). assert (I : In n (dkeys (touch n (p_results st)))) by (apply touch_keys; auto).
  destruct (_ || _); [|apply set_attr_keys, I].
  destruct (match entry_value (definition s) with AStr x => _ | AList _ => _ end).
  - rewrite set_attr_keys; rewrite set_attr_keys; rewrite ?set_attr_keys; auto.
  - rewrite set_attr_keys; rewrite set_attr_keys; auto.
Qed.
Lemma all_keys ss : forall st n, In n (dkeys (p_results (fold_left put ss st))) <-> In n (dkeys (p_results st)) \/ In n (map key ss).
Proof.
  induction ss as [|s ss IH]; intros st n; cbn [fold_left map In]; [tauto|]. rewrite IH, put_keys, touch_keys. unfold key at 2. intuition.
Qed.
Lemma all_nodup ss : forall st, NoDup (dkeys (p_results st)) -> NoDup (dkeys (p_results (fold_left put ss st))).
Proof. induction ss as [|s ss IH]; intros st N; cbn [fold_left]; [exact N|]. apply IH. rewrite put_keys. apply touch_nodup, N. Qed.

(** What the last settings say *)
Ltac one_setting P k := destruct P as (_ & P); let m := fresh "m" in let w := fresh "w" in let q := fresh "q" in let t := fresh "t" in
  match goal with s : setting |- _ => destruct s as [k m w|m t|m q|m t] end;
  [destruct P as (k' & _); rewrite search_effects by exact k'; rewrite search_name|destruct P as (_ & ? & P); rewrite (combine_effects _ _ _ P); cbn [definition en_name]|cbn [definition en_name]|cbn [definition en_name]];
  match goal with |- context [streqb ?n ?m] => destruct (streqb n m) end; reflexivity.
Lemma last_type ss : Forall proper ss -> forall n old, last_set n ($"type") (map definition ss) old = match task_of n ss with Some k => Some (AStr (type_of k)) | None => old end.
Proof. induction 1 as [|s ss P _ IH]; intros n old; [reflexivity|]. cbn [map last_set task_of]. rewrite IH. destruct (task_of n ss) as [k|]; [reflexivity|]. one_setting P k. Qed.
Lemma last_value ss : Forall proper ss -> forall n old, last_set n ($"value") (map definition ss) old = match task_of n ss with Some k => Some (AStr (text_of k)) | None => old end.
Proof. induction 1 as [|s ss P _ IH]; intros n old; [reflexivity|]. cbn [map last_set task_of]. rewrite IH. destruct (task_of n ss) as [k|]; [reflexivity|]. one_setting P k. Qed.
Lemma last_score ss : Forall proper ss -> forall n old, last_set n ($"score") (map definition ss) old = match number_of n ss with Some q => Some (AStr q) | None => old end.
Proof. induction 1 as [|s ss P _ IH]; intros n old; [reflexivity|]. cbn [map last_set number_of]. rewrite IH. destruct (number_of n ss) as [k|]; [reflexivity|]. one_setting P k. Qed.
Lemma last_flags ss : Forall proper ss -> forall n old, last_set n ($"tflags") (map definition ss) old = old.
Proof. induction 1 as [|s ss P _ IH]; intros n old; [reflexivity|]. cbn [map last_set]. rewrite IH. one_setting P k. Qed.
Lemma task_proper ss : Forall proper ss -> forall n k, task_of n ss = Some k -> proper_task k.
Proof.
  induction 1 as [|s ss P _ IH]; intros n k H; [discriminate|]. cbn [task_of] in H. destruct (task_of n ss) as [k'|] eqn:L; [injection H as ->; eapply IH, L|].
  destruct s as [k' m w'|m t|m q|m t]; try discriminate; (destruct (streqb n m); [|discriminate]); injection H as <-; apply P.
Qed.
Lemma number_proper ss : Forall proper ss -> forall n q, number_of n ss = Some q -> Spec_Parser.word q /\ py_float q <> None.
Proof.
  induction 1 as [|s ss P _ IH]; intros n q H; [discriminate|]. cbn [number_of] in H. destruct (number_of n ss) as [q'|] eqn:L; [injection H as ->; eapply IH, L|].
  destruct s as [k' m w'|m t|m q'|m t]; try discriminate. destruct (streqb n m); [|discriminate]. injection H as ->. apply P.
Qed.
Lemma task_named ss n : task_of n ss <> None -> In n (names ss).
Proof.
  intros LK. unfold names. apply nodup_In. revert LK. induction ss as [|s ss' IH]; intros LK; [contradiction|]. cbn [task_of map In] in *. destruct (task_of n ss') as [x|]; [right; apply IH; discriminate|].
  destruct s as [k m w|m t|m q|m t]; try contradiction; (destruct (streqb_spec n m) as [->|]; [left|contradiction]); [apply search_name|reflexivity].
Qed.
End Lines.

(** ** The rules *)
Section Rules.
Variable udigit uword : char -> bool.
Variable py_float : str -> option Q.
Context {X A : Type}.
Variable arg : str -> ares A.
Variable C : content X.
Variable evals : str -> option (list A -> option str -> msg X -> msg X * outcome).
Notation searcher := (searcher udigit uword).
Notation proper := (proper_setting py_float).

(** A text with the word *)
Definition has (w s : str) : bool := matched (re_search udigit uword (lit w) s).
Lemma has_word w s : has w s = true <-> occurs w s.
Proof. apply search_word. Qed.
Lemma word_pattern b w : blank b -> w <> [] -> Forall alphanumeric w -> perl2re searcher (b ++ $"/" ++ w ++ $"/") = ReOk (has w).
Proof.
  intros BL N W. rewrite Forall_forall in W.
  assert (K : forall p, In 40%N p \/ In 92%N p -> contains p w = false).
  { intros p P. destruct (contains p w) eqn:K; [|reflexivity]. apply contains_app in K as (a & z & ->). exfalso. assert (Z : forall c, In c p -> alphanumeric c) by (intros c I; apply W, in_or_app; right; apply in_or_app; left; exact I).
    destruct P as [P|P]; apply Z in P; unfold alphanumeric in P; lia. }
  change ($"/" ++ w ++ $"/") with (47%N :: w ++ [47%N]). assert (H := c54 searcher b [] 47%N 47%N w [] []). cbn [app] in H. rewrite app_nil_r in H. rewrite H; clear H.
  - unfold Model_Program.searcher. cbn [f_i f_x]. change (mem_char 105%N []) with false. change (mem_char 120%N []) with false. cbn [f_i f_x]. rewrite compile_word; [reflexivity|exact N|apply Forall_forall; exact W].
  - exact BL.
  - reflexivity.
  - intros c [].
  - left. reflexivity.
  - intros c r -> ->. assert (P := W 47%N (or_introl eq_refl)). unfold alphanumeric in P. lia.
  - intros E. contradiction.
  - intros [].
  - intros c [].
  - apply K. left. left. reflexivity.
  - apply K. right. left. reflexivity.
  - apply K. right. left. reflexivity.
Qed.
Lemma field_pattern f w : plain_field f -> w <> [] -> Forall alphanumeric w -> header_rule searcher (f ++ $" =~ /" ++ w ++ $"/") = HOk (mkHR (HPlain f) false (has w)).
Proof.
  intros F N W. change (f ++ $" =~ /" ++ w ++ $"/") with ([] ++ f ++ [32%N] ++ $"=~" ++ ([32%N] ++ $"/" ++ w ++ $"/")).
  apply (header_rule_plain searcher false [] f [32%N] ([32%N] ++ $"/" ++ w ++ $"/") (has w)); [|reflexivity|reflexivity|discriminate|apply word_pattern; [reflexivity|exact N|exact W]].
  assert (F' := F). destruct F' as (F1 & _ & F3). split; [exact F1|]. split; [apply strip_solid; intros c I; apply (field_char f c F I)|]. split; [intros I; apply (field_char f _ F) in I; lia|]. split; [intros I; apply (field_char f _ F) in I; lia|].
  repeat split; intros ->; apply F3; vm_compute; tauto.
Qed.

(** *** One entry of the table *)
Lemma words_word q : Spec_Parser.word q -> words (strip q) = [q].
Proof.
  intros (N & S & _). rewrite strip_solid by exact S. unfold words. rewrite <- (app_nil_r q) at 1. rewrite words_aux_word by exact S. cbn [words_aux]. rewrite app_nil_r.
  destruct (rev q) as [|c r] eqn:R; [|rewrite <- R, rev_involutive; reflexivity]. apply (f_equal (@rev char)) in R. rewrite rev_involutive in R. contradiction.
Qed.
Definition stored (ss : list setting) (n : str) (d : dict attr) : Prop :=
  dget ($"type") d = option_map (fun k => AStr (type_of k)) (task_of n ss) /\
  dget ($"value") d = option_map (fun k => AStr (text_of k)) (task_of n ss) /\
  dget ($"score") d = option_map AStr (number_of n ss) /\
  dget ($"tflags") d = None.
Lemma no_flags n ss d g : stored ss n d -> ~ flagged d g.
Proof. intros (_ & _ & _ & F) (l & raw & K & _). congruence. Qed.
Lemma not_off ss n d c : stored ss n d -> ~ exists fl, switched_off c fl /\ forall g, In g fl <-> flagged d g.
Proof.
  intros S (fl & O & F). assert (K : forall g, ~ In g fl) by (intros g G; apply F in G; exact (no_flags n ss d g S G)). destruct O as [[O _]|[[O _]|[[O _]|[O _]]]]; exact (K _ O).
Qed.
Lemma stored_scores ss n d : Forall proper ss -> stored ss n d -> scores_of py_float n d [worth py_float n ss].
Proof.
  intros P S. assert (NF := no_flags n ss d ($"nice") S). destruct S as (_ & _ & Q & _). unfold worth. destruct (startswith ($"__") n) eqn:NS; [apply sc_sub, NS|]. destruct (number_of n ss) as [q|] eqn:E.
  - destruct (number_proper py_float ss P n q E) as [W F]. destruct (py_float q) as [v|] eqn:V; [|contradiction]. apply (sc_stated py_float n d q [v] NS Q). rewrite words_word by exact W. constructor; [exact V|constructor].
  - apply sc_default; assumption.
Qed.
(** What a rule says of a message *)
Definition says (p : place) (w : str) (x : X) : outcome :=
  match p with
  | Body => Returns (VBool (has w (ct_text C x)))
  | Raw => Returns (VBool (has w (ct_raw_text C x)))
  | Full => Returns (VBool (has w (ct_raw_msg C x)))
  | Field f => ct_header C (mkHR (HPlain f) false (has w)) x
  end.
Definition acts (k : task) (m : msg X) : msg X * outcome := match k with Look p w => (m, says p w (m_ext m)) | Compute t => ct_meta C t m end.
Notation cbuild := (checked_build py_float searcher arg C evals).
Notation build := (build_rule py_float searcher arg C evals).
Lemma stored_rule ss n d c : Forall proper ss -> stored ss n d -> dhas ($"type") d = true -> exists r, cbuild n d = BRule r /\ r_name r = n /\ r_score (preprocess c r) = worth py_float n ss /\
  exists k, task_of n ss = Some k /\ forall m, r_match r m = acts k m.
Proof.
  intros P S H. assert (SC := stored_scores ss n d P S). assert (NO := not_off ss n d c S). assert (S' := S). destruct S' as (T & V & Q & F).
  destruct (task_of n ss) as [k|] eqn:L; [|apply dhas_In in H; apply dget_None in T; contradiction]. cbn [option_map] in T, V.
  assert (K := task_proper py_float ss P n k L).
  assert (G : exists kw, get_rule_kwargs py_float d = Some kw).
  { unfold get_rule_kwargs, text_attr. rewrite Q, F. destruct (number_of n ss) as [q|] eqn:E; cbn [option_map]; [|eauto]. destruct (number_proper py_float ss P n q E) as [WQ FQ]. rewrite words_word by exact WQ. cbn [map_opt]. destruct (py_float q); [|contradiction]. cbn [option_map]. eauto. }
  destruct G as [kw G].
  assert (TF : silent_on d ($"tflags") \/ exists l, dget ($"tflags") d = Some (AList l)) by (left; exact F).
  assert (SF : silent_on d ($"score") \/ exists raw, states d ($"score") raw) by (unfold states, silent_on; destruct (number_of n ss); cbn [option_map] in Q; [right; eexists; exact Q|left; exact Q]).
  assert (B : exists kind mt, build n d = make n kind kw true None mt /\ forall m, mt m = acts k m).
  { unfold build_rule. rewrite T, V, G. destruct k as [p w|t]; [destruct K as (K & W & A')|].
    - destruct p as [| | |f]; cbn [type_of text_of kind_of value_of].
      1-3: unfold pattern_rule; change ($"/" ++ w ++ $"/") with ([] ++ $"/" ++ w ++ $"/"); rewrite (word_pattern [] w eq_refl W A'); eexists _, _; split; reflexivity.
      rewrite field_pattern by (try assumption; apply K; reflexivity). eexists _, _. split; reflexivity.
    - cbn [type_of text_of]. eexists _, _. split; reflexivity. }
  destruct B as (kind & mt & B & MT). unfold make in B. destruct (init_rule n kind (k_score kw) (k_desc kw) (k_prio kw) (k_tflags kw) None mt) as [r|] eqn:I.
  2:{ exfalso. assert (SK := scores_kw py_float n d kw G TF SF). assert (SE := scores_of_det py_float n d _ _ SC SK). assert (EX : exists r, init_rule n kind (k_score kw) (k_desc kw) (k_prio kw) (k_tflags kw) None mt = Some r) by (apply init_rule_lengths; rewrite <- SE; left; reflexivity). destruct EX as [r EX]. congruence. }
  exists r. assert (IF := init_rule_fields _ _ _ _ _ _ _ _ _ I). destruct IF as (_ & _ & _ & RM & _ & _ & RE & _).
  split; [unfold checked_build; rewrite B, RE; reflexivity|].
  destruct (built_attributes py_float searcher arg C evals n d r TF SF B) as (N & QQ & HD & LN & FL & _). split; [exact N|].
  assert (QS : r_scores r = [worth py_float n ss]) by (apply (scores_of_det py_float n d _ _ QQ SC)). split.
  { assert (O : ~ switched_off c (r_tflags r)) by (intros O; apply NO; exists (r_tflags r); auto). assert (M := effective_any c r _ eq_refl HD O). rewrite QS in M. cbn [mode_score length] in M. specialize (M ltac:(discriminate) (or_introl eq_refl)).
    congruence. }
  exists k. split; [reflexivity|]. intros m. rewrite RM. apply MT.
Qed.
Lemma stored_made ss table : Forall proper ss -> (forall n d, In (n, d) table -> stored ss n d) -> exists l, get_rules false cbuild table = GRules l.
Proof.
  intros P. induction table as [|[n d] table IH]; intros H; [exists []; reflexivity|].
  destruct IH as (l & L); [intros n' d' K; apply H; right; exact K|]. cbn [get_rules]. destruct (dhas ($"type") d) eqn:D; [|exists l; exact L].
  destruct (stored_rule ss n d (mkSwitches true true true true) P (H n d (or_introl eq_refl)) D) as (r & B & _). rewrite B, L. eauto.
Qed.
Lemma made_from table l : get_rules false cbuild table = GRules l ->
  forall r, In r l <-> exists n d, In (n, d) table /\ dhas ($"type") d = true /\ cbuild n d = BRule r.
Proof.
  revert l. induction table as [|[n d] table IH]; intros l H r; cbn [get_rules] in H.
  - injection H as <-. split; [intros []|intros (n & d & [] & _)].
  - destruct (dhas ($"type") d) eqn:D.
    + destruct (cbuild n d) as [r1| |] eqn:B; [| |discriminate].
      * destruct (get_rules false cbuild table) as [l1| |]; try discriminate. injection H as <-. cbn [In]. rewrite (IH l1 eq_refl). split.
        -- intros [<-|(n1 & d1 & K & K1)]; [exists n, d; auto|exists n1, d1; auto].
        -- intros (n1 & d1 & [K|K] & K1); [injection K as <- <-; left; destruct K1 as [_ K1]; congruence|right; exists n1, d1; auto].
      * rewrite (IH l H). split; intros (n1 & d1 & K & K1); [exists n1, d1; cbn [In]; auto|]. destruct K as [K|K]; [injection K as <- <-; destruct K1 as [_ K1]; congruence|exists n1, d1; auto].
    + rewrite (IH l H). split; intros (n1 & d1 & K & K1); [exists n1, d1; cbn [In]; auto|]. destruct K as [K|K]; [injection K as <- <-; destruct K1 as [K1 _]; congruence|exists n1, d1; auto].
Qed.
Lemma fold_unchecked c l : forall rs : ruleset X, NoDup (dkeys (rs_not_checked rs) ++ map r_name l) ->
  rs_not_checked (fold_left (load_step c) l rs) = rs_not_checked rs ++ map (fun r => (r_name r, r)) (filter (fun r => negb (should_check r)) (map (preprocess c) l)).
Proof.
  induction l as [|r l IH]; intros rs Hnd; cbn [fold_left map filter]; [rewrite app_nil_r; reflexivity|].
  assert (Hnd' : NoDup (dkeys (rs_not_checked rs) ++ map r_name l)) by (cbn [map] in Hnd; apply NoDup_remove_1 in Hnd; exact Hnd).
  assert (Hni : ~ In (r_name r) (dkeys (rs_not_checked rs))) by (cbn [map] in Hnd; apply NoDup_remove_2 in Hnd; intros Hi; apply Hnd; apply in_app_iff; auto).
  unfold load_step at 2. cbv zeta. destruct (should_check (preprocess c r)) eqn:Es; cbn [negb].
  - rewrite IH; [reflexivity|exact Hnd'].
  - rewrite IH; cbn [rs_not_checked].
    + rewrite preprocess_name, dset_new by exact Hni. cbn [map]. rewrite preprocess_name, <- app_assoc. reflexivity.
    + rewrite preprocess_name, dset_new by exact Hni. unfold dkeys. rewrite map_app, <- app_assoc. exact Hnd.
Qed.
Lemma filter_split {T : Type} (p : T -> bool) l : Permutation (filter p l ++ filter (fun x => negb (p x)) l) l.
Proof. induction l as [|x l IH]; [constructor|]. cbn [filter]. destruct (p x); cbn [negb app]; [constructor; exact IH|]. etransitivity; [symmetry; apply Permutation_middle|]. constructor. exact IH. Qed.
(** The rules of a table *)
Lemma stored_ruleset ss table c : Forall proper ss -> NoDup (dkeys table) -> (forall n d, In (n, d) table -> stored ss n d) -> (forall n, task_of n ss <> None -> In n (dkeys table)) ->
  exists rs, load_rules py_float searcher arg C evals false c table = Loaded rs /\
    NoDup (dkeys (rs_checked rs) ++ dkeys (rs_not_checked rs)) /\
    (forall n, In n (dkeys (rs_checked rs) ++ dkeys (rs_not_checked rs)) <-> task_of n ss <> None) /\
    (forall n r, In (n, r) (rs_checked rs ++ rs_not_checked rs) -> r_score r = worth py_float n ss /\ exists k, task_of n ss = Some k /\ forall m, r_match r m = acts k m) /\
    (forall n, In n (dkeys (rs_checked rs)) -> ~ worth py_float n ss == 0) /\ forall n, In n (dkeys (rs_not_checked rs)) -> worth py_float n ss == 0.
Proof.
  intros P N H I. destruct (stored_made ss table P H) as (l & G). unfold load_rules. rewrite G. eexists. split; [reflexivity|]. cbn [rs_checked rs_not_checked].
  destruct (get_rules_names py_float searcher arg C evals false table l G N) as [NN _].
  change (fun rs r => _) with (load_step (X := X) c). rewrite load_fold by exact NN. rewrite fold_unchecked by exact NN. cbn [rs_checked rs_not_checked empty_ruleset app]. set (l' := map (preprocess c) l).
  set (tag := fun r : rule X => (r_name r, r)).
  assert (PS : Permutation (sort_checked (map tag (filter should_check l')) ++ map tag (filter (fun r => negb (should_check r)) l')) (map tag l')).
  { etransitivity; [apply Permutation_app_tail, sort_perm|]. rewrite <- map_app. apply Permutation_map, filter_split. }
  assert (NL : map fst (map tag l') = map r_name l) by (unfold l', tag; rewrite !map_map; apply map_ext; intros r; cbn [fst]; apply preprocess_name).
  assert (IT : forall n r, In (n, r) (map tag l') -> exists d r0, In (n, d) table /\ dhas ($"type") d = true /\ cbuild n d = BRule r0 /\ r_name r0 = n /\ r = preprocess c r0 /\ r_score r = worth py_float n ss /\ exists k, task_of n ss = Some k /\ forall m, r_match r m = acts k m).
  { intros n r K. apply in_map_iff in K as (r1 & E & K). unfold tag in E. injection E as <- <-. apply in_map_iff in K as (r0 & <- & K). apply (made_from table l G) in K as (n' & d & K & D & B).
    destruct (stored_rule ss n' d c P (H n' d K) D) as (r2 & B2 & R1 & R2 & k & R3 & R4). rewrite B in B2. injection B2 as <-. rewrite preprocess_name, R1. exists d, r0. split; [exact K|]. split; [exact D|]. split; [exact B|]. split; [exact R1|]. split; [reflexivity|]. split; [exact R2|].
    exists k. split; [exact R3|]. intros m. rewrite preprocess_match. apply R4. }
  split; [|split; [|split; [|split]]].
  - unfold dkeys. rewrite <- map_app. eapply Permutation_NoDup; [apply Permutation_map; symmetry; exact PS|]. rewrite NL. exact NN.
  - intros n. unfold dkeys. rewrite <- map_app. split.
    + intros K. eapply Permutation_in in K; [|apply Permutation_map; exact PS]. apply in_map_iff in K as ([n' r] & <- & K). apply IT in K as (d & r0 & _ & _ & _ & _ & _ & _ & k & E & _). cbn [fst]. congruence.
    + intros T. assert (K := I n T). eapply Permutation_in; [apply Permutation_map; symmetry; exact PS|]. rewrite NL. unfold dkeys in K. apply in_map_iff in K as ([n' d] & E & K). cbn [fst] in E. subst n'.
      assert (D : dhas ($"type") d = true) by (destruct (H n d K) as (T' & _); destruct (task_of n ss); [|contradiction]; apply dhas_In; apply dget_In in T'; apply (in_map fst) in T'; exact T').
      destruct (stored_rule ss n d c P (H n d K) D) as (r & B & R1 & _). rewrite <- R1. apply in_map, (made_from table l G). exists n, d. auto.
  - intros n r K. eapply Permutation_in in K; [|exact PS]. apply IT in K as (d & r0 & _ & _ & _ & _ & _ & K). exact K.
  - intros n K Z. unfold dkeys in K. apply in_map_iff in K as ([n' r] & E & K). cbn [fst] in E. subst n'. eapply Permutation_in in K; [|apply sort_perm]. assert (S : should_check r = true /\ In (n, r) (map tag l')).
    { apply in_map_iff in K as (r1 & E & K). apply filter_In in K as [K S]. unfold tag in E. injection E as <- <-. split; [exact S|]. apply (in_map tag) in K. exact K. }
    destruct S as [S K']. apply IT in K' as (d & r0 & _ & _ & _ & _ & _ & W & _). unfold should_check in S. rewrite W in S. apply Qeq_bool_iff in Z. rewrite Z in S. destruct (hidden_name (r_name r)); discriminate.
  - intros n K. unfold dkeys in K. apply in_map_iff in K as ([n' r] & E & K). cbn [fst] in E. subst n'. assert (S : should_check r = false /\ r_name r = n /\ In (n, r) (map tag l')).
    { apply in_map_iff in K as (r1 & E & K). apply filter_In in K as [K S]. unfold tag in E. injection E as <- <-. apply negb_true_iff in S. split; [exact S|]. split; [reflexivity|]. apply (in_map tag) in K. exact K. }
    destruct S as (S & RN & K'). apply IT in K' as (d & r0 & _ & _ & _ & _ & _ & W & _). unfold should_check in S. rewrite W, RN in S. unfold worth in S |- *. unfold hidden_name in S. destruct (startswith ($"__") n); [reflexivity|].
    match type of S with (if ?b then _ else _) = _ => destruct b eqn:Z; [apply Qeq_bool_iff in Z; exact Z|discriminate] end.
Qed.
(** Running rules that only look *)
Lemma loop_tags (T : dict (rule X)) (out : str -> X -> outcome) : (forall n r, In (n, r) T -> forall m, r_match r m = (m, out n (m_ext m))) -> forall m, m_tags (fst (match_loop T m)) = m_tags m.
Proof.
  assert (RT : forall n (r : rule X) m v, m_tags (record n r m v) = m_tags m) by (intros n r m v; unfold record; destruct v; cbn [m_tags]; try reflexivity; match goal with |- context [if ?x then _ else _] => destruct x end; reflexivity).
  induction T as [|[n r] T IH]; intros M m; [reflexivity|]. cbn [match_loop]. rewrite (M n r (or_introl eq_refl) m). assert (M' := fun n r K => M n r (or_intror K)).
  destruct (out n (m_ext m)); cbn [fst]; [rewrite (IH M'); apply RT|rewrite (IH M'); apply RT|reflexivity].
Qed.
Lemma table_run (T : dict (rule X)) x (out : str -> X -> outcome) : NoDup (dkeys T) -> (forall n r, In (n, r) T -> forall m, r_match r m = (m, out n (m_ext m))) -> (forall n, In n (dkeys T) -> is_stop (out n x) = false) ->
  m_score (fst (match_loop T (fresh_msg x))) == total (map (fun e => if is_hit (out (fst e) x) then r_score (snd e) else 0%Q) T) /\
  hit_names (fst (match_loop T (fresh_msg x))) = dkeys (filter (fun e => is_hit (out (fst e) x)) T).
Proof.
  intros N M S.
  assert (RO : Forall (fun e => reads_only (snd e) (visible_outcome (snd e))) T).
  { apply Forall_forall. intros [n r] K m. cbn [snd]. unfold visible_outcome. rewrite !(M n r K). reflexivity. }
  assert (V : forall e, In e T -> visible_outcome (snd e) x = out (fst e) x) by (intros [n r] K; unfold visible_outcome; cbn [fst snd]; rewrite (M n r K); reflexivity).
  assert (TW : take_while (fun e => negb (is_stop (visible_outcome (snd e) x))) T = T).
  { apply take_while_all. apply forallb_forall. intros e K. rewrite V, S; [reflexivity|apply in_map, K|exact K]. }
  assert (FI : filter (fun e => is_hit (visible_outcome (snd e) x)) T = filter (fun e => is_hit (out (fst e) x)) T) by (apply filter_ext_in; intros e K; rewrite V by exact K; reflexivity).
  destruct (read_only_run (fun r => visible_outcome r) T (fresh_msg x) RO) as [_ HS]. destruct (read_only_checked (fun r => visible_outcome r) T (fresh_msg x) N ltac:(intros ? _ []) RO) as [_ HN].
  cbn [m_ext fresh_msg] in HS, HN. rewrite TW, FI in HS, HN. rewrite HN. change (hit_names (fresh_msg x)) with (@nil str). split; [|reflexivity]. rewrite HS. cbn [m_score fresh_msg]. rewrite add_up_total, Qplus_0_l.
  assert (TC : forall q l, total (q :: l) == q + total l) by reflexivity. clear -TC. induction T as [|e T IH]; [reflexivity|]. cbn [filter map]. rewrite (TC (if is_hit (out (fst e) x) then _ else _)). destruct (is_hit (out (fst e) x)); cbn [map]; [rewrite TC|]; rewrite IH; ring.
Qed.
End Rules.
(** Leaving out what adds nothing *)
Lemma total_part (g : str -> Q) k l : NoDup k -> NoDup l -> incl k l -> (forall n, In n l -> ~ In n k -> g n == 0) -> total (map g k) == total (map g l).
Proof.
  intros NK NL S Z. assert (PE : Permutation l (k ++ filter (fun n => negb (mem_str n k)) l)).
  { apply NoDup_Permutation; [exact NL| |].
    - apply Proofs_Files.NoDup_app_iff; [exact NK|apply NoDup_filter, NL|]. intros n K1 K2. apply filter_In in K2 as [_ K2]. apply negb_true_iff in K2. apply mem_str_In in K1. congruence.
    - intros n. rewrite in_app_iff, filter_In, negb_true_iff. split; [|intros [K|[K _]]; [apply S, K|exact K]]. intros K. destruct (mem_str n k) eqn:M; [left; apply mem_str_In, M|auto]. }
  rewrite (total_perm _ _ (Permutation_map g PE)), map_app, total_app. assert (R : total (map g (filter (fun n => negb (mem_str n k)) l)) == 0); [|rewrite R; ring].
  assert (A : forall n, In n (filter (fun n => negb (mem_str n k)) l) -> g n == 0) by (intros n K; apply filter_In in K as [K M]; apply Z; [exact K|]; intros I; apply mem_str_In in I; rewrite I in M; discriminate).
  revert A. generalize (filter (fun n => negb (mem_str n k)) l). clear. intros l. induction l as [|n l IH]; intros A; [reflexivity|]. cbn [map total fold_right]. fold (total (map g l)). rewrite IH by (intros x K; apply A; right; exact K). rewrite (A n (or_introl eq_refl)). ring.
Qed.

(** ** Combined rules *)
From Verif Require Import Model_Meta Spec_Meta Proofs_Meta.
(** *** What a rule comes to is determined *)
Lemma comes_eq ss m n q q' : comes_to ss m n q -> q == q' -> comes_to ss m n q'.
Proof.
  intros [n0 p w q0 T H|n0 t e v q0 T W S Q] E.
  - eapply comes_look; [exact T|]. destruct H as [[F H]|[F H]]; [left|right]; (split; [exact F|rewrite <- E; exact H]).
  - eapply comes_compute; [exact T|exact W|exact S|rewrite <- E; exact Q].
Qed.
Lemma worth_ext u v e : (forall s, In s (expr_names e) -> u s == v s) -> Spec_Meta.worth u e == Spec_Meta.worth v e.
Proof.
  induction e as [s|d|o a IHa b IHb|a IHa|a IHa]; intros H; cbn [Spec_Meta.worth expr_names] in *.
  - apply H. left. reflexivity.
  - reflexivity.
  - assert (A := IHa ltac:(intros s K; apply H, in_or_app; auto)). assert (B := IHb ltac:(intros s K; apply H, in_or_app; auto)). unfold is_zero.
    destruct o; rewrite ?(Qeq_bool_comp2 _ _ 0 0 A (Qeq_refl 0)), ?(Qle_bool_comp _ _ _ _ A B), ?(Qle_bool_comp _ _ _ _ B A), ?(Qeq_bool_comp2 _ _ _ _ A B); try reflexivity; try (destruct (Qeq_bool _ 0); assumption); rewrite A, B; reflexivity.
  - unfold is_zero. rewrite (Qeq_bool_comp2 _ _ 0 0 (IHa H) (Qeq_refl 0)). reflexivity.
  - rewrite (IHa H). reflexivity.
Qed.
Lemma comes_unique ss m n q q' : comes_to ss m n q -> comes_to ss m n q' -> q == q'.
Proof.
  intros H. revert q'. induction H as [n p w q T H|n t e v q T W S IH Q]; intros q' H'.
  - inversion H' as [n0 p0 w0 q0 T0 H0|n0 t0 e0 v0 q0 T0]; subst; [|congruence]. rewrite T in T0. injection T0 as <- <-. destruct H as [[F H]|[F H]], H0 as [[F0 H0]|[F0 H0]]; try contradiction; rewrite H, H0; reflexivity.
  - inversion H' as [n0 p0 w0 q0 T0 H0|n0 t0 e0 v0 q0 T0 W0 S0 Q0]; subst; [congruence|]. rewrite T in T0. injection T0 as <-. apply compile_writes in W. apply compile_writes in W0. rewrite W in W0. injection W0 as <-.
    rewrite Q, Q0. apply worth_ext. intros s K. apply IH; [exact K|apply S0, K].
Qed.
(** *** Post-parsing drops rules only *)
Lemma pp_items_keys order which items : forall t done t' done', pp_items order which items t done = Some (t', done') -> incl (dkeys (t_checked t')) (dkeys (t_checked t)) /\ incl (dkeys (t_not_checked t')) (dkeys (t_not_checked t)).
Proof.
  assert (DD : forall n (d : dict mrule), incl (dkeys (ddel n d)) (dkeys d)).
  { intros n d x K. unfold dkeys in *. apply in_map_iff in K as ([k v] & <- & K). apply In_ddel_inv in K as [K _]. apply (in_map fst) in K. exact K. }
  induction items as [|[n r] items IH]; intros t done t' done' H; cbn [pp_items] in H; [injection H as <- _; split; apply incl_refl|].
  destruct (pp order max_left t n r done); [eapply IH, H| |discriminate]. apply IH in H as [H1 H2]. destruct which; cbn [t_checked t_not_checked] in *; (split; [|]); eauto using incl_tran.
Qed.
Lemma postparsed_keys order t t' done : call_postparsing order t = Some (t', done) -> incl (dkeys (t_checked t')) (dkeys (t_checked t)) /\ incl (dkeys (t_not_checked t')) (dkeys (t_not_checked t)).
Proof.
  unfold call_postparsing. destruct (pp_items order true (t_checked t) t []) as [[t1 d1]|] eqn:E; [|discriminate]. intros H. apply pp_items_keys in E as [E1 E2]. apply pp_items_keys in H as [H1 H2]. split; eauto using incl_tran.
Qed.

(** ** The mail *)
Section Mails.
Variable udigit uword : char -> bool.
Variable codec : str -> bool -> list N -> option str.
Variable feed : str -> list str * bool.
Variable header_parts : str -> option (list hpart).
Variable decode : str -> bool -> list N -> option (option str).
Variable repair : list N -> list N.
Hypothesis ascii_codec : forall name strict t, In name [$"ascii"; $"us-ascii"] -> Forall (fun c => (c < 128)%N) t -> codec name strict t = Some t.
Hypothesis no_words : forall s, contains ($"=?") s = false -> header_parts s = Some [HText s].

Lemma plain_written m : plain_mail m -> Forall (as_written codec) (texts_of m).
Proof.
  intros (_ & _ & P). apply Forall_forall. intros [h t] K. destruct (P h t K) as (_ & A & B & C). unfold as_written. cbn [fst snd]. split; [exact A|]. split; [exact B|]. split; [|intros strict; apply ascii_codec; assumption].
  destruct C as [<-|[<-|[]]]; intros Z; vm_compute in Z; repeat (destruct Z as [Z|Z]; [discriminate|]); destruct Z.
Qed.
Lemma plain_subject s : contains ($"=?") s = false -> decode_header codec header_parts s = Ok (Some s).
Proof. intros H. unfold decode_header. rewrite no_words by exact H. cbn [decode_parts concat]. rewrite app_nil_r. reflexivity. Qed.
Lemma flat_flatten s : flatten s = flat s.
Proof.
  symmetry. apply one_line_iff. unfold one_line, flat. induction s as [|c s IH]; [constructor|]. cbn [map]. constructor; [|exact IH]. destruct (N.eqb_spec c 10); auto.
Qed.
Lemma plain_loads m : plain_mail m -> exists l, load_mail udigit uword codec feed header_parts decode repair (mail_text m) = Some (mkMail (mail_text m) (fields_of (head_of m)) l) /\
  [l_text l] = texts_at Body m /\ [l_raw_text l] = texts_at Raw m.
Proof.
  intros PM. assert (W := plain_written m PM). destruct PM as (P & SF & PT).
  assert (SB : forall s, In s (values_of ($"Subject") (fields_of (head_of m))) -> contains ($"=?") s = false).
  { intros s K. unfold values_of in K. apply in_map_iff in K as (f & <- & K). apply filter_In in K as [K _]. apply SF, K. }
  unfold load_mail. rewrite no_cr_id by (apply mail_no_cr, P). rewrite mail_split by exact P.
  assert (L : load_text udigit uword codec feed header_parts decode repair (mail_text m) <> None).
  { rewrite mail_loaded by exact P. apply load_iff.
    assert (H : headers_of (map (part_for repair) (contents m)) = fields_of (head_of m)) by (destruct m; cbn [contents map headers_of head_of]; apply part_for_main). rewrite H.
    assert (T : forall p, In p (map (part_for repair) (contents m)) -> p_main p = $"text" -> exists h t, In (h, t) (texts_of m) /\ p = part_for repair (h, Some t)).
    { intros p K M. assert (F : In p (filter (fun p => streqb (p_main p) ($"text")) (map (part_for repair) (contents m)))) by (apply filter_In; split; [exact K|rewrite M; reflexivity]). rewrite texts_split in F by exact P. apply in_map_iff in F as ([h t] & <- & F). exists h, t. auto. }
    split; [|split].
    - intros s K. exists s. apply plain_subject, SB, K.
    - intros p K M. destruct (T p K M) as (h & t & I & ->). rewrite Forall_forall in W. destruct (W _ I) as (_ & _ & Z & _). cbn [fst] in Z. unfold part_for. cbn [fst snd]. rewrite (texts_main m h t I). cbn [p_charset]. exact Z.
    - intros p t line K M Q. destruct (T p K M) as (h & t' & I & ->). destruct (part_for_main repair (h, Some t')) as (_ & E & _). rewrite E in Q. cbn [fst] in Q. destruct (PT h t' I) as (N & _). contradiction. }
  destruct (load_text udigit uword codec feed header_parts decode repair (mail_text m)) as [l|] eqn:E; [|contradiction]. exists l. split; [destruct m; reflexivity|].
  destruct (mail_texts udigit uword codec feed header_parts decode repair m l P W E) as (R & subjects & shown & A & B & C). split; [|cbn [texts_at]; rewrite R; reflexivity]. rewrite C. change (texts_at Body m) with [join ($" ") (values_of ($"Subject") (fields_of (head_of m)) ++ map (fun x => flat (snd x)) (texts_of m))]. f_equal. f_equal. f_equal.
  - clear -A SB no_words. induction A as [|s t l l' A _ IH]; [reflexivity|]. rewrite plain_subject in A by (apply SB; left; reflexivity). injection A as ->. f_equal. apply IH. intros s K. apply SB. right. exact K.
  - clear -B PT. revert PT. induction B as [|[h t] u l l' B _ IH]; intros PT; [reflexivity|]. cbn [map fst snd]. f_equal; [|apply IH; intros h' t' K; apply PT; right; exact K]. destruct (PT h t (or_introl eq_refl)) as (N & _). unfold rendered in B. cbn [fst snd] in B.
    destruct (streqb_spec (sub_of h) ($"html")) as [Z|_]; [contradiction|]. apply one_line_iff in B. rewrite B. apply flat_flatten.
Qed.
End Mails.

(** ** The whole *)
Lemma nodup_left {T : Type} (a b : list T) : NoDup (a ++ b) -> NoDup a.
Proof. induction a as [|x a IH]; intros N; [constructor|]. inversion N as [|? ? N1 N2]; subst. constructor; [intros K; apply N1, in_or_app; auto|apply IH, N2]. Qed.
Lemma nodup_right {T : Type} (a b : list T) : NoDup (a ++ b) -> NoDup b.
Proof. induction a as [|x a IH]; intros N; [exact N|]. inversion N; subst. apply IH. assumption. Qed.
Lemma dget_key {V : Type} k (d : dict V) : In k (dkeys d) -> exists v, dget k d = Some v.
Proof. intros K. destruct (dget k d) as [v|] eqn:G; [eauto|]. apply dget_None in G. contradiction. Qed.
Lemma Forall2_map_self {S T : Type} (R : S -> T -> Prop) (g : S -> T) l : (forall n, In n l -> R n (g n)) -> Forall2 R l (map g l).
Proof. induction l as [|n l IH]; intros H; constructor; [apply H; left; reflexivity|apply IH; intros x K; apply H; right; exact K]. Qed.
Section Whole.
Variable udigit uword : char -> bool.
Variable codec : str -> bool -> list N -> option str.
Variable feed : str -> list str * bool.
Variable header_parts : str -> option (list hpart).
Variable decode : str -> bool -> list N -> option (option str).
Variable repair : list N -> list N.
Variable py_float : str -> option Q.
Hypothesis ascii_codec : forall name strict t, In name [$"ascii"; $"us-ascii"] -> Forall (fun c => (c < 128)%N) t -> codec name strict t = Some t.
Hypothesis no_words : forall s, contains ($"=?") s = false -> header_parts s = Some [HText s].
Variable addresses : str -> option (list (str * str)).
Variable mime : bool -> str -> loaded_mail -> list (option str).
Context {A Y : Type}.
Variable arg : str -> ares A.
Variable evals : str -> option (list A -> option str -> msg loaded_mail -> msg loaded_mail * outcome).
Variable E : penv Y.
Variable y : Y.
Variable c : switches.
Variable order : list str -> list str.
Hypothesis clash : no_clash E.
Hypothesis all_named : enumerates order.
Notation read_rules := (read_rules udigit uword codec header_parts py_float addresses mime arg evals E y c order).
Notation load_mail := (load_mail udigit uword codec feed header_parts decode repair).
Notation seen := (seen_by_rules codec header_parts addresses mime).
Notation says := (says udigit uword seen).
Notation worth := (Spec_Program.worth py_float).

Lemma table_stored ss n d : Forall (proper_setting py_float) ss -> In (n, d) (p_results (fold_left (put E) ss (mkP [] false y))) -> stored ss n d.
Proof.
  intros P K. assert (D := In_dget _ _ _ (all_nodup E py_float ss (mkP [] false y) (NoDup_nil _)) K).
  assert (AT : forall k, dget k d = last_set n k (map definition ss) None).
  { intros k. assert (H := put_attrs E py_float clash ss P (mkP [] false y) n k). unfold attr_of in H. rewrite D in H. exact H. }
  unfold stored. rewrite !AT, (last_type py_float ss P), (last_value py_float ss P), (last_score py_float ss P), (last_flags py_float ss P). destruct (task_of n ss), (number_of n ss); repeat split; reflexivity.
Qed.
(** *** After post-parsing *)
Definition class_of (k : option task) : option mrule := match k with Some (Compute t) => Some (RMeta t) | Some (Look _ _) => Some RBase | None => None end.
Definition outs (ss : list setting) (rs : ruleset loaded_mail) (t : mtables) (n : str) (x : loaded_mail) : outcome :=
  match task_of n ss with Some (Look p w) => says p w x | Some (Compute _) => meta_match rs t n x | None => Raises end.
Lemma kind_stored ss table n : NoDup (dkeys table) -> (forall n d, In (n, d) table -> stored ss n d) -> (forall n, task_of n ss <> None -> In n (dkeys table)) ->
  task_of n ss <> None -> Some (kind_in table n) = class_of (task_of n ss).
Proof.
  intros ND ST I T. assert (K := I n T). unfold dkeys in K. apply in_map_iff in K as ([n' d] & E' & K). cbn [fst] in E'. subst n'. unfold kind_in. rewrite (In_dget _ _ _ ND K). destruct (ST n d K) as (T1 & T2 & _). rewrite T1, T2. destruct (task_of n ss) as [[p w|t]|]; [|reflexivity|contradiction]. destruct p; reflexivity.
Qed.
Lemma kinds_keys table l : dkeys (kinds table l) = dkeys l.
Proof. unfold kinds, dkeys. rewrite map_map. reflexivity. Qed.
Lemma kinds_get table l n : dget n (kinds table l) = if dhas n l then Some (kind_in table n) else None.
Proof.
  destruct (dhas n l) eqn:H.
  - apply dhas_In in H. induction l as [|[k r] l IH]; [destruct H|]. cbn [kinds map fst]. fold (kinds table l). cbn [dget]. destruct (streqb_spec n k) as [->|NE]; [reflexivity|]. apply IH. destruct H as [H|H]; [cbn in H; congruence|exact H].
  - apply dget_None. rewrite kinds_keys. intros K. apply dhas_In in K. congruence.
Qed.
Lemma finished ss table rs : Forall (proper_setting py_float) ss -> (forall n t, task_of n ss = Some (Compute t) -> nested ss n 11) -> NoDup (dkeys table) -> (forall n d, In (n, d) table -> stored ss n d) -> (forall n, task_of n ss <> None -> In n (dkeys table)) ->
  NoDup (dkeys (rs_checked rs) ++ dkeys (rs_not_checked rs)) -> (forall n, In n (dkeys (rs_checked rs) ++ dkeys (rs_not_checked rs)) <-> task_of n ss <> None) ->
  (forall n r, In (n, r) (rs_checked rs ++ rs_not_checked rs) -> r_score r = worth n ss /\ exists k, task_of n ss = Some k /\ forall m, r_match r m = acts udigit uword seen k m) ->
  e_paranoid E = false ->
  exists t rs', finish E order table rs = Some rs' /\ (forall n, mget t n = class_of (task_of n ss)) /\ dkeys (rs_checked rs') = dkeys (rs_checked rs) /\
    forall n r, In (n, r) (rs_checked rs') -> r_score r = worth n ss /\ forall m, r_match r m = (m, outs ss rs t n (m_ext m)).
Proof.
  intros P DE ND ST I NK IK RK PA. set (t0 := mkT (kinds table (rs_checked rs)) (kinds table (rs_not_checked rs))).
  assert (M0 : forall n, mget t0 n = class_of (task_of n ss)).
  { intros n. unfold mget, t0. cbn [t_checked t_not_checked]. rewrite !kinds_get. assert (K := IK n). rewrite in_app_iff, <- !dhas_In in K.
    destruct (dhas n (rs_checked rs)), (dhas n (rs_not_checked rs)); try (apply (kind_stored ss table n ND ST I), K; auto). destruct (task_of n ss) as [k|]; [|reflexivity]. exfalso. destruct (proj2 K ltac:(discriminate)); discriminate. }
  assert (OK : tables_ok t0).
  { unfold tables_ok, t0. cbn [t_checked t_not_checked]. rewrite !kinds_keys. split; [eapply nodup_left, NK|]. split; [eapply nodup_right, NK|]. intros n K1 K2. clear -NK K1 K2. induction (dkeys (rs_checked rs)) as [|k l IH]; [destruct K1|]. cbn [app] in NK. inversion NK as [|? ? N1 N2]; subst. destruct K1 as [->|K1]; [apply N1, in_or_app; auto|apply IH; assumption]. }
  assert (DP : forall n d, nested ss n d -> depth_le t0 n d).
  { intros n d H. induction H as [n p w d T|n t e d T W S IH]; [apply depth_base; rewrite M0, T; reflexivity|]. eapply depth_meta; [rewrite M0, T; reflexivity|apply compile_writes, W|exact IH]. }
  assert (AC : all_compile t0).
  { intros n text H. rewrite M0 in H. destruct (task_of n ss) as [[p w|t]|] eqn:T; try discriminate. injection H as <-. destruct (task_proper py_float ss P n (Compute t) T) as (e & W). apply compile_writes in W. congruence. }
  destruct (load_total order all_named t0 OK AC) as (t & done & CP).
  assert (MT : forall n, mget t n = class_of (task_of n ss)).
  { intros n. rewrite <- M0. destruct (task_of n ss) as [[p w|tx]|] eqn:T.
    - apply (load_depth order all_named t0 t done n OK CP). apply depth_base. rewrite M0, T. reflexivity.
    - apply (load_depth order all_named t0 t done n OK CP). apply DP, (DE n tx T).
    - destruct (load_inv order all_named t0 t done OK CP) as (_ & _ & [D1 _] & _). destruct (mget t n) as [r|] eqn:G; [apply D1 in G; congruence|]. rewrite M0, T. reflexivity. }
  destruct (postparsed_keys order t0 t done CP) as [K1 K2]. unfold t0 in K1, K2. cbn [t_checked t_not_checked] in K1, K2. rewrite kinds_keys in K1, K2.
  assert (GC : forall n, In n (dkeys (rs_checked rs)) -> dget n (t_checked t) = class_of (task_of n ss)).
  { intros n K. rewrite <- MT. unfold mget. destruct (dget n (t_checked t)) eqn:G; [reflexivity|]. destruct (dget n (t_not_checked t)) as [r|] eqn:G2; [|reflexivity]. exfalso. apply dget_In in G2. apply (in_map fst) in G2. apply K2 in G2. destruct OK as (_ & _ & OK). unfold t0 in OK. cbn [t_checked t_not_checked] in OK. rewrite !kinds_keys in OK. exact (OK n K G2). }
  exists t. unfold finish. fold t0. rewrite CP, PA. cbn [andb]. eexists. split; [reflexivity|]. split; [exact MT|]. cbn [rs_checked].
  assert (US : forall l, incl (dkeys l) (dkeys (rs_checked rs)) -> usable rs t (t_checked t) l = map (fun e => match task_of (fst e) ss with Some (Compute _) => (fst e, with_match (snd e) (reader (meta_match rs t (fst e)))) | _ => e end) l).
  { induction l as [|e l IH]; intros S; [reflexivity|]. unfold usable. cbn [flat_map map]. fold (usable rs t (t_checked t) l). rewrite IH by (intros n K; apply S; right; exact K). assert (KE : In (fst e) (dkeys (rs_checked rs))) by (apply S; left; reflexivity). rewrite GC by exact KE.
    assert (T : task_of (fst e) ss <> None) by (apply IK, in_or_app; auto). destruct (task_of (fst e) ss) as [[p w|tx]|]; [reflexivity|reflexivity|contradiction]. }
  rewrite US by apply incl_refl. split.
  - unfold dkeys. rewrite map_map. apply map_ext. intros e. destruct (task_of (fst e) ss) as [[]|]; reflexivity.
  - intros n r K. apply in_map_iff in K as ([n0 r0] & EQ & K). cbn [fst snd] in EQ. destruct (RK n0 r0 ltac:(apply in_or_app; auto)) as (RS & k & T & RM). rewrite T in EQ. destruct k as [p w|tx]; injection EQ as <- <-; unfold outs; rewrite T.
    + split; [exact RS|]. intros m. rewrite RM. reflexivity.
    + split; [exact RS|]. intros m. reflexivity.
Qed.
(** *** What rules come to *)
Lemma comes_right ss rs t m x : (forall n, mget t n = class_of (task_of n ss)) ->
  (forall n p w, task_of n ss = Some (Look p w) -> exists r, dget n (rs_checked rs ++ rs_not_checked rs) = Some r /\ snd (r_match r (fresh_msg x)) = says p w x) ->
  (forall n p w, task_of n ss = Some (Look p w) -> exists b, says p w x = Returns (VBool b) /\ (b = true <-> found w p m)) ->
  forall n d, nested ss n d -> d <= 11 -> exists v q, outs ss rs t n x = Returns v /\ value_is v q /\ comes_to ss m n q.
Proof.
  intros MT RB SE. set (rules := rs_checked rs ++ rs_not_checked rs). set (base := fun s => match dget s rules with Some r => snd (r_match r (fresh_msg x)) | None => Raises end).
  assert (CL : forall n p w, task_of n ss = Some (Look p w) -> exists b, says p w x = Returns (VBool b) /\ comes_to ss m n (of_bool b)).
  { intros n p w T. destruct (SE n p w T) as (b & S & B). exists b. split; [exact S|]. eapply comes_look; [exact T|]. destruct b; [left; split; [apply B; reflexivity|reflexivity]|right; split; [intros O; apply B in O; discriminate|reflexivity]]. }
  assert (G : forall n d, nested ss n d -> exists v q, mmatch t base (S d) n = Some (Returns v) /\ value_is v q /\ comes_to ss m n q).
  { intros n d H. induction H as [n p w d T|n tx e d T W SN IH].
    - destruct (RB n p w T) as (r & G1 & G2). destruct (CL n p w T) as (b & S & B). exists (VBool b), (of_bool b). split; [|split; [reflexivity|exact B]]. cbn [mmatch]. rewrite MT, T. cbn [class_of]. unfold base. fold rules in G1. rewrite G1, G2, S. reflexivity.
    - set (u := fun s => match mmatch t base (S d) s with Some (Returns v) => match num_of v with Some q => q | None => 0%Q end | _ => 0%Q end).
      assert (U : forall s, In s (expr_names e) -> exists v, mmatch t base (S d) s = Some (Returns v) /\ value_is v (u s) /\ comes_to ss m s (u s)).
      { intros s K. destruct (IH s K) as (v & q & G & VI & CT). exists v. split; [exact G|]. destruct (value_num v q VI) as (z & Z1 & Z2). assert (US : u s = z) by (unfold u; rewrite G, Z1; reflexivity). rewrite US. split.
        - destruct v; cbn [num_of] in Z1; try discriminate; injection Z1 as <-; reflexivity.
        - eapply comes_eq; [exact CT|]. symmetry. exact Z2. }
      assert (W' := W). destruct W' as [PR _]. apply compile_writes in W as CT.
      destruct (eval_worth (fun s => match mmatch t base (S d) s with Some o => o | None => Raises end) u e PR) as (v & EV & VI); [intros s K; destruct (U s K) as (v & G & VI & _); exists v; rewrite G; auto|].
      exists v, (Spec_Meta.worth u e). split; [|split; [exact VI|]].
      + change (mmatch t base (S (S d)) n) with (match mget t n with None => None | Some RBase => Some (base n) | Some (RMeta text) => match compile_text text with None => None | Some e => if forallb (fun s => match mmatch t base (S d) s with Some _ => true | None => false end) (expr_names e) then Some (py_eval (fun s => match mmatch t base (S d) s with Some o => o | None => Raises end) e) else None end end).
        rewrite MT, T. cbn [class_of]. rewrite CT. replace (forallb _ (expr_names e)) with true; [rewrite EV; reflexivity|]. symmetry. apply forallb_forall. intros s K. destruct (U s K) as (z & G & _). rewrite G. reflexivity.
      + eapply comes_compute; [exact T|exact W| |reflexivity]. intros s K. destruct (U s K) as (z & _ & _ & Z). exact Z. }
  intros n d H L. unfold outs. destruct (task_of n ss) as [[p w|tx]|] eqn:T.
  - destruct (CL n p w T) as (b & S & B). exists (VBool b), (of_bool b). split; [exact S|]. split; [reflexivity|exact B].
  - destruct (G n d H) as (v & q & M & VI & CT). exists v, q. split; [|auto]. unfold meta_match. fold rules. fold base. rewrite (mmatch_mono t base (S d) n _ M (12 + length rules)) by lia. reflexivity.
  - inversion H; congruence.
Qed.
Lemma run_files fs ss : e_paranoid E = false -> configuration E y fs ss -> Forall (proper_setting py_float) ss -> forall st, p_ignore st = false -> p_ctx st = y -> parse_files E fs st = PDone (fold_left (put E) ss st).
Proof.
  intros PA. induction 1 as [|f fs ss F _ IH|f fs ls here further F W _ IH]; intros P st G Y0; [reflexivity|..]; cbn [parse_files];
    change (parse_file E max_levels f st) with (match e_files E f with None => PDone st | Some lines => run_lines E (parse_file E 10) f lines st end); rewrite F.
  - apply IH; assumption.
  - apply Forall_app in P as [P1 P2]. rewrite (run_written E py_float y 10 f ls here PA W P1 st G Y0). rewrite fold_left_app. apply IH; [exact P2| |].
    + rewrite puts_ignore. exact G.
    + rewrite puts_ctx. exact Y0.
Qed.
Theorem whole fs ss : e_paranoid E = false -> configuration E y fs ss -> proper_settings py_float ss ->
  exists rs, read_rules fs = Some rs /\ forall m, plain_mail m -> exists lm, load_mail (mail_text m) = Some lm /\
    (exists qs, Forall2 (adds_points py_float ss m) (names ss) qs /\ m_score (check rs lm) == sum qs) /\
    NoDup (hit_names (check rs lm)) /\ (forall n, In n (hit_names (check rs lm)) <-> counts py_float ss m n) /\ m_tags (check rs lm) = [] /\
    forall n r, In (n, r) (rs_checked rs) -> r_score r = worth n ss /\ exists o, reads_only r o /\ exists v q, o lm = Returns v /\ value_is v q.
Proof.
  intros PA W [P DE].
  set (table := p_results (fold_left (put E) ss (mkP [] false y))).
  assert (ST : forall n d, In (n, d) table -> stored ss n d) by (intros n d; apply table_stored, P).
  assert (ND : NoDup (dkeys table)) by (apply (all_nodup E py_float), NoDup_nil).
  assert (KT : forall n, In n (dkeys table) <-> In n (names ss)).
  { intros n. unfold names. rewrite nodup_In. unfold table. rewrite (all_keys E py_float). cbn [p_results dkeys map In]. unfold key. tauto. }
  assert (I : forall n, task_of n ss <> None -> In n (dkeys table)) by (intros n LK; apply KT, task_named, LK).
  destruct (stored_ruleset udigit uword py_float arg seen evals ss table c P ND ST I) as (rs & RS & NK & IK & RK & CK & UK).
  destruct (finished ss table rs P DE ND ST I NK IK RK PA) as (t & rs' & FI & MT & KS & RM).
  exists rs'. split.
  { unfold Model_Program.read_rules. rewrite (run_files fs ss PA W P) by reflexivity. fold table. rewrite PA, RS. exact FI. }
  intros m PM. destruct (plain_loads udigit uword codec feed header_parts decode repair ascii_codec no_words m PM) as (l & L & T & R).
  set (lm := mkMail (mail_text m) (fields_of (head_of m)) l). exists lm. split; [exact L|].
  assert (SE : forall p w, exists b, says p w lm = Returns (VBool b) /\ (b = true <-> found w p m)).
  { assert (ON : forall w z (ts : list str), ts = [z] -> has udigit uword w z = true <-> exists u, In u ts /\ occurs w u).
    { intros w z ts ->. rewrite has_word. split; [intros O; exists z; split; [left; reflexivity|exact O]|intros (u & [<-|[]] & O); exact O]. }
    intros [| | |fl] w; unfold found; cbn [Proofs_Program.says seen_by_rules ct_text ct_raw_text ct_raw_msg ct_header lm_parts lm_raw lm]; [eexists; split; [reflexivity|apply ON; symmetry; exact T]|eexists; split; [reflexivity|apply ON; symmetry; exact R]|eexists; split; [reflexivity|apply ON; reflexivity]|].
    unfold field_rule. cbn [lm_fields lm]. set (dec := fun v => match decode_header codec header_parts v with Ok o => o | _ => None end). assert (DC : forall v, In v (values_of fl (fields_of (head_of m))) -> dec v = Some v).
    { intros v K. unfold values_of in K. apply in_map_iff in K as (g & <- & K). apply filter_In in K as [K _]. destruct PM as (_ & SF & _). unfold dec. rewrite (plain_subject codec header_parts no_words) by (apply SF, K). reflexivity. }
    destruct (hplain_match dec addresses false (has udigit uword w) fl (fields_of (head_of m)) []) as (b & E1 & E2); [intros v K; rewrite (DC v K); discriminate|]. cbn [lookups] in E1. unfold fresh_h in E1. exists b. split; [exact E1|]. cbn [texts_at]. rewrite E2. split.
    - intros (v & v' & K & D & O). rewrite (DC v K) in D. injection D as <-. exists v. split; [exact K|]. apply (has_word udigit uword), O.
    - intros (v & K & O). exists v, v. split; [exact K|]. split; [apply DC, K|]. apply has_word, O. }
  assert (RB : forall n p w, task_of n ss = Some (Look p w) -> exists r, dget n (rs_checked rs ++ rs_not_checked rs) = Some r /\ snd (r_match r (fresh_msg lm)) = says p w lm).
  { intros n p w TK. assert (K : In n (dkeys (rs_checked rs ++ rs_not_checked rs))) by (unfold dkeys; rewrite map_app; apply IK; congruence). apply dget_key in K as (r & K). exists r. split; [exact K|]. apply dget_In in K. destruct (RK n r K) as (_ & k & TK' & RM'). rewrite TK in TK'. injection TK' as <-. rewrite RM'. reflexivity. }
  assert (CR : forall n, task_of n ss <> None -> exists v q, outs ss rs t n lm = Returns v /\ value_is v q /\ comes_to ss m n q).
  { intros n TK. assert (NE : nested ss n 11) by (destruct (task_of n ss) as [[p w|tx]|] eqn:Z; [eapply nested_look, Z|apply (DE n tx Z)|contradiction]). apply (comes_right ss rs t m lm MT RB (fun n p w _ => SE p w) n 11 NE (le_n _)). }
  set (hit := fun n => is_hit (outs ss rs t n lm)).
  assert (HT : forall n, task_of n ss <> None -> (hit n = true <-> hits ss m n) /\ (hit n = false <-> misses ss m n)).
  { intros n TK. destruct (CR n TK) as (v & q & O & VI & CT). assert (HV : hit n = negb (is_zero q)) by (unfold hit; rewrite O; rewrite <- (value_truthy v q VI); destruct v; try reflexivity; destruct VI). rewrite HV. unfold is_zero. split.
    - rewrite negb_true_iff. split; [intros Z; exists q; split; [exact CT|apply Qeq_bool_neq, Z]|]. intros (q' & C' & NZ). destruct (Qeq_bool q 0) eqn:Z; [|reflexivity]. exfalso. apply NZ. apply Qeq_bool_iff in Z. rewrite (comes_unique ss m n q' q C' CT). exact Z.
    - rewrite negb_false_iff, Qeq_bool_iff. split; [intros Z; exists q; auto|]. intros (q' & C' & Z). rewrite (comes_unique ss m n q q' CT C'). exact Z. }
  assert (NT : NoDup (dkeys (rs_checked rs'))) by (rewrite KS; eapply nodup_left, NK).
  assert (TN : forall n, In n (dkeys (rs_checked rs')) -> task_of n ss <> None) by (intros n K; rewrite KS in K; apply IK, in_or_app; auto).
  destruct (table_run (rs_checked rs') lm (outs ss rs t) NT (fun n r K => proj2 (RM n r K))) as [SC HN].
  { intros n K. destruct (CR n (TN n K)) as (v & q & O & _). rewrite O. reflexivity. }
  unfold check, match_msg. cbn [hook_chain]. split.
  - set (g := fun n => if hit n then worth n ss else 0%Q). exists (map g (names ss)). split.
    + apply Forall2_map_self. intros n K. unfold adds_points, g. destruct (task_of n ss) as [k|] eqn:TK.
      * destruct (HT n ltac:(congruence)) as [H1 H2]. destruct (hit n); [left; split; [apply H1; reflexivity|reflexivity]|right; split; [left; apply H2; reflexivity|reflexivity]].
      * right. split; [auto|]. unfold hit, outs. rewrite TK. reflexivity.
    + rewrite SC. assert (MG : map (fun e => if is_hit (outs ss rs t (fst e) lm) then r_score (snd e) else 0%Q) (rs_checked rs') = map g (dkeys (rs_checked rs'))).
      { unfold dkeys. rewrite map_map. apply map_ext_in. intros [n r] K. cbn [fst snd]. unfold g, hit. rewrite (proj1 (RM n r K)). reflexivity. }
      rewrite MG. apply total_part; [exact NT|apply NoDup_nodup|intros n K; apply KT, I, TN, K|]. intros n _ K. unfold g. destruct (task_of n ss) as [k|] eqn:TK.
      * assert (K2 : In n (dkeys (rs_checked rs) ++ dkeys (rs_not_checked rs))) by (apply IK; congruence). apply in_app_or in K2 as [K2|K2]; [rewrite KS in K; contradiction|]. destruct (hit n); [apply UK, K2|reflexivity].
      * unfold hit, outs. rewrite TK. reflexivity.
  - rewrite HN. split.
    + clear -NT. unfold dkeys in *. induction (rs_checked rs') as [|e l0 IH]; [constructor|]. cbn [map] in NT. inversion NT as [|? ? N1 N2]; subst. cbn [filter]. destruct (is_hit _); [|apply IH, N2]. cbn [map]. constructor; [|apply IH, N2]. intros K. apply N1. apply in_map_iff in K as (e1 & <- & K). apply filter_In in K as [K _]. apply in_map, K.
    + split; [|split; [apply (loop_tags (rs_checked rs') (outs ss rs t) (fun n r K => proj2 (RM n r K)) (fresh_msg lm))|]].
      2:{ intros n r K. split; [apply (RM n r K)|]. exists (outs ss rs t n). split; [exact (proj2 (RM n r K))|]. destruct (CR n (TN n (in_map fst _ _ K))) as (v & q & O & VI & _). exists v, q. auto. }
      intros n. unfold counts, dkeys. rewrite in_map_iff. split.
      * intros ([n' r] & <- & K). apply filter_In in K as [K H]. cbn [fst] in *. apply (in_map fst) in K. cbn [fst] in K. split; [apply HT; [apply TN, K|exact H]|]. apply CK. rewrite <- KS. exact K.
      * intros [H NZ]. assert (TK : task_of n ss <> None) by (destruct H as (q & H & _); inversion H; congruence). assert (K2 : In n (dkeys (rs_checked rs) ++ dkeys (rs_not_checked rs))) by (apply IK; congruence). apply in_app_or in K2 as [K2|K2]; [|destruct (NZ (UK n K2))].
        rewrite <- KS in K2. unfold dkeys in K2. apply in_map_iff in K2 as ([n' r] & EN & K2). cbn [fst] in EN. subst n'. exists (n, r). split; [reflexivity|]. apply filter_In. split; [exact K2|]. cbn [fst]. apply (HT n TK), H.
Qed.
End Whole.

(** ** Requests *)
From Verif Require Import PyUtf8 Model_Net Model_Server Spec_Server Proofs_Server.
Lemma colon_first (a b u v : str) : ~ In 58%N a -> ~ In 58%N u -> a ++ 58%N :: b = u ++ 58%N :: v -> a = u.
Proof.
  revert u. induction a as [|x a IH]; intros [|z u] A U H; cbn [app] in H; [reflexivity|injection H as <- _; exfalso; apply U; left; reflexivity|injection H as -> _; exfalso; apply A; left; reflexivity|].
  injection H as <- H. f_equal. apply IH; [intros K; apply A; right; exact K|intros K; apply U; right; exact K|exact H].
Qed.
Section Requests.
Context {R M A P F : Type}.
Variable E : engine R M A P F.
Lemma asked give prefs (cmd : str) c body sv m a details : dget cmd commands = Some c -> upper cmd = cmd -> c <> CTell -> c <> CPing -> c <> CSkip -> Spec_Parser.word cmd ->
  transport give -> Forall (fun x => (x < 128)%N) (cmd ++ body) -> e_load E (sv_ruleset sv) body = Ok m -> e_match E (sv_ruleset sv) m = Ok a -> extra_details E c (sv_ruleset sv) a = Ok details ->
  handle E give prefs (request cmd body) sv =
  (sv, mkReply [ok_line E c; spam_line E (sv_ruleset sv) a; $"Content-length: " ++ dec (N.of_nat (length details)) ++ crlf ++ crlf; details] [Matched (sv_ruleset sv) m] (Ok tt)).
Proof.
  intros C U N1 N2 N3 W G AS EL EM ED. apply Forall_app in AS as [AC AB].
  set (opt := $"Content-length: " ++ dec (N.of_nat (length body)) ++ [13%N]).
  assert (DD := Proofs_Scripts.dec_digits (N.of_nat (length body))). rewrite forallb_forall in DD.
  assert (SO : strip opt = $"Content-length" ++ $":" ++ ($" " ++ dec (N.of_nat (length body)))).
  { unfold opt. replace ($"Content-length: " ++ dec (N.of_nat (length body)) ++ [13%N]) with ([] ++ ($"Content-length: " ++ dec (N.of_nat (length body))) ++ [13%N]) by (rewrite <- app_assoc; reflexivity).
    rewrite strip_blanks by reflexivity. rewrite strip_id; [reflexivity|intros c0 r0 K; injection K as <- _; reflexivity|].
    intros c0 r0 K. apply (f_equal (@rev char)) in K. rewrite !rev_app_distr in K. assert (NE := Proofs_Scripts.dec_nonempty (N.of_nat (length body))). destruct (rev (dec (N.of_nat (length body)))) as [|z zs] eqn:RV; [apply (f_equal (@rev char)) in RV; rewrite rev_involutive in RV; contradiction|].
    cbn [app rev] in K. injection K as <- _. apply Proofs_Scripts.digit_not_space, DD. apply in_rev. rewrite RV. left. reflexivity. }
  assert (LC : forall u, Forall (fun x => (x < 128)%N) u -> ~ In 10%N u -> line_of u u) by (intros u AU NU; split; [exact NU|apply encode_ascii, AU]).
  assert (AO : Forall (fun x => (x < 128)%N) opt /\ ~ In 10%N opt).
  { assert (OC : forall x, In x opt -> (x < 128)%N /\ x <> 10%N).
    { intros x K. unfold opt in K. apply in_app_or in K as [K|K]; [vm_compute in K; repeat (destruct K as [<-|K]; [split; [reflexivity|discriminate]|]); destruct K|]. apply in_app_or in K as [K|[<-|[]]]; [|split; [reflexivity|discriminate]].
      apply DD in K. unfold is_digit in K. apply andb_true_iff in K as [K1 K2]. apply N.leb_le in K1, K2. lia. }
    split; [apply Forall_forall; intros x K; apply OC, K|intros K; apply OC in K; lia]. }
  assert (OL : forall name v, option_line opt name v -> name = $"Content-length").
  { intros name v [H NC]. rewrite SO in H. symmetry in H. apply (colon_first name v ($"Content-length") ($" " ++ dec (N.of_nat (length body))) NC); [|exact H]. intros K. vm_compute in K. repeat (destruct K as [K|K]; [discriminate|]). destruct K. }
  assert (LO : forall k v, k <> $"content-length" -> ~ last_option [opt] k v).
  { intros k v K (b & t & af & name & value & EQ & O & LW & _). destruct b as [|? [|]]; try discriminate. injection EQ as <- <-. apply OL in O. subst name. apply K. symmetry. exact LW. }
  unfold request. replace (cmd ++ $" SPAMC/1.2" ++ [13%N; 10%N] ++ $"Content-length: " ++ dec (N.of_nat (length body)) ++ [13%N; 10%N; 13%N; 10%N] ++ body)
    with ((cmd ++ $" SPAMC/1.2" ++ [13%N]) ++ 10%N :: with_ends [opt] ++ [13%N] ++ 10%N :: body ++ []).
  2:{ unfold opt, with_ends. cbn [map concat]. rewrite !app_nil_r. rewrite <- !app_assoc. reflexivity. }
  apply (check_request E give prefs sv _ (cmd ++ $" SPAMC/1.2" ++ [13%N]) cmd ($"SPAMC/1.2") c [opt] [opt] [13%N] [13%N] body [] (sv_ruleset sv) sv m a details); try assumption.
  - destruct W as (_ & WS & _). apply LC.
    + apply Forall_app. split; [exact AC|]. repeat constructor.
    + intros K. apply in_app_or in K as [K|K]; [apply WS in K; discriminate|]. vm_compute in K. repeat (destruct K as [K|K]; [discriminate|]). destruct K.
  - destruct W as (WN & WS & _). replace (cmd ++ $" SPAMC/1.2" ++ [13%N]) with ([] ++ (cmd ++ $" SPAMC/1.2") ++ [13%N]) by (rewrite <- app_assoc; reflexivity). rewrite strip_blanks by reflexivity. rewrite strip_id.
    + unfold words. rewrite words_aux_word by exact WS. cbn [words_aux]. rewrite app_nil_r. change ($" SPAMC/1.2") with (32%N :: $"SPAMC/1.2"). cbn [words_aux]. change (is_space 32%N) with true. cbv iota. destruct (rev cmd) as [|z zs] eqn:RV; [apply (f_equal (@rev char)) in RV; rewrite rev_involutive in RV; contradiction|]. rewrite <- RV, rev_involutive. reflexivity.
    + intros c0 r0 K. destruct cmd as [|z zs]; [contradiction|]. injection K as <- _. apply WS. left. reflexivity.
    + intros c0 r0 K. apply (f_equal (@rev char)) in K. rewrite !rev_app_distr in K. injection K as <- _. reflexivity.
  - rewrite U. exact C.
  - constructor; [apply LC; apply AO|constructor].
  - constructor; [|constructor]. rewrite SO. split; [discriminate|]. vm_compute. tauto.
  - apply LC; [repeat constructor|intros [K|[]]; discriminate].
  - reflexivity.
  - left. exists (dec (N.of_nat (length body))). split; [|rewrite Proofs_Scripts.py_int_dec; f_equal; lia].
    exists [], opt, [], ($"Content-length"), ($" " ++ dec (N.of_nat (length body))). split; [reflexivity|]. split; [split; [exact SO|intros K; vm_compute in K; repeat (destruct K as [K|K]; [discriminate|]); destruct K]|]. split; [reflexivity|]. split; [|intros t' n' v' []].
    rewrite strip_lead by reflexivity. apply strip_solid. intros c0 K. apply Proofs_Scripts.digit_not_space, DD, K.
  - intros v K. exfalso. revert K. apply LO. discriminate.
  - exists None. split; [|reflexivity]. intros v. split; [discriminate|]. intros K. exfalso. revert K. apply LO. discriminate.
Qed.
Lemma reloaded r p earlier requests sv0 : e_allow E r = false -> (forall e, In e requests -> exists give prefs bytes, e = Request give prefs bytes) ->
  sv_ruleset (sv_run E (earlier ++ Reload r p :: requests) sv0) = r.
Proof.
  intros AL RQ. unfold sv_run. rewrite fold_left_app. cbn [fold_left sv_step].
  assert (H : forall reqs sv, (forall e, In e reqs -> exists give prefs bytes, e = Request give prefs bytes) -> sv_ruleset sv = r -> sv_results sv = p -> sv_ruleset (fold_left (sv_step E) reqs sv) = r).
  { induction reqs as [|e reqs IH]; intros sv K H1 H2; [exact H1|]. cbn [fold_left]. destruct (K e (or_introl eq_refl)) as (give & prefs & bytes & ->). cbn [sv_step].
    assert (CO : cache_ok E r p (prefs []) [] sv) by (split; [exact H1|split; [exact H2|]]; intros x _ Z; congruence).
    destruct (handle_cache E r p (prefs []) [] give prefs bytes sv CO eq_refl) as (C1 & C2 & _). apply IH; [intros e He; apply K; right; exact He|exact C1|exact C2]. }
  apply H; [exact RQ|reflexivity|reflexivity].
Qed.
End Requests.
