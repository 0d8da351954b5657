(** Proofs about loaded rules. *)
From Verif Require Import PyStr PyDict Model_Rules Spec_Rules Proofs_Rules Model_Headers Model_Parser Model_Build Spec_Build.

Lemma map_opt_Forall2 {A B} (f : A -> option B) l ys :
  map_opt f l = Some ys -> Forall2 (fun x y => f x = Some y) l ys.
Proof.
  revert ys; induction l as [|x l IH]; simpl; intros ys H; [inversion H; constructor|].
  destruct (f x) eqn:E; [|discriminate]. destruct (map_opt f l); [|discriminate]. inversion H; subst.
  constructor; auto.
Qed.

Local Open Scope Q_scope.
Section B.
Context {X A : Type}.
Variable py_float : str -> option Q.
Variable re_compile : str -> reflags -> option (str -> bool).
Variable arg : str -> ares A.
Variable C : content X.
Variable evals : str -> option (list A -> option str -> msg X -> msg X * outcome).
Notation build := (build_rule py_float re_compile arg C evals).
Notation cbuild := (checked_build py_float re_compile arg C evals).

(** Every built rule comes out of [init_rule] with the parsed keyword arguments. *)
Lemma build_init name data (r : rule X) : build name data = BRule r ->
  exists k kind up ev mt, get_rule_kwargs py_float data = Some k /\
    init_rule name kind (k_score k) (k_desc k) (if up : bool then k_prio k else None) (k_tflags k) ev mt = Some r /\
    (up = false <-> dget ($"type") data = Some (AStr ($"mimeheader"))).
Proof.
  unfold build_rule. intros H.
  destruct (dget ($"type") data) as [[ty|]|] eqn:Ety; destruct (dget ($"value") data) as [[value|]|];
    destruct (get_rule_kwargs py_float data) as [k|] eqn:Ek; try discriminate.
  assert (Hmk : forall kind up ev mt, make name kind k up ev mt = BRule r ->
            (up = false <-> ty = $"mimeheader") ->
            exists k0 kind up ev mt, Some k = Some k0 /\
              init_rule name kind (k_score k0) (k_desc k0) (if up : bool then k_prio k0 else None) (k_tflags k0) ev mt = Some r /\
              (up = false <-> Some (AStr ty) = Some (AStr ($"mimeheader")))).
  { intros kind up ev mt Hm Hu. unfold make in Hm. destruct (init_rule _ _ _ _ _ _ _ _) eqn:E; [|discriminate].
    inversion Hm; subst. exists k, kind, up, ev, mt. split; [reflexivity|]. split; [exact E|].
    rewrite Hu. split; congruence. }
  assert (Hp : forall kind v look, pattern_rule re_compile name kind k v look = BRule r -> ty <> $"mimeheader" ->
            exists k0 kind up ev mt, Some k = Some k0 /\
              init_rule name kind (k_score k0) (k_desc k0) (if up : bool then k_prio k0 else None) (k_tflags k0) ev mt = Some r /\
              (up = false <-> Some (AStr ty) = Some (AStr ($"mimeheader")))).
  { intros kind v look Hm Hne. unfold pattern_rule in Hm. destruct (perl2re re_compile v); try discriminate.
    eapply Hmk; [exact Hm|split; [discriminate|contradiction]]. }
  destruct (streqb_spec ty ($"body")); [eapply Hp; [exact H|subst; discriminate]|].
  destruct (streqb_spec ty ($"rawbody")); [eapply Hp; [exact H|subst; discriminate]|].
  destruct (streqb_spec ty ($"full")); [eapply Hp; [exact H|subst; discriminate]|].
  destruct (streqb_spec ty ($"uri")); [eapply Hp; [exact H|subst; discriminate]|].
  destruct (streqb_spec ty ($"header")).
  { destruct (header_rule re_compile value); try discriminate. eapply Hmk; [exact H|subst; split; discriminate]. }
  destruct (streqb_spec ty ($"mimeheader")).
  { unfold mime_rule in H.
    destruct (if contains _ _ then _ else _) as [neg|]; [|discriminate].
    destruct (split1_sub _ _) as [[hn pat]|]; [|discriminate].
    destruct (perl2re re_compile pat); try discriminate.
    destruct (rsplit1 58%N (strip hn)) as [[h md]|].
    - destruct (streqb md ($"raw")); [|discriminate]. eapply Hmk; [exact H|tauto].
    - eapply Hmk; [exact H|tauto]. }
  destruct (streqb_spec ty ($"meta")); [eapply Hmk; [exact H|subst; split; discriminate]|].
  destruct (streqb_spec ty ($"eval")); [|discriminate].
  unfold eval_rule in H. destruct (init_rule _ _ _ _ _ _ _ _); [|discriminate].
  destruct (eval_parse _) as [[fn args]|]; [|discriminate].
  destruct (eval_args _ _); try discriminate. eapply Hmk; [exact H|subst; split; discriminate].
Qed.

Lemma flagged_kw data k fl : get_rule_kwargs py_float data = Some k ->
  (dget ($"tflags") data = None \/ exists l, dget ($"tflags") data = Some (AList l)) ->
  (In fl (k_tflags k) <-> flagged data fl).
Proof.
  unfold get_rule_kwargs. intros H Ht. destruct (match text_attr _ _ with None => _ | Some _ => _ end); [|discriminate].
  inversion H; subst; clear H. cbn [k_tflags]. unfold flagged. destruct Ht as [Ht|[l Ht]]; rewrite Ht.
  - split; [intros []|intros (l & raw & E & _); discriminate].
  - rewrite in_map_iff. split.
    + intros (raw & E & Hi). exists l, raw. auto.
    + intros (l' & raw & E & Hi & Es). inversion E; subst. exists raw. auto.
Qed.

Lemma score_kw data k : get_rule_kwargs py_float data = Some k ->
  k_score k = match text_attr ($"score") data with None => None | Some s => map_opt py_float (words s) end /\
  (forall s, text_attr ($"score") data = Some s -> k_score k <> None) /\
  k_desc k = text_attr ($"describe") data /\ k_prio k = text_attr ($"priority") data.
Proof.
  unfold get_rule_kwargs. intros H. destruct (text_attr ($"score") data) as [s|].
  - destruct (map_opt py_float (words s)) eqn:E; simpl in H; [|discriminate].
    inversion H; subst; simpl. repeat split. intros; discriminate.
  - inversion H; subst; simpl. repeat split. discriminate.
Qed.

Lemma scores_kw name data k : get_rule_kwargs py_float data = Some k ->
  (dget ($"tflags") data = None \/ exists l, dget ($"tflags") data = Some (AList l)) ->
  (dget ($"score") data = None \/ exists raw, dget ($"score") data = Some (AStr raw)) ->
  scores_of py_float name data (init_scores name (k_score k) (k_tflags k)).
Proof.
  intros Hk Ht Hs. pose proof (score_kw data k Hk) as (Hsc & Hnn & _).
  unfold init_scores, hidden_name. destruct (startswith ($"__") name) eqn:En; [apply sc_sub; exact En|].
  destruct Hs as [Hs|[raw Hs]]; unfold text_attr in Hsc, Hnn; rewrite Hs in Hsc, Hnn.
  - rewrite Hsc. destruct (mem_str ($"nice") (k_tflags k)) eqn:Em.
    + apply sc_nice; auto. apply (flagged_kw data k _ Hk Ht). apply mem_str_In. exact Em.
    + apply sc_default; auto. intros Hf. apply (flagged_kw data k _ Hk Ht) in Hf. apply mem_str_In in Hf. congruence.
  - destruct (k_score k) as [qs|] eqn:Eq; [|exfalso; eapply Hnn; reflexivity].
    eapply sc_stated; [exact En|exact Hs|]. apply map_opt_Forall2. symmetry. exact Hsc.
Qed.

Lemma scores_of_det name data a b : scores_of py_float name data a -> scores_of py_float name data b -> a = b.
Proof.
  intros Ha Hb. unfold states, silent_on in *.
  assert (Hf : forall l a b, Forall2 (fun w q => py_float w = Some q) l a -> Forall2 (fun w q => py_float w = Some q) l b -> a = b).
  { clear. intros l a b Ha. revert b. induction Ha; intros b Hb; inversion Hb; subst; [reflexivity|].
    f_equal; [congruence|auto]. }
  destruct Ha as [?|? ? ? Hs1 H1|? Hs1 ?|? Hs1 ?]; destruct Hb as [?|? ? ? Hs2 H2|? Hs2 ?|? Hs2 ?];
    unfold states, silent_on in *; try congruence; try contradiction.
  rewrite Hs1 in Hs2. inversion Hs2; subst. eapply Hf; eassumption.
Qed.

(** ** C58 *)
Lemma built_attributes name data (r : rule X) :
  (silent_on data ($"tflags") \/ exists l, dget ($"tflags") data = Some (AList l)) ->
  (silent_on data ($"score") \/ exists raw, states data ($"score") raw) ->
  build name data = BRule r ->
  r_name r = name /\
  scores_of py_float name data (r_scores r) /\ hd_error (r_scores r) = Some (r_score r) /\
  (length (r_scores r) = 1%nat \/ length (r_scores r) = 4%nat) /\
  (forall g, In g (r_tflags r) <-> flagged data g) /\
  (forall raw, states data ($"describe") raw -> r_desc r = strip raw) /\
  (silent_on data ($"describe") -> r_desc r = $"No description available.") /\
  (silent_on data ($"priority") -> r_prio r = 0%Z) /\
  (forall raw, states data ($"priority") raw -> ~ states data ($"type") ($"mimeheader") ->
     r_prio r = match py_int (strip raw) with Some z => z | None => 0%Z end).
Proof.
  intros Ht Hs H. destruct (build_init name data r H) as (k & kind & up & ev & mt & Hk & Hi & Hup).
  pose proof (init_rule_fields _ _ _ _ _ _ _ _ _ Hi) as (Hn & Hsc & Htf & Hm & Hp & Hd & He & Hhd).
  pose proof (score_kw data k Hk) as (_ & _ & Kd & Kp).
  split; [exact Hn|]. split; [rewrite Hsc; apply scores_kw; assumption|]. split; [exact Hhd|].
  split. { rewrite Hsc. apply (init_rule_lengths name kind (k_score k) (k_desc k) (if up then k_prio k else None) (k_tflags k) ev mt). eauto. }
  split. { intros g. rewrite Htf. apply flagged_kw; assumption. }
  unfold text_attr in Kd, Kp. unfold states, silent_on.
  split. { intros raw E. rewrite E in Kd. rewrite Hd, Kd. reflexivity. }
  split. { intros E. rewrite E in Kd. rewrite Hd, Kd. reflexivity. }
  split. { intros E. rewrite E in Kp. rewrite Hp. destruct up; [rewrite Kp|]; reflexivity. }
  intros raw E Hne. rewrite E in Kp. rewrite Hp. destruct up.
  - rewrite Kp. reflexivity.
  - exfalso. apply Hne. apply Hup. reflexivity.
Qed.

(** ** C59 *)
Definition identifier (s : str) : Prop :=
  match s with [] => False | c :: _ => is_alpha_ c = true end /\ forallb is_wordch s = true.

Lemma take_drop_ident fn rest : forallb is_wordch fn = true ->
  take_while is_wordch (fn ++ 40%N :: rest) = fn /\ drop_while is_wordch (fn ++ 40%N :: rest) = 40%N :: rest.
Proof.
  induction fn as [|c fn IH]; cbn [forallb]; intros H; [split; reflexivity|].
  apply andb_true_iff in H as [Hc Hf]. cbn [app take_while drop_while]. rewrite Hc.
  destruct (IH Hf) as [-> ->]. split; reflexivity.
Qed.

Lemma eval_text_named fn args : identifier fn ->
  (forall c t, fn = c :: t -> ~ In c ($"eval")) ->
  eval_text ($"eval:" ++ fn ++ $"(" ++ args ++ $")") = fn ++ $"(" ++ args ++ $")".
Proof.
  intros [Hh Hw] Hne. unfold eval_text. destruct fn as [|c fn]; [destruct Hh|].
  assert (Hl : lstrip_chars ($"eval:") ($"eval:" ++ (c :: fn) ++ $"(" ++ args ++ $")") = (c :: fn) ++ $"(" ++ args ++ $")").
  { unfold lstrip_chars, lstrip_p. rewrite drop_while_app_all by reflexivity.
    cbn [app drop_while].
    destruct (mem_char c ($"eval:")) eqn:E; [|reflexivity]. exfalso.
    apply mem_char_In in E. apply (Hne c fn eq_refl).
    change ($"eval:") with ($"eval" ++ [58%N]) in E. apply in_app_iff in E as [E|E]; [exact E|].
    destruct E as [<-|[]]. discriminate. }
  rewrite Hl. unfold strip, strip_p.
  assert (Hs : forall p (s : str) c0, p c0 = false -> rstrip_p p (s ++ [c0]) = s ++ [c0]).
  { intros p s c0 Hp. unfold rstrip_p. rewrite rev_app_distr. cbn [rev app drop_while]. rewrite Hp.
    cbn [rev]. rewrite rev_involutive. reflexivity. }
  assert (Hsp : is_space c = false).
  { destruct (is_space c) eqn:Es; [|reflexivity]. exfalso. change (is_alpha_ c = true) in Hh.
    unfold is_alpha_ in Hh. unfold is_space in Es.
    repeat (apply orb_true_iff in Hh as [Hh|Hh]); repeat (apply orb_true_iff in Es as [Es|Es]);
      try (apply andb_true_iff in Hh as [Hh1 Hh2]; apply N.leb_le in Hh1; apply N.leb_le in Hh2);
      try (apply andb_true_iff in Es as [Es1 Es2]; apply N.leb_le in Es1; apply N.leb_le in Es2);
      try apply N.eqb_eq in Hh; try apply N.eqb_eq in Es; lia. }
  unfold lstrip_p. cbn [app drop_while]. rewrite Hsp.
  change (c :: fn ++ $"(" ++ args ++ $")") with ((c :: fn) ++ $"(" ++ args ++ [41%N]).
  rewrite !app_assoc. apply Hs. reflexivity.
Qed.

Lemma eval_parse_named fn args : identifier fn -> eval_parse (fn ++ $"(" ++ args ++ $")") = Some (fn, args).
Proof.
  intros [Hh Hw]. unfold eval_parse. destruct fn as [|c fn]; [destruct Hh|].
  cbn [app]. rewrite Hh.
  change (c :: fn ++ $"(" ++ args ++ $")") with ((c :: fn) ++ 40%N :: (args ++ $")")).
  destruct (take_drop_ident (c :: fn) (args ++ $")") Hw) as [-> ->].
  replace (rsplit1 41%N (args ++ $")")) with (Some (args, @nil char)); [reflexivity|].
  symmetry. apply rsplit1_Some. split; [reflexivity|intros []].
Qed.

Lemma eval_named name data fn args vs target (r : rule X) :
  states data ($"type") ($"eval") -> states data ($"value") ($"eval:" ++ fn ++ $"(" ++ args ++ $")") ->
  (match target with Some t => states data ($"target") t | None => silent_on data ($"target") end) ->
  identifier fn -> (forall c t, fn = c :: t -> ~ In c ($"eval")) ->
  eval_args arg (eval_arg_texts args) = AVal vs ->
  build name data = BRule r ->
  r_eval r = Some fn /\
  forall f, evals fn = Some f -> forall m,
    r_match r m = match f vs target m with
                  | (m', Returns v) => (m', Returns v)
                  | (m', _) => (m', Returns (VBool false))
                  end.
Proof.
  unfold states, silent_on. intros Ht Hv Htg Hid Hne Ha H. unfold build_rule in H. rewrite Ht, Hv in H.
  destruct (get_rule_kwargs py_float data) as [k|]; [|discriminate].
  cbn [streqb] in H.
  repeat match type of H with context [streqb ?a ?b] => change (streqb a b) with false in H; cbn [negb] in H
                                              | _ => change (streqb ($"eval") ($"eval")) with true in H end.
  unfold eval_rule in H. destruct (init_rule _ _ _ _ _ _ _ _); [|discriminate].
  rewrite eval_text_named, eval_parse_named, Ha in H by assumption.
  unfold make in H. destruct (init_rule name [] _ _ _ _ (Some fn) _) as [r'|] eqn:E; [|discriminate].
  inversion H; subst r'. apply init_rule_fields in E as (_ & _ & _ & Hm & _ & _ & He & _).
  split; [exact He|]. intros f Hf m. rewrite Hm. unfold eval_match. rewrite Hf.
  replace (match dget ($"target") data with Some (AStr t) => Some t | _ => None end) with target;
    [destruct (f vs target m) as [m' [v| |]]; reflexivity|].
  destruct target as [t|]; rewrite Htg; reflexivity.
Qed.

(** ** C60 *)
Lemma cbuild_build name data (r : rule X) : cbuild name data = BRule r -> build name data = BRule r.
Proof.
  unfold checked_build. destruct (build name data) as [r'| |] eqn:E; try discriminate.
  destruct (r_eval r'); [destruct (evals _)|]; intros H; inversion H; reflexivity.
Qed.

Lemma get_rules_names paranoid table l :
  get_rules paranoid cbuild table = GRules l -> NoDup (dkeys table) ->
  NoDup (map r_name l) /\ incl (map r_name l) (dkeys table).
Proof.
  revert l; induction table as [|[n d] table IH]; cbn [get_rules]; intros l H Hnd.
  - inversion H; subst. split; [constructor|intros x []].
  - inversion Hnd as [|? ? Hni Hnd']; subst.
    destruct (if dhas ($"type") d then cbuild n d else BInvalid) as [r| |] eqn:Eb.
    + destruct (get_rules paranoid cbuild table) as [l'| |] eqn:Eg; try discriminate. inversion H; subst.
      destruct (IH l' eq_refl Hnd') as [H1 H2].
      assert (Hn : r_name r = n).
      { destruct (dhas ($"type") d); [|discriminate]. apply cbuild_build, build_init in Eb
          as (k & kind & up & ev & mt & _ & Hi & _). apply init_rule_fields in Hi as [Hn _]. exact Hn. }
      cbn [map dkeys fst]. rewrite Hn. split.
      * constructor; [|exact H1]. intros Hin. apply Hni. apply H2. exact Hin.
      * intros x [<-|Hx]; [left; reflexivity|right; apply H2; exact Hx].
    + destruct paranoid; [discriminate|]. destruct (IH l H Hnd') as [H1 H2]. split; [exact H1|].
      intros x Hx. right. apply H2. exact Hx.
    + discriminate.
Qed.

Definition load_step (c : switches) (rs : ruleset X) (r : rule X) : ruleset X :=
  let r' := preprocess c r in
  if should_check r' then mkRS (dset (r_name r') r' (rs_checked rs)) (rs_not_checked rs)
  else mkRS (rs_checked rs) (dset (r_name r') r' (rs_not_checked rs)).

Lemma load_fold c l : forall rs : ruleset X, NoDup (dkeys (rs_checked rs) ++ map r_name l) ->
  rs_checked (fold_left (load_step c) l rs) =
  rs_checked rs ++ map (fun r => (r_name r, r)) (filter should_check (map (preprocess c) l)).
Proof.
  induction l as [|r l IH]; intros rs Hnd; cbn [fold_left map filter]; [rewrite app_nil_r; reflexivity|].
  assert (Hnd' : NoDup (dkeys (rs_checked rs) ++ map r_name l)).
  { cbn [map] in Hnd. apply NoDup_remove_1 in Hnd. exact Hnd. }
  assert (Hni : ~ In (r_name r) (dkeys (rs_checked rs))).
  { cbn [map] in Hnd. apply NoDup_remove_2 in Hnd. intros Hi. apply Hnd. apply in_app_iff. auto. }
  unfold load_step at 2. cbv zeta. destruct (should_check (preprocess c r)) eqn:Es.
  - rewrite IH; cbn [rs_checked].
    + rewrite preprocess_name, dset_new by exact Hni. cbn [map]. rewrite preprocess_name, <- app_assoc. reflexivity.
    + rewrite preprocess_name, dset_new by exact Hni. unfold dkeys. rewrite map_app, <- app_assoc. exact Hnd.
  - rewrite IH; [reflexivity|exact Hnd'].
Qed.

Lemma total_app a b : total (a ++ b) == total a + total b.
Proof. induction a as [|x a IH]; simpl; [ring|]. rewrite IH. ring. Qed.

Lemma total_perm a b : Permutation a b -> total a == total b.
Proof.
  induction 1; simpl; [reflexivity|rewrite IHPermutation; reflexivity|ring|].
  rewrite IHPermutation1. exact IHPermutation2.
Qed.

Lemma add_up_total l : forall s, add_up s l == s + total l.
Proof.
  induction l as [|x l IH]; intros s; simpl; [ring|]. unfold add_up in *. simpl. rewrite IH. ring.
Qed.

(** A table entry built into a pattern rule: its outcome. *)
Lemma pattern_built name data (r : rule X) ty value :
  build name data = BRule r -> states data ($"type") ty -> states data ($"value") value ->
  In ty [$"body"; $"rawbody"; $"full"; $"uri"] ->
  exists f, perl2re re_compile value = ReOk f /\
    forall x ts, texts_for C ty x = Some ts -> forall m, m_ext m = x -> r_match r m = (m, Returns (VBool (existsb f ts))).
Proof.
  unfold states. intros H Ht Hv Hin. unfold build_rule in H. rewrite Ht, Hv in H.
  destruct (get_rule_kwargs py_float data) as [k|]; [|discriminate].
  assert (Hp : forall kind look, pattern_rule re_compile name kind k value look = BRule r ->
     exists f, perl2re re_compile value = ReOk f /\ forall m, r_match r m = (m, look f (m_ext m))).
  { intros kind look Hm. unfold pattern_rule in Hm. destruct (perl2re re_compile value) as [f| |]; try discriminate.
    exists f. split; [reflexivity|]. intros m. unfold make in Hm. destruct (init_rule _ _ _ _ _ _ _ _) eqn:E; [|discriminate].
    inversion Hm; subst. apply init_rule_fields in E as (_ & _ & _ & Hmm & _). rewrite Hmm. reflexivity. }
  unfold texts_for.
  destruct (streqb_spec ty ($"body")).
  { apply Hp in H as (f & E & Hm). exists f. split; [exact E|]. intros x ts Hts m Hx. inversion Hts; subst. rewrite Hm. cbn [existsb]. rewrite orb_false_r. reflexivity. }
  destruct (streqb_spec ty ($"rawbody")).
  { apply Hp in H as (f & E & Hm). exists f. split; [exact E|]. intros x ts Hts m Hx. inversion Hts; subst. rewrite Hm. cbn [existsb]. rewrite orb_false_r. reflexivity. }
  destruct (streqb_spec ty ($"full")).
  { apply Hp in H as (f & E & Hm). exists f. split; [exact E|]. intros x ts Hts m Hx. inversion Hts; subst. rewrite Hm. cbn [existsb]. rewrite orb_false_r. reflexivity. }
  destruct (streqb_spec ty ($"uri")).
  { apply Hp in H as (f & E & Hm). exists f. split; [exact E|]. intros x ts Hts m Hx. inversion Hts; subst. rewrite Hm. reflexivity. }
  exfalso. destruct Hin as [?|[?|[?|[?|[]]]]]; congruence.
Qed.

Lemma mode_score_len b n scores : mode_score b n scores = None -> ~ (length scores = 1%nat \/ length scores = 4%nat).
Proof. destruct scores as [|a [|b' [|d [|e [|f l]]]]]; simpl; try discriminate; intros _ [H|H]; discriminate. Qed.

(** Effective score of a built rule, any source of scores. *)
Lemma effective_any c (r : rule X) scores : r_scores r = scores -> hd_error scores = Some (r_score r) ->
  ~ switched_off c (r_tflags r) ->
  (forall s0 s1 s2 s3, scores = [s0; s1; s2; s3] -> ~ s0 == 0) ->
  (length scores = 1%nat \/ length scores = 4%nat) ->
  mode_score (use_bayes c) (use_network c) scores = Some (r_score (preprocess c r)).
Proof.
  intros Hs Hhd Hoff Hz Hl. rewrite preprocess_on by exact Hoff. rewrite Hs.
  destruct scores as [|a [|b [|d [|e [|f l]]]]]; simpl in Hl; try (exfalso; lia).
  - simpl in *. congruence.
  - simpl in Hhd. inversion Hhd as [Ha].
    assert (Hne : Qeq_bool a 0 = false).
    { destruct (Qeq_bool a 0) eqn:E; [|reflexivity]. apply Qeq_bool_iff in E. exfalso; eapply Hz; [reflexivity|exact E]. }
    simpl. rewrite <- Ha, Hne. simpl. destruct (use_bayes c), (use_network c); reflexivity.
Qed.

Lemma switched_ext c fl gl : (forall g, In g fl <-> In g gl) -> switched_off c fl -> switched_off c gl.
Proof. intros H. unfold switched_off. rewrite !H. tauto. Qed.

Lemma build_crash_only name data : plain_entry py_float name data -> dhas ($"type") data = true ->
  build name data = BInvalid -> (exists value, states data ($"value") value /\ perl2re re_compile value = ReInvalid) \/
    (exists scores, scores_of py_float name data scores /\ mode_score true true scores = None).
Proof.
  intros (Hty & Htf & Hsc & _) Hh H.
  destruct Hty as [Hty|(ty & value & Hin & Hty & Hv)]; unfold silent_on, states in *.
  { apply dhas_In in Hh. apply dget_None in Hty. contradiction. }
  unfold build_rule in H. rewrite Hty, Hv in H.
  destruct (get_rule_kwargs py_float data) as [k|] eqn:Ek; [|discriminate].
  assert (Hp : forall kind look, pattern_rule (X:=X) re_compile name kind k value look = BInvalid ->
    (exists value0, dget ($"value") data = Some (AStr value0) /\ perl2re re_compile value0 = ReInvalid) \/
    (exists scores, scores_of py_float name data scores /\ mode_score true true scores = None)).
  { intros kind look Hm. unfold pattern_rule in Hm. destruct (perl2re re_compile value) eqn:Er; try discriminate.
    - right. exists (init_scores name (k_score k) (k_tflags k)). split; [apply scores_kw; assumption|].
      unfold make in Hm. destruct (init_rule _ _ _ _ _ _ _ _) eqn:E; [discriminate|].
      unfold init_rule in E. destruct (init_scores name (k_score k) (k_tflags k)) as [|a [|b [|d [|e [|f l]]]]]; try discriminate; reflexivity.
    - left. eauto. }
  destruct (streqb_spec ty ($"body")); [eapply Hp; exact H|].
  destruct (streqb_spec ty ($"rawbody")); [eapply Hp; exact H|].
  destruct (streqb_spec ty ($"full")); [eapply Hp; exact H|].
  destruct (streqb_spec ty ($"uri")); [eapply Hp; exact H|].
  exfalso. destruct Hin as [?|[?|[?|[?|[]]]]]; congruence.
Qed.

Definition rule_adds c (x : X) (r : rule X) : Q :=
  match r_match r (fresh_msg x) with
  | (_, o) => if should_check (preprocess c r) then if is_hit o then r_score (preprocess c r) else 0 else 0
  end.

Definition visible_outcome (r : rule X) (x : X) : outcome := snd (r_match r (fresh_msg x)).

Lemma entry_adds c x name data (r : rule X) : plain_entry py_float name data ->
  build name data = BRule r -> dhas ($"type") data = true ->
  (exists q, adds C re_compile py_float c x name data q /\ rule_adds c x r == q) /\
  reads_only r (visible_outcome r) /\ (forall y, is_stop (visible_outcome r y) = false).
Proof.
  intros Hpl H Hh. pose proof Hpl as (Hty & Htf & Hsc & Hz).
  destruct Hty as [Hty|(ty & value & Hin & Hty & Hv)].
  { apply dhas_In in Hh. apply dget_None in Hty. contradiction. }
  destruct (built_attributes name data r Htf Hsc H) as (Hn & Hs & Hhd & Hl & Hf & _).
  destruct (pattern_built name data r ty value H Hty Hv Hin) as (f & Ef & Hm).
  assert (Hts : forall y, exists ts, texts_for C ty y = Some ts).
  { intros y. unfold texts_for. destruct Hin as [<-|[<-|[<-|[<-|[]]]]]; eexists; reflexivity. }
  assert (Hro : reads_only r (visible_outcome r)).
  { intros m. destruct (Hts (m_ext m)) as [ts Et]. unfold visible_outcome.
    rewrite (Hm _ ts Et m eq_refl), (Hm _ ts Et (fresh_msg (m_ext m)) eq_refl). reflexivity. }
  split; [|split; [exact Hro|]].
  2:{ intros y. destruct (Hts y) as [ts Et]. unfold visible_outcome. rewrite (Hm _ ts Et (fresh_msg y) eq_refl). reflexivity. }
  destruct (Hts x) as [ts Et]. unfold rule_adds. rewrite (Hm _ ts Et (fresh_msg x) eq_refl). cbn [is_hit truthy].
  destruct (existsb f ts) eqn:Ex.
  2:{ exists 0. split; [|destruct (should_check _); reflexivity].
      eapply adds_miss; try eassumption. intros t Ht. destruct (f t) eqn:E; [|reflexivity].
      assert (existsb f ts = true) by (apply existsb_exists; eauto). congruence. }
  apply existsb_exists in Ex.
  assert (Hdec : switched_off c (r_tflags r) \/ ~ switched_off c (r_tflags r)).
  { pose proof (switched_off_bool c (r_tflags r)) as Hb. match type of Hb with (_ <-> ?x = true) => destruct x eqn:Eb end;
      [left; apply Hb; reflexivity|right; intros Ho; apply Hb in Ho; congruence]. }
  destruct Hdec as [Hoff|Hon].
  { exists 0. split; [eapply adds_off; try eassumption; exists (r_tflags r); split; assumption|].
    rewrite (preprocess_off c r Hoff). destruct (should_check _); reflexivity. }
  assert (Hms : mode_score (use_bayes c) (use_network c) (r_scores r) = Some (r_score (preprocess c r))).
  { apply effective_any; auto. intros s0 s1 s2 s3 E. rewrite E in Hs. exact (Hz _ _ _ _ Hs). }
  exists (r_score (preprocess c r)). split.
  { eapply adds_hit; try eassumption. intros (fl & Ho & Hg). apply Hon. eapply switched_ext; [|exact Ho].
    intros g. rewrite Hg. symmetry. apply Hf. }
  destruct (should_check (preprocess c r)) eqn:Esc; [reflexivity|].
  unfold should_check in Esc. rewrite preprocess_name in Esc. destruct (hidden_name (r_name r)) eqn:Ehid.
  - rewrite Hn in Ehid. inversion Hs as [Hsub E0|? ? Hsub|Hsub|Hsub]; unfold hidden_name in Ehid; try congruence.
    rewrite <- E0 in Hms. simpl in Hms. inversion Hms. reflexivity.
  - destruct (Qeq_bool (r_score (preprocess c r)) 0) eqn:Eq; [|discriminate].
    apply Qeq_bool_iff in Eq. rewrite Eq. reflexivity.
Qed.

Lemma plain_cbuild name data : plain_entry py_float name data -> dhas ($"type") data = true ->
  cbuild name data = build name data.
Proof.
  intros (Hty & _) Hh. destruct Hty as [Hty|(ty & value & Hin & Hty & Hv)].
  { apply dhas_In in Hh. apply dget_None in Hty. contradiction. }
  unfold checked_build. destruct (build name data) as [r| |] eqn:E; try reflexivity.
  replace (r_eval r) with (@None str); [reflexivity|].
  unfold states in *. unfold build_rule in E. rewrite Hty, Hv in E.
  destruct (get_rule_kwargs py_float data) as [k|]; [|discriminate].
  assert (Hp : forall kind look, pattern_rule re_compile name kind k value look = BRule r -> None = r_eval r).
  { intros kind look Hm. unfold pattern_rule in Hm. destruct (perl2re re_compile value); try discriminate.
    unfold make in Hm. destruct (init_rule _ _ _ _ _ _ _ _) eqn:Ei; [|discriminate]. inversion Hm; subst.
    apply init_rule_fields in Ei as (_ & _ & _ & _ & _ & _ & He & _). symmetry. exact He. }
  destruct (streqb_spec ty ($"body")); [eapply Hp; exact E|].
  destruct (streqb_spec ty ($"rawbody")); [eapply Hp; exact E|].
  destruct (streqb_spec ty ($"full")); [eapply Hp; exact E|].
  destruct (streqb_spec ty ($"uri")); [eapply Hp; exact E|].
  exfalso. destruct Hin as [?|[?|[?|[?|[]]]]]; congruence.
Qed.

Lemma table_adds c x table l : Forall (fun e => plain_entry py_float (fst e) (snd e)) table ->
  get_rules false cbuild table = GRules l ->
  (exists qs, Forall2 (fun e q => adds C re_compile py_float c x (fst e) (snd e) q) table qs /\
     total (map (rule_adds c x) l) == total qs) /\
  Forall (fun r => reads_only r (visible_outcome r)) l /\ Forall (fun r => forall y, is_stop (visible_outcome r y) = false) l.
Proof.
  revert l; induction table as [|[n d] table IH]; cbn [get_rules]; intros l Hpl H.
  - inversion H; subst. split; [|split; constructor]. exists []. split; [constructor|reflexivity].
  - inversion Hpl as [|? ? Hp Hpl']; subst. cbn [fst snd] in Hp.
    destruct (dhas ($"type") d) eqn:Eh.
    + rewrite plain_cbuild in H by assumption. destruct (build n d) as [r| |] eqn:Eb; [| |discriminate].
      * destruct (get_rules false cbuild table) as [l'| |] eqn:Eg; try discriminate. inversion H; subst.
        destruct (IH l' Hpl' eq_refl) as ((qs & H1 & H2) & H3 & H4).
        destruct (entry_adds c x n d r Hp Eb Eh) as ((q & Hq & Hqe) & Hro & Hst).
        split; [|split; constructor; assumption]. exists (q :: qs). split; [constructor; assumption|].
        cbn [map total fold_right]. fold (total (map (rule_adds c x) l')). rewrite H2, Hqe. reflexivity.
      * destruct (IH l Hpl' H) as ((qs & H1 & H2) & H34). split; [|exact H34]. exists (0 :: qs).
        split; [constructor; [cbn [fst snd]|exact H1]|rewrite H2; simpl; ring].
        destruct (build_crash_only n d Hp Eh Eb) as [(v & Hv & Hr)|(s & Hs & Hms)].
        -- eapply adds_bad_regex; eassumption.
        -- eapply adds_bad_scores; eassumption.
    + destruct (IH l Hpl' H) as ((qs & H1 & H2) & H34). split; [|exact H34]. exists (0 :: qs).
      split; [constructor; [apply adds_no_rule|exact H1]|rewrite H2; simpl; ring].
      cbn [fst snd]. apply dget_None. intros Hi. apply dhas_In in Hi. congruence.
Qed.

Lemma take_while_all {T} (p : T -> bool) l : forallb p l = true -> take_while p l = l.
Proof. induction l as [|x l IH]; cbn [forallb take_while]; [reflexivity|]. intros H. apply andb_true_iff in H as [-> H]. f_equal. auto. Qed.

Lemma configured_score c table rs x :
  NoDup (dkeys table) -> Forall (fun e => plain_entry py_float (fst e) (snd e)) table ->
  load_rules py_float re_compile arg C evals false c table = Loaded rs ->
  exists qs, Forall2 (fun e q => adds C re_compile py_float c x (fst e) (snd e) q) table qs /\
    m_score (fst (match_loop (rs_checked rs) (fresh_msg x))) == total qs.
Proof.
  intros Hnd Hpl H. unfold load_rules in H. destruct (get_rules false cbuild table) as [l| |] eqn:Eg; try discriminate.
  inversion H; subst rs. cbn [rs_checked]. clear H.
  destruct (get_rules_names false table l Eg Hnd) as [Hnn _].
  destruct (table_adds c x table l Hpl Eg) as ((qs & Hqs & Htot) & Hro & Hst).
  exists qs. split; [exact Hqs|]. rewrite <- Htot.
  change (fun rs r => _) with (load_step c). rewrite load_fold by exact Hnn. cbn [rs_checked empty_ruleset app].
  set (tbl := map _ _).
  assert (Hro' : Forall (fun e => reads_only (snd e) (visible_outcome (snd e))) (sort_checked tbl)).
  { eapply Permutation_Forall; [symmetry; apply sort_perm|]. unfold tbl. apply Forall_map. rewrite Forall_forall.
    intros r Hr. apply filter_In in Hr as [Hr _]. apply in_map_iff in Hr as (r0 & <- & Hr0).
    rewrite Forall_forall in Hro. specialize (Hro r0 Hr0). cbn [snd]. intros m. unfold visible_outcome.
    rewrite !preprocess_match. apply Hro. }
  pose proof (read_only_run (fun r => visible_outcome r) (sort_checked tbl) (fresh_msg x) Hro') as [_ Hs].
  rewrite Hs. cbn [m_ext fresh_msg m_score]. rewrite take_while_all.
  2:{ apply forallb_forall. intros e He. eapply Permutation_in in He; [|apply sort_perm].
      unfold tbl in He. apply in_map_iff in He as (r & <- & Hr). apply filter_In in Hr as [Hr _].
      apply in_map_iff in Hr as (r0 & <- & Hr0). cbn [snd]. rewrite Forall_forall in Hst. specialize (Hst r0 Hr0 x).
      unfold visible_outcome in *. rewrite preprocess_match. rewrite Hst. reflexivity. }
  rewrite add_up_total, Qplus_0_l.
  assert (Hpf : forall p (l1 l2 : list (str * rule X)), Permutation l1 l2 -> Permutation (filter p l1) (filter p l2)).
  { intros p l1 l2 HP. induction HP; simpl; [constructor| | |etransitivity; eassumption].
    - destruct (p x0); [constructor|]; assumption.
    - destruct (p y), (p x0); try constructor; reflexivity. }
  rewrite (total_perm _ _ (Permutation_map _ (Hpf _ _ _ (sort_perm tbl)))).
  unfold tbl. clear. induction l as [|r l IH]; cbn [map filter]; [reflexivity|].
  cbn [total fold_right]. fold (total (map (rule_adds c x) l)).
  unfold rule_adds at 1.
  destruct (should_check (preprocess c r)) eqn:Es; cbn [map filter snd].
  - unfold visible_outcome at 1. rewrite preprocess_match. destruct (r_match r (fresh_msg x)) as [m' o]. cbn [snd].
    destruct (is_hit o); cbn [map total fold_right snd]; fold total; rewrite <- IH; [reflexivity|ring].
  - destruct (r_match r (fresh_msg x)). rewrite <- IH. ring.
Qed.
Lemma texts_in ty x ts : texts_for C ty x = Some ts -> In ty [$"body"; $"rawbody"; $"full"; $"uri"].
Proof.
  unfold texts_for. destruct (streqb_spec ty ($"body")); [simpl; auto|]. destruct (streqb_spec ty ($"rawbody")); [simpl; auto|].
  destruct (streqb_spec ty ($"full")); [simpl; auto|]. destruct (streqb_spec ty ($"uri")); [simpl; auto 6|discriminate].
Qed.

End B.

Lemma adds_det (X : Type) (C : content X) re_compile py_float c x name data q q' :
  plain_entry py_float name data ->
  adds C re_compile py_float c x name data q -> adds C re_compile py_float c x name data q' -> q = q'.
Proof.
  intros Hpl.
  assert (Hgen : forall q q', adds C re_compile py_float c x name data q -> adds C re_compile py_float c x name data q' ->
            (q' = 0 -> True) -> ~ q = 0 -> q = q').
  { clear q q'. intros q q' H1 H2 _ Hq. destruct H1 as [ty v ts f sc s Hty Hv Hts Hre Hh Hsc Hon Hms|ty v Hty Hv Hoff|ty v ts f Hty Hv Hts Hre Hh|v Hv Hre|sc Hsc Hms|Hn];
      try (exfalso; apply Hq; reflexivity).
    destruct H2 as [ty2 v2 ts2 f2 sc2 s2 Hty2 Hv2 Hts2 Hre2 Hh2 Hsc2 Hon2 Hms2|ty2 v2 Hty2 Hv2 Hoff2|ty2 v2 ts2 f2 Hty2 Hv2 Hts2 Hre2 Hh2|v2 Hv2 Hre2|sc2 Hsc2 Hms2|Hn2];
      unfold states, silent_on in *.
    - pose proof (scores_of_det py_float name data sc sc2 Hsc Hsc2). subst. congruence.
    - contradiction.
    - exfalso. destruct Hh as (t & Hi & Ht). assert (ty2 = ty) by congruence. assert (v2 = v) by congruence. subst.
      assert (ts2 = ts) by congruence. assert (f2 = f) by congruence. subst. rewrite Hh2 in Ht by exact Hi. discriminate.
    - exfalso. congruence.
    - exfalso. pose proof (scores_of_det py_float name data sc sc2 Hsc Hsc2). subst.
      destruct sc2 as [|a [|b' [|d [|e [|g l]]]]]; discriminate.
    - exfalso. congruence. }
  intros H1 H2. assert (Hd : {q = 0} + {q <> 0}). { decide equality; [apply Pos.eq_dec|apply Z.eq_dec]. }
  assert (Hd' : {q' = 0} + {q' <> 0}). { decide equality; [apply Pos.eq_dec|apply Z.eq_dec]. }
  destruct Hd as [E|E]; [destruct Hd' as [E'|E']; [congruence|]|auto].
  symmetry. auto.
Qed.
