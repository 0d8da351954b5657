(** The plugin registry, hooks and plugin data: theorems for C37, C38, C70-C72. *)
From Verif Require Import PyStr PyDict Model_Context Spec_Context Proofs_Context.
From Coq Require Import Lia.

(** ** C37 *)
(** After every history of loads and unloads, the table of plugins holds exactly
    the plugins that were loaded successfully and not replaced or unloaded since. *)
Theorem C37_loaded_plugins : forall V (h : list (pop (V := V))) n i c,
  (exists path, dget n (x_plugins (prun h)) = Some (i, c, path)) <-> live h i n c.
Proof. intros V. exact plugins_live. Qed.
Print Assumptions C37_loaded_plugins.

(** An eval rule name, or a command, resolves exactly to the loaded plugin that
    provides it.  Missing: histories with failed loads, and different plugins that
    provide the same name - see the refutations. *)
Theorem C37_resolution_partial : forall V (h : list (pop (V := V))),
  all_good h -> no_overlap h ->
  (forall r i, dget r (x_evals (prun h)) = Some i <-> exists n c, live h i n c /\ provides c r) /\
  (forall r i, dget r (x_cmds (prun h)) = Some i <-> exists n c, live h i n c /\ defines c r).
Proof.
  intros V h AG NO. destruct (reg_history h AG NO) as [R1 R2]. split; intros r i; [rewrite (R1 r i)|rewrite (R2 r i)]; split.
  all: try (intros (n & c & p & E & I); exists n, c; split; [apply plugins_live; exists p; exact E|exact I]).
  all: intros (n & c & L & I); apply plugins_live in L; destruct L as (p & E); exists n, c, p; split; assumption.
Qed.
Print Assumptions C37_resolution_partial.

(** Plugins that provide the same name, as long as nothing is replaced or unloaded:
    the last loaded one is used. *)
Theorem C37_last_loaded_partial : forall V (h : list (pop (V := V))),
  forallb is_load h = true -> all_good h -> NoDup (map load_class h) ->
  forall r i, dget r (x_evals (prun h)) = Some i <->
    (exists name path c, nth_error h i = Some (LoadP name path (Some c)) /\ provides c r) /\
    (forall j name path c, i < j -> nth_error h j = Some (LoadP name path (Some c)) -> ~ provides c r).
Proof. intros V. exact loads_only_resolution. Qed.
Print Assumptions C37_last_loaded_partial.

(** Unloading a plugin, in any state whatsoever, leaves none of its eval rules, its
    commands or its data, and changes nothing with another name. *)
Theorem C37_unload : forall V (x x' : ctx V) n i c path,
  dget n (x_plugins x) = Some (i, c, path) -> unload_plugin n x = Some x' ->
  dget n (x_plugins x') = None /\
  (forall r, provides c r -> dget r (x_evals x') = None) /\ (forall r, defines c r -> dget r (x_cmds x') = None) /\
  (forall k, get_data n k (x_data x') = None) /\
  (forall n', n' <> n -> dget n' (x_plugins x') = dget n' (x_plugins x)) /\
  (forall r, ~ provides c r -> dget r (x_evals x') = dget r (x_evals x)) /\
  (forall r, ~ defines c r -> dget r (x_cmds x') = dget r (x_cmds x)) /\
  (forall n' k, n' <> n -> get_data n' k (x_data x') = get_data n' k (x_data x)).
Proof.
  intros V x x' n i c path E U. unfold unload_plugin in U. rewrite E in U. injection U as <-. cbn [x_plugins x_evals x_cmds x_data].
  assert (M : forall (l : list (str * bool)) r (d : dict nat), In r (map fst l) -> dget r (fold_left (fun d r => remove (fst r) d) l d) = None).
  { intros l r d H. rewrite dget_fold_remove, (proj2 (mem_str_In r (map fst l)) H). reflexivity. }
  assert (K : forall (l : list (str * bool)) r (d : dict nat), ~ In r (map fst l) -> dget r (fold_left (fun d r => remove (fst r) d) l d) = dget r d).
  { intros l r d H. rewrite dget_fold_remove. destruct (mem_str r (map fst l)) eqn:Q; [apply mem_str_In in Q; contradiction|reflexivity]. }
  repeat split; intros.
  - rewrite dget_remove, streqb_refl. reflexivity.
  - apply M. assumption.
  - apply M. assumption.
  - unfold get_data, data_of, pop_all. rewrite dget_remove, streqb_refl. reflexivity.
  - rewrite dget_remove. destruct (streqb_spec n' n); [contradiction|reflexivity].
  - apply K. assumption.
  - apply K. assumption.
  - unfold get_data, data_of, pop_all. rewrite dget_remove. destruct (streqb_spec n' n); [contradiction|reflexivity].
Qed.
Print Assumptions C37_unload.

(** The rules of other plugins do not all remain: unloading B takes away a rule that
    A, still loaded, provides too. *)
Definition ex_class (rules : list str) : pclass str := mkPC (map (fun r => (r, true)) rules) [] [] true.
Definition ex_a := ex_class [$"check_x"; $"check_a"].
Definition ex_b := ex_class [$"check_x"].
Theorem C37_unload_shared_refuted : exists (h : list (pop (V := str))) i,
  all_good h /\ live h i ($"A") ex_a /\ provides ex_a ($"check_x") /\ dget ($"check_x") (x_evals (prun h)) = None.
Proof.
  exists [LoadP ($"m.A") None (Some ex_a); LoadP ($"m.B") None (Some ex_b); UnloadP ($"B")], 0. repeat split.
  - intros name path found [H | [H | [H | []]]]; [| |discriminate H]; injection H as <- <- <-; eexists; (split; [reflexivity|]);
      repeat split; repeat constructor.
  - exists [], ($"m.A"), None. eexists. split; [reflexivity|]. split; [reflexivity|]. split; [repeat split; repeat constructor|].
    split; [reflexivity|]. repeat constructor; vm_compute; discriminate.
  - left. reflexivity.
Qed.
Print Assumptions C37_unload_shared_refuted.
(** A load that fails leaves rules behind that belong to no plugin. *)
Theorem C37_failed_load_refuted : exists (h : list (pop (V := str))),
  x_plugins (prun h) = [] /\ dget ($"check_a") (x_evals (prun h)) <> None.
Proof.
  exists [LoadP ($"m.A") None (Some (mkPC [($"check_a", true); ($"missing", false)] [] [] true))].
  split; [reflexivity|discriminate].
Qed.
Print Assumptions C37_failed_load_refuted.

Definition ex_history : list (pop (V := str)) :=
  [LoadP ($"m.A") None (Some ex_a); LoadP ($"m.C") None (Some (ex_class [$"check_c"])); LoadP ($"k.A") None (Some (ex_class [$"check_a"]))].
Lemma ex_history_good : all_good ex_history.
Proof.
  intros name path found [H | [H | [H | []]]]; injection H as <- <- <-; eexists; (split; [reflexivity|]); repeat split; repeat constructor.
Qed.
Lemma ex_history_apart : no_overlap ex_history.
Proof.
  intros n1 p1 c1 n2 p2 c2 r [H1 | [H1 | [H1 | []]]] [H2 | [H2 | [H2 | []]]]; injection H1 as <- <- <-; injection H2 as <- <- <-; intros N;
    try (exfalso; apply N; reflexivity); split; intros P Q; try (destruct P; fail);
    cbn in P, Q; repeat (destruct P as [P | P]; try (destruct P; fail)); repeat (destruct Q as [Q | Q]; try (destruct Q; fail)); subst; discriminate.
Qed.
(** The first A was replaced: its rule [check_x] is gone, [check_a] is the new one. *)
Example C37_example : all_good ex_history /\ no_overlap ex_history /\
  x_evals (prun ex_history) = [($"check_c", 1); ($"check_a", 2)] /\
  x_evals (prun [LoadP ($"m.A") None (Some ex_a); LoadP ($"m.B") None (Some ex_b)]) = [($"check_x", 1); ($"check_a", 0)].
Proof. split; [exact ex_history_good|]. split; [exact ex_history_apart|]. split; reflexivity. Qed.

(** ** C38 *)
(** After every history, a hook calls the loaded plugins one after the other in the
    order they were loaded, each at most once, up to the first that does not return
    normally.  It is true exactly if that one inhibits the others. *)
Theorem C38_hooks : forall V (h : list (pop (V := V))) S (method : nat -> S -> S * act) s s' called r,
  run_hook (prun h) method s = (s', called, r) ->
  StronglySorted lt called /\
  (forall i, In i called -> exists n c, live h i n c) /\
  ((r = Some false /\ (forall i n c, live h i n c -> In i called) /\ went method called s s') \/
   (exists pre p s1 e, called = pre ++ [p] /\ went method pre s s1 /\ method p s1 = (s', e) /\
      (forall i n c, live h i n c -> i <= p -> In i called) /\
      ((e = Inhibits /\ r = Some true) \/ (e = Fails /\ r = None)))).
Proof.
  intros V h S method s s' called r H.
  assert (L : forall i, In i (plugin_ids (prun h)) <-> exists n c, live h i n c).
  { intros i. unfold plugin_ids. rewrite in_map_iff. split.
    - intros ([n [[j c] p]] & E & Hi). cbn [fst snd] in E. subst j. exists n, c. apply plugins_live. exists p.
      pose proof (plugins_nodup h) as N. clear H. revert N Hi.
      induction (x_plugins (prun h)) as [|[n' e'] l IH]; intros N Hi; [destruct Hi|]. cbn [dkeys map fst] in N. inversion N as [|? ? Hn N']; subst.
      cbn [dget]. destruct Hi as [E|Hi]; [injection E as -> ->; rewrite streqb_refl; reflexivity|].
      destruct (streqb_spec n n') as [->|]; [exfalso; apply Hn; apply (in_map fst) in Hi; exact Hi|]. apply IH; assumption.
    - intros (n & c & Lv). apply plugins_live in Lv. destruct Lv as [p E]. apply dget_In in E. exists (n, (i, c, p)). split; [reflexivity|exact E]. }
  destruct (ids_sorted h) as [S1 _]. unfold run_hook in H. apply chain_spec in H.
  destruct H as [(-> & -> & W)|(pre & p & rest & s1 & e & Ep & -> & W & Em & Hr)].
  - split; [exact S1|]. split; [intros i Hi; apply L; exact Hi|]. left. split; [reflexivity|]. split; [|exact W].
    intros i n c Lv. apply L. eauto.
  - assert (Hs : forall (l1 l2 : list nat), StronglySorted lt (l1 ++ l2) -> StronglySorted lt l1 /\ (forall x y, In x l1 -> In y l2 -> x < y)).
    { induction l1 as [|z l1 IH]; intros l2 Hs; [split; [constructor|intros x y []]|]. cbn [app] in Hs. apply StronglySorted_inv in Hs.
      destruct Hs as [Hs F]. destruct (IH l2 Hs) as [I1 I2]. apply Forall_app in F. destruct F as [F1 F2]. split; [constructor; assumption|].
      intros x y [<-|Hx] Hy; [rewrite Forall_forall in F2; apply F2; exact Hy|apply I2; assumption]. }
    assert (Ep' : plugin_ids (prun h) = (pre ++ [p]) ++ rest) by (rewrite <- app_assoc; exact Ep).
    rewrite Ep' in S1. destruct (Hs _ _ S1) as [S2 S3].
    split; [exact S2|]. split; [intros i Hi; apply L; rewrite Ep'; apply in_or_app; left; exact Hi|].
    right. exists pre, p, s1, e. repeat (split; [assumption || reflexivity|]). split; [|exact Hr].
    intros i n c Lv Hi. assert (In i (plugin_ids (prun h))) as K by (apply L; eauto). rewrite Ep' in K. apply in_app_or in K.
    destruct K as [K|K]; [exact K|]. assert (Q : In p (pre ++ [p])) by (apply in_or_app; right; left; reflexivity). specialize (S3 p i Q K). lia.
Qed.
Print Assumptions C38_hooks.
(** A configuration option that the program itself knows is given to no plugin. *)
Theorem C38_core_options : forall V (x : ctx V) S core (method : nat -> S -> S * act) s s',
  core s = (s', Inhibits) -> hook_parse_config x core method s = (s', [], Some true).
Proof. intros V x S core method s s' H. unfold hook_parse_config. rewrite H. reflexivity. Qed.
Print Assumptions C38_core_options.
Example C38_example :
  run_hook (prun ex_history) (fun i s => (i :: s, if Nat.eqb i 1 then Inhibits else Goes)) [] = ([1], [1], Some true) /\
  run_hook (prun ex_history) (fun i s => (i :: s, Goes)) [] = ([2; 1], [1; 2], Some false).
Proof. split; reflexivity. Qed.

(** ** C70 *)
(** Reporting a message as spam: exactly [plugin_report] of every plugin is called.
    Missing: messages of class ham, and the databases asked for - see below. *)
Theorem C70_report_spam_partial : forall V (x : ctx V) S (report : nat -> S -> S * act) s,
  (forall i s, snd (report i s) = Goes) ->
  exists s', hook_report x report true true true s = (s', plugin_ids x, Some false) /\ went report (plugin_ids x) s s'.
Proof.
  intros V x S report s H. unfold hook_report, run_hook. destruct (chain report (plugin_ids x) s) as [[s' called] r] eqn:E.
  exists s'. apply chain_spec in E. destruct E as [(-> & -> & W)|(pre & p & rest & s1 & e & _ & _ & _ & Em & Hr)]; [split; [reflexivity|exact W]|].
  specialize (H p s1). rewrite Em in H. cbn [snd] in H. subst e. destruct Hr as [[Hr _]|[Hr _]]; discriminate.
Qed.
Print Assumptions C70_report_spam_partial.
(** The class and the databases asked for have no effect: what is filed as ham, or
    for no database, is reported as spam to every plugin. *)
Theorem C70_class_ignored_refuted : forall V (x : ctx V) S (report revoke : nat -> S -> S * act) spam local remote s,
  hook_report x report spam local remote s = hook_report x report true true true s /\
  hook_revoke x revoke spam local remote s = hook_revoke x revoke false true true s.
Proof. intros. split; reflexivity. Qed.
Print Assumptions C70_class_ignored_refuted.
(** A plugin that counts the messages learned as spam. *)
Example C70_example : 
  fst (fst (hook_report (prun ex_history) (fun _ n => (S n, Goes)) false false false 0)) = 2.
Proof. reflexivity. Qed.

(** ** C71 *)
(** After every history of stores and deletions, a plugin reads under a key the
    value that was last stored by this plugin name under this key, unless it was
    deleted since. *)
Theorem C71_last_write : forall V (ops : list (dop (V := V))) p k v,
  get_data p k (drun ops) = Some v <->
  exists a b, ops = a ++ SetD p k v :: b /\ Forall (fun o => ~ touches p k o) b.
Proof. intros V. exact data_last_write. Qed.
Print Assumptions C71_last_write.
Example C71_example :
  get_data ($"P") ($"k") (drun [SetD ($"P") ($"k") 1; SetD ($"Q") ($"k") 2; DelD ($"P") ($"j"); PopD ($"Q") ($"k")]) = Some 1.
Proof. reflexivity. Qed.

(** ** C72 *)
(** Writing a context whose plugins do not overlap succeeds, and reading it, with
    the same files in place, gives the same plugins and the same eval rules, each
    coming from a plugin of the restored context. *)
Theorem C72_restored_partial : forall V (h : list (pop (V := V))) find,
  all_good h -> no_overlap h ->
  (forall name path c, In (LoadP name path (Some c)) h -> NoDup (map fst (pc_evals c))) ->
  (forall n i c p, dget n (x_plugins (prun h)) = Some (i, c, Some p) -> find n p = Some c) ->
  exists state, getstate (prun h) = Some state /\
    (forall n c, (exists i p, dget n (x_plugins (setstate find state)) = Some (i, c, p)) <->
                 (exists i p, dget n (x_plugins (prun h)) = Some (i, c, p))) /\
    (forall r, dget r (x_evals (setstate find state)) <> None <-> dget r (x_evals (prun h)) <> None) /\
    (forall r i, dget r (x_evals (setstate find state)) = Some i ->
       exists n c p, dget n (x_plugins (setstate find state)) = Some (i, c, p) /\ provides c r).
Proof. intros V. exact pickle_roundtrip. Qed.
Print Assumptions C72_restored_partial.
(** The context that was written is no longer usable: its own plugins are gone.  (The
    first part of the result is also the state of the context afterwards.) *)
Theorem C72_writing_refuted : exists (h : list (pop (V := str))) state,
  all_good h /\ no_overlap h /\ getstate (prun h) = Some state /\
  dget ($"check_b") (x_evals (prun h)) <> None /\ dget ($"check_b") (x_evals (fst state)) = None.
Proof.
  exists [LoadP ($"m.B") (Some ($"/p/b.py")) (Some (ex_class [$"check_b"]))]. eexists.
  split; [intros name path found [H | []]; injection H as <- <- <-; eexists; (split; [reflexivity|]); repeat split; repeat constructor|].
  split; [intros n1 p1 c1 n2 p2 c2 r [H1 | []] [H2 | []] N; injection H1 as <- <- <-; injection H2 as <- <- <-; exfalso; apply N; reflexivity|].
  split; [reflexivity|]. split; [discriminate|reflexivity].
Qed.
Print Assumptions C72_writing_refuted.
(** Plugins that share a rule: writing fails. *)
Theorem C72_shared_refuted : exists (h : list (pop (V := str))), all_good h /\ getstate (prun h) = None.
Proof.
  exists [LoadP ($"m.A") (Some ($"/p/a.py")) (Some ex_a); LoadP ($"m.B") (Some ($"/p/b.py")) (Some ex_b)].
  split; [|reflexivity].
  intros name path found [H | [H | []]]; injection H as <- <- <-; eexists; (split; [reflexivity|]); repeat split; repeat constructor.
Qed.
Print Assumptions C72_shared_refuted.
Example C72_example :
  let h := [LoadP ($"m.A") None (Some ex_a); LoadP ($"m.B") (Some ($"/p/b.py")) (Some (ex_class [$"check_b"]))] in
  option_map (fun s => x_evals (setstate (fun _ _ => Some (ex_class [$"check_b"])) s)) (getstate (prun h)) =
    Some [($"check_x", 0); ($"check_a", 0); ($"check_b", 2)].
Proof. reflexivity. Qed.
