(** Proofs about the plugin registry, the hooks, plugin data and pickling. *)
From Verif Require Import PyStr PyDict Model_Context Spec_Context.
From Coq Require Import Lia.

Lemma dget_remove {A} k k' (d : dict A) : dget k (remove k' d) = if streqb k k' then None else dget k d.
Proof.
  induction d as [|[k2 v] d IH]; cbn [remove filter dget fst].
  - destruct (streqb k k'); reflexivity.
  - destruct (streqb_spec k' k2) as [->|H]; cbn [negb].
    + unfold remove in IH. rewrite IH. destruct (streqb k k2); reflexivity.
    + cbn [dget]. unfold remove in IH. rewrite IH. destruct (streqb_spec k k2) as [->|]; [|reflexivity].
      destruct (streqb_spec k2 k'); [congruence|reflexivity].
Qed.
Lemma mem_str_cons x y l : mem_str x (y :: l) = (streqb x y || mem_str x l)%bool.
Proof. reflexivity. Qed.
Lemma dget_fold_remove {A B} (l : list (str * B)) : forall k (d : dict A),
  dget k (fold_left (fun d r => remove (fst r) d) l d) = if mem_str k (map fst l) then None else dget k d.
Proof.
  induction l as [|[r b] l IH]; intros k d; [reflexivity|]. cbn [fold_left map fst].
  rewrite IH, dget_remove, mem_str_cons. destruct (mem_str k (map fst l)); [rewrite Bool.orb_true_r; reflexivity|].
  rewrite Bool.orb_false_r. reflexivity.
Qed.
Lemma register_ok i rules : forall d, Forall (fun r => snd r = true) rules ->
  exists d', register i rules d = (d', true) /\ forall k, dget k d' = if mem_str k (map fst rules) then Some i else dget k d.
Proof.
  induction rules as [|[r b] rules IH]; intros d H; [exists d; split; reflexivity|].
  apply Forall_cons_iff in H. destruct H as [Hb H]. cbn [snd] in Hb. subst b. cbn [register].
  destruct (IH (dset r i d) H) as [d' [E G]]. exists d'. split; [exact E|]. intros k.
  rewrite G, dget_dset. cbn [map fst]. rewrite mem_str_cons, (streqb_sym k r).
  destruct (mem_str k (map fst rules)); [rewrite Bool.orb_true_r; reflexivity|]. rewrite Bool.orb_false_r. reflexivity.
Qed.

Section Reg.
Context {V : Type}.
Implicit Types (h a b : list (pop (V := V))) (c : pclass V) (x : ctx V).

(** ** What is loaded *)
Lemma prun_snoc h o : prun (h ++ [o]) = pstep (prun h) o.
Proof. unfold prun. rewrite fold_left_app. reflexivity. Qed.
Lemma loads_snoc h o : loads (h ++ [o]) = loads h + (if is_load o then 1 else 0).
Proof. unfold loads. rewrite filter_app, app_length. cbn [filter]. destruct (is_load o); reflexivity. Qed.

Lemma unload_next n x x' : unload_plugin n x = Some x' -> x_next x' = x_next x.
Proof. unfold unload_plugin. destruct (dget n (x_plugins x)) as [[[i c] p]|]; [|discriminate]. intros H. injection H as <-. reflexivity. Qed.
Lemma unload_plugins n x x' : unload_plugin n x = Some x' -> x_plugins x' = remove n (x_plugins x).
Proof. unfold unload_plugin. destruct (dget n (x_plugins x)) as [[[i c] p]|]; [|discriminate]. intros H. injection H as <-. reflexivity. Qed.
Lemma unload_None n x : unload_plugin n x = None <-> dget n (x_plugins x) = None.
Proof. unfold unload_plugin. destruct (dget n (x_plugins x)) as [[[i c] p]|]; split; congruence. Qed.

Definition after_unload n x : ctx V := match unload_plugin n x with Some x' => x' | None => x end.
Lemma after_unload_get n x k : dget k (x_plugins (after_unload n x)) = if streqb k n then None else dget k (x_plugins x).
Proof.
  unfold after_unload. destruct (unload_plugin n x) as [x'|] eqn:E.
  - rewrite (unload_plugins _ _ _ E), dget_remove. reflexivity.
  - apply unload_None in E. destruct (streqb_spec k n) as [->|]; [exact E|reflexivity].
Qed.
Lemma after_unload_next n x : x_next (after_unload n x) = x_next x.
Proof. unfold after_unload. destruct (unload_plugin n x) as [x'|] eqn:E; [exact (unload_next _ _ _ E)|reflexivity]. Qed.

Lemma load_good name path c x : good c ->
  exists evals cmds data,
    load_plugin name path (Some c) x =
      (mkCtx (dset (class_name name) (x_next x, c, path) (x_plugins (after_unload (class_name name) x))) evals cmds data (S (x_next x)), true) /\
    (forall k, dget k evals = if mem_str k (map fst (pc_evals c)) then Some (x_next x) else dget k (x_evals (after_unload (class_name name) x))) /\
    (forall k, dget k cmds = if mem_str k (map fst (pc_cmds c)) then Some (x_next x) else dget k (x_cmds (after_unload (class_name name) x))).
Proof.
  intros [Hs [He Hc]]. unfold load_plugin. cbv zeta. rewrite Hs. fold (after_unload (class_name name) x).
  rewrite (after_unload_next (class_name name) x).
  destruct (register_ok (x_next x) (pc_cmds c) (x_cmds (after_unload (class_name name) x)) Hc) as [cmds [Ec Gc]]. rewrite Ec.
  destruct (register_ok (x_next x) (pc_evals c) (x_evals (after_unload (class_name name) x)) He) as [evals [Ee Ge]]. rewrite Ee.
  eexists _, _, _. split; [reflexivity|]. split; assumption.
Qed.
Lemma register_bad i rules : forall d, ~ Forall (fun r => snd r = true) rules -> snd (register i rules d) = false.
Proof.
  induction rules as [|[r b] rules IH]; intros d H; [exfalso; apply H; constructor|]. cbn [register].
  destruct b; [|reflexivity]. apply IH. intros F. apply H. constructor; [reflexivity|exact F].
Qed.
Lemma load_bad name path found x : (forall c, found = Some c -> ~ good c) ->
  snd (load_plugin name path found x) = false /\
  x_plugins (fst (load_plugin name path found x)) = x_plugins (after_unload (class_name name) x) /\
  x_next (fst (load_plugin name path found x)) = S (x_next x).
Proof.
  intros H. unfold load_plugin. cbv zeta. fold (after_unload (class_name name) x). rewrite (after_unload_next (class_name name) x).
  destruct found as [c|]; [|repeat split]. destruct (pc_sub c) eqn:Es; [|repeat split].
  destruct (register (x_next x) (pc_cmds c) _) as [cmds b1] eqn:E1. destruct b1; [|repeat split].
  destruct (register (x_next x) (pc_evals c) _) as [evals b2] eqn:E2. destruct b2; [|repeat split].
  exfalso. assert (G : ~ good c) by (apply H; reflexivity). apply G. split; [exact Es|].
  assert (D : forall l, Forall (fun r : str * bool => snd r = true) l \/ ~ Forall (fun r => snd r = true) l).
  { intros l. destruct (Forall_dec (fun r : str * bool => snd r = true)
      (fun r => Bool.bool_dec (snd r) true) l); auto. }
  split.
  - destruct (D (pc_evals c)) as [F|F]; [exact F|]. pose proof (register_bad (x_next x) _ (x_evals (after_unload (class_name name) x)) F) as B.
    rewrite E2 in B. discriminate.
  - destruct (D (pc_cmds c)) as [F|F]; [exact F|]. pose proof (register_bad (x_next x) _ (x_cmds (after_unload (class_name name) x)) F) as B.
    rewrite E1 in B. discriminate.
Qed.
Lemma good_dec c : good c \/ ~ good c.
Proof.
  unfold good.
  assert (D : forall l, Forall (fun r : str * bool => snd r = true) l \/ ~ Forall (fun r => snd r = true) l).
  { intros l. destruct (Forall_dec (fun r : str * bool => snd r = true)
      (fun r => Bool.bool_dec (snd r) true) l); auto. }
  destruct (D (pc_evals c)), (D (pc_cmds c)), (pc_sub c); tauto || (right; intros [E _]; discriminate).
Qed.

Lemma next_loads h : x_next (prun h) = loads h.
Proof.
  induction h as [|o h IH] using rev_ind; [reflexivity|]. rewrite prun_snoc, loads_snoc, <- IH.
  destruct o as [name path found|name]; cbn [pstep is_load].
  - assert (D : (exists c, found = Some c /\ good c) \/ (forall c, found = Some c -> ~ good c)).
    { destruct found as [c|]; [|right; discriminate]. destruct (good_dec c); [left; eauto|right; intros c' E; injection E as <-; assumption]. }
    destruct D as [[c [-> G]]|D].
    + destruct (load_good name path c (prun h) G) as [e [cm [d [E _]]]]. rewrite E. cbn [fst x_next]. lia.
    + destruct (load_bad name path found (prun h) D) as [_ [_ E]]. rewrite E. lia.
  - fold (after_unload name (prun h)). rewrite (after_unload_next name (prun h)). lia.
Qed.

Lemma live_snoc_load h name path found i n c :
  live (h ++ [LoadP name path found]) i n c <->
  (class_name name <> n /\ live h i n c) \/ (class_name name = n /\ found = Some c /\ good c /\ i = loads h).
Proof.
  split.
  - intros [a [name' [path' [b [E [En [G [Ei F]]]]]]]].
    destruct b as [|o b _] using rev_ind.
    + apply app_inj_tail in E. destruct E as [-> E]. injection E as -> -> ->. right. auto.
    + rewrite app_comm_cons, app_assoc in E. apply app_inj_tail in E. destruct E as [-> <-].
      apply Forall_app in F. destruct F as [F Fo]. apply Forall_cons_iff in Fo. destruct Fo as [Fo _].
      left. split; [exact Fo|]. exists a, name', path', b. auto.
  - intros [[Hn [a [name' [path' [b [E [En [G [Ei F]]]]]]]]]|[En [-> [G ->]]]].
    + exists a, name', path', (b ++ [LoadP name path found]). rewrite E, <- app_assoc. split; [reflexivity|].
      repeat (split; [assumption|]). apply Forall_app. split; [exact F|]. constructor; [exact Hn|constructor].
    + exists h, name, path, []. repeat (split; [assumption || reflexivity|]). constructor.
Qed.
Lemma live_snoc_unload h m i n c : live (h ++ [UnloadP m]) i n c <-> m <> n /\ live h i n c.
Proof.
  split.
  - intros [a [name' [path' [b [E [En [G [Ei F]]]]]]]].
    destruct b as [|o b _] using rev_ind.
    + apply app_inj_tail in E. destruct E as [_ E]. discriminate.
    + rewrite app_comm_cons, app_assoc in E. apply app_inj_tail in E. destruct E as [-> <-].
      apply Forall_app in F. destruct F as [F Fo]. apply Forall_cons_iff in Fo. destruct Fo as [Fo _].
      split; [exact Fo|]. exists a, name', path', b. auto.
  - intros [Hn [a [name' [path' [b [E [En [G [Ei F]]]]]]]]].
    exists a, name', path', (b ++ [UnloadP m]). rewrite E, <- app_assoc. split; [reflexivity|].
    repeat (split; [assumption|]). apply Forall_app. split; [exact F|]. constructor; [exact Hn|constructor].
Qed.

Lemma found_cases (found : option (pclass V)) : (exists c, found = Some c /\ good c) \/ (forall c, found = Some c -> ~ good c).
Proof.
  destruct found as [c|]; [|right; discriminate]. destruct (good_dec c); [left; eauto|right; intros c' E; injection E as <-; assumption].
Qed.

(** The table of plugins, after any history. *)
Lemma plugins_live h n i c : (exists path, dget n (x_plugins (prun h)) = Some (i, c, path)) <-> live h i n c.
Proof.
  revert n i c. induction h as [|o h IH] using rev_ind; intros n i c.
  { split; [intros [p E]; discriminate|]. intros [a [nm [p [b [E _]]]]]. destruct a; discriminate. }
  rewrite prun_snoc. destruct o as [name path found|m]; cbn [pstep].
  - rewrite live_snoc_load, <- IH.
    destruct (found_cases found) as [[c' [-> G]]|D].
    + destruct (load_good name path c' (prun h) G) as [e [cm [d [E _]]]]. rewrite E. cbn [fst x_plugins].
      rewrite dget_dset, after_unload_get, next_loads, (streqb_sym n (class_name name)).
      destruct (streqb_spec (class_name name) n) as [<-|Hn].
      * split.
        -- intros [p Ep]. injection Ep as <- <- <-. right. auto.
        -- intros [[C _]|[_ [Ec [_ ->]]]]; [contradiction|]. injection Ec as ->. eauto.
      * split; [intros H; left; split; assumption|]. intros [[_ H]|[C _]]; [exact H|contradiction].
    + destruct (load_bad name path found (prun h) D) as [_ [E _]]. rewrite E, after_unload_get.
      rewrite (streqb_sym n (class_name name)). destruct (streqb_spec (class_name name) n) as [<-|Hn].
      * split; [intros [p Ep]; discriminate|]. intros [[C _]|[_ [Ec [G _]]]]; [contradiction|]. exfalso. exact (D c Ec G).
      * split; [intros H; left; split; assumption|]. intros [[_ H]|[C _]]; [exact H|contradiction].
  - fold (after_unload m (prun h)). rewrite after_unload_get, live_snoc_unload, <- IH, (streqb_sym n m).
    destruct (streqb_spec m n) as [->|Hn]; [split; [intros [p E]; discriminate|intros [C _]; contradiction]|].
    split; [intros H; split; assumption|]. intros [_ H]. exact H.
Qed.

(** ** Rules and commands *)
Definition registered (sel : pclass V -> list (str * bool)) (plugins : dict (nat * pclass V * option str)) (d : dict nat) : Prop :=
  forall r i, dget r d = Some i <-> exists n c p, dget n plugins = Some (i, c, p) /\ In r (map fst (sel c)).
Definition apart (sel : pclass V -> list (str * bool)) (n : str) c (plugins : dict (nat * pclass V * option str)) : Prop :=
  forall n' i' c' p' r, dget n' plugins = Some (i', c', p') -> n' <> n -> In r (map fst (sel c)) -> ~ In r (map fst (sel c')).

Lemma registered_unload sel plugins (d : dict nat) n i c p :
  registered sel plugins d -> dget n plugins = Some (i, c, p) -> apart sel n c plugins ->
  registered sel (remove n plugins) (fold_left (fun d r => remove (fst r) d) (sel c) d).
Proof.
  intros R E A r j. rewrite dget_fold_remove.
  destruct (mem_str r (map fst (sel c))) eqn:M.
  - split; [discriminate|]. intros [n' [c' [p' [E' I]]]]. rewrite dget_remove in E'.
    destruct (streqb_spec n' n) as [->|Hn]; [discriminate|]. exfalso.
    apply mem_str_In in M. exact (A n' j c' p' r E' Hn M I).
  - rewrite (R r j). split.
    + intros [n' [c' [p' [E' I]]]]. exists n', c', p'. split; [|exact I]. rewrite dget_remove.
      destruct (streqb_spec n' n) as [->|Hn]; [|exact E']. rewrite E in E'. injection E' as <- <- <-.
      apply mem_str_In in I. congruence.
    + intros [n' [c' [p' [E' I]]]]. rewrite dget_remove in E'. destruct (streqb n' n); [discriminate|]. eauto 6.
Qed.
Lemma registered_load sel plugins (d d' : dict nat) n i c p :
  registered sel plugins d -> dget n plugins = None -> apart sel n c plugins ->
  (forall k, dget k d' = if mem_str k (map fst (sel c)) then Some i else dget k d) ->
  registered sel (dset n (i, c, p) plugins) d'.
Proof.
  intros R E A G r j. rewrite G. destruct (mem_str r (map fst (sel c))) eqn:M.
  - apply mem_str_In in M. split.
    + intros H. injection H as <-. exists n, c, p. split; [apply dget_dset_same|exact M].
    + intros [n' [c' [p' [E' I]]]]. rewrite dget_dset in E'. destruct (streqb_spec n n') as [<-|Hn].
      * injection E' as <- <- <-. reflexivity.
      * exfalso. apply (A n' j c' p' r E'); [congruence|exact M|exact I].
  - rewrite (R r j). split.
    + intros [n' [c' [p' [E' I]]]]. exists n', c', p'. split; [|exact I]. rewrite dget_dset.
      destruct (streqb_spec n n') as [<-|Hn]; [congruence|exact E'].
    + intros [n' [c' [p' [E' I]]]]. rewrite dget_dset in E'. destruct (streqb_spec n n') as [<-|Hn]; [|eauto 6].
      injection E' as <- <- <-. apply mem_str_In in I. congruence.
Qed.

Definition reg_ok x : Prop := registered pc_evals (x_plugins x) (x_evals x) /\ registered pc_cmds (x_plugins x) (x_cmds x).
Definition apart_all n c x : Prop := apart pc_evals n c (x_plugins x) /\ apart pc_cmds n c (x_plugins x).

Lemma reg_after_unload n x : reg_ok x ->
  (forall i c p, dget n (x_plugins x) = Some (i, c, p) -> apart_all n c x) -> reg_ok (after_unload n x).
Proof.
  intros [R1 R2] A. unfold after_unload. destruct (unload_plugin n x) as [x'|] eqn:E; [|split; assumption].
  unfold unload_plugin in E. destruct (dget n (x_plugins x)) as [[[i c] p]|] eqn:Ep; [|discriminate].
  injection E as <-. destruct (A i c p eq_refl) as [A1 A2].
  split; cbn [x_plugins x_evals x_cmds]; eapply registered_unload; eassumption.
Qed.
Lemma reg_load name path c x : reg_ok x -> good c ->
  (forall i c' p, dget (class_name name) (x_plugins x) = Some (i, c', p) -> apart_all (class_name name) c' x) ->
  apart_all (class_name name) c x -> reg_ok (fst (load_plugin name path (Some c) x)).
Proof.
  intros R G A [B1 B2]. pose proof (reg_after_unload (class_name name) x R A) as [R1 R2].
  destruct (load_good name path c x G) as [e [cm [d [E [Ge Gc]]]]]. rewrite E. cbn [fst].
  assert (N : dget (class_name name) (x_plugins (after_unload (class_name name) x)) = None).
  { rewrite after_unload_get. rewrite (streqb_refl (class_name name)). reflexivity. }
  assert (W : forall sel, apart sel (class_name name) c (x_plugins x) -> apart sel (class_name name) c (x_plugins (after_unload (class_name name) x))).
  { intros sel B n' i' c' p' r E'. rewrite after_unload_get in E'. destruct (streqb n' (class_name name)); [discriminate|]. eauto. }
  split; cbn [x_plugins x_evals x_cmds]; eapply registered_load; try eassumption; apply W; assumption.
Qed.

Lemma live_in h i n c : live h i n c -> exists name path, In (LoadP name path (Some c)) h /\ class_name name = n /\ good c.
Proof.
  intros [a [name [path [b [-> [En [G _]]]]]]]. exists name, path. split; [|auto]. apply in_or_app. right. left. reflexivity.
Qed.
Lemma apart_live h n c name path : no_overlap h -> In (LoadP name path (Some c)) h -> class_name name = n -> 
  forall h', (forall o, In o h' -> In o h) -> apart_all n c (prun h').
Proof.
  intros O Hi Hn h' Hs. split; intros n' i' c' p' r E' Hne I1 I2;
    destruct (proj1 (plugins_live h' n' i' c') (ex_intro _ p' E')) as [a [name' [path' [b [Eh [En' _]]]]]];
    assert (Hin : In (LoadP name' path' (Some c')) h)
      by (apply Hs; rewrite Eh; apply in_or_app; right; left; reflexivity);
    destruct (O name path c name' path' c' r Hi Hin) as [O1 O2]; try congruence.
  - exact (O1 I1 I2).
  - exact (O2 I1 I2).
Qed.
Lemma reg_history_sub h0 h : all_good h0 -> no_overlap h0 -> (forall o, In o h -> In o h0) -> reg_ok (prun h).
Proof.
  intros AG NO. induction h as [|o h IH] using rev_ind; intros Hs.
  { split; intros r i; (split; [intros H; cbn in H; discriminate H|]); intros [n [c [p [E _]]]]; cbn in E; discriminate E. }
  assert (Hs' : forall o', In o' h -> In o' h0) by (intros o' Ho; apply Hs, in_or_app; auto).
  specialize (IH Hs'). rewrite prun_snoc.
  assert (A : forall n i c p, dget n (x_plugins (prun h)) = Some (i, c, p) -> apart_all n c (prun h)).
  { intros n i c p E. destruct (live_in h i n c (proj1 (plugins_live h n i c) (ex_intro _ p E))) as [name [path [Hi [Hn _]]]].
    apply (apart_live h0 n c name path NO (Hs' _ Hi) Hn h Hs'). }
  destruct o as [name path found|m]; cbn [pstep].
  - assert (Hi : In (LoadP name path found) h0) by (apply Hs, in_or_app; right; left; reflexivity).
    destruct (AG name path found Hi) as [c [-> G]].
    apply reg_load; [exact IH|exact G|intros i c' p; apply A|].
    apply (apart_live h0 (class_name name) c name path NO Hi eq_refl h Hs').
  - fold (after_unload m (prun h)). apply reg_after_unload; [exact IH|]. intros i c p. apply A.
Qed.

Lemma reg_history h : all_good h -> no_overlap h -> reg_ok (prun h).
Proof. intros AG NO. apply (reg_history_sub h h AG NO). auto. Qed.

(** ** Order *)
Lemma remove_filter_sorted (l : dict (nat * pclass V * option str)) n :
  StronglySorted lt (map (fun e => fst (fst (snd e))) l) -> StronglySorted lt (map (fun e => fst (fst (snd e))) (remove n l)).
Proof.
  unfold remove. induction l as [|e l IH]; intros S; [constructor|]. cbn [map] in S. inversion S as [|? ? S' F]; subst.
  cbn [filter]. destruct (negb (streqb n (fst e))); [|apply IH; exact S']. cbn [map]. constructor; [apply IH; exact S'|].
  rewrite Forall_forall in F |- *. intros y Hy. apply F. apply in_map_iff in Hy. destruct Hy as [e' [<- He']].
  apply filter_In in He'. apply in_map_iff. exists e'. tauto.
Qed.
Lemma sorted_snoc l y : StronglySorted lt l -> Forall (fun z => z < y) l -> StronglySorted lt (l ++ [y]).
Proof.
  induction 1 as [|z l S IH F]; intros B; cbn [app]; [repeat constructor|].
  apply Forall_cons_iff in B. destruct B as [Bz B]. constructor; [apply IH; exact B|].
  apply Forall_app. split; [exact F|]. constructor; [exact Bz|constructor].
Qed.
Lemma ids_sorted h : StronglySorted lt (plugin_ids (prun h)) /\ Forall (fun i => i < x_next (prun h)) (plugin_ids (prun h)).
Proof.
  induction h as [|o h [IH B]] using rev_ind; [split; constructor|]. rewrite prun_snoc.
  assert (U : forall n, StronglySorted lt (plugin_ids (after_unload n (prun h))) /\
                        Forall (fun i => i < x_next (prun h)) (plugin_ids (after_unload n (prun h)))).
  { intros n. unfold after_unload. destruct (unload_plugin n (prun h)) as [x'|] eqn:E; [|split; assumption].
    unfold plugin_ids in *. rewrite (unload_plugins _ _ _ E). split; [apply remove_filter_sorted; exact IH|].
    rewrite Forall_forall in B |- *. intros y Hy. apply B. apply in_map_iff in Hy. destruct Hy as [e' [<- He']].
    apply filter_In in He'. apply in_map_iff. exists e'. tauto. }
  destruct o as [name path found|m]; cbn [pstep].
  - destruct (U (class_name name)) as [U1 U2]. destruct (found_cases found) as [[c [-> G]]|D].
    + destruct (load_good name path c (prun h) G) as [e [cm [d [E _]]]]. rewrite E. unfold plugin_ids in *. cbn [fst x_plugins x_next].
      rewrite dset_new; [|apply dget_None; rewrite after_unload_get, streqb_refl; reflexivity].
      rewrite map_app. cbn [map fst snd]. split.
      * apply sorted_snoc; assumption.
      * apply Forall_app. split; [eapply Forall_impl; [|exact U2]; intros y Hy; cbn in Hy; lia|]. constructor; [lia|constructor].
    + destruct (load_bad name path found (prun h) D) as [_ [E En]]. unfold plugin_ids in *. rewrite E, En.
      split; [exact U1|]. eapply Forall_impl; [|exact U2]. intros y Hy. cbn in Hy. lia.
  - destruct (U m) as [U1 U2]. fold (after_unload m (prun h)). rewrite (after_unload_next m (prun h)). split; assumption.
Qed.

(** ** Chains *)
Lemma chain_spec {S} (method : nat -> S -> S * act) plugins : forall s s' called r,
  chain method plugins s = (s', called, r) ->
  (r = Some false /\ called = plugins /\ went method plugins s s') \/
  (exists pre p rest s1 e, plugins = pre ++ p :: rest /\ called = pre ++ [p] /\ went method pre s s1 /\
     method p s1 = (s', e) /\ ((e = Inhibits /\ r = Some true) \/ (e = Fails /\ r = None))).
Proof.
  induction plugins as [|p plugins IH]; intros s s' called r H; cbn [chain] in H.
  - injection H as <- <- <-. left. repeat split. constructor.
  - destruct (method p s) as [s1 e] eqn:Em. destruct e.
    + destruct (chain method plugins s1) as [[s2 c2] r2] eqn:E. injection H as <- <- <-.
      destruct (IH s1 s2 c2 r2 E) as [[-> [-> W]]|[pre [q [rest [s3 [e [-> [-> [W [Eq Hr]]]]]]]]]].
      * left. repeat split. econstructor; eassumption.
      * right. exists (p :: pre), q, rest, s3, e. repeat (split; [reflexivity|]). split; [econstructor; eassumption|]. auto.
    + injection H as <- <- <-. right. exists [], p, plugins, s, Inhibits. repeat (split; [reflexivity|]). split; [constructor|]. auto.
    + injection H as <- <- <-. right. exists [], p, plugins, s, Fails. repeat (split; [reflexivity|]). split; [constructor|]. auto.
Qed.

(** ** Overlapping classes, nothing unloaded *)
Lemma live_loads_only h : forallb is_load h = true -> all_good h -> NoDup (map load_class h) ->
  forall i n c, live h i n c <-> exists name path, nth_error h i = Some (LoadP name path (Some c)) /\ class_name name = n.
Proof.
  induction h as [|o h IH] using rev_ind; intros HL AG ND i n c.
  { split; [intros [a [nm [p [b [E _]]]]]; destruct a; discriminate|]. intros [nm [p [E _]]]. destruct i; discriminate. }
  rewrite forallb_app in HL. apply andb_prop in HL. destruct HL as [HL Ho]. cbn [forallb] in Ho.
  destruct o as [name path found|m]; [|discriminate].
  assert (AG' : all_good h) by (intros nm p f Hi; apply (AG nm p f), in_or_app; auto).
  rewrite map_app in ND. cbn [map load_class] in ND.
  assert (ND' : NoDup (map load_class h)) by (apply NoDup_remove_1 in ND; rewrite app_nil_r in ND; exact ND).
  assert (Hn : ~ In (class_name name) (map load_class h)) by (apply NoDup_remove_2 in ND; rewrite app_nil_r in ND; exact ND).
  destruct (AG name path found) as [c0 [-> G]]; [apply in_or_app; right; left; reflexivity|].
  assert (EL : loads h = length h).
  { clear - HL. unfold loads. induction h as [|o h IH]; [reflexivity|]. cbn [forallb] in HL. apply andb_prop in HL. destruct HL as [Ho HL].
    cbn [filter]. rewrite Ho. cbn [length]. rewrite (IH HL). reflexivity. }
  rewrite live_snoc_load, (IH HL AG' ND' i n c), EL. split.
  - intros [[Hne [nm [p [E En]]]]|[En [Ec [Gc ->]]]].
    + exists nm, p. split; [|exact En]. rewrite nth_error_app1; [exact E|]. apply nth_error_Some. congruence.
    + injection Ec as ->. exists name, path. split; [|exact En]. rewrite nth_error_app2, Nat.sub_diag by lia. reflexivity.
  - intros [nm [p [E En]]]. destruct (Nat.lt_ge_cases i (length h)) as [Hi|Hi].
    + rewrite nth_error_app1 in E by exact Hi. left. split; [|eauto].
      intros C. apply Hn. rewrite C, <- En. apply (in_map load_class h (LoadP nm p (Some c))). eapply nth_error_In. exact E.
    + rewrite nth_error_app2 in E by exact Hi. destruct (i - length h) as [|k] eqn:Ek; [|destruct k; discriminate].
      cbn in E. injection E as -> -> ->. right. repeat (split; [assumption || reflexivity|]). lia.
Qed.
Lemma loads_only_resolution h : forallb is_load h = true -> all_good h -> NoDup (map load_class h) ->
  forall r i, dget r (x_evals (prun h)) = Some i <->
    (exists name path c, nth_error h i = Some (LoadP name path (Some c)) /\ provides c r) /\
    (forall j name path c, i < j -> nth_error h j = Some (LoadP name path (Some c)) -> ~ provides c r).
Proof.
  induction h as [|o h IH] using rev_ind; intros HL AG ND r i.
  { split; [discriminate|]. intros [[nm [p [c [E _]]]] _]. destruct i; discriminate. }
  pose proof HL as HL0. rewrite forallb_app in HL. apply andb_prop in HL. destruct HL as [HL Ho]. cbn [forallb] in Ho.
  destruct o as [name path found|m]; [|discriminate].
  assert (AG' : all_good h) by (intros nm p f Hi; apply (AG nm p f), in_or_app; auto).
  pose proof ND as ND0. rewrite map_app in ND. cbn [map load_class] in ND.
  assert (ND' : NoDup (map load_class h)) by (apply NoDup_remove_1 in ND; rewrite app_nil_r in ND; exact ND).
  assert (Hn : ~ In (class_name name) (map load_class h)) by (apply NoDup_remove_2 in ND; rewrite app_nil_r in ND; exact ND).
  destruct (AG name path found) as [c0 [-> G]]; [apply in_or_app; right; left; reflexivity|].
  rewrite prun_snoc. cbn [pstep]. destruct (load_good name path c0 (prun h) G) as [e [cm [d [E [Ge _]]]]]. rewrite E. cbn [fst x_evals].
  assert (EU : after_unload (class_name name) (prun h) = prun h).
  { unfold after_unload. destruct (unload_plugin (class_name name) (prun h)) as [x'|] eqn:Eu; [|reflexivity]. exfalso.
    destruct (dget (class_name name) (x_plugins (prun h))) as [[[j c] p]|] eqn:Ed.
    - pose proof (proj1 (plugins_live h (class_name name) j c) (ex_intro _ p Ed)) as L.
      apply (live_loads_only h HL AG' ND') in L. destruct L as [nm [pp [En Ec]]]. apply Hn.
      apply nth_error_In in En. apply (in_map load_class) in En. cbn [load_class] in En. congruence.
    - apply unload_None in Ed. congruence. }
  assert (EN : x_next (prun h) = length h).
  { rewrite next_loads. clear - HL. unfold loads. induction h as [|o h IH]; [reflexivity|]. cbn [forallb] in HL. apply andb_prop in HL. destruct HL as [Ho HL].
    cbn [filter]. rewrite Ho. cbn [length]. rewrite (IH HL). reflexivity. }
  rewrite Ge, EU, EN.
  assert (Hlast : nth_error (h ++ [LoadP name path (Some c0)]) (length h) = Some (LoadP name path (Some c0))).
  { rewrite nth_error_app2, Nat.sub_diag by lia. reflexivity. }
  destruct (mem_str r (map fst (pc_evals c0))) eqn:M.
  - apply mem_str_In in M. split.
    + intros H. injection H as <-. split; [exists name, path, c0; split; [exact Hlast|exact M]|].
      intros j nm p c Hj Ej. assert (j < length (h ++ [LoadP name path (Some c0)])) by (apply nth_error_Some; congruence).
      rewrite app_length in *. cbn [length] in *. lia.
    + intros [[nm [p [c [Ei P]]]] Hlater].
      assert (Hi : i < length (h ++ [LoadP name path (Some c0)])) by (apply nth_error_Some; congruence).
      rewrite app_length in Hi. cbn [length] in Hi.
      destruct (Nat.eq_dec i (length h)) as [->|Hne]; [reflexivity|]. exfalso.
      apply (Hlater (length h) name path c0); [lia|exact Hlast|exact M].
  - assert (M' : ~ provides c0 r) by (intros P; apply mem_str_In in P; congruence).
    rewrite (IH HL AG' ND' r i). split.
    + intros [[nm [p [c [Ei P]]]] Hlater].
      assert (Hi : i < length h) by (apply nth_error_Some; congruence). split.
      * exists nm, p, c. split; [rewrite nth_error_app1; assumption|exact P].
      * intros j nm' p' c' Hj Ej. destruct (Nat.lt_ge_cases j (length h)) as [Hl|Hl].
        -- rewrite nth_error_app1 in Ej by exact Hl. exact (Hlater j nm' p' c' Hj Ej).
        -- rewrite nth_error_app2 in Ej by exact Hl. destruct (j - length h) as [|k]; [|destruct k; discriminate].
           cbn in Ej. injection Ej as -> -> ->. exact M'.
    + intros [[nm [p [c [Ei P]]]] Hlater].
      assert (Hi : i < length h).
      { destruct (Nat.lt_ge_cases i (length h)) as [Hl|Hl]; [exact Hl|].
        rewrite nth_error_app2 in Ei by exact Hl. destruct (i - length h) as [|k]; [|destruct k; discriminate].
        cbn in Ei. injection Ei as -> -> ->. contradiction. }
      rewrite nth_error_app1 in Ei by exact Hi. split; [eauto 6|].
      intros j nm' p' c' Hj Ej. apply (Hlater j nm' p' c' Hj).
      rewrite nth_error_app1; [exact Ej|]. apply nth_error_Some. congruence.
Qed.

(** ** Plugin data *)
Lemma get_set p k v d p' k' : get_data p' k' (set_data (V := V) p k v d) =
  if (streqb p' p && streqb k' k)%bool then Some v else get_data p' k' d.
Proof.
  unfold get_data, set_data, data_of at 1. rewrite dget_dset, (streqb_sym p p').
  destruct (streqb_spec p' p) as [->|Hp]; cbn [andb].
  - rewrite dget_dset, (streqb_sym k k'). destruct (streqb k' k); reflexivity.
  - reflexivity.
Qed.
Lemma get_removed p k (d : dict (dict V)) p' k' :
  get_data p' k' (dset p (remove k (data_of p d)) d) = if (streqb p' p && streqb k' k)%bool then None else get_data p' k' d.
Proof.
  unfold get_data, data_of at 1. rewrite dget_dset, (streqb_sym p p').
  destruct (streqb_spec p' p) as [->|Hp]; cbn [andb]; [|reflexivity].
  rewrite dget_remove. destruct (streqb k' k); reflexivity.
Qed.
Lemma get_dstep (d : dict (dict V)) o p k :
  (touches p k o -> get_data p k (dstep d o) = match o with SetD _ _ v => Some v | _ => None end) /\
  (~ touches p k o -> get_data p k (dstep d o) = get_data p k d).
Proof.
  destruct o as [p' k' v|p' k'|p' k'|p']; cbn [dstep touches].
  - rewrite get_set. destruct (streqb_spec p p') as [->|Hp], (streqb_spec k k') as [->|Hk]; cbn [andb];
      split; intros H; try reflexivity; try (exfalso; apply H; split; reflexivity); destruct H; congruence.
  - unfold del_data. destruct (dget k' (data_of p' d)) as [w|] eqn:E.
    + rewrite get_removed. destruct (streqb_spec p p') as [->|Hp], (streqb_spec k k') as [->|Hk]; cbn [andb];
        split; intros H; try reflexivity; try (exfalso; apply H; split; reflexivity); destruct H; congruence.
    + split; [|reflexivity]. intros [-> ->]. exact E.
  - unfold pop_data. cbn [fst]. rewrite get_removed. destruct (streqb_spec p p') as [->|Hp], (streqb_spec k k') as [->|Hk]; cbn [andb];
        split; intros H; try reflexivity; try (exfalso; apply H; split; reflexivity); destruct H; congruence.
  - unfold get_data, pop_all, data_of. rewrite dget_remove. destruct (streqb_spec p p') as [->|Hp]; split; intros H; try reflexivity; congruence.
Qed.
Lemma touches_dec p k (o : dop (V := V)) : touches p k o \/ ~ touches p k o.
Proof.
  destruct o as [p' k' v|p' k'|p' k'|p']; cbn [touches];
    destruct (streqb_spec p' p) as [->|]; try destruct (streqb_spec k' k) as [->|]; tauto || (right; intros H; tauto || (destruct H; congruence) || congruence).
Qed.
Lemma data_last_write (ops : list (dop (V := V))) p k v :
  get_data p k (drun ops) = Some v <->
  exists (a b : list dop), ops = a ++ SetD p k v :: b /\ Forall (fun o => ~ touches p k o) b.
Proof.
  induction ops as [|o ops IH] using rev_ind.
  { split; [discriminate|]. intros [a [b [E _]]]. destruct a; discriminate. }
  unfold drun. rewrite fold_left_app. cbn [fold_left]. change (fold_left dstep ops []) with (drun ops).
  destruct (get_dstep (drun ops) o p k) as [H1 H2]. destruct (touches_dec p k o) as [T|T].
  - rewrite (H1 T). split.
    + destruct o as [p' k' w|p' k'|p' k'|p']; try discriminate. intros E. injection E as ->. cbn [touches] in T. destruct T as [-> ->].
      exists ops, []. split; [reflexivity|constructor].
    + intros [a [b [E F]]]. destruct b as [|o' b _] using rev_ind.
      * apply app_inj_tail in E. destruct E as [_ ->]. reflexivity.
      * rewrite app_comm_cons, app_assoc in E. apply app_inj_tail in E. destruct E as [_ <-].
        apply Forall_app in F. destruct F as [_ F]. apply Forall_cons_iff in F. destruct F as [F _]. contradiction.
  - rewrite (H2 T), IH. split.
    + intros [a [b [-> F]]]. exists a, (b ++ [o]). rewrite <- app_assoc. split; [reflexivity|]. apply Forall_app. auto.
    + intros [a [b [E F]]]. destruct b as [|o' b _] using rev_ind.
      * apply app_inj_tail in E. destruct E as [_ ->]. exfalso. apply T. split; reflexivity.
      * rewrite app_comm_cons, app_assoc in E. apply app_inj_tail in E. destruct E as [-> _].
        apply Forall_app in F. destruct F as [F _]. eauto.
Qed.

(** ** Pickling *)
Lemma class_name_idem s : class_name (class_name s) = class_name s.
Proof.
  unfold class_name. destruct (rsplit1 46 s) as [[a c]|] eqn:E.
  - apply rsplit1_Some in E. destruct E as [_ N]. apply rsplit1_None in N. rewrite N. reflexivity.
  - rewrite E. reflexivity.
Qed.
Lemma del_rules_ok (l : list (str * bool)) : forall (d : dict nat), NoDup (map fst l) -> (forall r, In r (map fst l) -> dget r d <> None) ->
  exists d', del_rules l d = Some d' /\ forall k, dget k d' = if mem_str k (map fst l) then None else dget k d.
Proof.
  induction l as [|[r b] l IH]; intros d ND H; [exists d; split; reflexivity|]. cbn [map fst] in *.
  inversion ND as [|? ? Hr ND']; subst. cbn [del_rules].
  destruct (dget r d) eqn:E; [|exfalso; apply (H r); [left; reflexivity|exact E]].
  destruct (IH (remove r d) ND') as [d' [Ed G]].
  { intros k Hk. rewrite dget_remove. destruct (streqb_spec k r) as [->|]; [contradiction|]. apply H. right. exact Hk. }
  exists d'. split; [exact Ed|]. intros k. rewrite G, dget_remove, mem_str_cons.
  destruct (mem_str k (map fst l)); [rewrite Bool.orb_true_r; reflexivity|]. rewrite Bool.orb_false_r. reflexivity.
Qed.
Definition from_path (l : dict (nat * pclass V * option str)) : list (str * str) :=
  flat_map (fun e => match snd (snd e) with Some p => [(fst e, p)] | None => [] end) l.
Definition all_apart (plugins : dict (nat * pclass V * option str)) : Prop :=
  forall n i c p, dget n plugins = Some (i, c, p) -> apart pc_evals n c plugins.
Lemma all_apart_remove plugins n : all_apart plugins -> all_apart (remove n plugins).
Proof.
  intros A n1 i c p E n2 i2 c2 p2 r E2 Hn. rewrite dget_remove in E, E2.
  destruct (streqb n1 n); [discriminate|]. destruct (streqb n2 n); [discriminate|]. apply (A n1 i c p E n2 i2 c2 p2 r E2 Hn).
Qed.
Lemma strip_ok l : forall x todo, registered pc_evals (x_plugins x) (x_evals x) -> NoDup (dkeys l) ->
  (forall n e, In (n, e) l -> dget n (x_plugins x) = Some e) -> all_apart (x_plugins x) ->
  (forall n i c p, dget n (x_plugins x) = Some (i, c, p) -> NoDup (map fst (pc_evals c))) ->
  exists x', strip_path_plugins l x todo = Some (x', todo ++ from_path l) /\
    registered pc_evals (x_plugins x') (x_evals x') /\
    (forall n, dget n (x_plugins x') = if mem_str n (map fst (from_path l)) then None else dget n (x_plugins x)).
Proof.
  induction l as [|[n [[i c] path]] l IH]; intros x todo R ND L A NDc; cbn [strip_path_plugins].
  { exists x. rewrite app_nil_r. split; [reflexivity|]. split; [exact R|reflexivity]. }
  cbn [dkeys map fst] in ND. inversion ND as [|? ? Hn ND']; subst.
  assert (En : dget n (x_plugins x) = Some (i, c, path)) by (apply L; left; reflexivity).
  destruct path as [p|].
  - destruct (del_rules_ok (pc_evals c) (x_evals x)) as [ev [Ed G]]; [apply (NDc n i c _ En)| |].
    { intros r Hr. assert (E : dget r (x_evals x) = Some i) by (apply R; eauto 6). congruence. }
    rewrite Ed.
    destruct (IH (mkCtx (remove n (x_plugins x)) ev (x_cmds x) (x_data x) (x_next x)) (todo ++ [(n, p)])) as [x' [Es [R' P']]].
    + cbn [x_plugins x_evals]. pose proof (registered_unload pc_evals _ _ n i c _ R En (A n i c _ En)) as Ru.
      intros r j. rewrite <- (Ru r j), G, dget_fold_remove. reflexivity.
    + exact ND'.
    + intros n' e' Hi. cbn [x_plugins]. rewrite dget_remove. destruct (streqb_spec n' n) as [->|].
      * exfalso. apply Hn. apply (in_map fst) in Hi. exact Hi.
      * apply L. right. exact Hi.
    + cbn [x_plugins]. apply all_apart_remove. exact A.
    + intros n' i' c' p' E'. cbn [x_plugins] in E'. rewrite dget_remove in E'. destruct (streqb n' n); [discriminate|]. exact (NDc _ _ _ _ E').
    + exists x'. split; [rewrite Es; cbn [from_path flat_map fst snd]; rewrite <- app_assoc; reflexivity|]. split; [exact R'|].
      intros k. rewrite P'. cbn [x_plugins from_path flat_map fst snd app map].
      rewrite dget_remove, mem_str_cons. destruct (mem_str k (map fst _)); [rewrite Bool.orb_true_r; reflexivity|].
      rewrite Bool.orb_false_r. reflexivity.
  - destruct (IH x todo R ND') as [x' [Es [R' P']]]; [|exact A|exact NDc|].
    { intros n' e' Hi. apply L. right. exact Hi. }
    exists x'. split; [exact Es|]. split; assumption.
Qed.

Lemma restore_ok (find : str -> str -> option (pclass V)) (classes : str -> option (pclass V)) todo : forall x,
  registered pc_evals (x_plugins x) (x_evals x) -> NoDup (map fst todo) ->
  (forall n p, In (n, p) todo -> class_name n = n /\ dget n (x_plugins x) = None /\
     exists c, classes n = Some c /\ find n p = Some c /\ good c) ->
  (forall n i c p, dget n (x_plugins x) = Some (i, c, p) -> classes n = Some c) ->
  (forall n1 c1 n2 c2 r, classes n1 = Some c1 -> classes n2 = Some c2 -> n1 <> n2 -> provides c1 r -> ~ provides c2 r) ->
  let x' := setstate find (x, todo) in
  registered pc_evals (x_plugins x') (x_evals x') /\
  (forall n c, (exists i p, dget n (x_plugins x') = Some (i, c, p)) <->
     (exists i p, dget n (x_plugins x) = Some (i, c, p)) \/ (In n (map fst todo) /\ classes n = Some c)).
Proof.
  unfold setstate. cbn [fst snd]. induction todo as [|[n p] todo IH]; intros x R ND HT HC HA; cbn [fold_left].
  { split; [exact R|]. intros n c. split; [auto|]. intros [H|[[] _]]. exact H. }
  cbn [map fst] in ND. inversion ND as [|? ? Hn ND']; subst.
  destruct (HT n p (or_introl eq_refl)) as [Ecn [En [c [Ec [Ef G]]]]]. cbn [fst snd]. rewrite Ef.
  destruct (load_good n (Some p) c x G) as [ev [cm [d [El [Ge _]]]]]. rewrite El. cbn [fst].
  assert (EU : after_unload n x = x).
  { unfold after_unload. destruct (unload_plugin n x) eqn:Eu; [|reflexivity]. apply unload_None in En. congruence. }
  rewrite Ecn, EU in *.
  set (x1 := mkCtx (dset n (x_next x, c, Some p) (x_plugins x)) ev cm d (S (x_next x))).
  assert (R1 : registered pc_evals (x_plugins x1) (x_evals x1)).
  { unfold x1. cbn [x_plugins x_evals]. eapply registered_load; [exact R|exact En| |exact Ge].
    intros n' i' c' p' r E' Hne I1 I2. apply (HA n c n' c' r Ec (HC _ _ _ _ E')); auto. }
  destruct (IH x1 R1 ND') as [R' P'].
  - intros n' p' Hi. destruct (HT n' p' (or_intror Hi)) as [E1 [E2 E3]]. split; [exact E1|]. split; [|exact E3].
    unfold x1. cbn [x_plugins]. rewrite dget_dset. destruct (streqb_spec n n') as [->|]; [|exact E2].
    exfalso. apply Hn. apply (in_map fst) in Hi. exact Hi.
  - intros n' i' c' p' E'. unfold x1 in E'. cbn [x_plugins] in E'. rewrite dget_dset in E'.
    destruct (streqb_spec n n') as [->|]; [injection E' as <- <- <-; exact Ec|exact (HC _ _ _ _ E')].
  - exact HA.
  - split; [exact R'|]. intros n' c'. rewrite P'. unfold x1. cbn [x_plugins map fst In]. rewrite dget_dset.
    destruct (streqb_spec n n') as [->|Hne].
    + split.
      * intros [[i [q E]]|[C _]]; [injection E as <- <- <-; right; auto|contradiction].
      * intros [[i [q E]]|[_ E]]; [congruence|]. left. rewrite Ec in E. injection E as ->. eauto.
    + split; [intros [H|[H1 H2]]; auto|]. intros [H|[[C|H1] H2]]; auto; contradiction.
Qed.

Lemma plugins_nodup h : NoDup (dkeys (x_plugins (prun h))).
Proof.
  induction h as [|o h IH] using rev_ind; [constructor|]. rewrite prun_snoc.
  assert (U : forall n, NoDup (dkeys (x_plugins (after_unload n (prun h))))).
  { intros n. unfold after_unload. destruct (unload_plugin n (prun h)) as [x'|] eqn:E; [|exact IH].
    rewrite (unload_plugins _ _ _ E). clear - IH. unfold remove, dkeys in *. induction (x_plugins (prun h)) as [|e l IHl]; [constructor|].
    cbn [map] in IH. inversion IH as [|? ? Hn ND]; subst. cbn [filter]. destruct (negb (streqb n (fst e))); [|apply IHl; exact ND].
    cbn [map]. constructor; [|apply IHl; exact ND]. intros Hi. apply Hn. apply in_map_iff in Hi. destruct Hi as [e' [E' Hi]].
    apply filter_In in Hi. apply in_map_iff. exists e'. tauto. }
  destruct o as [name path found|m]; cbn [pstep]; [|fold (after_unload m (prun h)); apply U].
  destruct (found_cases found) as [[c [-> G]]|D].
  - destruct (load_good name path c (prun h) G) as [e [cm [d [E _]]]]. rewrite E. cbn [fst x_plugins].
    rewrite dkeys_dset. destruct (dhas (class_name name) _) eqn:Eh; [apply U|].
    apply dhas_notIn in Eh. apply NoDup_app_snoc || idtac.
    assert (W : forall (l : list str) y, NoDup l -> ~ In y l -> NoDup (l ++ [y])).
    { intros l y N Hy. induction N as [|z l Hz N IHl]; cbn [app]; [repeat constructor; intros []|].
      constructor; [rewrite in_app_iff; intros [H|[H|[]]]; [contradiction|]; subst; apply Hy; left; reflexivity|].
      apply IHl. intros H. apply Hy. right. exact H. }
    apply W; [apply U|exact Eh].
  - destruct (load_bad name path found (prun h) D) as [_ [E _]]. rewrite E. apply U.
Qed.

Lemma pickle_roundtrip h find : all_good h -> no_overlap h ->
  (forall name path c, In (LoadP name path (Some c)) h -> NoDup (map fst (pc_evals c))) ->
  (forall n i c p, dget n (x_plugins (prun h)) = Some (i, c, Some p) -> find n p = Some c) ->
  exists state, getstate (prun h) = Some state /\
    (forall n c, (exists i p, dget n (x_plugins (setstate find state)) = Some (i, c, p)) <->
                 (exists i p, dget n (x_plugins (prun h)) = Some (i, c, p))) /\
    (forall r, dget r (x_evals (setstate find state)) <> None <-> dget r (x_evals (prun h)) <> None) /\
    (forall r i, dget r (x_evals (setstate find state)) = Some i ->
       exists n c p, dget n (x_plugins (setstate find state)) = Some (i, c, p) /\ provides c r).
Proof.
  intros AG NO ND HF. pose proof (reg_history h AG NO) as [R _]. set (x := prun h) in *.
  assert (LV : forall n i c p, dget n (x_plugins x) = Some (i, c, p) -> exists name path, In (LoadP name path (Some c)) h /\ class_name name = n /\ good c).
  { intros n i c p E. exact (live_in h i n c (proj1 (plugins_live h n i c) (ex_intro _ p E))). }
  assert (AP : forall n1 i1 c1 p1 n2 i2 c2 p2 r, dget n1 (x_plugins x) = Some (i1, c1, p1) -> dget n2 (x_plugins x) = Some (i2, c2, p2) ->
     n1 <> n2 -> provides c1 r -> ~ provides c2 r).
  { intros n1 i1 c1 p1 n2 i2 c2 p2 r E1 E2 Hne. destruct (LV _ _ _ _ E1) as [a1 [q1 [I1 [N1 _]]]], (LV _ _ _ _ E2) as [a2 [q2 [I2 [N2 _]]]].
    apply (proj1 (NO a1 q1 c1 a2 q2 c2 r I1 I2 ltac:(congruence))). }
  destruct (strip_ok (x_plugins x) x [] R) as [x1 [Es [R1 P1]]].
  - apply plugins_nodup.
  - intros n e Hi. clear - Hi. pose proof (plugins_nodup h) as N. fold x in N. revert N Hi.
    induction (x_plugins x) as [|[n' e'] l IH]; intros N Hi; [destruct Hi|]. cbn [dkeys map fst] in N. inversion N as [|? ? Hn N']; subst.
    cbn [dget]. destruct Hi as [E|Hi]; [injection E as -> ->; rewrite streqb_refl; reflexivity|].
    destruct (streqb_spec n n') as [->|]; [exfalso; apply Hn; apply (in_map fst) in Hi; exact Hi|]. apply IH; assumption.
  - intros n1 i1 c1 p1 E1 n2 i2 c2 p2 r E2 Hne. apply (AP n1 i1 c1 p1 n2 i2 c2 p2 r E1 E2). congruence.
  - intros n i c p E. destruct (LV _ _ _ _ E) as [a [q [I _]]]. exact (ND a q c I).
  - cbn [app] in Es. exists (x1, from_path (x_plugins x)). split; [exact Es|].
    set (classes := fun n => match dget n (x_plugins x) with Some (_, c, _) => Some c | None => None end).
    assert (FP : forall n p, In (n, p) (from_path (x_plugins x)) -> exists i c, dget n (x_plugins x) = Some (i, c, Some p)).
    { intros n p Hi. pose proof (plugins_nodup h) as N. fold x in N. revert N Hi. clear.
      induction (x_plugins x) as [|[n' [[i' c'] p']] l IH]; intros N Hi; [destruct Hi|].
      cbn [dkeys map fst] in N. inversion N as [|? ? Hn N']; subst. cbn [from_path flat_map fst snd] in Hi. cbn [dget].
      apply in_app_or in Hi. destruct Hi as [Hi|Hi].
      - destruct p' as [q|]; [|destruct Hi]. destruct Hi as [E|[]]. injection E as -> ->. rewrite streqb_refl. eauto.
      - destruct (IH N' Hi) as [i [c E]]. destruct (streqb_spec n n') as [->|]; [|eauto].
        exfalso. apply Hn. apply dget_In in E. apply (in_map fst) in E. exact E. }
    destruct (restore_ok find classes (from_path (x_plugins x)) x1 R1) as [R2 P2].
    + pose proof (plugins_nodup h) as N. fold x in N. revert N. clear. unfold from_path.
      induction (x_plugins x) as [|[n' [[i' c'] p']] l IH]; intros N; [constructor|].
      cbn [dkeys map fst] in N. inversion N as [|? ? Hn N']; subst. cbn [flat_map fst snd]. rewrite map_app.
      destruct p' as [q|]; [|apply IH; exact N']. cbn [map fst app]. constructor; [|apply IH; exact N'].
      intros Hi. apply Hn. apply in_map_iff in Hi. destruct Hi as [[a b] [E Hi]]. cbn [fst] in E. subst a.
      apply in_flat_map in Hi. destruct Hi as [[n [[i c] p]] [Hl Hi]]. cbn [fst snd] in Hi. destruct p; [|destruct Hi].
      destruct Hi as [E|[]]. injection E as -> _. apply (in_map fst) in Hl. exact Hl.
    + intros n p Hi. destruct (FP n p Hi) as [i [c E]]. destruct (LV _ _ _ _ E) as [a [q [_ [Ea G]]]].
      split; [rewrite <- Ea; apply class_name_idem|]. split.
      * rewrite P1. rewrite (proj2 (mem_str_In n _)); [reflexivity|]. apply (in_map fst) in Hi. exact Hi.
      * exists c. unfold classes. rewrite E. split; [reflexivity|]. split; [exact (HF n i c p E)|exact G].
    + intros n i c p E. rewrite P1 in E. destruct (mem_str n _); [discriminate|]. unfold classes. rewrite E. reflexivity.
    + intros n1 c1 n2 c2 r E1 E2 Hne. unfold classes in E1, E2.
      destruct (dget n1 (x_plugins x)) as [[[i1 d1] p1]|] eqn:F1; [|discriminate]. injection E1 as ->.
      destruct (dget n2 (x_plugins x)) as [[[i2 d2] p2]|] eqn:F2; [|discriminate]. injection E2 as ->.
      exact (AP _ _ _ _ _ _ _ _ r F1 F2 Hne).
    + set (x2 := setstate find (x1, from_path (x_plugins x))) in *.
      assert (PL : forall n c, (exists i p, dget n (x_plugins x2) = Some (i, c, p)) <-> (exists i p, dget n (x_plugins x) = Some (i, c, p))).
      { intros n c. rewrite P2. split.
        - intros [[i [p E]]|[Hi E]].
          + rewrite P1 in E. destruct (mem_str n _); [discriminate|]. eauto.
          + unfold classes in E. destruct (dget n (x_plugins x)) as [[[i' c'] p']|]; [|discriminate]. injection E as ->. eauto.
        - intros [i [p E]]. destruct (mem_str n (map fst (from_path (x_plugins x)))) eqn:M.
          + right. apply mem_str_In in M. split; [exact M|]. unfold classes. rewrite E. reflexivity.
          + left. exists i, p. rewrite P1, M. exact E. }
      split; [exact PL|]. split.
      * intros r. split.
        -- intros H. destruct (dget r (x_evals x2)) as [i|] eqn:E; [|contradiction].
           apply R2 in E. destruct E as [n [c [p [E I]]]].
           destruct (proj1 (PL n c) (ex_intro _ i (ex_intro _ p E))) as [i' [p' E']].
           assert (Er : dget r (x_evals x) = Some i') by (apply R; eauto 6). congruence.
        -- intros H. destruct (dget r (x_evals x)) as [i|] eqn:E; [|contradiction].
           apply R in E. destruct E as [n [c [p [E I]]]].
           destruct (proj2 (PL n c) (ex_intro _ i (ex_intro _ p E))) as [i' [p' E']].
           assert (Er : dget r (x_evals x2) = Some i') by (apply R2; eauto 6). congruence.
      * intros r i E. apply R2 in E. exact E.
Qed.
End Reg.
