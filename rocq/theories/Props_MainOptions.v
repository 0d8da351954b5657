(** C249: the main options take the values, start from the values and empty the lists that their
    documentation says. *)
From Verif Require Import PyStr PyDict Model_Rules Model_Parser Model_Conf Spec_Conf Spec_MainOptions Proofs_Conf Props_Conf.

Definition plain_eqb (a b : otype) : bool :=
  match a, b with
  | OInt, OInt | OFloat, OFloat | OTime, OTime | OBool, OBool | OStr, OStr | OList, OList | OAppend, OAppend
  | OAppendSplit, OAppendSplit | OClear, OClear => true
  | _, _ => false
  end.
Lemma documented_table k ty : In (k, ty) documented -> exists d, dget k pad_options = Some (ty, d) /\ ty <> OClear.
Proof.
  intros H. assert (forallb (fun e => match dget (fst e) pad_options with Some (t, _) => plain_eqb t (snd e) && negb (plain_eqb t OClear) | None => false end) documented = true) as A
    by (vm_compute; reflexivity).
  rewrite forallb_forall in A. apply A in H. cbn [fst snd] in H. destruct (dget k pad_options) as [[t d]|]; [|discriminate].
  exists d. destruct t, ty; try discriminate; (split; [reflexivity | discriminate]).
Qed.
Lemma clears_table k l : In (k, l) clears -> dget k pad_options = Some (OClear, CKeys l).
Proof. unfold clears. cbn [In]. intros H. repeat (destruct H as [H | H]; [injection H as <- <-; vm_compute; reflexivity|]). destruct H. Qed.
Lemma others_table k : ~ In k (map fst documented) -> ~ In k (map fst clears) -> dget k pad_options = None.
Proof.
  intros H1 H2. destruct (dget k pad_options) as [v|] eqn:E; [|reflexivity]. exfalso. apply dget_In in E.
  assert (forallb (fun e => mem_str (fst e) (map fst documented) || mem_str (fst e) (map fst clears)) pad_options = true) as A
    by (vm_compute; reflexivity).
  rewrite forallb_forall in A. apply A in E. cbn [fst] in E. apply orb_true_iff in E. destruct E as [E | E]; apply mem_str_In in E; auto.
Qed.

(** A line with a documented option stores what its text means for the documented kind of value and
    changes nothing else, whatever plugins are loaded and whatever was set before; or its text is
    refused and nothing changes. *)
Theorem C249_kinds classes py_float h0 w c key ty text :
  dget ($"PADConf") classes = Some pad_options -> classes_ok classes h0 -> reachable classes py_float h0 w ->
  c < length (w_ctxs w) -> In (key, ty) documented ->
  match hook_parse_config classes py_float c key text w with
  | CHandled w' => means py_float ty text (view w c ($"PADConf") key) (view w' c ($"PADConf") key) /\
      (forall cls' key', (cls', key') <> ($"PADConf", key) -> view w' c cls' key' = view w c cls' key')
  | CUnknown _ => False
  | CFails w' => w' = w /\ refused py_float ty text
  end.
Proof.
  intros M OK R L I. destruct (documented_table _ _ I) as (d & E & N).
  apply (C20_typed_values classes py_float h0 w c key text main ty OK R L); [|exact N].
  cbn [taker]. unfold option_of. change main with ($"PADConf"). rewrite M, E. reflexivity.
Qed.
Print Assumptions C249_kinds.

(** A documented "clear" line empties exactly its lists, in this context only. *)
Theorem C249_clears classes py_float h0 w c key lists text :
  dget ($"PADConf") classes = Some pad_options -> classes_ok classes h0 -> reachable classes py_float h0 w ->
  c < length (w_ctxs w) -> In (key, lists) clears ->
  exists w', hook_parse_config classes py_float c key text w = CHandled w' /\
    (forall k, In k lists -> view w' c ($"PADConf") k = Some (SList [])) /\
    (forall c' cls k, ~ (c' = c /\ cls = $"PADConf" /\ In k lists) -> view w' c' cls k = view w c' cls k).
Proof.
  intros M OK R L I. pose proof (clears_table _ _ I) as E.
  assert (O : option_of classes main key = Some (OClear, CKeys lists)) by (unfold option_of; change main with ($"PADConf"); rewrite M; exact E).
  destruct (C22_clear_changes_only_its_lists classes py_float h0 w c key text main OK R L) as (w' & H1 & H2 & H3).
  { cbn [taker]. rewrite O. reflexivity. }
  exists w'. split; [exact H1|]. split.
  - intros k Hk. apply H2. exists lists. auto.
  - intros c' cls k N. apply H3. intros (-> & -> & ks & O' & Hk). rewrite O in O'. injection O' as <-. apply N. repeat split. exact Hk.
Qed.
Print Assumptions C249_clears.

(** Without plugins no other option is known. *)
Theorem C249_no_others classes py_float w c x key text :
  dget ($"PADConf") classes = Some pad_options -> nth_error (w_ctxs w) c = Some x -> c_order x = [] ->
  ~ In key (map fst documented) -> ~ In key (map fst clears) ->
  hook_parse_config classes py_float c key text w = CUnknown w.
Proof.
  intros M L O H1 H2. unfold hook_parse_config. rewrite L, O. cbn [offer_classes]. unfold table_of. change main with ($"PADConf").
  rewrite M, (others_table _ H1 H2). reflexivity.
Qed.
Print Assumptions C249_no_others.

(** A new context sees the documented values, whatever other contexts have set; *)
Theorem C249_before_any_line classes py_float h0 w key v :
  dget ($"PADConf") classes = Some pad_options -> classes_ok classes h0 -> reachable classes py_float h0 w ->
  In (key, v) before_any_line -> view (cstep classes py_float w Create) (length (w_ctxs w)) ($"PADConf") key = Some v.
Proof.
  intros M OK R I. rewrite view_data. cbn [cstep]. unfold data. cbn [w_ctxs]. rewrite nth_snoc_eq.
  rewrite (new_data classes h0 OK). change (streqb main ($"PADConf")) with true. cbn iota. unfold option_of. change main with ($"PADConf"). rewrite M.
  unfold before_any_line in I. cbn [In] in I. repeat (destruct I as [I | I]; [injection I as <- <-; vm_compute; reflexivity|]). destruct I.
Qed.
Print Assumptions C249_before_any_line.
(** and in a new process every list is empty. *)
Theorem C249_lists_start_empty py_float key ty : In (key, ty) documented -> ty = OAppend \/ ty = OAppendSplit ->
  view (cstep [($"PADConf", pad_options)] py_float (mkW pad_heap []) Create) 0 ($"PADConf") key = Some (SList []).
Proof.
  intros I H. unfold documented in I. cbn [In] in I.
  repeat (destruct I as [I | I]; [injection I as <- <-; first [destruct H; discriminate | vm_compute; reflexivity]|]). destruct I.
Qed.
Print Assumptions C249_lists_start_empty.

Example C249_case : reachable ex_classes ex_float ex_heap ex22_world /\ classes_ok ex_classes ex_heap /\
  dget ($"PADConf") ex_classes = Some pad_options /\ 0 < length (w_ctxs ex22_world) /\
  In ($"clear_trusted_networks", [$"trusted_networks"]) clears /\ In ($"required_score", OFloat) documented /\
  view ex22_world 0 main ($"trusted_networks") = Some (SList [$"10."]).
Proof.
  split; [eexists; reflexivity|]. split; [exact ex_ok|]. split; [reflexivity|]. split; [vm_compute; auto|].
  split; [unfold clears; cbn [In]; tauto|]. split; [unfold documented; cbn [In]; tauto|]. vm_compute. reflexivity.
Qed.
