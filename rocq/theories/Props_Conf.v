(** Theorems about configuration options (C20, C21, C22). *)
From Verif Require Import PyStr PyDict Model_Rules Model_Parser Model_Conf Spec_Conf Proofs_Conf.

(** ** The main options and one plugin, for the examples *)
Definition ex_float (s : str) : option Q :=
  match split_char 46%N s with
  | [a] => option_map inject_Z (py_int a)
  | [a; b] => match py_int a, py_int b with
              | Some x, Some y => Some (inject_Z x + inject_Z y / inject_Z (10 ^ Z.of_nat (length b)))%Q
              | _, _ => None
              end
  | _ => None
  end.
Definition plugin_options : table :=
  [($"bayes_min_ham_num", (OInt, CInt 200)); ($"expiry", (OTime, CFloat 60)); ($"redirectors", (OAppend, CList 13));
   ($"report", (OList, CList 14))].
Definition ex_classes : dict table := [(main, pad_options); ($"Plug", plugin_options)].
Definition ex_heap : list (list str) := pad_heap ++ [[]; [$"x"]].

(** A decidable form of [classes_ok]. *)
Definition flat (cl : dict table) : list (str * str * (otype * cval)) :=
  flat_map (fun e => map (fun o => (fst e, fst o, snd o)) (snd e)) cl.
Definition locs (cl : dict table) : list nat :=
  flat_map (fun e => match snd (snd e) with CList n => [n] | _ => [] end) (flat cl).
Fixpoint nodupb {A} (eqb : A -> A -> bool) (l : list A) : bool :=
  match l with [] => true | x :: r => negb (existsb (eqb x) r) && nodupb eqb r end.
Definition entry_okb (h : nat) (e : str * str * (otype * cval)) : bool :=
  match snd e with
  | (OAppend, CList n) | (OAppendSplit, CList n) => n <? h
  | (OAppend, _) | (OAppendSplit, _) => false
  | (OClear, CKeys _) => true
  | (OClear, _) => false
  | (_, CList n) => n <? h
  | _ => true
  end.
Definition classes_okb (cl : dict table) (h : list (list str)) : bool :=
  forallb (fun e => nodupb streqb (dkeys (snd e))) cl &&
  (nodupb Nat.eqb (locs cl) && forallb (entry_okb (length h)) (flat cl)).

Lemma nodupb_NoDup {A} (eqb : A -> A -> bool) (Heq : forall x y, eqb x y = true <-> x = y) l : nodupb eqb l = true -> NoDup l.
Proof.
  induction l as [|x l IH]; simpl; [constructor|]. intros H. apply andb_true_iff in H. destruct H as [H1 H2].
  constructor; [|apply IH; exact H2]. intros Hi. apply negb_true_iff in H1.
  assert (existsb (eqb x) l = true) by (apply existsb_exists; exists x; split; [exact Hi|apply Heq; reflexivity]). congruence.
Qed.
Lemma option_flat cl cls k ty d : option_of cl cls k = Some (ty, d) -> In (cls, k, (ty, d)) (flat cl).
Proof.
  unfold option_of, flat. destruct (dget cls cl) as [t|] eqn:E; [|discriminate]. intros H.
  apply in_flat_map. exists (cls, t). split; [apply dget_In; exact E|]. apply in_map_iff. exists (k, (ty, d)).
  split; [reflexivity|]. simpl. apply dget_In; exact H.
Qed.
Lemma flat_map_unique {A B} (f : A -> list B) (l : list A) a a' b :
  NoDup (flat_map f l) -> In a l -> In a' l -> In b (f a) -> In b (f a') -> a = a'.
Proof.
  induction l as [|x l IH]; simpl; [tauto|]. intros ND Ha Ha' Hb Hb'.
  assert (Hd : forall y, In y l -> In b (f y) -> In b (f x) -> False).
  { intros y Hy Hby Hbx. revert ND. clear - Hy Hby Hbx. intros ND. induction (f x) as [|z r IHr]; [destruct Hbx|].
    simpl in ND. inversion ND; subst. destruct Hbx as [->|Hbx]; [|auto]. apply H1. apply in_app_iff. right.
    apply in_flat_map. eauto. }
  assert (NDl : NoDup (flat_map f l)).
  { clear - ND. induction (f x) as [|z r IHr]; [exact ND|]. simpl in ND. inversion ND; auto. }
  destruct Ha as [->|Ha], Ha' as [->|Ha']; [reflexivity|exfalso; eauto|exfalso; eauto|auto].
Qed.
Lemma classes_okb_ok cl h : classes_okb cl h = true -> classes_ok cl h.
Proof.
  unfold classes_okb. rewrite !andb_true_iff, !forallb_forall. intros (H1 & H2 & H3). repeat split.
  - intros cls t E. apply dget_In in E. apply H1 in E. revert E. apply nodupb_NoDup.
    intros x y. split; [intros E; destruct (streqb_spec x y); congruence|intros ->; apply streqb_refl].
  - intros cls key ty n E. apply option_flat in E. apply H3 in E. unfold entry_okb in E; simpl in E.
    destruct ty; try discriminate; apply Nat.ltb_lt; exact E.
  - apply option_flat in H, H0. apply nodupb_NoDup in H2; [|apply Nat.eqb_eq].
    assert (E := flat_map_unique _ _ _ _ n H2 H H0). simpl in E.
    assert (E' : (cls, key, (ty, CList n)) = (cls', key', (ty', CList n))) by (apply E; auto). congruence.
  - apply option_flat in H, H0. apply nodupb_NoDup in H2; [|apply Nat.eqb_eq].
    assert (E := flat_map_unique _ _ _ _ n H2 H H0). simpl in E.
    assert (E' : (cls, key, (ty, CList n)) = (cls', key', (ty', CList n))) by (apply E; auto). congruence.
  - intros cls key ty d E. apply option_flat in E. apply H3 in E. unfold entry_okb in E; simpl in E.
    destruct ty, d; try discriminate; eauto.
Qed.
Lemma ex_ok : classes_ok ex_classes ex_heap.
Proof. apply classes_okb_ok. vm_compute. reflexivity. Qed.

(** ** C20: an option line stores the value its text denotes for the type of the
    option, in the first class that has it, and changes no other option; or the
    text is refused and nothing changes. *)
Theorem C20_typed_values : forall classes py_float h0 w c key text cls ty,
  classes_ok classes h0 -> reachable classes py_float h0 w -> c < length (w_ctxs w) ->
  taker classes (main :: order_of w c) key = Some (cls, ty) -> ty <> OClear ->
  match hook_parse_config classes py_float c key text w with
  | CHandled w' => means py_float ty text (view w c cls key) (view w' c cls key) /\
      (forall cls' key', (cls', key') <> (cls, key) -> view w' c cls' key' = view w c cls' key')
  | CUnknown _ => False
  | CFails w' => w' = w /\ refused py_float ty text
  end.
Proof. intros classes py_float h0 w c key text cls ty OK. exact (c20 classes py_float h0 OK w c key text cls ty). Qed.
Print Assumptions C20_typed_values.

(** A text is never both meaningful and refused. *)
Theorem C20_refused_is_exact : forall py_float ty text old new,
  means py_float ty text old new -> ~ refused py_float ty text.
Proof. exact means_not_refused. Qed.
Print Assumptions C20_refused_is_exact.

Definition ex_world : world :=
  crun ex_classes ex_float (mkW ex_heap []) [Create; Load 0 ($"Plug"); Set_ 0 ($"report") ($"hello")].
Example C20_example : reachable ex_classes ex_float ex_heap ex_world /\
  taker ex_classes (main :: order_of ex_world 0) ($"expiry") = Some ($"Plug", OTime) /\
  (exists w', hook_parse_config ex_classes ex_float 0 ($"expiry") ($"1.5h") ex_world = CHandled w' /\
     exists q, view w' 0 ($"Plug") ($"expiry") = Some (SFloat q) /\ (q == inject_Z 5400)%Q) /\
  hook_parse_config ex_classes ex_float 0 ($"expiry") ($"soon") ex_world = CFails ex_world /\
  view ex_world 0 main ($"report") = Some (SList [$"hello"]) /\
  view ex_world 0 ($"Plug") ($"report") = Some (SList [$"x"]).
Proof.
  split; [eexists; reflexivity|]. split; [vm_compute; reflexivity|]. split.
  - eexists. split; [vm_compute; reflexivity|]. eexists. split; vm_compute; reflexivity.
  - split; [|split]; vm_compute; reflexivity.
Qed.

(** ** C21: isolation of contexts.
    False for append options: their default list is one object shared by all
    contexts of the process. *)
Theorem C21_isolation_refuted : exists classes py_float h0 ops c cls key,
  classes_ok classes h0 /\
  view (crun classes py_float (mkW h0 []) ops) c cls key <>
  view (crun classes py_float (mkW h0 []) (filter (concerns c) ops)) c cls key.
Proof.
  exists [(main, pad_options)], ex_float, pad_heap, [Create; Create; Set_ 0 ($"add_header") ($"all Seen yes")], 1, main, ($"add_header").
  split; [apply classes_okb_ok; vm_compute; reflexivity|]. vm_compute. discriminate.
Qed.
Print Assumptions C21_isolation_refuted.

(** Loading the same lines a second time gives other options than the first time. *)
Theorem C21_reload_refuted : exists classes py_float h0 lines cls key,
  classes_ok classes h0 /\
  let build c := Create :: map (fun kv => Set_ c (fst kv) (snd kv)) lines in
  view (crun classes py_float (mkW h0 []) (build 0 ++ build 1)) 1 cls key <>
  view (crun classes py_float (mkW h0 []) (build 0)) 0 cls key.
Proof.
  exists [(main, pad_options)], ex_float, pad_heap, [($"report", $"Spam found")], main, ($"report").
  split; [apply classes_okb_ok; vm_compute; reflexivity|]. vm_compute. discriminate.
Qed.
Print Assumptions C21_reload_refuted.

(** What holds: an option that is not an append list is, after any history of the
    process, what the lines of its own context alone make it.  Missing: append
    lists before their first clear (see [C22_clear_then_only_later] for after). *)
Theorem C21_isolation_partial : forall classes py_float h0 ops c cls key,
  classes_ok classes h0 -> is_append classes cls key = false ->
  view (crun classes py_float (mkW h0 []) ops) c cls key =
  view (crun classes py_float (mkW h0 []) (filter (concerns c) ops)) c cls key.
Proof. intros classes py_float h0 ops c cls key OK. exact (c21 classes py_float h0 OK ops c cls key). Qed.
Print Assumptions C21_isolation_partial.

Example C21_example :
  let ops := [Create; Set_ 0 ($"required_score") ($"7"); Create; Set_ 1 ($"required_score") ($"3"); Load 1 ($"Plug");
              Set_ 0 ($"use_bayes") ($"no")] in
  is_append ex_classes main ($"required_score") = false /\
  view (crun ex_classes ex_float (mkW ex_heap []) ops) 0 main ($"required_score") = Some (SFloat (inject_Z 7)) /\
  view (crun ex_classes ex_float (mkW ex_heap []) ops) 1 main ($"required_score") = Some (SFloat (inject_Z 3)) /\
  view (crun ex_classes ex_float (mkW ex_heap []) ops) 1 main ($"use_bayes") = Some (SBool true).
Proof. vm_compute. repeat split. Qed.

(** ** C22: after a clear option, whatever happened before and whatever any
    context does later (short of loading the class again), each append list it
    governs holds exactly what its own context's later lines add. *)
Theorem C22_clear_then_only_later : forall classes py_float h0 w c clr text cls key ops,
  classes_ok classes h0 -> reachable classes py_float h0 w -> c < length (w_ctxs w) ->
  taker classes (main :: order_of w c) clr = Some (cls, OClear) -> governs classes cls clr key ->
  is_append classes cls key = true -> ~ In (Load c cls) ops ->
  view (crun classes py_float w (Set_ c clr text :: ops)) c cls key =
  Some (SList (added classes c cls key (order_of w c) [] ops)).
Proof. intros classes py_float h0 w c clr text cls key ops OK. exact (c22 classes py_float h0 OK w c clr text cls key ops). Qed.
Print Assumptions C22_clear_then_only_later.

(** The clear line empties the lists it governs and changes nothing else, in any
    context. *)
Theorem C22_clear_changes_only_its_lists : forall classes py_float h0 w c clr text cls,
  classes_ok classes h0 -> reachable classes py_float h0 w -> c < length (w_ctxs w) ->
  taker classes (main :: order_of w c) clr = Some (cls, OClear) ->
  exists w', hook_parse_config classes py_float c clr text w = CHandled w' /\
    (forall key, governs classes cls clr key -> view w' c cls key = Some (SList [])) /\
    (forall c' cls' key', ~ (c' = c /\ cls' = cls /\ governs classes cls clr key') ->
       view w' c' cls' key' = view w c' cls' key').
Proof. intros classes py_float h0 w c clr text cls OK. exact (c22_frame classes py_float h0 OK w c clr text cls). Qed.
Print Assumptions C22_clear_changes_only_its_lists.

Definition ex22_world : world :=
  crun ex_classes ex_float (mkW ex_heap []) [Create; Create; Set_ 1 ($"add_header") ($"spam A b"); Set_ 0 ($"trusted_networks") ($"10.")].
Example C22_example : reachable ex_classes ex_float ex_heap ex22_world /\
  taker ex_classes (main :: order_of ex22_world 0) ($"clear_headers") = Some (main, OClear) /\
  governs ex_classes main ($"clear_headers") ($"add_header") /\
  is_append ex_classes main ($"add_header") = true /\
  view ex22_world 0 main ($"add_header") = Some (SList [$"spam A b"]) /\
  added ex_classes 0 main ($"add_header") (order_of ex22_world 0) []
    [Set_ 0 ($"add_header") ($"ham C d"); Set_ 1 ($"add_header") ($"all E f"); Set_ 0 ($"report") ($"x");
     Set_ 0 ($"add_header") ($"all G h")] = [$"ham C d"; $"all G h"].
Proof.
  split; [eexists; reflexivity|]. split; [vm_compute; reflexivity|].
  split; [eexists; split; [vm_compute; reflexivity|left; reflexivity]|]. repeat split; vm_compute; reflexivity.
Qed.
