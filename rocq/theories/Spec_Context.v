(** Vocabulary for the properties of the plugin registry and the hooks. *)
From Verif Require Import PyStr PyDict Model_Context.
From Coq Require Export Sorted.

Section Spec.
Context {V : Type}.
Implicit Types (h a b : list (pop (V := V))) (c : pclass V).

(** A class that can be loaded: a proper plugin class whose eval rules and commands
    all exist. *)
Definition good c : Prop :=
  pc_sub c = true /\ Forall (fun r => snd r = true) (pc_evals c) /\ Forall (fun r => snd r = true) (pc_cmds c).
Definition provides c (rule : str) : Prop := In rule (map fst (pc_evals c)).
Definition defines c (cmd : str) : Prop := In cmd (map fst (pc_cmds c)).

Definition is_load (o : pop (V := V)) : bool := match o with LoadP _ _ _ => true | UnloadP _ => false end.
Definition loads h : nat := length (filter is_load h).
(** The class an operation is about. *)
Definition load_class (o : pop (V := V)) : str := match o with LoadP name _ _ => class_name name | UnloadP m => m end.
(** The operation is about class [n]. *)
Definition concerns (n : str) (o : pop (V := V)) : Prop :=
  match o with LoadP name _ _ => class_name name = n | UnloadP m => m = n end.
(** The [i]-th load of the history loaded class [c], named [n], and nothing was done
    about that name since. *)
Definition live h (i : nat) (n : str) c : Prop :=
  exists a name path b, h = a ++ LoadP name path (Some c) :: b /\ class_name name = n /\ good c /\ i = loads a /\
    Forall (fun o => ~ concerns n o) b.

(** Every load of the history succeeds. *)
Definition all_good h : Prop :=
  forall name path found, In (LoadP name path found) h -> exists c, found = Some c /\ good c.
(** Classes of different names have no eval rule and no command in common. *)
Definition no_overlap h : Prop :=
  forall name1 path1 c1 name2 path2 c2 r,
    In (LoadP name1 path1 (Some c1)) h -> In (LoadP name2 path2 (Some c2)) h -> class_name name1 <> class_name name2 ->
    (provides c1 r -> ~ provides c2 r) /\ (defines c1 r -> ~ defines c2 r).

(** The plugins [l], called one after the other, all return normally. *)
Inductive went {S} (method : nat -> S -> S * act) : list nat -> S -> S -> Prop :=
| W_nil s : went method [] s s
| W_cons p l s s1 s2 : method p s = (s1, Goes) -> went method l s1 s2 -> went method (p :: l) s s2.

(** Histories of plugin data. *)
Inductive dop := SetD (p k : str) (v : V) | DelD (p k : str) | PopD (p k : str) | PopAllD (p : str).
Definition dstep (d : dict (dict V)) (o : dop) : dict (dict V) :=
  match o with
  | SetD p k v => set_data p k v d
  | DelD p k => match del_data p k d with Some d' => d' | None => d end
  | PopD p k => fst (pop_data p k d)
  | PopAllD p => pop_all p d
  end.
Definition drun (ops : list dop) : dict (dict V) := fold_left dstep ops [].
Definition touches (p k : str) (o : dop) : Prop :=
  match o with
  | SetD p' k' _ | DelD p' k' | PopD p' k' => p' = p /\ k' = k
  | PopAllD p' => p' = p
  end.
End Spec.
