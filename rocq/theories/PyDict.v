(** Python dictionaries keyed by strings, as association lists in insertion
    order (CPython [dict] >= 3.7 and [collections.OrderedDict]).  Library file:
    semantics of a Python built-in, not of code in /repo. *)
From Verif Require Import PyStr.

Definition dict (V : Type) := list (str * V).

Section Dict.
Context {V : Type}.

Fixpoint dget (k : str) (d : dict V) : option V :=
  match d with
  | [] => None
  | (k', v) :: d' => if streqb k k' then Some v else dget k d'
  end.

Definition dhas (k : str) (d : dict V) : bool :=
  match dget k d with Some _ => true | None => false end.

(** [d[k] = v]: an existing key keeps its position. *)
Fixpoint dset (k : str) (v : V) (d : dict V) : dict V :=
  match d with
  | [] => [(k, v)]
  | (k', v') :: d' => if streqb k k' then (k', v) :: d' else (k', v') :: dset k v d'
  end.

(** [d.pop(k, None)] / [del d[k]] for a present key. *)
Definition ddel (k : str) (d : dict V) : dict V :=
  filter (fun e => negb (streqb k (fst e))) d.

Definition dkeys (d : dict V) : list str := map fst d.
Definition dvalues (d : dict V) : list V := map snd d.

Lemma dget_dset_same k v d : dget k (dset k v d) = Some v.
Proof.
  induction d as [|[k' v'] d IH]; simpl; [rewrite streqb_refl; reflexivity|].
  destruct (streqb k k') eqn:E; simpl; rewrite E; [reflexivity|exact IH].
Qed.

Lemma dget_dset_other k k' v d : k <> k' -> dget k' (dset k v d) = dget k' d.
Proof.
  intros Hn. induction d as [|[k2 v2] d IH]; simpl.
  - destruct (streqb_spec k' k); [congruence|reflexivity].
  - destruct (streqb_spec k k2) as [->|H1]; simpl.
    + destruct (streqb_spec k' k2); [congruence|reflexivity].
    + rewrite IH; reflexivity.
Qed.

Lemma dget_dset k k' v d : dget k' (dset k v d) = if streqb k k' then Some v else dget k' d.
Proof.
  destruct (streqb_spec k k') as [->|H]; [apply dget_dset_same|apply dget_dset_other; exact H].
Qed.

Lemma dkeys_dset k v d :
  dkeys (dset k v d) = if dhas k d then dkeys d else dkeys d ++ [k].
Proof.
  unfold dhas. induction d as [|[k' v'] d IH]; simpl; [reflexivity|].
  destruct (streqb_spec k k') as [->|H]; simpl; [reflexivity|].
  fold (dkeys (dset k v d)). rewrite IH. destruct (dget k d); reflexivity.
Qed.

Lemma dget_None k d : dget k d = None <-> ~ In k (dkeys d).
Proof.
  induction d as [|[k' v] d IH]; simpl; [tauto|].
  destruct (streqb_spec k k') as [->|H]; [split; [discriminate|tauto]|].
  rewrite IH. split; [intros Hn [He|Hi]; [congruence|exact (Hn Hi)]|tauto].
Qed.

Lemma dhas_In k d : dhas k d = true <-> In k (dkeys d).
Proof.
  unfold dhas. destruct (dget k d) eqn:E.
  - split; [intros _|reflexivity]. destruct (in_dec str_eq_dec k (dkeys d)) as [H|H]; [exact H|].
    apply dget_None in H; congruence.
  - split; [discriminate|]. intros H. apply dget_None in E; contradiction.
Qed.

Lemma dhas_notIn k d : dhas k d = false <-> ~ In k (dkeys d).
Proof. rewrite <- dhas_In. destruct (dhas k d); split; congruence. Qed.

Lemma NoDup_snoc {A} (l : list A) x : NoDup l -> ~ In x l -> NoDup (l ++ [x]).
Proof.
  induction l as [|y l IH]; simpl; intros Hd Hn.
  - constructor; [intros []|constructor].
  - inversion Hd; subst. constructor.
    + rewrite in_app_iff. intros [Hi|[->|[]]]; [contradiction|]. apply Hn; left; reflexivity.
    + apply IH; [assumption|]. intros Hi; apply Hn; right; exact Hi.
Qed.

Lemma dset_NoDup k v d : NoDup (dkeys d) -> NoDup (dkeys (dset k v d)).
Proof.
  intros H. rewrite dkeys_dset. destruct (dhas k d) eqn:E; [exact H|].
  apply NoDup_snoc; [exact H|]. apply dhas_notIn; exact E.
Qed.

Lemma ddel_keys k d : dkeys (ddel k d) = filter (fun x => negb (streqb k x)) (dkeys d).
Proof.
  induction d as [|[k' v] d IH]; simpl; [reflexivity|].
  destruct (negb (streqb k k')); simpl; rewrite IH; reflexivity.
Qed.

Lemma ddel_NoDup k d : NoDup (dkeys d) -> NoDup (dkeys (ddel k d)).
Proof. intros H. rewrite ddel_keys. apply NoDup_filter; exact H. Qed.

Lemma dget_ddel_same k d : dget k (ddel k d) = None.
Proof.
  induction d as [|[k' v] d IH]; simpl; [reflexivity|].
  destruct (streqb k k') eqn:E; simpl; [exact IH|]. rewrite E; exact IH.
Qed.

Lemma dget_ddel_other k k' d : k <> k' -> dget k' (ddel k d) = dget k' d.
Proof.
  intros Hn. induction d as [|[k2 v2] d IH]; simpl; [reflexivity|].
  destruct (streqb_spec k k2) as [->|H]; simpl.
  - rewrite IH. destruct (streqb_spec k' k2); [congruence|reflexivity].
  - rewrite IH; reflexivity.
Qed.

Lemma dget_ddel k k' d : dget k' (ddel k d) = if streqb k k' then None else dget k' d.
Proof.
  destruct (streqb_spec k k') as [->|H]; [apply dget_ddel_same|apply dget_ddel_other; exact H].
Qed.

Lemma dget_In k v d : dget k d = Some v -> In (k, v) d.
Proof.
  induction d as [|[k' v'] d IH]; simpl; [discriminate|].
  destruct (streqb_spec k k') as [->|H]; intros E; [inversion E; left; reflexivity|right; auto].
Qed.

Lemma In_dget k v d : NoDup (dkeys d) -> In (k, v) d -> dget k d = Some v.
Proof.
  induction d as [|[k' v'] d IH]; simpl; intros Hd Hi; [contradiction|].
  inversion Hd; subst. destruct Hi as [He|Hi].
  - inversion He; subst. rewrite streqb_refl; reflexivity.
  - destruct (streqb_spec k k') as [->|H]; [|auto].
    exfalso. apply H1. change (In k' (dkeys d)). unfold dkeys. apply in_map_iff. exists (k', v); auto.
Qed.

Lemma dset_new k v d : ~ In k (dkeys d) -> dset k v d = d ++ [(k, v)].
Proof.
  induction d as [|[k' v'] d IH]; simpl; intros H; [reflexivity|].
  destruct (streqb_spec k k') as [->|Hn]; [exfalso; apply H; left; reflexivity|].
  rewrite IH; [reflexivity|]. intros Hi; apply H; right; exact Hi.
Qed.

End Dict.

