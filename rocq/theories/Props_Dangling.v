(** The program as a whole: rules that are worked out from rules that are not there are left out. *)
From Verif Require Import PyStr PyDict Model_Rules Model_Parser Spec_Parser Model_Program Proofs_Program.
From Verif Require Model_Meta Spec_Meta Proofs_Meta Props_Meta Proofs_ShortMeta.

Section Dangling.
Import Model_Meta Spec_Meta Proofs_Meta.

Lemma kinds_keys table (l : dict (rule loaded_mail)) : dkeys (kinds table l) = dkeys l.
Proof. unfold kinds, dkeys. rewrite map_map. reflexivity. Qed.
Lemma usable_keys rs t left (l : dict (rule loaded_mail)) n : In n (dkeys (usable rs t left l)) <-> In n (dkeys l) /\ dget n left <> None.
Proof.
  unfold dkeys, usable. induction l as [|[k r] l IH]; [cbn; tauto|]. cbn [flat_map map fst snd]. rewrite map_app, in_app_iff, IH. cbn [In].
  destruct (dget k left) as [[|text]|] eqn:Ek; cbn [map fst In]; split.
  - intros [[<-|[]]|[H1 H2]]; split; auto; congruence.
  - intros [[<-|H1] H2]; auto.
  - intros [[<-|[]]|[H1 H2]]; split; auto; congruence.
  - intros [[<-|H1] H2]; auto.
  - intros [[]|[H1 H2]]; auto.
  - intros [[<-|H1] H2]; [congruence|auto].
Qed.
Lemma dget_kinds table (l : dict (rule loaded_mail)) n k : dget n (kinds table l) = Some k -> k = kind_in table n.
Proof.
  intros H. apply dget_In in H. apply in_map_iff in H as [[n' r] [H _]]. cbn [fst] in H. congruence.
Qed.

(** C241.  Whatever rules are read: those that stay are rules that were read, every rule that is named by a meta rule that
    stays is there, and only meta rules are left out. *)
Theorem C241_named_are_there : forall (Y : Type) (E : penv Y) order table rs rs',
  enumerates order ->
  NoDup (dkeys (rs_checked rs)) -> NoDup (dkeys (rs_not_checked rs)) ->
  (forall k, In k (dkeys (rs_checked rs)) -> ~ In k (dkeys (rs_not_checked rs))) ->
  finish E order table rs = Some rs' ->
  let there := fun (s : ruleset loaded_mail) n => In n (dkeys (rs_checked s)) \/ In n (dkeys (rs_not_checked s)) in
  (forall n, In n (dkeys (rs_checked rs')) -> In n (dkeys (rs_checked rs))) /\
  (forall n, In n (dkeys (rs_not_checked rs')) -> In n (dkeys (rs_not_checked rs))) /\
  (forall n text e s, there rs' n -> attr_of table n ($"type") = Some (AStr ($"meta")) -> attr_of table n ($"value") = Some (AStr text) ->
     writes text e -> In s (expr_names e) -> there rs' s) /\
  (forall n, there rs n -> attr_of table n ($"type") <> Some (AStr ($"meta")) -> there rs' n).
Proof.
  intros Y E order table rs rs' Ho Hc Hn Hd Hf there. unfold finish in Hf.
  set (t0 := mkT (kinds table (rs_checked rs)) (kinds table (rs_not_checked rs))) in Hf.
  destruct (call_postparsing order t0) as [[t done]|] eqn:Hl; [|discriminate].
  set (r' := mkRS _ _) in Hf. assert (rs' = r') as -> by (destruct (e_paranoid E && _); [discriminate|congruence]). clear Hf.
  assert (Hok : tables_ok t0).
  { subst t0. split; [|split]; cbn [t_checked t_not_checked]; rewrite !kinds_keys; auto. }
  destruct (Props_Meta.C11_no_circular_or_dangling_meta order t0 t done Ho Hok Hl) as (Hsub & Hbase & Hment & _ & _).
  destruct (Proofs_ShortMeta.load_sub order t0 t done Hl) as [I1 I2].
  assert (K1 : forall n, dget n (t_checked t) <> None -> In n (dkeys (rs_checked rs))).
  { intros n H. destruct (dget n (t_checked t)) as [k|] eqn:Ek; [|congruence]. apply dget_In in Ek. apply I1 in Ek.
    rewrite <- (kinds_keys table). apply (in_map fst) in Ek. exact Ek. }
  assert (K2 : forall n, dget n (t_not_checked t) <> None -> In n (dkeys (rs_not_checked rs))).
  { intros n H. destruct (dget n (t_not_checked t)) as [k|] eqn:Ek; [|congruence]. apply dget_In in Ek. apply I2 in Ek.
    rewrite <- (kinds_keys table). apply (in_map fst) in Ek. exact Ek. }
  assert (Hthere : forall n, there r' n <-> mget t n <> None).
  { intros n. unfold there, r'. cbn [rs_checked rs_not_checked]. rewrite !usable_keys. unfold mget. split.
    - intros [[_ H]|[_ H]]; destruct (dget n (t_checked t)); congruence.
    - intros H. destruct (dget n (t_checked t)) as [k|] eqn:Ek.
      + left. split; [apply K1; congruence|congruence].
      + right. split; [apply K2; exact H|exact H]. }
  assert (Hget : forall n k, mget t0 n = Some k -> k = kind_in table n).
  { intros n k H. unfold mget, t0 in H. cbn [t_checked t_not_checked] in H.
    destruct (dget n (kinds table (rs_checked rs))) as [k'|] eqn:Ek; [injection H as <-; apply dget_kinds in Ek; exact Ek|apply dget_kinds in H; exact H]. }
  split; [intros n H; apply usable_keys in H; tauto|]. split; [intros n H; apply usable_keys in H; tauto|]. split.
  - intros n text e s Hin Ht Hv Hw Hs. apply Hthere in Hin. destruct (mget t n) as [k|] eqn:Ek; [|congruence].
    assert (k = RMeta text) as ->.
    { apply Hsub, Hget in Ek. unfold kind_in in Ek. unfold attr_of in Ht, Hv. destruct (dget n table) as [d|]; [|discriminate].
      rewrite Ht, Hv in Ek. exact Ek. }
    apply Hthere, mget_defined, (Hment n). exists text, e. split; [exact Ek|]. split; [apply compile_writes; exact Hw|exact Hs].
  - intros n Hin Ht. apply Hthere. rewrite (Hbase n); [discriminate|].
    assert (Hm : mget t0 n <> None).
    { apply mget_defined. unfold defined, t0. cbn [t_checked t_not_checked]. rewrite !kinds_keys. exact Hin. }
    destruct (mget t0 n) as [k|] eqn:Ek; [|congruence]. f_equal. apply Hget in Ek. subst k. unfold kind_in. unfold attr_of in Ht.
    destruct (dget n table) as [d|]; [|reflexivity]. destruct (dget ($"type") d) as [[ty|]|]; try reflexivity.
    destruct (dget ($"value") d) as [[v|]|]; try reflexivity. destruct (streqb_spec ty ($"meta")) as [->|_]; [congruence|reflexivity].
Qed.
Print Assumptions C241_named_are_there.
End Dangling.

(** GONE names a rule that is not there and is left out; WORD and BOTH stay. *)
Definition dangling_rule (n : string) : str * rule loaded_mail :=
  (of_string n, mkRule (of_string n) [] [1%Q] 1%Q [] 0 [] None (fun m => (m, Returns (VBool true)))).
Definition dangling_table : results :=
  [($"WORD", [($"type", AStr ($"body")); ($"value", AStr ($"/a/"))]);
   ($"GONE", [($"type", AStr ($"meta")); ($"value", AStr ($"WORD && NOTHING"))]);
   ($"BOTH", [($"type", AStr ($"meta")); ($"value", AStr ($"WORD"))])].
Definition dangling_env : penv unit :=
  mkEnv false (fun _ => []) (fun _ => []) (fun x _ _ => CUnknown x) (fun x _ _ => LLoaded x) (fun _ => None) None (fun _ => None).
Example C241_named_case :
  option_map (fun s => dkeys (rs_checked s))
    (finish dangling_env (fun l => l) dangling_table (mkRS [dangling_rule "WORD"; dangling_rule "GONE"; dangling_rule "BOTH"] [])) =
  Some [$"WORD"; $"BOTH"].
Proof. vm_compute. reflexivity. Qed.
