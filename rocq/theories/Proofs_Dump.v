(** Proofs about the dump of headers. *)
From Coq Require Import Permutation.
From Verif Require Import PyStr PyDict Model_Rules Model_Headers Spec_Headers Proofs_Headers Model_Dump Spec_Dump.

Lemma flat_map_ext_in {A B} (f g : A -> list B) l : (forall x, In x l -> f x = g x) -> flat_map f l = flat_map g l.
Proof. intros H. rewrite !flat_map_concat_map. f_equal. apply map_ext_in. exact H. Qed.
Lemma filter_filter {A} (p q : A -> bool) l : filter p (filter q l) = filter (fun x => q x && p x) l.
Proof. induction l as [|x l IH]; [reflexivity|]. cbn [filter]. destruct (q x); cbn [filter andb]; rewrite IH; reflexivity. Qed.
Lemma keys_fold fields : forall h : headers str,
  dkeys (fold_left (fun h f => h_append (fst f) (snd f) h) fields h) =
  dkeys h ++ filter (fun x => negb (mem_str x (dkeys h))) (firsts (map (fun f => lower (fst f)) fields)).
Proof.
  induction fields as [|[k v] fields IH]; intros h; [cbn; rewrite app_nil_r; reflexivity|].
  cbn [fold_left map firsts fst snd]. rewrite IH. unfold h_append. rewrite dkeys_dset. cbn [filter].
  destruct (mem_str (lower k) (dkeys h)) eqn:M; cbn [negb].
  - assert (D : dhas (lower k) h = true) by (apply dhas_In, mem_str_In, M). rewrite D.
    f_equal. rewrite filter_filter. apply filter_ext. intros x. destruct (streqb (lower k) x) eqn:E; [|reflexivity].
    apply streqb_eq in E. subst x. rewrite M. reflexivity.
  - assert (D : dhas (lower k) h = false). { apply dhas_notIn. intros K. apply mem_str_In in K. congruence. } rewrite D.
    rewrite <- app_assoc. cbn [app]. do 2 f_equal. rewrite filter_filter. apply filter_ext. intros x.
    assert (E : mem_str x (dkeys h ++ [lower k]) = mem_str x (dkeys h) || streqb (lower k) x).
    { apply eq_true_iff_eq. rewrite orb_true_iff, !mem_str_In, in_app_iff, streqb_eq. cbn [In]. intuition. }
    rewrite E, negb_orb, andb_comm. reflexivity.
Qed.
Lemma keys_raw fields : dkeys (raw_of fields) = firsts (map (fun f => lower (fst f)) fields).
Proof. unfold raw_of. rewrite keys_fold. cbn [dkeys map app]. rewrite <- (filter_ext (fun _ => true)) by reflexivity. induction (firsts _) as [|x l IH]; [reflexivity|]. cbn [filter]. rewrite IH. reflexivity. Qed.
Lemma iter_names_lookups decode names : forall m fields history, m = lookups decode history (fresh_h fields) ->
  fst (iter_names decode names m) = flat_map (fun n => map (fun v => n ++ $": " ++ show_value (decode v)) (values_of n fields)) names.
Proof.
  induction names as [|n names IH]; intros m fields history ->; [reflexivity|]. cbn [iter_names flat_map].
  pose proof (proj1 (c56 decode fields history n)) as G.
  assert (S : snd (get_decoded decode n (lookups decode history (fresh_h fields))) = lookups decode (history ++ [n]) (fresh_h fields)).
  { clear. generalize (fresh_h fields). induction history as [|k ks IH]; intros m; [reflexivity|]. cbn [lookups app]. apply IH. }
  destruct (get_decoded decode n (lookups decode history (fresh_h fields))) as [vs m']. cbn [fst snd] in *. subst vs m'.
  specialize (IH (lookups decode (history ++ [n]) (fresh_h fields)) fields (history ++ [n]) eq_refl).
  destruct (iter_names decode names _) as [rest m'']. cbn [fst] in *. rewrite IH, map_map. reflexivity.
Qed.

(** ** Each once *)
Lemma firsts_in l x : In x (firsts l) <-> In x l.
Proof.
  induction l as [|n l IH]; [reflexivity|]. cbn [firsts In]. rewrite filter_In, IH, negb_true_iff. destruct (streqb n x) eqn:E.
  - apply streqb_eq in E. intuition.
  - intuition.
Qed.
Lemma firsts_NoDup l : NoDup (firsts l).
Proof.
  induction l as [|n l IH]; [constructor|]. cbn [firsts]. constructor; [|apply NoDup_filter; exact IH].
  rewrite filter_In, negb_true_iff. intros [_ K]. rewrite streqb_refl in K. discriminate.
Qed.
Lemma flat_split {A B} (g : A -> list B) (p : A -> bool) l :
  Permutation (flat_map g l) (flat_map g (filter p l) ++ flat_map g (filter (fun x => negb (p x)) l)).
Proof.
  induction l as [|x l IH]; [constructor|]. cbn [flat_map filter]. destruct (p x); cbn [negb flat_map].
  - rewrite <- app_assoc. apply Permutation_app_head. exact IH.
  - rewrite IH. rewrite !app_assoc. apply Permutation_app_tail, Permutation_app_comm.
Qed.
Lemma only_one n l : NoDup l -> filter (streqb n) l = if mem_str n l then [n] else [].
Proof.
  induction l as [|x l IH]; intros N; [reflexivity|]. inversion N as [|? ? H N']; subst. cbn [filter].
  change (mem_str n (x :: l)) with (streqb n x || mem_str n l).
  destruct (streqb n x) eqn:E; cbn [orb].
  - apply streqb_eq in E. subst x. rewrite IH by exact N'. destruct (mem_str n l) eqn:M; [apply mem_str_In in M; contradiction | reflexivity].
  - apply IH. exact N'.
Qed.
Lemma grouped {B} (P : list (str * B)) :
  Permutation (flat_map (fun n => filter (fun f => streqb n (fst f)) P) (firsts (map fst P))) P.
Proof.
  induction P as [|[n v] P IH]; [constructor|]. cbn [map firsts flat_map fst filter]. rewrite streqb_refl. cbn [app]. apply perm_skip.
  rewrite (flat_split _ (streqb n)) in IH. rewrite <- IH at 3.
  rewrite only_one by apply firsts_NoDup.
  assert (E : flat_map (fun n0 => if streqb n0 n then (n, v) :: filter (fun f => streqb n0 (fst f)) P else filter (fun f => streqb n0 (fst f)) P) (filter (fun x => negb (streqb n x)) (firsts (map fst P)))
    = flat_map (fun n0 => filter (fun f => streqb n0 (fst f)) P) (filter (fun x => negb (streqb n x)) (firsts (map fst P)))).
  { generalize (firsts (map fst P)). intros l. induction l as [|x l IHl]; [reflexivity|]. cbn [filter]. destruct (streqb n x) eqn:K; cbn [negb flat_map]; [exact IHl|].
    rewrite IHl. destruct (streqb x n) eqn:K'; [|reflexivity]. apply streqb_eq in K'. subst x. rewrite streqb_refl in K. discriminate. }
  rewrite E. apply Permutation_app_tail. destruct (mem_str n (firsts (map fst P))) eqn:M.
  - cbn [flat_map]. rewrite app_nil_r. reflexivity.
  - cbn [flat_map]. replace (filter (fun f => streqb n (fst f)) P) with (@nil (str * B)); [constructor|].
    assert (K : ~ In n (map fst P)). { intros K. apply firsts_in, mem_str_In in K. congruence. } clear - K.
    induction P as [|[x w] P IH]; [reflexivity|]. cbn [filter fst]. destruct (streqb n x) eqn:E; [apply streqb_eq in E; subst; exfalso; apply K; left; reflexivity|].
    apply IH. intros J. apply K. right. exact J.
Qed.
