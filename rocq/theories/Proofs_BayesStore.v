(** Proofs about the training tables. *)
From Verif Require Import PyStr PyDict Model_BayesStore Spec_BayesStore.

Lemma learn_unseen b now m isspam d :
  dget (tm_id m) (d_seen d) = None -> learn_message true b now m isspam d = (d, Raise).
Proof. intros H. unfold learn_message, learn_trapped, bind, seen_get. rewrite H. reflexivity. Qed.

Lemma learn_same b now m (isspam : bool) d :
  dget (tm_id m) (d_seen d) = Some (if isspam then $"s" else $"h") -> learn_message true b now m isspam d = (d, Ok (Some false)).
Proof.
  intros H. unfold learn_message, learn_trapped, bind, seen_get. rewrite H. destruct isspam; reflexivity.
Qed.

Lemma learn_opposite b now m (isspam : bool) d t ts :
  tm_tokens m = Some (t :: ts) ->
  dget (tm_id m) (d_seen d) = Some (if isspam then $"h" else $"s") ->
  learn_message true b now m isspam d =
    (mkDb (map (fun _ => if isspam then mkCounts 0 (-1) else mkCounts (-1) 0) (d_vars d)) (d_seen d) (d_token d), Raise).
Proof.
  intros T H. unfold learn_message, learn_trapped, bind, seen_get. rewrite H.
  destruct isspam.
  - change (streqb ($"h") []) with false. change ((streqb ($"h") ($"s") && true) || (streqb ($"h") ($"h") && negb true)) with false. cbn iota.
    unfold forget_message, forget_trapped, bind, seen_get. rewrite H. change (streqb ($"h") []) with false.
    change (streqb ($"h") ($"s")) with false. change (streqb ($"h") ($"h")) with true. cbn iota.
    unfold nspam_nham_change, receive_date. destruct (tm_date m); [|reflexivity]. unfold ret, tokenise. rewrite T. reflexivity.
  - change (streqb ($"s") []) with false. change ((streqb ($"s") ($"s") && false) || (streqb ($"s") ($"h") && negb false)) with false. cbn iota.
    unfold forget_message, forget_trapped, bind, seen_get. rewrite H. change (streqb ($"s") []) with false.
    change (streqb ($"s") ($"s")) with true. cbn iota.
    unfold nspam_nham_change, receive_date. destruct (tm_date m); [|reflexivity]. unfold ret, tokenise. rewrite T. reflexivity.
Qed.

Lemma train_unseen b now h : forall d, d_seen d = [] -> train b now d h = d.
Proof.
  induction h as [|[m c] h IH]; intros d H; [reflexivity|].
  unfold train. cbn [fold_left]. unfold train1 at 2. cbn [fst snd]. rewrite learn_unseen by (rewrite H; reflexivity). exact (IH d H).
Qed.

(** Only a message with a damaged record and without tokens is ever learned. *)
Lemma learn_true b now m isspam d d' :
  learn_message true b now m isspam d = (d', Ok (Some true)) ->
  (tm_tokens m = Some [] /\ exists f, dget (tm_id m) (d_seen d) = Some f).
Proof.
  unfold learn_message, learn_trapped, bind, seen_get. destruct (dget (tm_id m) (d_seen d)) as [f|] eqn:E; [|discriminate].
  intros H. split; [|eauto].
  assert (L : forall d0 d1, learn_now now m isspam d0 = (d1, Ok (Some true)) -> tm_tokens m = Some []).
  { intros d0 d1. unfold learn_now, bind, receive_date. destruct (tm_date m); [|discriminate]. unfold ret, tokenise.
    destruct (tm_tokens m) as [[|x l]|]; [reflexivity| |]; destruct isspam; discriminate. }
  destruct (streqb f []); [exact (L _ _ H)|].
  destruct ((streqb f ($"s") && isspam) || (streqb f ($"h") && negb isspam)); [discriminate|].
  unfold forget_message, bind in H. destruct (forget_trapped b m d) as [d1 [r|]]; [|discriminate]. exact (L _ _ H).
Qed.

(** ** Messages without tokens *)
Lemma learn_now_empty now m (isspam : bool) d z : tm_tokens m = Some [] -> tm_date m = Some z ->
  learn_now now m isspam d = (mkDb (map (fun _ => if isspam then mkCounts 1 0 else mkCounts 0 1) (d_vars d))
     (map (fun e => if streqb (fst e) (tm_id m) then (fst e, if isspam then $"s" else $"h") else e) (d_seen d)) (d_token d), Ok (Some true)).
Proof.
  intros T D. unfold learn_now, bind, receive_date. rewrite D. unfold ret, tokenise. rewrite T. destruct isspam; reflexivity.
Qed.
Lemma put_absent k (f : str) (l : dict str) : dget k l = None -> map (fun e => if streqb (fst e) k then (fst e, f) else e) l = l.
Proof.
  induction l as [|[k' v] l IH]; [reflexivity|]. cbn [dget map fst]. destruct (streqb_spec k k') as [-> | N]; [discriminate|]. intros H. destruct (streqb_spec k' k); [congruence|]. rewrite IH by exact H. reflexivity.
Qed.
Lemma put_get k (f : str) (l : dict str) k' : dget k' (map (fun e => if streqb (fst e) k then (fst e, f) else e) l) =
  if streqb k' k then option_map (fun _ => f) (dget k' l) else dget k' l.
Proof.
  induction l as [|[k1 v] l IH]; [destruct (streqb k' k); reflexivity|]. cbn [map fst]. destruct (streqb_spec k1 k) as [-> | N1]; cbn [dget].
  - destruct (streqb_spec k' k); [reflexivity | exact IH].
  - destruct (streqb_spec k' k1) as [-> | N2]; [|exact IH]. destruct (streqb_spec k1 k); [congruence | reflexivity].
Qed.
Lemma learn_opposite_empty now m (isspam : bool) d z : tm_tokens m = Some [] -> tm_date m = Some z ->
  dget (tm_id m) (d_seen d) = Some (if isspam then $"h" else $"s") ->
  learn_message true MySql now m isspam d = (mkDb (map (fun _ => if isspam then mkCounts 1 0 else mkCounts 0 1) (d_vars d)) (ddel (tm_id m) (d_seen d)) (d_token d), Ok (Some true)).
Proof.
  intros T D H. unfold learn_message, learn_trapped. unfold bind at 1. unfold seen_get at 1. rewrite H.
  assert (G : forall f, dget (tm_id m) (ddel (tm_id m) (d_seen d)) = f -> f = None) by (intros f <-; rewrite dget_ddel, streqb_refl; reflexivity).
  destruct isspam.
  - change (streqb ($"h") []) with false. change ((streqb ($"h") ($"s") && true) || (streqb ($"h") ($"h") && negb true)) with false. cbn iota.
    unfold forget_message, forget_trapped, bind, seen_get. rewrite H. change (streqb ($"h") []) with false. change (streqb ($"h") ($"s")) with false. change (streqb ($"h") ($"h")) with true. cbn iota.
    unfold nspam_nham_change, receive_date. rewrite D. unfold ret, tokenise. rewrite T. cbn [option_map map multi_tok_count_change tok_count_change ret seen_delete d_vars d_seen d_token].
    rewrite (learn_now_empty now m true _ z T D). cbn [d_vars d_seen d_token]. rewrite map_map, put_absent by (eapply G; reflexivity). reflexivity.
  - change (streqb ($"s") []) with false. change ((streqb ($"s") ($"s") && false) || (streqb ($"s") ($"h") && negb false)) with false. cbn iota.
    unfold forget_message, forget_trapped, bind, seen_get. rewrite H. change (streqb ($"s") []) with false. change (streqb ($"s") ($"s")) with true. cbn iota.
    unfold nspam_nham_change, receive_date. rewrite D. unfold ret, tokenise. rewrite T. cbn [option_map map multi_tok_count_change tok_count_change ret seen_delete d_vars d_seen d_token].
    rewrite (learn_now_empty now m false _ z T D). cbn [d_vars d_seen d_token]. rewrite map_map, put_absent by (eapply G; reflexivity). reflexivity.
Qed.
Lemma learn_damaged_empty b now m (isspam : bool) d z f : tm_tokens m = Some [] -> tm_date m = Some z ->
  dget (tm_id m) (d_seen d) = Some f -> f <> $"s" -> f <> $"h" ->
  exists seen, learn_message true b now m isspam d = (mkDb (map (fun _ => if isspam then mkCounts 1 0 else mkCounts 0 1) (d_vars d)) seen (d_token d), Ok (Some true)) /\
    forall k, dget k seen = if streqb k (tm_id m) then Some (if isspam then $"s" else $"h") else dget k (d_seen d).
Proof.
  intros T D H Ns Nh. exists (map (fun e => if streqb (fst e) (tm_id m) then (fst e, if isspam then $"s" else $"h") else e) (d_seen d)). split.
  - unfold learn_message, learn_trapped. unfold bind at 1. unfold seen_get at 1. rewrite H. destruct (streqb f []) eqn:E0; [exact (learn_now_empty now m isspam d z T D)|].
    destruct (streqb_spec f ($"s")) as [K | _]; [contradiction|]. destruct (streqb_spec f ($"h")) as [K | _]; [contradiction|]. cbn [andb orb].
    unfold forget_message, forget_trapped, bind, seen_get. rewrite H, E0. destruct (streqb_spec f ($"s")) as [K | _]; [contradiction|]. destruct (streqb_spec f ($"h")) as [K | _]; [contradiction|].
    unfold ret. exact (learn_now_empty now m isspam d z T D).
  - intros k. rewrite put_get. destruct (streqb_spec k (tm_id m)) as [-> | _]; [rewrite H; reflexivity | reflexivity].
Qed.
