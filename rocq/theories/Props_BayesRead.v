(** C254: reading and touching tokens in the Bayes stores. *)
From Verif Require Import PyStr PyDict Model_BayesStore Model_BayesRead Spec_BayesRead.

Lemma selected_in t d e : In e (selected t d) <-> In e (d_token d) /\ fst e = t.
Proof. unfold selected. rewrite filter_In, streqb_eq. reflexivity. Qed.
Lemma selected_one t d : one_row_each d -> selected t d = [] \/ exists x, selected t d = [(t, x)].
Proof.
  unfold one_row_each, selected. induction (d_token d) as [|[k x] l IH]; intros N; [left; reflexivity|].
  cbn [map fst] in N. inversion N as [|? ? H N']; subst. cbn [filter fst]. destruct (streqb k t) eqn:E; [|apply IH; exact N'].
  apply streqb_eq in E. subst k. right. exists x. f_equal.
  destruct (filter (fun e => streqb (fst e) t) l) as [|[k y] r] eqn:F; [reflexivity|]. exfalso. apply H.
  assert (K : In (k, y) (filter (fun e => streqb (fst e) t) l)) by (rewrite F; left; reflexivity).
  apply filter_In in K. destruct K as [K1 K2]. apply streqb_eq in K2. cbn [fst] in K2. subst k. apply in_map_iff. exists (t, y). split; [reflexivity | exact K1].
Qed.
Lemma head_answers t d : answers d t (hd_error (selected t d)).
Proof.
  destruct (selected t d) as [|[k x] l] eqn:E; cbn [hd_error answers].
  - intros x K. assert (J : In (t, x) (selected t d)) by (apply selected_in; split; [exact K | reflexivity]). rewrite E in J. exact J.
  - assert (J : In (k, x) (selected t d)) by (rewrite E; left; reflexivity). apply selected_in in J. cbn [fst] in J. destruct J as [J1 ->]. split; [reflexivity | exact J1].
Qed.

(** Whatever is asked, the store is not changed, and, where no token has two rows, both stores answer for each
    token, in order, with what is stored under it, or nothing. *)
Theorem C254_read_partial : forall b tokens d, fst (tok_get_all b tokens d) = d /\
  (one_row_each d -> exists l, snd (tok_get_all b tokens d) = Ok l /\ Forall2 (answers d) tokens l).
Proof.
  intros b tokens d. induction tokens as [|t tokens [IH1 IH2]].
  - split; [reflexivity|]. intros _. exists []. split; [reflexivity | constructor].
  - cbn [tok_get_all]. unfold bind, ret. split.
    + destruct b; [destruct (selected t d) as [|? [|? ?]]; [| |reflexivity]|];
        destruct (tok_get_all _ tokens d) as [d' [l|]]; exact IH1.
    + intros N. destruct (IH2 N) as (l & E & F). exists (hd_error (selected t d) :: l). split; [|constructor; [apply head_answers | exact F]].
      destruct (selected_one t d N) as [S|[x S]]; rewrite S; destruct b; destruct (tok_get_all _ tokens d) as [d' [l'|]]; cbn [fst snd hd_error] in *; congruence.
Qed.
Print Assumptions C254_read_partial.
Theorem C254_one : forall t d, one_row_each d ->
  fst (tok_get t d) = d /\
  (forall x, snd (tok_get t d) = Ok (Some x) <-> stored d t x) /\
  (snd (tok_get t d) = Ok None <-> forall x, ~ stored d t x).
Proof.
  intros t d N. split; [reflexivity|]. unfold tok_get. cbn [snd].
  pose proof (head_answers t d) as H. destruct (selected_one t d N) as [S|[y S]]; rewrite S in *; cbn [hd_error option_map answers snd] in *.
  - split; [intros x; split; [discriminate | intros K; exfalso; exact (H x K)] | split; [intros _; exact H | reflexivity]].
  - destruct H as [_ H]. split.
    + intros x. split; [intros K; injection K as <-; exact H|]. intros K.
      assert (J : In (t, x) (selected t d)) by (apply selected_in; split; [exact K | reflexivity]). rewrite S in J. destruct J as [J|[]]. injection J as ->. reflexivity.
    + split; [discriminate | intros K; exfalso; exact (K y H)].
Qed.
Print Assumptions C254_one.
(** Touching tokens changes the access times of exactly the rows of these tokens, and nothing else. *)
Theorem C254_touched : forall tokens atime d,
  let d' := fst (tok_touch_all tokens atime d) in
  d_vars d' = d_vars d /\ d_seen d' = d_seen d /\ snd (tok_touch_all tokens atime d) = Ok tt /\
  d_token d' = map (fun e => (fst e, (fst (snd e), if mem_str (fst e) tokens then atime else snd (snd e)))) (d_token d).
Proof.
  intros tokens atime. induction tokens as [|t tokens IH]; intros d; cbn [tok_touch_all].
  - cbn. repeat split. rewrite <- (map_id (d_token d)) at 1. apply map_ext. intros [k [c a]]. reflexivity.
  - specialize (IH (mkDb (d_vars d) (d_seen d) (map (fun e => if streqb (fst e) t then (fst e, (fst (snd e), atime)) else e) (d_token d)))).
    cbn zeta in *. destruct IH as (I1 & I2 & I3 & I4). rewrite I1, I2, I3, I4. cbn [d_vars d_seen d_token]. repeat split.
    rewrite map_map. apply map_ext. intros [k [c a]]. cbn [fst snd]. change (mem_str k (t :: tokens)) with (streqb k t || mem_str k tokens).
    destruct (streqb k t); cbn [fst snd orb]; [destruct (mem_str k tokens); reflexivity | reflexivity].
Qed.
Print Assumptions C254_touched.
(** The tables allow a token several rows (one for each user): one store then raises, the other answers with the first. *)
Theorem C254_shared_refuted : exists d t x, snd (tok_get_all SqlAlchemy [t] d) = Raise /\ snd (tok_get_all MySql [t] d) = Ok [Some (t, x)].
Proof. exists (mkDb [] [] [($"a", (mkCounts 1 0, 5%Z)); ($"a", (mkCounts 0 7, 6%Z))]), ($"a"), (mkCounts 1 0, 5%Z). split; reflexivity. Qed.
Print Assumptions C254_shared_refuted.
Example C254_case : one_row_each (mkDb [] [] [($"a", (mkCounts 1 0, 5%Z)); ($"b", (mkCounts 0 7, 6%Z))]).
Proof. unfold one_row_each. cbn [d_token map fst]. constructor; [intros [K|[]]; discriminate K | constructor; [intros [] | constructor]]. Qed.
