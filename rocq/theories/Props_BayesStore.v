(** Bayes training: theorems for C42. *)
From Verif Require Import PyStr PyDict Model_BayesStore Spec_BayesStore Proofs_BayesStore.

(** ** C42 *)
(** A message recorded with the class it is learned with changes nothing.  Missing:
    everything else, see the refutations. *)
Theorem C42_learnt_twice_partial : forall b now m (isspam : bool) d,
  dget (tm_id m) (d_seen d) = Some (if isspam then $"s" else $"h") ->
  learn_message true b now m isspam d = (d, Ok (Some false)).
Proof. exact learn_same. Qed.
Print Assumptions C42_learnt_twice_partial.
(** Learning a message that was never learned fails and changes nothing. *)
Theorem C42_unseen_refuted : forall b now m isspam d,
  dget (tm_id m) (d_seen d) = None -> learn_message true b now m isspam d = (d, Raise).
Proof. exact learn_unseen. Qed.
Print Assumptions C42_unseen_refuted.
(** So nothing is ever learned into a database without records. *)
Theorem C42_nothing_learned_refuted : forall b now h, train b now fresh h = fresh.
Proof. intros b now h. apply train_unseen. reflexivity. Qed.
Print Assumptions C42_nothing_learned_refuted.
(** Learning a message that has tokens with the opposite class fails, sets the totals
    of every user of the database to minus one and zero, and changes nothing else. *)
Theorem C42_relearn_refuted : forall b now m (isspam : bool) d t ts,
  tm_tokens m = Some (t :: ts) ->
  dget (tm_id m) (d_seen d) = Some (if isspam then $"h" else $"s") ->
  learn_message true b now m isspam d =
    (mkDb (map (fun _ => if isspam then mkCounts 0 (-1) else mkCounts (-1) 0) (d_vars d)) (d_seen d) (d_token d), Raise).
Proof. exact learn_opposite. Qed.
Print Assumptions C42_relearn_refuted.
(** Whatever the database: a message with a token is never reported as learned. *)
Theorem C42_never_learned_refuted : forall b now m isspam d d' t ts,
  tm_tokens m = Some (t :: ts) -> learn_message true b now m isspam d <> (d', Ok (Some true)).
Proof. intros b now m isspam d d' t ts T H. apply learn_true in H. destruct H as [H _]. congruence. Qed.
Print Assumptions C42_never_learned_refuted.
(** Without tokens learning with the opposite class succeeds on MySQL, but the message
    is then no longer known as learned. *)
Theorem C42_relearn_without_tokens_refuted : forall now m (isspam : bool) d z, tm_tokens m = Some [] -> tm_date m = Some z ->
  dget (tm_id m) (d_seen d) = Some (if isspam then $"h" else $"s") ->
  learn_message true MySql now m isspam d =
    (mkDb (map (fun _ => if isspam then mkCounts 1 0 else mkCounts 0 1) (d_vars d)) (ddel (tm_id m) (d_seen d)) (d_token d), Ok (Some true)).
Proof. exact learn_opposite_empty. Qed.
Print Assumptions C42_relearn_without_tokens_refuted.
(** A record that is neither is replaced by the class learned, and no other. *)
Theorem C42_record_replaced_partial : forall b now m (isspam : bool) d z f, tm_tokens m = Some [] -> tm_date m = Some z ->
  dget (tm_id m) (d_seen d) = Some f -> f <> $"s" -> f <> $"h" ->
  exists seen, learn_message true b now m isspam d = (mkDb (map (fun _ => if isspam then mkCounts 1 0 else mkCounts 0 1) (d_vars d)) seen (d_token d), Ok (Some true)) /\
    forall k, dget k seen = if streqb k (tm_id m) then Some (if isspam then $"s" else $"h") else dget k (d_seen d).
Proof. exact learn_damaged_empty. Qed.
Print Assumptions C42_record_replaced_partial.
Example C42_without_tokens_example :
  let m := mkTmsg ($"1@x") (Some 5%Z) (Some []) in
  learn_message true MySql 10 m true (mkDb [mkCounts 7 9] [($"1@x", $"h"); ($"2@x", $"h")] []) = (mkDb [mkCounts 1 0] [($"2@x", $"h")] [], Ok (Some true)) /\
  learn_message true MySql 10 m true (mkDb [mkCounts 7 9] [($"1@x", $"?"); ($"2@x", $"h")] []) = (mkDb [mkCounts 1 0] [($"1@x", $"s"); ($"2@x", $"h")] [], Ok (Some true)).
Proof. split; reflexivity. Qed.
(** The full claim fails already for one message. *)
Theorem C42_bookkeeping_refuted : forall b now, exists h, ~ exact h (train b now fresh h).
Proof.
  intros b now. exists [(mkTmsg ($"1@x") (Some 0%Z) (Some [($"h1", $"cash")]), true)].
  rewrite C42_nothing_learned_refuted. intros [H _]. discriminate H.
Qed.
Print Assumptions C42_bookkeeping_refuted.
(** Asked to change the counts of tokens, the store replaces them, whatever they were; it does so for exactly the tokens
    it knows, and leaves the others alone. *)
Theorem C42_counts_replaced_refuted : forall spam ham keys atime d, exists tokens,
  multi_tok_count_change spam ham (Some (map PBytes keys)) atime d = (mkDb (d_vars d) (d_seen d) tokens, Ok tt) /\
  forall k, dget k tokens = match dget k (d_token d) with
                            | Some v => Some (if mem_str k keys then (mkCounts spam ham, atime) else v)
                            | None => None
                            end.
Proof.
  intros spam ham keys atime. induction keys as [|key keys IH]; intros d; cbn [multi_tok_count_change map tok_count_change].
  - exists (d_token d). destruct d as [v s t]. split; [reflexivity|]. intros k. destruct (dget k (d_token (mkDb v s t))); reflexivity.
  - cbn [column_value]. set (t1 := map _ (d_token d)). destruct (IH (mkDb (d_vars d) (d_seen d) t1)) as (t2 & H & K). cbn [multi_tok_count_change map d_vars d_seen d_token] in H, K.
    exists t2. split; [exact H|]. intros k. rewrite K. unfold t1, mem_str. cbn [existsb]. clear. induction (d_token d) as [|[x v] l IH]; [reflexivity|].
    cbn [map fst]. revert IH. destruct (streqb_spec x key) as [->|N]; cbn [dget].
    + destruct (streqb_spec k key) as [->|N]; intros IH; [|exact IH]. cbn [orb]. destruct (existsb _ keys); reflexivity.
    + destruct (streqb_spec k x) as [->|_]; intros IH; [|exact IH]. destruct (streqb_spec x key); [contradiction|]. reflexivity.
Qed.
Print Assumptions C42_counts_replaced_refuted.
Example C42_counts_replaced_case :
  multi_tok_count_change 1 0 (Some (map PBytes [$"h1"; $"h9"])) 8 (mkDb [] [] [($"h1", (mkCounts 3 1, 4%Z)); ($"h2", (mkCounts 5 6, 7%Z))]) =
  (mkDb [] [] [($"h1", (mkCounts 1 0, 8%Z)); ($"h2", (mkCounts 5 6, 7%Z))], Ok tt).
Proof. reflexivity. Qed.

(** Disabled, the plugin leaves the database alone. *)
Theorem C42_disabled : forall b now m isspam d, learn_message false b now m isspam d = (d, Ok None).
Proof. reflexivity. Qed.
Print Assumptions C42_disabled.

Example C42_example :
  let m := mkTmsg ($"1@x") (Some 5%Z) (Some [($"h1", $"cash"); ($"h2", $"prize")]) in
  let d := mkDb [mkCounts 7 9] [($"1@x", $"s")] [($"h1", (mkCounts 3 1, 4%Z))] in
  learn_message true SqlAlchemy 10 m true d = (d, Ok (Some false)) /\
  learn_message true SqlAlchemy 10 m false d = (mkDb [mkCounts (-1) 0] [($"1@x", $"s")] [($"h1", (mkCounts 3 1, 4%Z))], Raise) /\
  exact [(m, true); (m, false); (m, true)] (mkDb [mkCounts 1 0] [] [($"h1", (mkCounts 1 0, 0%Z))]).
Proof.
  cbv zeta. split; [reflexivity|]. split; [reflexivity|]. split; [reflexivity|].
  intros t c. cbn [d_token dget]. destruct (streqb t ($"h1")) eqn:E; [|discriminate].
  destruct (streqb_spec t ($"h1")) as [-> | ?]; [|discriminate]. intros H. cbn in H. injection H as <-. reflexivity.
Qed.
