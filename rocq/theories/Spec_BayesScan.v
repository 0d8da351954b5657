(** What the classifier should compute. *)
From Verif Require Import PyStr PyDict Model_BayesScan.
From Coq Require Import Sorting.Sorted.

(** The relative frequency of a token in spam, given its counts [s], [n] among [ns]
    spam and [nn] ham messages. *)
Definition ratio (s ns n nn : Z) : Q :=
  let in_spam := (inject_Z s / inject_Z ns)%Q in let in_ham := (inject_Z n / inject_Z nn)%Q in
  (in_spam / (in_spam + in_ham))%Q.
(** The mean of [a] with weight [u] and [b] with weight [v]. *)
Definition weighted_mean (u a v b : Q) : Q := ((u * a + v * b) / (u + v))%Q.

(** A row with possible counts. *)
Definition counted (t : row) : Prop := (0 <= r_spam t)%Z /\ (0 <= r_ham t)%Z.

(** A probability far enough from 1/2 to count. *)
Definition strong (p : Q) : bool := Qle_bool ((1 # 2) + (346 # 1000))%Q p || Qle_bool p ((1 # 2) - (346 # 1000))%Q.

(** The probabilities of the found tokens, where they have one. *)
Definition own_probs (hapaxes : bool) (ns nn : Z) (rows : list row) : list Q := not_none (map (token_prob hapaxes ns nn) rows).

(** The ranges between successive bounds. *)
Definition ranges (bounds : list Q) : list (Q * Q) := zip bounds (tl bounds).
Definition increasing (bounds : list Q) : Prop := StronglySorted Qlt bounds.
