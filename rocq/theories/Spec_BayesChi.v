(** The chi-squared combination of probabilities. *)
From Coq Require Import Reals List ZArith.
Import ListNotations.
Local Open Scope R_scope.

(** What [math.frexp] gives for zero and for a positive number. *)
Definition is_frexp (frexp : R -> R * Z) : Prop :=
  frexp 0 = (0, 0%Z) /\
  forall x, 0 < x -> x = fst (frexp x) * powerRZ 2 (snd (frexp x)) /\ 1 / 2 <= fst (frexp x) < 1.

(** The probability that a chi-squared variable with [2 k] degrees of freedom is at
    least [2 m]: exp(-m) times the sum of m^i / i! for i < k. *)
Definition tail (k : nat) (m : R) : R := exp (- m) * sum_f_R0 (fun i => m ^ i / INR (fact i)) (k - 1).

Definition product (l : list R) : R := fold_right Rmult 1 l.
Definition probability (p : R) : Prop := 0 < p < 1.

(** Fisher's combination of the evidence against ham and against spam. *)
Definition fisher (ns nn : Z) (probs : list R) : R :=
  let k := length probs in
  let share a := IZR a / IZR (ns + nn) in
  let against_ham := tail k (- ln (share ns * product (map (fun p => 1 - p) probs))) in
  let against_spam := tail k (- ln (share nn * product probs)) in
  (1 + against_spam - against_ham) / 2.
