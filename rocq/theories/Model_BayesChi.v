(** Model of the chi-squared combiner, oa/plugins/bayes.py:58-151.  Floats are exact
    real numbers.  Definitions only. *)
From Coq Require Import Reals List ZArith.
Import ListNotations.
Local Open Scope R_scope.

(** oa/plugins/bayes.py:138-151 [chi2Q] *)
Definition chi2Q (x2 : R) (halfv : nat) : R :=
  let m := x2 / 2 in
  let step (acc : R * R) (i : nat) := let term := snd acc * (m / INR i) in (fst acc + term, term) in
  let total := fst (fold_left step (seq 1 (halfv - 1)) (exp (- m), exp (- m))) in
  Rmin total 1.

(** oa/plugins/bayes.py:116-125: the loop.  [frexp] is [math.frexp]. *)
Definition tiny : R := / 10 ^ 200.
(** For oa/plugins/bayes.py:93-135. *)
Definition rescale (frexp : R -> R * Z) (x : R) (e : Z) : R * Z :=
  if Rlt_dec x tiny then let (m, k) := frexp x in (m, (e + k)%Z) else (x, e).
(** For oa/plugins/bayes.py:93-135. *)
Fixpoint products (frexp : R -> R * Z) (probs : list R) (s : R * Z) (h : R * Z) : (R * Z) * (R * Z) :=
  match probs with
  | [] => (s, h)
  | p :: rest =>
      products frexp rest (rescale frexp (fst s * (1 - p)) (snd s)) (rescale frexp (fst h * p) (snd h))
  end.

(** [math.log]; [None]: [ValueError].  For oa/plugins/bayes.py:93-135. *)
Definition log (x : R) : option R := if Rlt_dec 0 x then Some (ln x) else None.

(** oa/plugins/bayes.py:93-135 [combine] *)
Definition combine (frexp : R -> R * Z) (ns nn : Z) (probs : list R) : option R :=
  let n := (ns + nn)%Z in
  if Z.eqb n 0 then Some (5 / 10)
  else
    let '(s, h) := products frexp probs (IZR ns / IZR n, 0%Z) (IZR nn / IZR n, 0%Z) in
    match log (fst s), log (fst h) with
    | Some ls, Some lh =>
        let S := ls + IZR (snd s) * ln 2 in
        let H := lh + IZR (snd h) * ln 2 in
        let S' := 1 - chi2Q (-2 * S) (length probs) in
        let H' := 1 - chi2Q (-2 * H) (length probs) in
        Some ((S' - H' + 1) / 2)
    | _, _ => None
    end.
