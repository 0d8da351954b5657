(** Vocabulary for C254. *)
From Verif Require Import PyStr PyDict Model_BayesStore Model_BayesRead.

(** No token has two rows. *)
Definition one_row_each (d : db) : Prop := NoDup (map fst (d_token d)).
(** What is stored under a token *)
Definition stored (d : db) (t : str) (x : counts * Z) : Prop := In (t, x) (d_token d).
Definition answers (d : db) (t : str) (r : option row) : Prop :=
  match r with
  | Some (t', x) => t' = t /\ stored d t x
  | None => forall x, ~ stored d t x
  end.
