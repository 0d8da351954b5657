(** Model of the reading side of the two Bayes stores.  Definitions only. *)
From Verif Require Import PyStr PyDict Model_BayesStore.

(** A row of bayes_token: token, counts, access time.  For oa/db/bayes/sqlalchemy.py:48-61. *)
Definition row : Type := str * (counts * Z).
(** The rows that [WHERE token=..] selects.  For oa/db/bayes/sqlalchemy.py:118-125, oa/db/bayes/mysql.py:46-52. *)
Definition selected (t : str) (d : db) : list row := filter (fun e => streqb (fst e) t) (d_token d).
(** oa/db/bayes/sqlalchemy.py:108-114, oa/db/bayes/mysql.py:31-41 [tok_get]: [fetchone()] *)
Definition tok_get (t : str) : step (option (counts * Z)) := fun d => (d, Ok (option_map snd (hd_error (selected t d)))).
(** oa/db/bayes/sqlalchemy.py:116-126: [one()] raises [MultipleResultsFound] for several rows;
    oa/db/bayes/mysql.py:43-53: [fetchone()].  Both as the list that the caller makes of the generator. *)
Fixpoint tok_get_all (b : backend) (tokens : list str) : step (list (option row)) :=
  match tokens with
  | [] => ret []
  | t :: rest => fun d =>
      match b, selected t d with
      | SqlAlchemy, _ :: _ :: _ => (d, Raise)
      | _, l => (do r <- tok_get_all b rest; ret (hd_error l :: r)) d
      end
  end.
(** oa/db/bayes/sqlalchemy.py:184-190, oa/db/bayes/mysql.py:114-121 [tok_touch_all] *)
Fixpoint tok_touch_all (tokens : list str) (atime : Z) : step unit :=
  match tokens with
  | [] => ret tt
  | t :: rest => fun d =>
      tok_touch_all rest atime
        (mkDb (d_vars d) (d_seen d) (map (fun e => if streqb (fst e) t then (fst e, (fst (snd e), atime)) else e) (d_token d)))
  end.
(** oa/db/bayes/sqlalchemy.py:155-159, oa/db/bayes/mysql.py:85-93 [nspam_nham_get] *)
Definition nspam_nham_get : step (option counts) := fun d => (d, Ok (hd_error (d_vars d))).
