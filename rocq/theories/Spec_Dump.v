(** Vocabulary for C252. *)
From Verif Require Import PyStr.

(** The different texts of a list, each where it first stands *)
Fixpoint firsts (l : list str) : list str :=
  match l with
  | [] => []
  | n :: l => n :: filter (fun x => negb (streqb n x)) (firsts l)
  end.
(** A header as it is listed; a value that cannot be decoded is listed as None *)
Definition listed (decode : str -> option str) (f : str * str) : str :=
  lower (fst f) ++ $": " ++ match decode (snd f) with Some t => t | None => $"None" end.
