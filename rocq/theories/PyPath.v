(** The parts of [posixpath] used by the code. *)
From Verif Require Import PyStr.

(** [os.path.isabs] *)
Definition isabs (p : str) : bool := startswith ($"/") p.

(** [os.path.join(a, b)] *)
Definition path_join (a b : str) : str :=
  if isabs b then b
  else match a with
       | [] => b
       | _ => if endswith ($"/") a then a ++ b else a ++ $"/" ++ b
       end.

(** [os.path.dirname]: everything up to the last slash, without trailing
    slashes unless it consists of slashes only. *)
Definition dirname (p : str) : str :=
  match rsplit1 47%N p with
  | None => []
  | Some (h, _) =>
      let head := h ++ [47%N] in
      if forallb (N.eqb 47) head then head else rstrip_chars ($"/") head
  end.

(** [os.path.basename] *)
Definition basename (p : str) : str :=
  match rsplit1 47%N p with
  | None => p
  | Some (_, b) => b
  end.
