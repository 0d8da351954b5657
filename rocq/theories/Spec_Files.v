(** Small independent definitions for the file properties. *)
From Coq Require Import Sorting.Sorted.
From Verif Require Import PyStr PyPath.

(** Lexicographic order by code points. *)
Inductive lex_le : str -> str -> Prop :=
| Lnil b : lex_le [] b
| Llt x y a b : (x < y)%N -> lex_le (x :: a) (y :: b)
| Leq x a b : lex_le a b -> lex_le (x :: a) (x :: b).
Definition in_order (l : list str) : Prop := StronglySorted lex_le l.

(** [p] is an entry of directory [dir] with the extension [ext]. *)
Definition entry (listdir : str -> option (list str)) (expanduser : str -> str) (dir ext p : str) : Prop :=
  exists names name stem, listdir (expanduser dir) = Some names /\ In name names /\ name = stem ++ ext /\
    p = path_join (expanduser dir) name.

(** The file a path names, as the list of directories to go through from the
    root: "." and empty components stay, ".." goes up. *)
Definition step_dir (d : list str) (c : str) : list str :=
  match c with
  | [] => d
  | _ => if streqb c ($".") then d else if streqb c ($"..") then removelast d else d ++ [c]
  end.
Definition resolve (p : str) : list str := fold_left step_dir (split_char 47%N p) [].
(** Below the home directory of [user]. *)
Definition below_home (user p : str) : Prop := exists rest, resolve p = $"home" :: user :: rest.
