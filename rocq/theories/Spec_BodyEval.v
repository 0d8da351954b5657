(** Small independent definitions for the body evaluation properties. *)
From Coq Require Import QArith.
From Verif Require Import PyStr Model_BodyEval.
Open Scope nat_scope.

(** The texts of the given type that are alternatives: directly inside a
    "multipart/alternative" part. *)
Definition texts_among (ty : str) (l : list part) : list str :=
  flat_map (fun p => match p with Leaf t x => if streqb t ty then [x] else [] | Multi _ _ => [] end) l.
Fixpoint alternatives (ty : str) (p : part) : list str :=
  match p with
  | Leaf _ _ => []
  | Multi t subs => (if streqb t ($"multipart/alternative") then texts_among ty subs else []) ++ flat_map (alternatives ty) subs
  end.
(** The words of a text: separated by blanks, only word characters kept, lower case. *)
Definition words_in (is_w : char -> bool) (low : str -> str) (text : str) : list str :=
  map low (filter (fun w => match w with [] => false | _ => true end) (map (filter is_w) (words text))).
Definition words_of is_w low (ty : str) (root : part) : list str := flat_map (words_in is_w low) (alternatives ty root).
Definition occurrences (w : str) (l : list str) : nat := count_occ str_eq_dec l w.
Definition distinct (l : list str) : nat := length (nodup str_eq_dec l).
(** The distinct words of [html] that [plain] has less often. *)
Definition lacking (html plain : list str) : nat :=
  length (filter (fun w => occurrences w plain <? occurrences w html) (nodup str_eq_dec html)).
Definition percent (n m : nat) : Q := (inject_Z (Z.of_nat n) / inject_Z (Z.of_nat m) * 100)%Q.

(** Lines: ended by a line break; a blank one is empty. *)
Definition lines (text : str) : list str := removelast (split_char 10%N text).
Definition blank_lines (text : str) : nat := length (filter (fun l => match l with [] => true | _ => false end) (lines text)).
