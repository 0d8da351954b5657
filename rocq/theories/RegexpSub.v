(** Python's [re.sub].  Library file, like Regexp: not code of /repo.  Definitions only. *)
From Verif Require Import PyStr Regexp.

Section Sub.
Variable udigit uword : char -> bool.
(** What a match is replaced by *)
Variable repl : state -> str.

(** Matches from left to right that do not overlap; after an empty match one character is kept.  [fuel]: more than
    the length of the text. *)
Fixpoint sub_from (r : re) (fuel : nat) (before s : str) : str :=
  match fuel with
  | 0 => s
  | S n =>
      match ways udigit uword r (mkS before s []) with
      | st :: _ =>
          match consumed (mkS before s []) st with
          | [] => repl st ++ match s with [] => [] | c :: s' => c :: sub_from r n (c :: before) s' end
          | _ => repl st ++ sub_from r n (s_before st) (s_after st)
          end
      | [] => match s with [] => [] | c :: s' => c :: sub_from r n (c :: before) s' end
      end
  end.
Definition re_sub (r : re) (s : str) : str := sub_from r (S (length s)) [] s.
End Sub.
(** A replacement without groups *)
Definition always (t : str) : state -> str := fun _ => t.
(** A group in a replacement; one that took no part is empty *)
Definition grp (n : nat) (st : state) : str := match group n (s_caps st) with Some w => w | None => [] end.
