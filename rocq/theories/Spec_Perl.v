(** Vocabulary for C54: what is changed in the text of a Perl expression. *)
From Verif Require Import PyStr.

(** A text rewritten from left to right: where [here s out rest] holds, [out] is written and
    reading goes on with [rest]; elsewhere one character is copied. *)
Inductive rewritten (here : str -> str -> str -> Prop) : str -> str -> Prop :=
| rw_end : rewritten here [] []
| rw_here s out rest r : here s out rest -> rewritten here rest r -> rewritten here s (out ++ r)
| rw_next c s r : (forall out rest, ~ here (c :: s) out rest) -> rewritten here s r -> rewritten here (c :: s) (c :: r).

(** The flags of a group: letters and minus signs, or a caret and letters, carets and question marks *)
Definition local_flags (fl : str) : Prop :=
  (forall c, In c fl -> In c ($"adlupimsx-")) \/
  exists t, fl = $"^" ++ t /\ forall c, In c t -> In c ($"?^alupimsx").
(** The flags of a group are dropped: (?i:x) becomes (?:x). *)
Definition flags_dropped (s out rest : str) : Prop :=
  exists fl q, local_flags fl /\ s = $"(?" ++ fl ++ $":" ++ q /\ out = $"(?" /\ rest = $":" ++ q.
(** A word boundary before a question mark is put in parentheses. *)
Definition boundary_grouped (s out rest : str) : Prop :=
  exists b q, In b ($"bB") /\ s = $"\" ++ [b] ++ $"?" ++ q /\ out = $"(\" ++ [b] ++ $")" /\ rest = $"?" ++ q.
(** An independent group becomes a plain one: (?>x) becomes (?:x). *)
Definition group_plain (s out rest : str) : Prop :=
  s = $"(?>" ++ rest /\ out = $"(?:".
(** All three, one after the other *)
Definition converted (s t : str) : Prop :=
  exists a b, rewritten flags_dropped s a /\ rewritten boundary_grouped a b /\ rewritten group_plain b t.
