(** Texts with a given form, for the statements about rules that look for them. *)
From Verif Require Import PyStr.

(** A part of a form: a run of characters with a property, between [lo] and [hi] of them; the
    beginning or the end of the text (a line feed may follow); the edge of a word. *)
Inductive part :=
| Run (P : char -> Prop) (lo : nat) (hi : option nat)
| Begin
| End
| Edge.
Definition text (s : str) : list part := map (fun c => Run (eq c) 1 (Some 1)) s.
(** a text in capitals or small letters; [s] in small letters *)
Definition text_i (s : str) : list part := map (fun x => Run (fun c => lower_char c = x) 1 (Some 1)) s.
Definition one (P : char -> Prop) : list part := [Run P 1 (Some 1)].
Definition exactly (n : nat) (P : char -> Prop) : list part := [Run P n (Some n)].
Definition some_ (P : char -> Prop) : list part := [Run P 1 None].
Definition many (P : char -> Prop) : list part := [Run P 0 None].

Section Forms.
(** Word characters outside ASCII. *)
Variable uword : char -> bool.
Definition wordc (c : char) : Prop :=
  (48 <= c <= 57 \/ 65 <= c <= 90 \/ 97 <= c <= 122 \/ c = 95 \/ 128 <= c /\ uword c = true)%N.
Definition begins_with_word (s : str) : Prop := exists c t, s = c :: t /\ wordc c.
(** [w] has the form [l], between the text before it (backwards) and the text after it *)
Fixpoint fits (l : list part) (b w a : str) : Prop :=
  match l with
  | [] => w = []
  | Run P lo hi :: r =>
      exists u v, w = u ++ v /\ (forall c, In c u -> P c) /\
        lo <= length u /\ match hi with Some h => length u <= h | None => True end /\
        fits r (rev u ++ b) v a
  | Begin :: r => b = [] /\ fits r b w a
  | End :: r => (w ++ a = [] \/ w ++ a = [10%N]) /\ fits r b w a
  | Edge :: r => (begins_with_word b /\ ~ begins_with_word (w ++ a) \/ ~ begins_with_word b /\ begins_with_word (w ++ a)) /\ fits r b w a
  end.
(** The text contains a piece of one of these forms. *)
Definition has (forms : list (list part)) (h : str) : Prop :=
  exists l x w y, In l forms /\ h = x ++ w ++ y /\ fits l (rev x) w y.
(** ... begins with one *)
Definition starts (forms : list (list part)) (h : str) : Prop :=
  exists l w y, In l forms /\ h = w ++ y /\ fits l [] w y.
End Forms.
Definition blank (c : char) : Prop := is_space c = true.
Definition nonblank (c : char) : Prop := is_space c = false.
(** Decimal digits; [udigit]: those outside ASCII *)
Definition digit (udigit : char -> bool) (c : char) : Prop := (48 <= c <= 57 \/ 128 <= c /\ udigit c = true)%N.
Definition letter (c : char) : Prop := (65 <= c <= 90 \/ 97 <= c <= 122)%N.
Definition capital (c : char) : Prop := (65 <= c <= 90)%N.
Definition anyc (c : char) : Prop := c <> 10%N.
