(** What a regular expression says, independently of how a matcher finds it.
    [reads r b w a]: between the text before (backwards [b]) and the text after ([a]) the
    expression [r] accepts [w]. *)
From Verif Require Import PyStr Regexp.

Section Reads.
Variable udigit uword : char -> bool.

(** [n] pieces in a row *)
Fixpoint times (P : str -> str -> str -> Prop) (n : nat) (b w a : str) : Prop :=
  match n with
  | 0 => w = []
  | S m => exists u v, w = u ++ v /\ P b u (v ++ a) /\ times P m (rev u ++ b) v a
  end.
Definition at_most (n : nat) (hi : option nat) : Prop := match hi with Some h => n <= h | None => True end.
Definition boundary (b a : str) : Prop :=
  (exists c t, b = c :: t /\ is_w uword c = true) /\ ~ (exists c t, a = c :: t /\ is_w uword c = true) \/
  ~ (exists c t, b = c :: t /\ is_w uword c = true) /\ (exists c t, a = c :: t /\ is_w uword c = true).

Fixpoint reads (r : re) (b w a : str) : Prop :=
  match r with
  | Eps => w = []
  | Chr ci neg l => exists c, w = [c] /\ class_in udigit uword ci neg l c = true
  | Dot => exists c, w = [c] /\ c <> 10%N
  | Cat p q => exists u v, w = u ++ v /\ reads p b u (v ++ a) /\ reads q (rev u ++ b) v a
  | Alt p q => reads p b w a \/ reads q b w a
  | Rep _ lo hi p => exists n, lo <= n /\ at_most n hi /\ times (reads p) n b w a
  | Grp _ p => reads p b w a
  | Bos => w = [] /\ b = []
  | Eos => w = [] /\ (a = [] \/ a = [10%N])
  | Wordb false => w = [] /\ boundary b a
  | Wordb true => w = [] /\ ~ boundary b a
  | Ahead false p => w = [] /\ exists u v, a = u ++ v /\ reads p b u v
  | Ahead true p => w = [] /\ ~ exists u v, a = u ++ v /\ reads p b u v
  | Behind false p => w = [] /\ exists c t, b = c :: t /\ reads p t [c] []
  | Behind true p => w = [] /\ ~ exists c t, b = c :: t /\ reads p t [c] []
  end.
(** The text contains something that the expression accepts. *)
Definition found (r : re) (s : str) : Prop := exists b w a, s = b ++ w ++ a /\ reads r (rev b) w a.
(** The text begins with something that the expression accepts. *)
Definition found_first (r : re) (s : str) : Prop := exists w a, s = w ++ a /\ reads r [] w a.
End Reads.
