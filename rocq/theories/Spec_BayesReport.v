(** What the plugin should report about the tokens of a message. *)
From Coq Require Import Reals.
From Verif Require Import PyStr.

(** The probability that a token is spammy, if it was in [x] of [Ns] spam messages and
    in [y] of [Nn] ham messages: the mean of its relative frequency in spam, weighted
    by the number of messages with it, and of [prior] with weight 0.03. *)
Definition chance (prior : R) (Ns Nn : Z) (x y : R) : R :=
  let in_spam := (x / IZR Ns)%R in let in_ham := (y / IZR Nn)%R in
  ((3 / 100 * prior + (x + y) * (in_spam / (in_spam + in_ham))) / (3 / 100 + (x + y)))%R.
(** The prior used for classifying. *)
Definition prior : R := (538 / 1000)%R.
Definition hammy_chance (p : R) : Prop := (p <= 5 / 10 - 346 / 1000)%R.
Definition spammy_chance (p : R) : Prop := (5 / 10 + 346 / 1000 <= p)%R.

(** The sentence with the counts. *)
Definition counts_text (num : Z -> str) (new ham neutral spam : Z) : str :=
  $"Tokens new, " ++ num new ++ $"; hammy, " ++ num ham ++ $"; neutral, " ++ num neutral ++ $"; spammy, " ++ num spam ++ $".".
Definition how_many {A} (p : A -> bool) (l : list A) : Z := Z.of_nat (length (filter p l)).
Definition hammy_prob (p : Q) : bool := Qle_bool p ((1 # 2) - (346 # 1000))%Q.
Definition spammy_prob (p : Q) : bool := Qle_bool ((1 # 2) + (346 # 1000))%Q p.

(** Entries of letters, digits, underscores, hyphens, at signs and dots. *)
Definition entry_char (c : char) : Prop :=
  (48 <= c <= 57)%N \/ (65 <= c <= 90)%N \/ (97 <= c <= 122)%N \/ c = 95%N \/ c = 45%N \/ c = 64%N \/ c = 46%N.
Definition address_entry (e : str) : Prop := Forall entry_char e.
(** The text reads like the entry, in which a dot stands for any character but a line
    break. *)
Definition dotted (e w : str) : Prop := Forall2 (fun c d => d = c \/ (c = 46%N /\ d <> 10%N)) e w.
(** Some part of one of the addresses reads like one of the entries. *)
Definition part_listed (entries addresses : list str) : Prop :=
  exists e a x w y, In e entries /\ In a addresses /\ a = x ++ w ++ y /\ dotted e w.
(** How a token is listed: probability, distance, word. *)
Definition token_line (p d w : str) : str := p ++ $"-" ++ d ++ $"--" ++ w.
