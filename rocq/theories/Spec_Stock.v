(** Stock market words, and texts that hold several of them. *)
From Verif Require Import PyStr.

(** Words, in capital or small letters, that count anywhere *)
Definition stock_words : list str :=
  [$"company"; $"companyname"; $"target"; $"ticker"; $"openingp"; $"openingprice"; $"currentp"; $"currentprice";
   $"projected"; $"position"; $"expectations"; $"weekhigh"; $"weekshigh"; $"marketperformance";
   $"yeartarget"; $"yearestimate"; $"yearestimates"; $"weektarget"; $"weekestimate"; $"weekestimates";
   $"monthtarget"; $"monthestimate"; $"monthestimates"; $"daytarget"; $"dayestimate"; $"dayestimates";
   $"pricetarget"; $"priceestimate"; $"priceestimates"; $"sector"; $"recommendation"; $"rating"].
(** and at the beginning of a line only *)
Definition line_words : list str := [$"tradedate"; $"tradingdate"].
(** Words that count also when one more character stands between two letters *)
Definition hidden_words : list str := [$"stock"; $"sym"; $"symbol"].

(** A letter, a digit or an underscore; above 127 as the library says *)
Definition word_character (uword : char -> bool) (c : char) : bool :=
  if N.ltb c 128 then (N.leb 48 c && N.leb c 57) || (N.leb 65 c && N.leb c 90) || (N.leb 97 c && N.leb c 122) || N.eqb c 95 else uword c.

Section Words.
Variable word_char : char -> bool.

(** [w] is [word], in capital or small letters, with at most one more character after each letter but the last. *)
Fixpoint spelled (word w : str) : Prop :=
  match word with
  | [] => w = []
  | c :: rest =>
      match rest with
      | [] => lower w = [c]
      | _ => exists d x t, w = d :: x ++ t /\ lower [d] = [c] /\ (x = [] \/ exists e, x = [e] /\ word_char e = true) /\ spelled rest t
      end
  end.
(** [w] is a stock word where [before] is all the text before it. *)
Definition stock_word (before w : str) : Prop :=
  In (lower w) stock_words \/ (exists h, In h hidden_words /\ spelled h w) \/
  (In (lower w) line_words /\ (before = [] \/ exists b, before = b ++ [10%N])).

(** [n] stock words one after the other in [s], no two of which overlap; [before] is all the text before [s]. *)
Inductive holds : str -> nat -> str -> Prop :=
| holds_none before s : holds before 0 s
| holds_more before u w s n : stock_word (before ++ u) w -> holds (before ++ u ++ w) n s -> holds before (S n) (u ++ w ++ s).
(** The same, with a blank or another character that is no letter, digit or underscore somewhere between any two. *)
Inductive holds_apart : str -> nat -> str -> Prop :=
| apart_none before s : holds_apart before 0 s
| apart_one before u w s : stock_word (before ++ u) w -> holds_apart before 1 (u ++ w ++ s)
| apart_more before u w y x s n : stock_word (before ++ u) w -> word_char x = false ->
    holds_apart (before ++ u ++ w ++ y ++ [x]) n s -> holds_apart before (S n) (u ++ w ++ y ++ [x] ++ s).
End Words.
