(** Small independent definitions for what the tokeniser reads of texts and headers. *)
From Verif Require Import PyStr.
Open Scope nat_scope.

(** ** Lines *)
(** The characters that end a line for [str.splitlines] *)
Definition line_ends : str := [10; 11; 12; 13; 28; 29; 30; 133; 8232; 8233]%N.
(** A row of text: some character that is not a blank, no line end *)
Definition row (s : str) : Prop := (exists c, In c s /\ is_space c = false) /\ forall c, In c s -> ~ In c line_ends.

(** ** Words *)
Section Words.
(** Letters, digits and the underscore: [word c] *)
Variable word : char -> bool.
Definition no_word_end (s : str) : Prop := forall a c, s = a ++ [c] -> word c = false.
Definition no_word_start (s : str) : Prop := forall a c, s = c :: a -> word c = false.
(** [w] occurs in the text as a word of its own. *)
Definition stands_alone (w s : str) : Prop := exists a b, s = a ++ w ++ b /\ no_word_end a /\ no_word_start b.
End Words.
(** No blank is a letter, digit or underscore. *)
Definition blanks_apart (word : char -> bool) : Prop := forall c, is_space c = true -> word c = false.
Definition occurs (w s : str) : Prop := exists a b, s = a ++ w ++ b.

(** ** Message ids *)
Definition digit (c : char) : bool := N.leb 48 c && N.leb c 57.
Definition upper_case (c : char) : bool := N.leb 65 c && N.leb c 90.
Definition lower_case (c : char) : bool := N.leb 97 c && N.leb c 122.
Definition alphanumeric (c : char) : bool := digit c || upper_case c || lower_case c.
Definition low_hex (c : char) : bool := digit c || (N.leb 97 c && N.leb c 102).
Definition high_hex (c : char) : bool := digit c || (N.leb 65 c && N.leb c 70).
Definition id_char (c : char) : bool := alphanumeric c || N.eqb c 95.
(** Everything but letters, digits and underscores made blank *)
Definition blanked (s : str) : str := map (fun c => if id_char c then c else 32%N) s.
Definition all (p : char -> bool) (n : nat) (s : str) : Prop := length s = n /\ Forall (fun c => p c = true) s.
(** Letters, digits, underscores, dots and dashes *)
Definition host_name (h : str) : Prop := h <> [] /\ Forall (fun c => id_char c = true \/ In c ($".-")) h.
(** What Outlook Express writes *)
Definition outlook_id (a x y b z c host : str) : str := ($"<") ++ a ++ x ++ y ++ ($"$") ++ b ++ z ++ ($"$") ++ c ++ ($"@") ++ host ++ ($">").
(** What Exim writes *)
Definition exim_id (a b : str) (c : char) (host : str) : str := ($"<") ++ a ++ ($"-") ++ b ++ ($"-0") ++ [c] ++ ($"@") ++ host ++ ($">").
(** What Sendmail writes: the date and time of day in digits, a dot, a number *)
Definition sendmail_id (year month day hour minute second number host : str) : str :=
  ($"<20") ++ year ++ month ++ day ++ hour ++ minute ++ second ++ ($".") ++ number ++ ($"@") ++ host ++ ($">").
Definition two_digits (first : str) (s : str) : Prop := exists a b, s = [a; b] /\ In a first /\ digit b = true.

(** ** Received *)
Definition relay_words : list str := [$"with"; $"from"; $"for"; $"SMTP"; $"ESMTP"].
Definition months : list str := [$"Jan"; $"Feb"; $"Mar"; $"May"; $"Apr"; $"Jun"; $"Jul"; $"Aug"; $"Sep"; $"Oct"; $"Nov"; $"Dec"].
(** A text with none of these words, without "id" and without the name of a month *)
Definition quiet (word : char -> bool) (s : str) : Prop :=
  (forall w, In w (($"id") :: relay_words) -> ~ stands_alone word w s) /\ forall m, In m months -> ~ occurs m s.

(** ** Content-Type *)
Definition type_words : list str := [$"text"; $"charset"].
Definition any_hex (c : char) : bool := low_hex c || high_hex c.
Definition separator (c : char) : bool := existsb (N.eqb c) ($"-_.=").
Definition quote (c : char) : Prop := c = 34%N \/ c = 39%N.
(** A boundary in which hexadecimal digits are made "H" and each run of separators [mark] *)
Fixpoint shape (mark : str) (inside : bool) (s : str) : str :=
  match s with
  | [] => []
  | c :: s' => if separator c then (if inside then [] else mark) ++ shape mark true s'
               else (if any_hex c then 72%N else c) :: shape mark false s'
  end.
