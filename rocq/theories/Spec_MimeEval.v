(** Vocabulary for the properties of the MIME rules. *)
From Coq Require Import QArith.
From Verif Require Import PyStr PyDict.
From Verif Require Import Model_MimeEval.
From Verif Require Model_HeaderEval.
Open Scope nat_scope.

(** ** Parts *)
Definition alternative_part (p : part) : Prop := p_main p = $"multipart" /\ p_sub p = $"alternative".
Definition plain_part (p : part) : Prop := p_main p = $"text" /\ p_sub p = $"plain".
Definition html_part (p : part) : Prop := p_sub p = $"html".
(** The transfer encoding names the word, in any case. *)
Definition encoded (word : str) (p : part) : Prop := exists a b, lower (p_cte p) = a ++ word ++ b.
(** One of the direct parts is not text. *)
Definition non_text_inside (p : part) : Prop := exists l m, p_raw p = Parts l /\ In m l /\ m <> $"text".

(** A part that ends the loading of the message; [before]: the parts before it. *)
Definition unreadable (before : list part) (p : part) : Prop :=
  (html_part p /\ p_main p <> $"text") \/
  (alternative_part p /\ (exists t, p_raw p = Text t /\ t <> []) /\
   forall p', In p' before -> ~ (alternative_part p' /\ non_text_inside p')) \/
  (encoded ($"base64") p /\ exists l, p_raw p = Parts l /\ l <> []) \/
  (encoded ($"quoted-printable") p /\ exists l, p_raw p = Parts l).

(** ** Numbers over all the parts *)
Fixpoint total (f : part -> nat) (l : list part) : nat := match l with [] => 0 | p :: r => f p + total f r end.
Definition rat (n : nat) : Q := inject_Z (Z.of_nat n).
Definition plain_size (p : part) : nat := if streqb (p_main p) ($"text") && streqb (p_sub p) ($"plain") then length (p_text p) else 0.
Definition html_size (p : part) : nat := if streqb (p_sub p) ($"html") then length (p_text p) else 0.
(** "&#x", four upper-case hexadecimal digits, ";" somewhere in the text *)
Definition with_entity (t : str) : Prop :=
  exists a d b, t = a ++ $"&#x" ++ d ++ $";" ++ b /\ length d = 4 /\ forall c, In c d -> In c ($"0123456789ABCDEF").
(** The lines of a text: each ends with one of the line breaks of Unicode (CR LF is one), or
    at the end of the text. *)
Definition line_breaks : str := [10; 11; 12; 13; 28; 29; 30; 133; 8232; 8233]%N.
Definition unbroken (x : str) : Prop := forall c, In c x -> ~ In c line_breaks.
Inductive lines : str -> list str -> Prop :=
| lines_nil : lines [] []
| lines_last : forall x, x <> [] -> unbroken x -> lines x [x]
| lines_crlf : forall x r ls, unbroken x -> lines r ls -> lines (x ++ [13%N; 10%N] ++ r) (x :: ls)
| lines_more : forall x c r ls, unbroken x -> In c line_breaks -> (c = 13%N -> forall r', r <> 10%N :: r') -> lines r ls ->
               lines (x ++ [c] ++ r) (x :: ls).
(** The length [n] of the longest line of a text *)
Definition longest (t : str) (n : nat) : Prop :=
  exists ls, lines t ls /\ (forall x, In x ls -> length x <= n) /\ (ls = [] /\ n = 0 \/ exists x, In x ls /\ length x = n).
(** The longest lines of the base64 parts, in order *)
Inductive base64_lines : list part -> list nat -> Prop :=
| bl_nil : base64_lines [] []
| bl_skip : forall p l ns, ~ encoded ($"base64") p -> base64_lines l ns -> base64_lines (p :: l) ns
| bl_text : forall p l ns t n, encoded ($"base64") p -> p_raw p = Text t -> longest t n -> base64_lines l ns ->
            base64_lines (p :: l) (n :: ns)
| bl_empty : forall p l ns, encoded ($"base64") p -> p_raw p = Parts [] -> base64_lines l ns -> base64_lines (p :: l) (0 :: ns).
Definition sum_of (l : list nat) : nat := fold_right Nat.add 0 l.
Definition at_most (x : Q) (m : option Q) : Prop := match m with Some m => (x <= m)%Q | None => True end.

(** ** Charsets *)
Definition high_bytes (p : part) : Prop := 2 <= length (p_bytes p) /\ exists c, In c (p_bytes p) /\ (128 <= c)%N.
Definition foreign_charset (ok_locales : str) (p : part) : Prop :=
  ~ In ($"all") (words ok_locales) /\
  (exists c r, p_charset p = c :: r /\ ((65 <= c <= 90)%N \/ (97 <= c <= 122)%N)) /\
  Model_HeaderEval.charset_ok_for_locales (p_charset p) (words ok_locales) = false.
Definition non_ascii_text (p : part) : Prop := exists t c, p_raw p = Text t /\ In c t /\ (128 <= c)%N.

(** ** Base64 text: the names of ASCII *)
Definition names_of_ascii : list str :=
  [$"us-ascii"; $"ascii"; $"us"; $"ansi_x3.4-1968"; $"ansi_x3.4-1986"; $"iso-ir-6"; $"iso_646.irv:1991"; $"iso646-us";
   $"ibm367"; $"cp367"; $"csascii"].
Definition base64_text_part (p : part) : Prop :=
  (exists a b, p_cte p = a ++ $"base64" ++ b) /\
  (p_charset p = [] \/ exists n a b, In n names_of_ascii /\ p_charset p = a ++ n ++ b) /\
  strip (p_disposition p) <> $"inline" /\ strip (p_disposition p) <> $"attachment".

(** ** Lines: the text after the first colon without the other colons *)
Definition long_after_colon (l : str) : Prop :=
  ~ (exists r, l = $"SPAM" ++ r) /\
  exists name rest, l = name ++ 58%N :: rest /\ ~ In 58%N name /\
    79 < length (filter (fun c => negb (N.eqb c 58)) rest).

(** ** Paragraphs: the pieces between two line breaks, found from the left *)
Inductive paragraphs : str -> list str -> Prop :=
| par_last : forall s, (forall a b, s <> a ++ [10%N; 10%N] ++ b) -> paragraphs s [s]
| par_more : forall p r ps, (forall a b, p ++ [10%N] <> a ++ [10%N; 10%N] ++ b) -> paragraphs r ps ->
             paragraphs (p ++ [10%N; 10%N] ++ r) (p :: ps).
(** A paragraph with a blank or a line break inside *)
Definition several_words (p : str) : Prop :=
  exists a c b, strip_chars [10%N] p = a ++ c :: b /\ (c = 32%N \/ c = 10%N).
(** The paragraphs that count *)
Inductive kept : list str -> list str -> Prop :=
| kept_nil : kept [] []
| kept_yes : forall p ps qs, several_words p -> kept ps qs -> kept (p :: ps) (p :: qs)
| kept_no : forall p ps qs, ~ several_words p -> kept ps qs -> kept (p :: ps) qs.
(** A letter that has no other capital form; digits are not letters here. *)
Definition capital (up : char -> str) (is_word is_dig : char -> bool) (c : char) : bool :=
  is_word c && negb (is_dig c) && streqb (up c) [c].
(** [n] occurrences of [p], one after the other *)
Fixpoint times (n : nat) (p s : str) : Prop :=
  match n with 0 => True | S n => exists a b, s = a ++ p ++ b /\ times n p b end.
(** ** Header lines: "From ", a name of printable characters with a colon after it, or a
    continuation *)
Definition header_like (l : str) : Prop :=
  (exists r, l = $"From " ++ r) \/
  (exists name r, l = name ++ 58%N :: r /\ forall c, In c name -> (33 <= c <= 126)%N /\ c <> 58%N) \/
  (exists c r, l = c :: r /\ (c = 32%N \/ c = 9%N)).
Definition blank_line (l : str) : Prop := forall c, In c l -> is_space c = true.
(** [n] of the parts have the property. *)
Inductive having (P : part -> Prop) : list part -> nat -> Prop :=
| having_nil : having P [] 0
| having_yes : forall p l n, P p -> having P l n -> having P (p :: l) (S n)
| having_no : forall p l n, ~ P p -> having P l n -> having P (p :: l) n.
(** The names the documentation of [check_for_mime] lists *)
Definition check_names : list str :=
  [$"mime_base64_count"; $"mime_base64_encoded_text"; $"mime_body_html_count"; $"mime_body_text_count"; $"mime_faraway_charset";
   $"mime_missing_boundary"; $"mime_multipart_alternative"; $"mime_multipart_ratio"; $"mime_qp_count"; $"mime_qp_long_line";
   $"mime_qp_ratio"; $"mime_ascii_text_illegal"; $"mime_text_unicode_ratio"].
