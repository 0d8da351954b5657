(** What the properties of oa/message.py about texts, charsets and URIs talk about. *)
From Verif Require Import PyStr.

(** ** Web addresses in a text *)
(** Characters that end an address: white space, angle brackets, quotes, and the characters
    from 127 to 255. *)
Definition ends_address (c : char) : Prop := is_space c = true \/ In c [60; 62; 34; 39]%N \/ (127 <= c <= 255)%N.
(** An address with its protocol, or one of a host called www.something or ftp.something. *)
Inductive address : str -> Prop :=
| with_protocol p g : In p [$"http://"; $"https://"; $"ftp://"] -> g <> [] -> address (p ++ g)
| without_protocol p c g : In p [$"www."; $"ftp."] -> c <> 46%N -> address (p ++ c :: g).
Definition word_char (uword : char -> bool) (c : char) : Prop :=
  (48 <= c <= 57 \/ 65 <= c <= 90 \/ 97 <= c <= 122 \/ c = 95 \/ 128 <= c /\ uword c = true)%N.
(** [w], between [b] and [a], is an address as a whole. *)
Definition address_at (uword : char -> bool) (b w a : str) : Prop :=
  address w /\ Forall (fun c => ~ ends_address c) w /\
  (forall b' c, b = b' ++ [c] -> ~ word_char uword c) /\
  match a with [] => True | c :: _ => ends_address c end.

(** ** Texts *)
(** The same text on one line. *)
Definition one_line (s t : str) : Prop := Forall2 (fun c d => c = 10%N /\ d = 32%N \/ c <> 10%N /\ d = c) s t.
(** The characters that are not white space. *)
Definition ink (s : str) : str := filter (fun c => negb (is_space c)) s.
(** What a declared charset means: its name in the headers, or ASCII. *)
Definition declared (c : option str) : str := match c with None | Some [] => $"ascii" | Some n => n end.

(** The words of a text in pieces: each piece without the white space around it; pieces without
    a word are left out. *)
Definition pieces (chunks : list str) : list str := filter (fun p => match p with [] => false | _ => true end) (map strip chunks).
(** What body rules get to see of a text: the text on one line; or what the HTML parser finds
    between the tags of that line, in pieces with a blank between them. *)
Definition rendered (html : bool) (parse : str -> list str * bool) (t shown : str) : Prop :=
  if html then exists line chunks, one_line t line /\ parse line = (chunks, false) /\ shown = join ($" ") (pieces chunks)
  else one_line t shown.
(** Names that are transfer encodings, not charsets. *)
Definition dashes (s : str) : str := map (fun c => if N.eqb c 95 then 45%N else c) s.
Definition quoted_printable (name : str) : Prop :=
  In (dashes (lower name)) [$"quopri-codec"; $"quopri"; $"quoted-printable"; $"quotedprintable"].

(** ** Characters written as escapes *)
Definition hexdigit (c : char) : Prop := (48 <= c <= 57 \/ 97 <= c <= 102)%N.
Definition hexval (c : char) : N := (if N.leb c 57 then c - 48 else c - 87)%N.
(** [w] is backslash, u or U, and the number of the character. *)
Definition escape_of (c : char) (w : str) : Prop :=
  exists u ds, w = 92%N :: u :: ds /\ (u = 117%N /\ length ds = 4 \/ u = 85%N /\ length ds = 8) /\
  Forall hexdigit ds /\ fold_left (fun n d => (n * 16 + hexval d)%N) ds 0%N = c.

(** ** Transfer encodings (RFC 2045) *)
Definition hex_of (c v : N) : Prop := (48 <= c <= 57 /\ v = c - 48 \/ 65 <= c <= 70 /\ v = c - 55 \/ 97 <= c <= 102 /\ v = c - 87)%N.
(** [t] is [bs] in quoted-printable: ASCII characters but the equals sign may stand for
    themselves, every byte may be written in hex digits, lines may be broken. *)
Inductive in_quoted_printable : list N -> str -> Prop :=
| qp_end : in_quoted_printable [] []
| qp_plain b bs t : (b < 128)%N -> b <> 61%N -> in_quoted_printable bs t -> in_quoted_printable (b :: bs) (b :: t)
| qp_hex x y h l bs t : hex_of h x -> hex_of l y -> in_quoted_printable bs t -> in_quoted_printable ((16 * x + y)%N :: bs) (61%N :: h :: l :: t)
| qp_soft bs t : in_quoted_printable bs t -> in_quoted_printable bs (61%N :: 10%N :: t).
(** Base 64: 24 bits in four digits. *)
Definition b64_alphabet : str := $"ABCDEFGHIJKLMNOPQRSTUVWXYZabcdefghijklmnopqrstuvwxyz0123456789+/".
Definition b64_digit (n place : N) : char := nth (N.to_nat (n / place mod 64)) b64_alphabet 61%N.
Fixpoint b64 (bs : list N) : str :=
  match bs with
  | [] => []
  | [a] => let n := (65536 * a)%N in [b64_digit n 262144; b64_digit n 4096; 61%N; 61%N]
  | [a; b] => let n := (65536 * a + 256 * b)%N in [b64_digit n 262144; b64_digit n 4096; b64_digit n 64; 61%N]
  | a :: b :: c :: r =>
      let n := (65536 * a + 256 * b + c)%N in
      b64_digit n 262144 :: b64_digit n 4096 :: b64_digit n 64 :: b64_digit n 1 :: b64 r
  end.
(** Lines may be broken anywhere, and the signs at the end that stand for nothing may be missing. *)
Definition in_base64 (bs : list N) (t : str) : Prop :=
  exists missing, Forall (fun c => c = 61%N) missing /\ filter (fun c => negb (N.eqb c 10)) t ++ missing = b64 bs.
