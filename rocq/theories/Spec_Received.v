(** Vocabulary of the properties of parsed Received headers: C160-C169. *)
From Verif Require Import PyStr.
From Verif Require Model_Relays.

Definition no_blank (s : str) : Prop := forall c, In c s -> is_space c = false.
(** A word: at least one character, no blanks. *)
Definition word (s : str) : Prop := s <> [] /\ no_blank s.
(** [w] occurs in [h]. *)
Definition piece (w h : str) : Prop := exists x y, h = x ++ w ++ y.
(** A Received header that names its sender: "from" and a blank. *)
Definition from_header (raw : str) : Prop := exists c t, raw = $"from" ++ c :: t /\ is_space c = true.
(** The fields that are copied from the header. *)
Definition copied (r : Model_Relays.relay) : list str :=
  [Model_Relays.rl_rdns r; Model_Relays.rl_by r; Model_Relays.rl_helo r; Model_Relays.rl_ident r;
   Model_Relays.rl_id r; Model_Relays.rl_envfrom r].

(** A byte in decimal, an IPv4 address. *)
Definition byte_text (n : N) : str :=
  (if N.ltb n 10 then [48 + n]
   else if N.ltb n 100 then [48 + n / 10; 48 + n mod 10]
   else [48 + n / 100; 48 + n / 10 mod 10; 48 + n mod 10])%N.
Definition quad (a b c d : N) : str :=
  byte_text a ++ $"." ++ byte_text b ++ $"." ++ byte_text c ++ $"." ++ byte_text d.
Definition bytes (a b c d : N) : Prop := (a < 256 /\ b < 256 /\ c < 256 /\ d < 256)%N.
(** The networks that the parser takes for private ones: 10/8, 127/8, 169.254/16, 192.168/16
    and 100.64/10. *)
Definition taken_private (a b : N) : Prop :=
  (a = 10 \/ a = 127 \/ (a = 169 /\ b = 254) \/ (a = 192 /\ b = 168) \/ (a = 100 /\ 64 <= b <= 127))%N.

(** A host name: letters, digits, dots, hyphens and underscores. *)
Definition host_char (c : char) : Prop :=
  (48 <= c <= 57 \/ 65 <= c <= 90 \/ 97 <= c <= 122 \/ c = 45 \/ c = 46 \/ c = 95)%N.
Definition host_name (s : str) : Prop := s <> [] /\ forall c, In c s -> host_char c.
(** The words are separated by single spaces. *)
Definition tidy (h : str) : Prop :=
  (forall c, In c h -> is_space c = true -> c = 32%N) /\
  (forall x c d y, h = x ++ c :: d :: y -> is_space c = true -> is_space d = false).
(** None of these texts is in [h], whatever the case of its letters. *)
Definition without (marks : list str) (h : str) : Prop :=
  forall m x y, In m marks -> lower h <> x ++ m ++ y.
(** Texts that make the parser look for the HELO name elsewhere, or not list the header at all. *)
Definition helo_marks : list str := [$"(helo "; $"(ehlo "; $" helo "; $" ehlo "].
Definition skip_marks : list str := [$"with local"; $"fetchmail"].
(** What servers write when one takes over a message from another.
    Postfix, and Sendmail without an identification: from HELO (NAME [ADDRESS]) by SERVER REST *)
Definition handover (helo name address server rest : str) : str :=
  helo ++ $" (" ++ name ++ $" [" ++ address ++ $"]) by " ++ server ++ $" " ++ rest.
(** Exim: from NAME ([ADDRESS] helo=HELO) by SERVER REST *)
Definition handover_exim (helo name address server rest : str) : str :=
  name ++ $" ([" ++ address ++ $"] helo=" ++ helo ++ $") by " ++ server ++ $" " ++ rest.
(** A server that knows no name of the other one: from HELO ([ADDRESS]) by SERVER REST *)
Definition handover_bare (helo address server rest : str) : str :=
  helo ++ $" ([" ++ address ++ $"]) by " ++ server ++ $" " ++ rest.
(** The header of a hand-over: its text, and what follows the first semicolon (the date). *)
Definition received_header (h date : str) : str := $"from " ++ h ++ date.
Definition is_date (date : str) : Prop := date = [] \/ exists d, date = $";" ++ d.

(** Two headers that differ in the amount and kind of blanks only. *)
Inductive refolded : str -> str -> Prop :=
| refolded_nil : refolded [] []
| refolded_char c x y : is_space c = false -> refolded x y -> refolded (c :: x) (c :: y)
| refolded_blank b1 b2 x y : b1 <> [] -> b2 <> [] -> forallb is_space b1 = true -> forallb is_space b2 = true ->
    refolded x y -> refolded (b1 ++ x) (b2 ++ y).

(** [w] is the whole word that follows the last [mark] with a word after it. *)
Definition last_word (mark w h : str) : Prop :=
  exists pre post, h = pre ++ mark ++ w ++ post /\ word w /\ (post = [] \/ exists t, post = $" " ++ t) /\
    forall x c y, h = x ++ mark ++ c :: y -> is_space c = false -> length x <= length pre.
(** Protocols of authenticated submission, as in "with ESMTPSA". *)
Definition auth_methods : list str :=
  [$"ESMTPA"; $"ESMTPSA"; $"LMTPA"; $"LMTPSA"; $"UTF8SMTPA"; $"UTF8SMTPSA"; $"UTF8LMTPA"; $"UTF8LMTPSA";
   $"ASMTP"; $"HTTP"; $"HTTPU"].
(** Texts that mark a header as authenticated. *)
Definition auth_marks : list str :=
  map (fun m => $" with " ++ lower m) auth_methods ++
  [$"authenticated"; $" by mx.google.com with esmtps id "; $" by mail.gmx.net ("; $" by mail.gmx.com ("; $" (account "].
(** Texts before an envelope sender. *)
Definition sender_marks : list str :=
  [$"return-path "; $"return-path: "; $"envelope-sender "; $"envelope-sender="; $"envelope-from "; $"envelope-from="].
Definition ascii_alnum (c : char) : Prop := (48 <= c <= 57 \/ 65 <= c <= 90 \/ 97 <= c <= 122)%N.
(** The header states the envelope sender [a] in angle brackets, and no other one before it. *)
Definition states_sender (a h : str) : Prop :=
  exists pre mark tail rest, h = pre ++ mark ++ $"<" ++ a ++ $">" ++ tail ++ rest /\ In mark sender_marks /\
    (forall c, In c tail -> In c ($")].,")) /\ (rest = [] \/ exists t, rest = $" " ++ t) /\
    no_blank a /\ (exists x c, a = x ++ [c] /\ ascii_alnum c) /\ (forall c, In c ($"<>[]") -> ~ In c a) /\
    forall m x y, In m [$"return-path"; $"envelope-sender"; $"envelope-from"] -> h = x ++ m ++ y -> length pre <= length x.
