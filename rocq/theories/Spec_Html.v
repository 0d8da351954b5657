(** What the properties about HTML parts talk about. *)
From Verif Require Import PyStr PyDict Model_Headers Spec_Headers Model_Load Spec_Load.

(** The texts stand in [s] in this order, without overlapping. *)
Inductive in_order : list str -> str -> Prop :=
| none_left s : in_order [] s
| next_one x c l r : in_order l r -> in_order (c :: l) (x ++ c ++ r).

Definition is_letter (c : char) : Prop := (65 <= c <= 90 \/ 97 <= c <= 122)%N.
Definition is_digit (c : char) : Prop := (48 <= c <= 57)%N.
Definition is_hex (c : char) : Prop := (is_digit c \/ 65 <= c <= 70 \/ 97 <= c <= 102)%N.
(** A name: a letter, then letters and digits. *)
Definition a_name (n : str) : Prop := exists c r, n = c :: r /\ is_letter c /\ Forall (fun d => is_letter d \/ is_digit d) r.

(** The value of an attribute: in quotes of one kind or the other, or none. *)
Inductive value := NoValue | Quoted (q : char) (v : str).
(** Markup: a tag with attributes, one that ends an element, a comment, a character by its name or
    number, a script or style with all that is in it. *)
Inductive markup :=
| Tag (name : str) (attrs : list (str * value)) (close : str)
| EndTag (name : str)
| Comment (c : str)
| Entity (name : str)
| CharRef (digits : str)
| HexRef (x : char) (digits : str)
| Program (name : str) (attrs : list (str * value)) (code last : str).
Definition programs : list str := [$"script"; $"style"].
Definition value_text (v : value) : str := match v with NoValue => [] | Quoted q v => $"=" ++ [q] ++ v ++ [q] end.
Definition attr_text (a : str * value) : str := $" " ++ fst a ++ value_text (snd a).
Definition tag_text (name : str) (attrs : list (str * value)) (close : str) : str :=
  $"<" ++ name ++ flat_map attr_text attrs ++ close.
Definition written_markup (m : markup) : str :=
  match m with
  | Tag n a c => tag_text n a c
  | EndTag n => $"</" ++ n ++ $">"
  | Comment c => $"<!--" ++ c ++ $"-->"
  | Entity n => $"&" ++ n ++ $";"
  | CharRef d => $"&#" ++ d ++ $";"
  | HexRef x d => $"&#" ++ x :: d ++ $";"
  | Program n a code last => tag_text n a ($">") ++ code ++ $"</" ++ last ++ $">"
  end.
Definition a_value (v : value) : Prop := match v with NoValue => True | Quoted q v => In q [34; 39]%N /\ ~ In q v end.
Definition an_attr (a : str * value) : Prop := a_name (fst a) /\ a_value (snd a).
Definition proper_markup (m : markup) : Prop :=
  match m with
  | Tag n a c => a_name n /\ Forall an_attr a /\ (In c [$"/>"; $" />"] \/ c = $">" /\ ~ In (lower n) programs)
  | EndTag n => a_name n
  | Comment c => ~ exists x w y, c = x ++ $"--" ++ w ++ $">" ++ y /\ forallb is_space w = true
  | Entity n => a_name n
  | CharRef d => d <> [] /\ Forall is_digit d
  | HexRef x d => (x = 120%N \/ x = 88%N) /\ d <> [] /\ Forall is_hex d
  | Program n a code last => a_name n /\ In (lower n) programs /\ Forall an_attr a /\ ~ In 60%N code /\ lower last = lower n
  end.
(** A document: texts with markup between them. *)
Definition document := (list (str * markup) * str)%type.
Definition plain_text (t : str) : Prop := ~ In 60%N t /\ ~ In 38%N t.
Definition written_part (p : str * markup) : str := fst p ++ written_markup (snd p).
Definition written (d : document) : str := flat_map written_part (fst d) ++ snd d.
Definition proper_part (p : str * markup) : Prop := plain_text (fst p) /\ proper_markup (snd p).
Definition proper (d : document) : Prop := Forall proper_part (fst d) /\ plain_text (snd d).
(** What there is to read, and the texts of programs and styles. *)
Definition some_text (t : str) : list str := match t with [] => [] | _ => [t] end.
Definition code_of (m : markup) : list str := match m with Program _ _ c _ => some_text c | _ => [] end.
Definition shown_part (p : str * markup) : list str := some_text (fst p) ++ code_of (snd p).
Definition shown (d : document) : list str := flat_map shown_part (fst d) ++ some_text (snd d).

(** ** Markup that does not come to an end *)
Definition ends_comment (y : str) : Prop := exists x w z, y = x ++ $"--" ++ w ++ $">" ++ z /\ forallb is_space w = true.
Inductive unfinished : str -> Prop :=
| open_comment y : ~ ends_comment y -> unfinished ($"<!--" ++ y)
| open_end_tag y : ~ In 62%N y -> unfinished ($"</" ++ y)
| open_instruction y : ~ In 62%N y -> unfinished ($"<?" ++ y)
| open_declaration c y : ~ In c [45; 91]%N -> ~ In 62%N (c :: y) -> unfinished ($"<!" ++ c :: y)
| open_program n a code : a_name n -> In (lower n) programs -> Forall an_attr a -> ~ In 60%N code -> unfinished (tag_text n a ($">") ++ code)
| open_entity n : a_name n -> unfinished ($"&" ++ n)
| open_number c y : ~ is_digit c -> ~ In c [120; 88]%N -> ~ In 59%N (c :: y) -> unfinished ($"&#" ++ c :: y).
(** The beginning of a marked section with another name than those the parser knows. *)
Definition section_names : list str := [$"temp"; $"cdata"; $"ignore"; $"include"; $"rcdata"; $"if"; $"else"; $"endif"].
Inductive bad_section : str -> Prop :=
| no_name c y : ~ is_letter c -> bad_section ($"<![" ++ c :: y)
| other_name n y : a_name n -> ~ In (lower n) section_names -> bad_section ($"<![" ++ n ++ $"[" ++ y).

(** [p] is an HTML part whose text, on one line, is [line], and it has no subject. *)
Definition html_message (codec : str -> bool -> list N -> option str) (p : part) (line : str) : Prop :=
  values_of ($"Subject") (p_headers p) = [] /\ p_main p = $"text" /\ p_sub p = $"html" /\ exists t, payload codec p = Ok t /\ one_line t line.
