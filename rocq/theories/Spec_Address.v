(** Vocabulary for the properties of address headers (C231 onwards): addresses as people write them.  Nothing here
    refers to the parser. *)
From Verif Require Import PyStr.

(** A word of a name: as it is, or between quotes. *)
Inductive word := Atom (t : str) | Quoted (t : str).
(** An address: the part before the at sign, and the domain. *)
Record address := Addr { local : word; domain : str }.
(** One entry: an address alone, with a remark in brackets after it, or after a name and in angle brackets. *)
Inductive mailbox :=
| Plain (a : address)
| Remarked (a : address) (remark : str)
| Named (first : word) (more : list word) (a : address).
(** A header holds entries and groups of entries, separated by commas. *)
Inductive entry :=
| One (m : mailbox)
| Group (first : word) (more : list word) (members : list mailbox).

(** How these are written. *)
Definition escaped (t : str) : str := flat_map (fun c => if N.eqb c 34 || N.eqb c 92 then [92%N; c] else [c]) t.
Definition word_text (w : word) : str :=
  match w with Atom t => t | Quoted t => [34%N] ++ escaped t ++ [34%N] end.
Definition address_text (a : address) : str := word_text (local a) ++ $"@" ++ domain a.
Definition words_text (first : word) (more : list word) : str := join ($" ") (map word_text (first :: more)).
Definition mailbox_text (m : mailbox) : str :=
  match m with
  | Plain a => address_text a
  | Remarked a r => address_text a ++ $" (" ++ r ++ $")"
  | Named w ws a => words_text w ws ++ $" <" ++ address_text a ++ $">"
  end.
Definition entry_text (e : entry) : str :=
  match e with
  | One m => mailbox_text m
  | Group w ws ms => words_text w ws ++ $": " ++ join ($", ") (map mailbox_text ms) ++ $";"
  end.
Definition header_text (es : list entry) : str := join ($", ") (map entry_text es).

(** What a reader takes from them. *)
Definition word_meaning (w : word) : str := match w with Atom t => t | Quoted t => t end.
Definition mailbox_address (m : mailbox) : str :=
  match m with Plain a => address_text a | Remarked a _ => address_text a | Named _ _ a => address_text a end.
Definition mailbox_name (m : mailbox) : str :=
  match m with
  | Plain _ => []
  | Remarked _ r => r
  | Named w ws _ => join ($" ") (map word_meaning (w :: ws))
  end.
Definition mailboxes (e : entry) : list mailbox := match e with One m => [m] | Group _ _ ms => ms end.

(** Which characters may be written as they are: no blanks and none of the characters with a meaning. *)
Definition ordinary (c : char) : Prop := is_space c = false /\ ~ In c ($"()<>@,:;""\[]").
Definition good_atom (t : str) : Prop := t <> [] /\ Forall ordinary t.
(** Between quotes anything but a carriage return; in the address no opening bracket either. *)
Definition good_word (w : word) : Prop :=
  match w with Atom t => good_atom t | Quoted t => ~ In 13%N t end.
Definition good_address (a : address) : Prop :=
  match local a with Atom t => good_atom t | Quoted t => ~ In 13%N t /\ ~ In 91%N t end /\ good_atom (domain a).
(** In a remark no brackets, commas, quotes, backslashes and carriage returns. *)
Definition good_remark (r : str) : Prop := forall c, In c r -> ~ In c ($"(),""\" ++ [13%N]).
Definition good_mailbox (m : mailbox) : Prop :=
  match m with
  | Plain a => good_address a
  | Remarked a r => good_address a /\ good_remark r
  | Named w ws a => good_word w /\ Forall good_word ws /\ good_address a
  end.
Definition good_entry (e : entry) : Prop :=
  match e with
  | One m => good_mailbox m
  | Group w ws ms => good_word w /\ Forall good_word ws /\ Forall good_mailbox ms
  end.

(** One text is what remains of another when characters are left out. *)
Inductive subsequence : str -> str -> Prop :=
| sub_nil : forall s, subsequence [] s
| sub_take : forall c a s, subsequence a s -> subsequence (c :: a) (c :: s)
| sub_skip : forall c a s, subsequence a s -> subsequence a (c :: s).
(** A text without quotes, backslashes and square brackets. *)
Definition without_marks (t : str) : str := filter (fun c => negb (mem_char c ($"""\[]"))) t.
(** How many opening brackets and colons a text has. *)
Definition openings (t : str) : nat := length (filter (fun c => N.eqb c 40 || N.eqb c 58) t).

(** The addresses and the names a header shows, in order. *)
Definition addresses_in (es : list entry) : list str := map mailbox_address (flat_map mailboxes es).
Definition names_in (es : list entry) : list str :=
  filter (fun t => match t with [] => false | _ => true end) (map mailbox_name (flat_map mailboxes es)).
(** An address header as people write it. *)
Definition well_written (es : list entry) : Prop := es <> [] /\ Forall good_entry es.
(** Header values that show these entries. *)
Definition show (decode : str -> option str) (values : list str) (ess : list (list entry)) : Prop :=
  map decode values = map (fun es => Some (header_text es)) ess /\ Forall well_written ess.
(** An address put where a name belongs. *)
Definition spoof (shown real : address) : str := address_text shown ++ $" <" ++ address_text real ++ $">".
