(** Mails as they are composed: what the properties about the splitting of messages talk about. *)
From Verif Require Import PyStr.

(** ** Heads *)
(** A field: a name, and the rows of its value. *)
Record field := mkField { f_name : str; f_first : str; f_more : list str }.
(** A content type with its parameters. *)
Record ctype := mkType { t_main : str; t_sub : str; t_params : list (str * str) }.
(** The head of a mail: fields, the content type, if it is declared, and more fields. *)
Record head := mkHead { h_above : list field; h_type : option ctype; h_below : list field }.

Definition value_text (f : field) : str := join [10%N] (f_first f :: f_more f).
Definition field_text (f : field) : str := f_name f ++ $": " ++ value_text f ++ [10%N].
Definition type_text (t : ctype) : str :=
  t_main t ++ $"/" ++ t_sub t ++ flat_map (fun p => $"; " ++ fst p ++ $"=""" ++ snd p ++ $"""") (t_params t).
Definition type_field (t : ctype) : field := mkField ($"Content-Type") (type_text t) [].
Definition all_fields (h : head) : list field := h_above h ++ match h_type h with Some t => [type_field t] | None => [] end ++ h_below h.
Definition head_text (h : head) : str := flat_map field_text (all_fields h) ++ [10%N].
(** What a reader should know of a head: names with values, the kinds, the value of a parameter. *)
Definition fields_of (h : head) : list (str * str) := map (fun f => (f_name f, value_text f)) (all_fields h).
Definition main_of (h : head) : str := match h_type h with Some t => lower (t_main t) | None => $"text" end.
Definition sub_of (h : head) : str := match h_type h with Some t => lower (t_sub t) | None => $"plain" end.
Fixpoint param (name : str) (l : list (str * str)) : option str :=
  match l with
  | [] => None
  | (n, v) :: r => if streqb (lower n) name then Some v else param name r
  end.
Definition param_of_head (name : str) (h : head) : option str := match h_type h with Some t => param name (t_params t) | None => None end.

(** ** Mails *)
Inductive mail :=
| One (h : head) (text : str)                                                     (** a text, picture, ... *)
| Several (h : head) (preamble : list str) (parts : list mail) (epilogue : str)   (** a multipart *)
| Inside (h : head) (m : mail).                                                   (** a mail in a mail *)
Definition head_of (m : mail) : head := match m with One h _ | Several h _ _ _ | Inside h _ => h end.
Definition boundary (h : head) : str := match param_of_head ($"boundary") h with Some b => b | None => [] end.
Fixpoint mail_text (m : mail) : str :=
  match m with
  | One h t => head_text h ++ t
  | Several h pre ps epi =>
      head_text h ++ flat_map (fun r => r ++ [10%N]) pre ++
      flat_map (fun p => $"--" ++ boundary h ++ [10%N] ++ mail_text p ++ [10%N]) ps ++
      $"--" ++ boundary h ++ $"--" ++ [10%N] ++ epi
  | Inside h m => head_text h ++ mail_text m
  end.
(** The mail, and all parts in it, each before those in it: their heads, and their texts, if they
    are no containers. *)
Fixpoint contents (m : mail) : list (head * option str) :=
  match m with
  | One h t => [(h, Some t)]
  | Several h _ ps _ => (h, None) :: flat_map contents ps
  | Inside h m => (h, None) :: contents m
  end.

(** The charset and the transfer encoding that a head declares *)
Definition charset_of (h : head) : option str := option_map lower (param_of_head ($"charset") h).
Definition transfer_of (h : head) : str :=
  match filter (fun f => streqb (lower (f_name f)) ($"content-transfer-encoding")) (all_fields h) with
  | f :: _ => lower (value_text f)
  | [] => []
  end.
(** The text parts *)
Definition texts_of (m : mail) : list (head * str) :=
  flat_map (fun x => match snd x with
                     | Some t => if streqb (main_of (fst x)) ($"text") then [(fst x, t)] else []
                     | None => []
                     end) (contents m).

(** ** Proper mails *)
Definition one_row (s : str) : Prop := ~ In 10%N s /\ ~ In 13%N s.
Definition begins_blank (s : str) : Prop := exists r, s = 32%N :: r \/ s = 9%N :: r.
(** RFC 5322: printable characters except colon and blank *)
Definition a_field_name (n : str) : Prop := n <> [] /\ Forall (fun c => (33 <= c)%N /\ (c <= 126)%N /\ c <> 58%N) n.
Definition proper_field (f : field) : Prop :=
  a_field_name (f_name f) /\ lower (f_name f) <> $"content-type" /\
  one_row (f_first f) /\ ~ begins_blank (f_first f) /\ Forall (fun r => one_row r /\ begins_blank r) (f_more f).
(** Letters, digits and + - . *)
Definition token_char (c : char) : Prop :=
  (48 <= c /\ c <= 57)%N \/ (65 <= c /\ c <= 90)%N \/ (97 <= c /\ c <= 122)%N \/ In c [43; 45; 46; 95]%N.
Definition token (s : str) : Prop := s <> [] /\ Forall token_char s.
Definition proper_type (t : ctype) : Prop :=
  token (t_main t) /\ token (t_sub t) /\
  Forall (fun p => token (fst p) /\ one_row (snd p) /\ ~ In 34%N (snd p) /\ ~ In 92%N (snd p) /\ Forall (fun c => (c < 128)%N) (snd p)) (t_params t).
Definition proper_head (h : head) : Prop :=
  Forall proper_field (h_above h) /\ Forall proper_field (h_below h) /\ match h_type h with Some t => proper_type t | None => True end.
(** RFC 2046: the characters of a boundary; it does not end in a blank *)
Definition boundary_char (c : char) : Prop :=
  (48 <= c /\ c <= 57)%N \/ (65 <= c /\ c <= 90)%N \/ (97 <= c /\ c <= 122)%N \/ In c ($"'()+_,-./:=? ").
Definition a_boundary (b : str) : Prop := Forall boundary_char b /\ exists r c, b = r ++ [c] /\ c <> 32%N.
(** A row that separates the parts or ends them, for a reader who knows the boundary *)
Definition separates (b row : str) : Prop :=
  exists e w, (e = [] \/ e = $"--") /\ Forall (fun c => c = 32%N \/ c = 9%N) w /\ row = $"--" ++ b ++ e ++ w.
Definition rows (s : str) : list str := split_char 10%N s.
Fixpoint proper_mail (m : mail) : Prop :=
  proper_head (head_of m) /\
  match m with
  | One h t => ~ In (main_of h) [$"multipart"; $"message"] /\ ~ In 13%N t
  | Several h pre ps epi =>
      main_of h = $"multipart" /\ sub_of h <> $"digest" /\ a_boundary (boundary h) /\ ps <> [] /\
      Forall (fun r => one_row r /\ ~ separates (boundary h) r) pre /\
      (fix all (l : list mail) : Prop :=
         match l with
         | [] => True
         | p :: r => proper_mail p /\ (forall row, In row (rows (mail_text p)) -> ~ separates (boundary h) row) /\ all r
         end) ps /\ ~ In 13%N epi
  | Inside h m => main_of h = $"message" /\ sub_of h <> $"delivery-status" /\ proper_mail m
  end.

(** ** Any text *)
(** [a] is [b] with some elements left out. *)
Inductive from {A : Type} : list A -> list A -> Prop :=
| from_nothing : from [] []
| from_without x a b : from a b -> from a (x :: b)
| from_with x a b : from a b -> from (x :: a) (x :: b).
(** The rows of a text that are not empty *)
Definition filled_rows (s : str) : list str := filter (fun r => match r with [] => false | _ => true end) (rows s).
(** A row that can be part of a head: it begins with a blank, with "From " or with what could be
    the name of a field. *)
Definition head_row (row : str) : Prop :=
  begins_blank row \/ (exists r, row = $"From " ++ r) \/
  exists n r, row = n ++ $":" ++ r /\ Forall (fun c => (33 <= c)%N /\ (c <= 126)%N /\ c <> 58%N) n.
