(** Vocabulary for the header properties (C13, C51, C52, C54, C56, C57). *)
From Verif Require Import PyStr PyDict Model_Rules Model_Headers.

(** Names are compared ignoring (ASCII) case. *)
Definition same_name (a b : str) : bool := streqb (lower a) (lower b).
(** The values of all fields called [k], in order. *)
Definition values_of (k : str) (fields : list (str * str)) : list str :=
  map snd (filter (fun f => same_name k (fst f)) fields).

(** A freshly parsed message: nothing cached. *)
Definition fresh_h (fields : list (str * str)) : hmsg := mkH (raw_of fields) [].

(** A sequence of header lookups. *)
Fixpoint lookups (decode : str -> option str) (ks : list str) (m : hmsg) : hmsg :=
  match ks with
  | [] => m
  | k :: ks' => lookups decode ks' (snd (get_decoded decode k m))
  end.

(** A text as lines, each with its line ending. *)
Inductive eol := LF | CRLF | CR.
Definition eol_text (e : eol) : str := match e with LF => [10%N] | CRLF => [13%N; 10%N] | CR => [13%N] end.
Definition clean_line (l : str) : Prop := ~ In 10%N l /\ ~ In 13%N l.
Fixpoint text_of (lines : list (str * eol)) (tail : str) : str :=
  match lines with
  | [] => tail
  | (l, e) :: rest => l ++ eol_text e ++ text_of rest tail
  end.
(** A carriage return ending is not directly followed by an empty line ended by
    a line feed (that would spell a single CRLF). *)
Fixpoint unambiguous (lines : list (str * eol)) : Prop :=
  match lines with
  | [] => True
  | (_, e) :: rest =>
      (e = CR -> match rest with ([], LF) :: _ => False | _ => True end) /\ unambiguous rest
  end.
(** The same lines with line feeds. *)
Definition with_lf (lines : list (str * eol)) : list (str * eol) := map (fun p => (fst p, LF)) lines.

(** Rule text of a header test: name, operator, pattern, with blanks around the
    name.  Names are plain: no colon and no tilde, not blank-padded, and not one
    of the three special names. *)
Definition blank (s : str) : Prop := forallb is_space s = true.
Definition plain_name (n : str) : Prop :=
  n <> [] /\ strip n = n /\ ~ In 126%N n /\ ~ In 58%N n /\
  n <> $"ALL" /\ n <> $"ToCc" /\ n <> $"MESSAGEID".
