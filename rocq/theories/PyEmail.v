(** How Python's [email] package (CPython 3.11, policy [compat32]) splits the text of a message into
    parts: [email.message_from_string], i.e. email/feedparser.py, and the methods of email/message.py
    and email/utils.py that it needs.  Definitions only.
    Library file: the semantics of the standard library, not of code in /repo.
    The text has no carriage returns (oa/message.py:174-178 takes them out).  Left out: defects,
    preamble, epilogue and envelope line, which nothing here reads; feeding in pieces. *)
From Verif Require Import PyStr PyDict PyMime.

(** ** Lines *)
(** [StringIO.readlines()]: lines with their line feeds *)
Fixpoint lines (s : str) : list str :=
  match s with
  | [] => []
  | c :: r => if N.eqb c 10 then [c] :: lines r
              else match lines r with [] => [[c]] | l :: ls => (c :: l) :: ls end
  end.
Definition blank (c : char) : bool := N.eqb c 32 || N.eqb c 9.
(** [headerRE]: "From ", a name without blanks and a colon, or a blank at the beginning *)
Definition ftext (c : char) : bool := (N.leb 33 c && N.leb c 57) || (N.leb 59 c && N.leb c 126).
Fixpoint name_colon (s : str) : bool :=
  match s with
  | c :: r => if N.eqb c 58 then true else ftext c && name_colon r
  | [] => false
  end.
Definition indented (line : str) : bool := match line with c :: _ => blank c | [] => false end.
Definition header_line (line : str) : bool := startswith ($"From ") line || name_colon line || indented line.
(** [NLCRE.match] and what [NLCRE_eol] leaves *)
Definition empty_line (line : str) : bool := match line with c :: _ => N.eqb c 10 | [] => false end.
Definition chomp (s : str) : str := if endswith [10%N] s then removelast s else s.
(** [boundaryre]: is the line a separator, and is it the last one? *)
Definition separator_line (sep line : str) : option bool :=
  if startswith sep line then
    let r := chomp (skipn (length sep) line) in
    if startswith ($"--") r && forallb blank (skipn 2 r) then Some true
    else if forallb blank r then Some false
    else None
  else None.

(** ** [BufferedSubFile]: the tests for the end, and reading.  An empty text among the lines is one
    that was read at the end and put back. *)
Inductive matcher := AtEmpty | AtSeparator (sep : str).
Definition matches (line : str) (m : matcher) : bool :=
  match m with
  | AtEmpty => empty_line line
  | AtSeparator sep => match separator_line sep line with Some _ => true | None => false end
  end.
Definition stops (st : list matcher) (line : str) : bool := existsb (matches line) st.
Definition readline (st : list matcher) (ls : list str) : str * list str :=
  match ls with
  | [] => ([], [])
  | l :: r => if stops st l then ([], ls) else (l, r)
  end.
(** [for line in self._input] *)
Fixpoint read_all (st : list matcher) (ls : list str) : list str * list str :=
  match ls with
  | [] => ([], [])
  | l :: r => if stops st l then ([], ls)
              else match l with
                   | [] => ([], r)
                   | _ => let '(a, b) := read_all st r in (l :: a, b)
                   end
  end.
(** The lines of the header, and what is left *)
Fixpoint read_headers (st : list matcher) (ls : list str) : list str * list str :=
  match ls with
  | [] => ([], [])
  | l :: r => if stops st l then ([], ls)
              else match l with
                   | [] => ([], r)
                   | _ => if header_line l then let '(a, b) := read_headers st r in (l :: a, b)
                          else ([], if empty_line l then r else ls)
                   end
  end.

(** ** [_parse_headers] *)
(** [header_source_parse]: name and value of the lines of one field *)
Definition field_of (ls : list str) : list (str * str) :=
  match ls with
  | [] => []
  | l :: more =>
      match split1 58%N l with
      | Some (n, v) => [(n, rstrip_chars [13; 10]%N (lstrip_chars [32; 9]%N v ++ concat more))]
      | None => []
      end
  end.
(** The fields, and a line that is put back. [first]: at the first line; [cur]: the lines of the
    field that is being read. *)
Fixpoint parse_headers (first : bool) (cur ls : list str) : list (str * str) * list str :=
  match ls with
  | [] => (field_of cur, [])
  | l :: r =>
      if indented l then parse_headers false (match cur with [] => [] | _ => cur ++ [l] end) r
      else
        let go c := let '(a, b) := parse_headers false c r in (field_of cur ++ a, b) in
        if startswith ($"From ") l then
          match first, r with
          | false, [] => (field_of cur, [l])
          | _, _ => go []
          end
        else if startswith ($":") l then go []
        else go [l]
  end.
(** [Message.get] *)
Fixpoint get (name : str) (hs : list (str * str)) : option str :=
  match hs with
  | [] => None
  | (k, v) :: r => if streqb (lower k) (lower name) then Some v else get name r
  end.

(** ** Content types *)
(** [get_content_type], [get_content_maintype], [get_content_subtype] *)
Definition before (c : char) (s : str) : str := match split1 c s with Some (a, _) => a | None => s end.
Definition content_type (default : str) (hs : list (str * str)) : str :=
  match get ($"content-type") hs with
  | None => default
  | Some v => let t := lower (strip (before 59%N v)) in
              if Nat.eqb (count_char 47%N t) 1 then t else $"text/plain"
  end.
Definition maintype (t : str) : str := before 47%N t.
Definition subtype (t : str) : str := match split1 47%N t with Some (_, b) => b | None => [] end.

(** ** Parameters *)
(** [_parseparam]: the text up to a semicolon that is not in quotes, and the rest *)
Fixpoint param_end (escaped quoted : bool) (s : str) : str * str :=
  match s with
  | [] => ([], [])
  | c :: r => if N.eqb c 59 && negb quoted then ([], s)
              else let '(a, b) := param_end (N.eqb c 92) (if N.eqb c 34 && negb escaped then negb quoted else quoted) r in (c :: a, b)
  end.
Fixpoint params_from (fuel : nat) (s : str) : list str :=
  match fuel with
  | O => []
  | S f => let '(a, b) := param_end false false s in
           a :: match b with [] => [] | _ :: r => params_from f r end
  end.
(** Name and value: [_parseparam] and [_get_params_preserve] *)
Definition param_of (f : str) : str * str :=
  match split1 61%N f with
  | Some (n, v) => (strip (lower (strip n)), strip (strip v))
  | None => (strip f, [])
  end.
Definition raw_params (v : str) : list (str * str) := map param_of (params_from (S (length v)) v).
(** [utils.unquote] and [utils.quote] *)
Definition bracketed (a b : char) (s : str) : option str :=
  match s with
  | c :: (_ :: _) as r => if N.eqb c a && endswith [b] r then Some (removelast (tl s)) else None
  | _ => None
  end.
Definition unquote (s : str) : str :=
  match bracketed 34%N 34%N s with
  | Some t => replace [92; 34]%N [34%N] (replace [92; 92]%N [92%N] t)
  | None => match bracketed 60%N 62%N s with Some t => t | None => s end
  end.
Definition quote (s : str) : str := replace [34%N] [92; 34]%N (replace [92%N] [92; 92]%N s).
Definition in_quotes (s : str) : str := 34%N :: s ++ [34%N].
(** [rfc2231_continuation]: the name and the number, if there is one *)
Definition word_char (c : char) : bool := is_digit c || (N.leb 65 c && N.leb c 90) || (N.leb 97 c && N.leb c 122) || N.eqb c 95.
Definition number (s : str) : option N :=
  match s with
  | [] => None
  | _ => if forallb is_digit s then Some (fold_left (fun n c => 10 * n + (c - 48))%N s 0%N) else None
  end.
Definition continuation (name : str) : option (str * option N) :=
  match split1 42%N name with
  | Some (n, r) =>
      if forallb word_char n && negb (match n with [] => true | _ => false end) then
        match r with
        | [] => Some (n, None)
        | _ => match number (if endswith [42%N] r then removelast r else r) with
               | Some k => Some (n, Some k)
               | None => None
               end
        end
      else None
  | None => None
  end.
(** A section of a parameter: its number, its text, whether it is encoded.  [list.sort] of these;
    [None]: [TypeError], a number is compared with [None]. *)
Definition section := (option N * str * bool)%type.
Fixpoint str_le (a b : str) : bool :=
  match a, b with
  | [], _ => true
  | _, [] => false
  | c :: r, d :: t => if N.eqb c d then str_le r t else N.ltb c d
  end.
Definition section_le (x y : section) : bool :=
  let '(n, s, e) := x in let '(m, t, g) := y in
  let k z := match z with Some i => i | None => 0%N end in
  if N.eqb (k n) (k m) then (if streqb s t then negb e || g else str_le s t) else N.ltb (k n) (k m).
Fixpoint insert (x : section) (l : list section) : list section :=
  match l with
  | [] => [x]
  | y :: r => if section_le x y then x :: l else y :: insert x r
  end.
Definition numbered (x : section) : bool := match fst (fst x) with Some _ => true | None => false end.
Definition sort (l : list section) : option (list section) :=
  if forallb numbered l || forallb (fun x => negb (numbered x)) l then Some (fold_right insert [] l) else None.
(** [urllib.parse.unquote] with the encoding latin-1 *)
Fixpoint percent (s : str) : str :=
  match s with
  | [] => []
  | c :: r =>
      match N.eqb c 37, r with
      | true, a :: b :: t => match hex_value a, hex_value b with
                             | Some x, Some y => (16 * x + y)%N :: percent t
                             | _, _ => c :: percent r
                             end
      | _, _ => c :: percent r
      end
  end.
(** A value: a text, or a text with the name of its charset, if it has one *)
Inductive value := Plain (v : str) | Extended (charset : option str) (v : str).
Definition assembled (l : list section) : value :=
  let text := quote (concat (map (fun x => if snd x : bool then percent (snd (fst x)) else snd (fst x)) l)) in
  if existsb snd l then
    match split1 39%N text with
    | Some (cs, r) => match split1 39%N r with
                      | Some (_, t) => Extended (Some cs) (in_quotes t)
                      | None => Extended None (in_quotes text)
                      end
    | None => Extended None (in_quotes text)
    end
  else Plain (in_quotes text).
Definition add_section (n : str) (x : section) (d : dict (list section)) : dict (list section) :=
  dset n (match dget n d with Some l => l ++ [x] | None => [x] end) d.
Fixpoint sections (ps : list (str * str)) (d : dict (list section)) : dict (list section) :=
  match ps with
  | [] => d
  | (n, v) :: r => sections r (match continuation n with
                               | Some (m, k) => add_section m (k, unquote v, endswith [42%N] n) d
                               | None => d
                               end)
  end.
Fixpoint assemble_all (d : dict (list section)) : option (list (str * value)) :=
  match d with
  | [] => Some []
  | (n, l) :: r => match sort l, assemble_all r with
                   | Some s, Some t => Some ((n, assembled s) :: t)
                   | _, _ => None
                   end
  end.
(** [utils.decode_params] *)
Definition decode_params (ps : list (str * str)) : option (list (str * value)) :=
  match ps with
  | [] => Some []
  | (n, v) :: r =>
      option_map (fun more =>
        (n, Plain v) :: flat_map (fun p => match continuation (fst p) with Some _ => [] | None => [(fst p, Plain (in_quotes (quote (unquote (snd p)))))] end) r ++ more)
        (assemble_all (sections r []))
  end.
(** [get_param]: [None]: it raises; [Some None]: there is no such parameter *)
Fixpoint find_param (name : str) (l : list (str * value)) : option value :=
  match l with
  | [] => None
  | (k, v) :: r => if streqb (lower k) name then Some (match v with Plain t => Plain (unquote t) | Extended c t => Extended c (unquote t) end)
                   else find_param name r
  end.
Definition get_param (name : str) (hs : list (str * str)) : option (option value) :=
  match get ($"content-type") hs with
  | None => Some None
  | Some v => option_map (find_param name) (decode_params (raw_params v))
  end.

Section Codecs.
(** [str(bytes, name, errors)]: the name, whether errors are "strict" (otherwise "replace"), the
    bytes.  [None]: it raises another error than [LookupError] and, if strict, [UnicodeError];
    [Some None]: one of these. *)
Variable decode : str -> bool -> list N -> option (option str).

(** [get_boundary], with [utils.collapse_rfc2231_value] *)
Definition get_boundary (hs : list (str * str)) : option (option str) :=
  match get_param ($"boundary") hs with
  | None => None
  | Some None => Some None
  | Some (Some (Plain t)) => Some (Some (rstrip_p is_space (unquote t)))
  | Some (Some (Extended cs t)) =>
      match decode (match cs with Some c => c | None => $"us-ascii" end) false (raw_unicode_escape t) with
      | None => None
      | Some (Some u) => Some (Some (rstrip_p is_space u))
      | Some None => Some (Some (rstrip_p is_space (unquote t)))
      end
  end.
(** [get_content_charset] *)
Definition ascii (s : str) : bool := forallb (fun c => N.ltb c 128) s.
Definition get_content_charset (hs : list (str * str)) : option (option str) :=
  let named t := Some (if ascii t then Some (lower t) else None) in
  match get_param ($"charset") hs with
  | None => None
  | Some None => Some None
  | Some (Some (Plain t)) => named t
  | Some (Some (Extended cs t)) =>
      match decode (match cs with Some (_ :: _ as c) => c | _ => $"us-ascii" end) true (raw_unicode_escape t) with
      | None => None
      | Some (Some u) => named u
      | Some None => named t
      end
  end.

(** ** [_parsegen] *)
(** A message: its default type, its fields, and its text or the messages inside it. *)
Inductive message := Message (default : str) (fields : list (str * str)) (payload : str + list message).
Definition type_of (m : message) : str := let '(Message d hs _) := m in content_type d hs.
(** The line feed before a separator belongs to the separator: it is taken from the message that
    was made last, or from the epilogue, if that is a multipart. *)
Fixpoint chomp_last (m : message) : message :=
  let '(Message d hs p) := m in
  if streqb (maintype (content_type d hs)) ($"multipart") then m
  else match p with
       | inl t => Message d hs (inl (chomp t))
       | inr l => Message d hs (inr ((fix last (l : list message) : list message :=
                                        match l with
                                        | [] => []
                                        | [x] => [chomp_last x]
                                        | x :: r => x :: last r
                                        end) l))
       end.
(** [Got]: what was made, and the lines that are left *)
Inductive result (A : Type) := Got (a : A) (rest : list str) | Raised | NoFuel.
Arguments Got {A}. Arguments Raised {A}. Arguments NoFuel {A}.
(** Further separators after the first; at the end, the empty text that was read is put back. *)
Fixpoint skip_separators (sep : str) (st : list matcher) (ls : list str) : list str :=
  match ls with
  | [] => [[]]
  | l :: r => if stops st l then [] :: ls
              else match separator_line sep l with Some _ => skip_separators sep st r | None => ls end
  end.
(** The lines before the first separator, whether there is one that does not end the multipart,
    and the lines after it *)
Fixpoint find_first (sep : str) (st : list matcher) (ls : list str) : list str * bool * list str :=
  match ls with
  | [] => ([], false, [])
  | l :: r => if stops st l then ([], false, ls)
              else match l, separator_line sep l with
                   | [], _ => ([], false, r)
                   | _, Some e => ([], negb e, r)
                   | _, None => let '(a, b, c) := find_first sep st r in (l :: a, b, c)
                   end
  end.
Fixpoint parse (fuel : nat) (st : list matcher) (default : str) (ls : list str) {struct fuel} : result message :=
  match fuel with
  | O => NoFuel
  | S f =>
      let '(hl, r0) := read_headers st ls in
      let '(hs, back) := parse_headers true [] hl in
      let r := back ++ r0 in
      let t := content_type default hs in
      let text (r : list str) := let '(a, b) := read_all st r in Got (Message default hs (inl (concat a))) b in
      let with_parts (x : result (list message)) := match x with Got l b => Got (Message default hs (inr l)) b | Raised => Raised | NoFuel => NoFuel end in
      if streqb t ($"message/delivery-status") then with_parts (blocks f st r)
      else if streqb (maintype t) ($"message") then with_parts (match parse f st ($"text/plain") r with Got m b => Got [m] b | Raised => Raised | NoFuel => NoFuel end)
      else if streqb (maintype t) ($"multipart") then
        match get_boundary hs with
        | None => Raised
        | Some None => text r
        | Some (Some b) =>
            let sep := $"--" ++ b in
            match find_first sep st r with
            | (_, true, r1) => with_parts (parts f st sep (if streqb t ($"multipart/digest") then $"message/rfc822" else $"text/plain") r1)
            | (pre, false, r1) => Got (Message default hs (inl (concat pre))) (snd (read_all st r1))
            end
        end
      else text r
  end
(** The blocks of a delivery status *)
with blocks (fuel : nat) (st : list matcher) (ls : list str) {struct fuel} : result (list message) :=
  match fuel with
  | O => NoFuel
  | S f =>
      match parse f (AtEmpty :: st) ($"text/plain") ls with
      | Got m r =>
          match readline st (snd (readline st r)) with
          | ([], r') => Got [m] r'
          | (l, r') => match blocks f st (l :: r') with Got ms b => Got (m :: ms) b | x => x end
          end
      | Raised => Raised
      | NoFuel => NoFuel
      end
  end
(** The parts of a multipart, after a separator *)
with parts (fuel : nat) (st : list matcher) (sep default : str) (ls : list str) {struct fuel} : result (list message) :=
  match fuel with
  | O => NoFuel
  | S f =>
      match parse f (AtSeparator sep :: st) default (skip_separators sep st ls) with
      | Got m r =>
          match readline st r with
          | ([], r') => Got [chomp_last m] r'
          | (l, r') =>
              match separator_line sep l with
              | Some true => Got [chomp_last m] (snd (read_all st r'))
              | Some false => match parts f st sep default r' with Got ms b => Got (chomp_last m :: ms) b | x => x end
              | None => Raised
              end
          end
      | Raised => Raised
      | NoFuel => NoFuel
      end
  end.
(** [email.message_from_string].  [None]: it raises. *)
Definition message_from_string (s : str) : option message :=
  match parse (S (3 * S (length (lines s)))) [] ($"text/plain") (lines s) with
  | Got m _ => Some m
  | _ => None
  end.
End Codecs.
Arguments Got {A}. Arguments Raised {A}. Arguments NoFuel {A}.

(** [Message.walk] *)
Fixpoint walk (m : message) : list message :=
  let '(Message _ _ p) := m in m :: match p with inl _ => [] | inr l => flat_map walk l end.
