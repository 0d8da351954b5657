(** Python's regular expressions: a parser of the pattern text and a backtracking matcher.
    Library file: this is the semantics of the [re] module, not of code in /repo (the patterns
    of /repo are compiled and run by it).  The matcher returns every way of matching, in the
    order in which [re] tries them; the first one is the match [re] finds.
    Simplifications: the syntax is the one /repo's patterns use (see [parse_atom]); IGNORECASE
    knows the ASCII letters only; which code points above 127 are digits or word characters
    is given by two functions; a repetition never repeats an empty match. *)
From Verif Require Import PyStr.

(** Items of a character class. *)
Inductive item :=
| IChar (c : char) | IRange (a b : char)
| ISpace | INotSpace | IDigit | INotDigit | IWord | INotWord.

Inductive re :=
| Eps
| Chr (ci neg : bool) (l : list item)                       (** [x], [[a-z]], [[^a-z]], [\s] *)
| Dot                                                       (** without DOTALL *)
| Cat (a b : re)
| Alt (a b : re)
| Rep (greedy : bool) (lo : nat) (hi : option nat) (r : re) (** [*], [+], [?], [{m,n}], lazy with [?] *)
| Grp (n : nat) (r : re)
| Bos                                                       (** [^], without MULTILINE *)
| Eos                                                       (** [$], without MULTILINE *)
| Wordb (neg : bool)                                        (** [\b], [\B] *)
| Ahead (neg : bool) (r : re)                               (** [(?=...)], [(?!...)] *)
| Behind (neg : bool) (r : re)                              (** [(?<=...)], [(?<!...)] of one character *)
.

(** ** Matching *)
(** The text before the position (backwards), the text after it, the groups (latest first). *)
Record state := mkS { s_before : str; s_after : str; s_caps : list (nat * str) }.

Definition swapcase (c : char) : char :=
  if N.leb 65 c && N.leb c 90 then (c + 32)%N
  else if N.leb 97 c && N.leb c 122 then (c - 32)%N else c.

Section Match.
(** Digits and word characters above 127. *)
Variable udigit uword : char -> bool.

Definition is_d (c : char) : bool := if N.ltb c 128 then N.leb 48 c && N.leb c 57 else udigit c.
Definition is_w (c : char) : bool :=
  if N.ltb c 128 then
    (N.leb 48 c && N.leb c 57) || (N.leb 65 c && N.leb c 90) || (N.leb 97 c && N.leb c 122) || N.eqb c 95
  else uword c.

Definition item_in (c : char) (i : item) : bool :=
  match i with
  | IChar x => N.eqb c x
  | IRange a b => N.leb a c && N.leb c b
  | ISpace => is_space c
  | INotSpace => negb (is_space c)
  | IDigit => is_d c
  | INotDigit => negb (is_d c)
  | IWord => is_w c
  | INotWord => negb (is_w c)
  end.
Definition class_in (ci neg : bool) (l : list item) (c : char) : bool :=
  xorb neg (existsb (item_in c) l || (ci && existsb (item_in (swapcase c)) l)).

Definition step (p : char -> bool) (st : state) : list state :=
  match s_after st with
  | c :: r => if p c then [mkS (c :: s_before st) r (s_caps st)] else []
  | [] => []
  end.
Definition word_at (s : str) : bool := match s with c :: _ => is_w c | [] => false end.
Definition at_end (s : str) : bool :=
  match s with [] => true | c :: r => N.eqb c 10 && match r with [] => true | _ => false end end.
Definition guard (b : bool) (st : state) : list state := if b then [st] else [].
Definition progress (st st' : state) : bool := negb (length (s_after st') =? length (s_after st)).
Definition nonempty {A} (l : list A) : bool := match l with [] => false | _ => true end.
Definition consumed (st st' : state) : str :=
  firstn (length (s_after st) - length (s_after st')) (s_after st).

(** Repetition of something whose ways of matching are [f]. *)
Fixpoint repeats (f : state -> list state) (greedy : bool) (fuel lo : nat) (hi : option nat) (st : state) : list state :=
  let dec := match hi with Some (S h) => Some h | _ => hi end in
  match hi with
  | Some 0 => [st]
  | _ =>
      match lo, fuel with
      | S l, S n => flat_map (repeats f greedy n l dec) (f st)
      | S _, 0 => []
      | 0, S n =>
          let more := flat_map (repeats f greedy n 0 dec) (filter (progress st) (f st)) in
          if greedy then more ++ [st] else st :: more
      | 0, 0 => [st]
      end
  end.

Fixpoint ways (r : re) (st : state) : list state :=
  match r with
  | Eps => [st]
  | Chr ci neg l => step (class_in ci neg l) st
  | Dot => step (fun c => negb (N.eqb c 10)) st
  | Cat a b => flat_map (ways b) (ways a st)
  | Alt a b => ways a st ++ ways b st
  | Rep g lo hi r' => repeats (ways r') g (lo + length (s_after st)) lo hi st
  | Grp n r' => map (fun st' => mkS (s_before st') (s_after st') ((n, consumed st st') :: s_caps st')) (ways r' st)
  | Bos => guard (match s_before st with [] => true | _ => false end) st
  | Eos => guard (at_end (s_after st)) st
  | Wordb neg => guard (xorb neg (xorb (word_at (s_before st)) (word_at (s_after st)))) st
  | Ahead neg r' => guard (xorb neg (nonempty (ways r' st))) st
  | Behind neg r' =>
      guard (xorb neg (match s_before st with
                       | c :: b => existsb (fun st' => match s_after st' with [] => true | _ => false end)
                                           (ways r' (mkS b [c] []))
                       | [] => false
                       end)) st
  end.

(** [m.groups()[n-1]]; [None]: the group took no part in the match *)
Fixpoint group (n : nat) (l : list (nat * str)) : option str :=
  match l with
  | [] => None
  | (k, w) :: r => if k =? n then Some w else group n r
  end.

(** [match]: at the start of the text *)
Definition re_match (r : re) (s : str) : option state := hd_error (ways r (mkS [] s [])).
(** [search]: at the first position where there is a match *)
Fixpoint search_from (r : re) (before s : str) : option state :=
  match ways r (mkS before s []) with
  | st :: _ => Some st
  | [] => match s with [] => None | c :: s' => search_from r (c :: before) s' end
  end.
Definition re_search (r : re) (s : str) : option state := search_from r [] s.
(** [findall] of a pattern without groups: the texts, one after the other.  An empty match
    is followed by a search from the next position. *)
Fixpoint findall_from (r : re) (fuel : nat) (before s : str) : list str :=
  match fuel with
  | 0 => []
  | S n =>
      match ways r (mkS before s []) with
      | st :: _ =>
          match consumed (mkS before s []) st with
          | [] => [] :: match s with [] => [] | c :: s' => findall_from r n (c :: before) s' end
          | w => w :: findall_from r n (s_before st) (s_after st)
          end
      | [] => match s with [] => [] | c :: s' => findall_from r n (c :: before) s' end
      end
  end.
Definition findall (r : re) (s : str) : list str := findall_from r (S (length s)) [] s.
Definition matched (o : option state) : bool := match o with Some _ => true | None => false end.
End Match.

(** ** The text of a pattern *)
Definition ch (c : char) (a : ascii) : bool := N.eqb c (N_of_ascii a).
Definition in_s (c : char) (s : String.string) : bool := mem_char c (of_string s).
Definition plain_space (c : char) : bool := N.eqb c 32 || (N.leb 9 c && N.leb c 13).

(** VERBOSE: blanks and comments are skipped *)
Fixpoint skip_x (comment : bool) (s : str) : str :=
  match s with
  | [] => []
  | c :: r =>
      if comment then skip_x (negb (N.eqb c 10)) r
      else if plain_space c then skip_x false r
      else if ch c "#" then skip_x true r
      else s
  end.

Fixpoint number (s : str) (acc : option nat) : option nat * str :=
  match s with
  | c :: r => if N.leb 48 c && N.leb c 57 then
                number r (Some (match acc with Some n => n | None => 0 end * 10 + N.to_nat (c - 48)))
              else (acc, s)
  | [] => (acc, s)
  end.
(** [{m}], [{m,n}], [{m,}], after the brace *)
Definition braces (s : str) : option (nat * option nat * str) :=
  match number s None with
  | (Some m, c :: r) =>
      if ch c "}" then Some (m, Some m, r)
      else if ch c "," then
        match number r None with
        | (hi, d :: r') => if ch d "}" then Some (m, hi, r') else None
        | _ => None
        end
      else None
  | _ => None
  end.
(** The quantifiers: bounds and the rest *)
Definition quantifier (s : str) : option (nat * option nat * str) :=
  match s with
  | [] => None
  | c :: r =>
      if ch c "*" then Some (0, None, r)
      else if ch c "+" then Some (1, None, r)
      else if ch c "?" then Some (0, Some 1, r)
      else if ch c "{" then braces r
      else None
  end.
Definition quantified (r : re) (s : str) : re * str :=
  match quantifier s with
  | None => (r, s)
  | Some (lo, hi, s') =>
      match s' with
      | c :: s'' => if ch c "?" then (Rep false lo hi r, s'') else (Rep true lo hi r, s')
      | [] => (Rep true lo hi r, s')
      end
  end.

Definition class_of (c : char) : option item :=
  if ch c "s" then Some ISpace else if ch c "S" then Some INotSpace
  else if ch c "d" then Some IDigit else if ch c "D" then Some INotDigit
  else if ch c "w" then Some IWord else if ch c "W" then Some INotWord else None.
Definition control (c : char) : char :=
  if ch c "n" then 10%N else if ch c "t" then 9%N else if ch c "r" then 13%N else c.

(** A class, after the bracket; [first]: a closing bracket is a plain character *)
Fixpoint class_items (fuel : nat) (first : bool) (s : str) : option (list item * str) :=
  match fuel with
  | 0 => None
  | S n =>
      match s with
      | [] => None
      | c :: r =>
          if negb first && ch c "]" then Some ([], r)
          else
            let one := if ch c "\" then match r with
                                        | e :: r' => Some (match class_of e with Some i => inl i | None => inr (control e) end, r')
                                        | [] => None
                                        end
                       else Some (inr c, r) in
            match one with
            | None => None
            | Some (inl i, r1) =>
                match class_items n false r1 with Some (l, r2) => Some (i :: l, r2) | None => None end
            | Some (inr x, r1) =>
                match r1 with
                | d :: e :: r2 =>
                    if ch d "-" && negb (ch e "]") then
                      match class_items n false r2 with Some (l, r3) => Some (IRange x e :: l, r3) | None => None end
                    else match class_items n false r1 with Some (l, r3) => Some (IChar x :: l, r3) | None => None end
                | _ => match class_items n false r1 with Some (l, r3) => Some (IChar x :: l, r3) | None => None end
                end
            end
      end
  end.

(** [i], [x]: the flags.  [n]: the number of the next group.  The parsers return the
    expression, the number of the next group and the rest. *)
Section Parse.
Variable i x : bool.
Definition skip (s : str) : str := if x then skip_x false s else s.

Fixpoint parse_alt (fuel n : nat) (s : str) : option (re * nat * str) :=
  match fuel with
  | 0 => None
  | S f =>
      match parse_seq f n s with
      | None => None
      | Some (a, n1, s1) =>
          match s1 with
          | c :: s2 => if ch c "|" then match parse_alt f n1 s2 with
                                        | Some (b, n2, s3) => Some (Alt a b, n2, s3)
                                        | None => None
                                        end
                       else Some (a, n1, s1)
          | [] => Some (a, n1, s1)
          end
      end
  end
with parse_seq (fuel n : nat) (s : str) : option (re * nat * str) :=
  match fuel with
  | 0 => None
  | S f =>
      match skip s with
      | [] => Some (Eps, n, [])
      | c :: r =>
          if ch c "|" || ch c ")" then Some (Eps, n, c :: r)
          else match parse_atom f n c r with
               | None => None
               | Some (a, n1, s1) =>
                   let '(a', s2) := quantified a (skip s1) in
                   match parse_seq f n1 s2 with
                   | Some (Eps, n2, s3) => Some (a', n2, s3)
                   | Some (b, n2, s3) => Some (Cat a' b, n2, s3)
                   | None => None
                   end
               end
      end
  end
with parse_atom (fuel n : nat) (c : char) (r : str) : option (re * nat * str) :=
  match fuel with
  | 0 => None
  | S f =>
      let close (k : re -> re) (n' : nat) (s : str) :=
        match parse_alt f n' s with
        | Some (a, n1, d :: s1) => if ch d ")" then Some (k a, n1, s1) else None
        | _ => None
        end in
      if ch c "." then Some (Dot, n, r)
      else if ch c "^" then Some (Bos, n, r)
      else if ch c "$" then Some (Eos, n, r)
      else if ch c "\" then
        match r with
        | [] => None
        | e :: r' =>
            if ch e "b" then Some (Wordb false, n, r')
            else if ch e "B" then Some (Wordb true, n, r')
            else match class_of e with
                 | Some it => Some (Chr i false [it], n, r')
                 | None => Some (Chr i false [IChar (control e)], n, r')
                 end
        end
      else if ch c "[" then
        match r with
        | d :: r' =>
            if ch d "^" then match class_items f true r' with Some (l, s1) => Some (Chr i true l, n, s1) | None => None end
            else match class_items f true r with Some (l, s1) => Some (Chr i false l, n, s1) | None => None end
        | [] => None
        end
      else if ch c "(" then
        if startswith ($"?:") r then close (fun a => a) n (skipn 2 r)
        else if startswith ($"?=") r then close (Ahead false) n (skipn 2 r)
        else if startswith ($"?!") r then close (Ahead true) n (skipn 2 r)
        else if startswith ($"?<=") r then close (Behind false) n (skipn 3 r)
        else if startswith ($"?<!") r then close (Behind true) n (skipn 3 r)
        else if startswith ($"?") r then None
        else close (Grp n) (S n) r
      else if in_s c "*+?" then None
      else Some (Chr i false [IChar c], n, r)
  end.
End Parse.

(** [re.compile(s, flags)]; [None]: [re.error], or syntax that is not modelled *)
Definition compile (i x : bool) (s : str) : option re :=
  match parse_alt i x (2 * length s + 3) 1 s with
  | Some (r, _, []) => Some r
  | _ => None
  end.
