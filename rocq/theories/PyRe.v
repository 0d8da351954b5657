(** The fragment of Python's regular expressions used for address lists: characters,
    escaped characters, "." and the quantifiers "*" and "?", without flags.
    Definitions only. *)
From Verif Require Import PyStr.

Definition is_alnum (c : char) : bool :=
  is_digit c || (N.leb 65 c && N.leb c 90) || (N.leb 97 c && N.leb c 122) || N.eqb c 95.
(** Characters with a meaning of their own in a pattern. *)
Definition re_special : str := $"\.*?+^$|()[]{}".

(** [re.escape]: which other characters are escaped depends on the Python version. *)
Definition escape (escaped : char -> bool) (s : str) : str :=
  concat (map (fun c => if escaped c then [92%N; c] else [c]) s).

Inductive tok := TLit (c : char) | TDot | TStar | TOpt.
(** [None]: not in the fragment. *)
Fixpoint re_tokens (s : str) : option (list tok) :=
  match s with
  | [] => Some []
  | c :: r =>
      if N.eqb c 92 then
        match r with
        | d :: r' => if is_alnum d then None else option_map (cons (TLit d)) (re_tokens r')
        | [] => None
        end
      else if N.eqb c 46 then option_map (cons TDot) (re_tokens r)
      else if N.eqb c 42 then option_map (cons TStar) (re_tokens r)
      else if N.eqb c 63 then option_map (cons TOpt) (re_tokens r)
      else if mem_char c re_special then None
      else option_map (cons (TLit c)) (re_tokens r)
  end.

Inductive quant := QOne | QStar | QOpt.
(** [None] for "." *)
Definition item := (option char * quant)%type.
Fixpoint re_items (l : list tok) : option (list item) :=
  let atom (t : tok) := match t with TLit c => Some (Some c) | TDot => Some None | _ => None end in
  match l with
  | [] => Some []
  | t :: l' =>
      match atom t with
      | None => None
      | Some a =>
          match l' with
          | TStar :: l'' => option_map (cons (a, QStar)) (re_items l'')
          | TOpt :: l'' => option_map (cons (a, QOpt)) (re_items l'')
          | _ => option_map (cons (a, QOne)) (re_items l')
          end
      end
  end.
Definition re_compile (s : str) : option (list item) :=
  match re_tokens s with Some l => re_items l | None => None end.

(** "." is any character but a newline. *)
Definition atom_ok (a : option char) (c : char) : bool :=
  match a with Some d => N.eqb c d | None => negb (N.eqb c 10) end.

(** [re.match]: whether some prefix matches. *)
Fixpoint re_match (l : list item) (s : str) {struct l} : bool :=
  match l with
  | [] => true
  | (a, q) :: l' =>
      match q with
      | QOne => match s with c :: r => atom_ok a c && re_match l' r | [] => false end
      | QOpt => re_match l' s || match s with c :: r => atom_ok a c && re_match l' r | [] => false end
      | QStar => (fix star (s : str) : bool :=
                    re_match l' s || match s with c :: r => atom_ok a c && star r | [] => false end) s
      end
  end.
Fixpoint search_items (l : list item) (s : str) : bool :=
  re_match l s || match s with _ :: r => search_items l r | [] => false end.

(** [re.search(pattern, s)]; [None]: not in the fragment. *)
Definition re_search (pattern s : str) : option bool :=
  option_map (fun l => search_items l s) (re_compile pattern).
