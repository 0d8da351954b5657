(** How Python's [email] package reads the addresses of a header: [email.utils.getaddresses] (CPython 3.11.10,
    email/utils.py) and the parser under it (email/_parseaddr.py, [AddrlistClass]).  Definitions only.
    Library file: the semantics of the standard library, not of code in /repo.
    The position in the text is the text that is left.  [None] is the exception Python raises when calls are nested
    too deeply (RecursionError): [lim] is the number of levels of comments and groups that may be open inside one
    another.  Simplification: Python counts stack frames, not levels. *)
From Verif Require Import PyStr.

Definition specials : str := $"()<>@,:;.""[]".
Definition lws : str := [32; 9]%N.
Definition fws : str := [32; 9; 13; 10]%N.
Definition atomends : str := specials ++ fws.
(** the same without the dot *)
Definition phraseends : str := filter (fun c => negb (N.eqb c 46)) atomends.

(** [getatom] *)
Fixpoint getatom (ends s : str) : str * str :=
  match s with
  | [] => ([], [])
  | c :: r => if mem_char c ends then ([], s) else let (a, rest) := getatom ends r in (c :: a, rest)
  end.
(** [getdelimited] without comments, after the opening character; [esc]: the last character was a backslash *)
Fixpoint delimited (ends : str) (esc : bool) (s : str) : str * str :=
  match s with
  | [] => ([], [])
  | c :: r =>
      if esc then let (a, rest) := delimited ends false r in (c :: a, rest)
      else if mem_char c ends then ([], r)
      else if N.eqb c 92 then delimited ends true r
      else let (a, rest) := delimited ends false r in (c :: a, rest)
  end.
(** [getquote] and [getdomainliteral], after the opening character *)
Definition getquote : str -> str * str := delimited [34; 13]%N false.
Definition getdomainliteral (s : str) : str * str :=
  let (a, rest) := delimited [93; 13]%N false s in ($"[" ++ a ++ $"]", rest).
(** [getcomment], after the opening bracket; [d]: the brackets open inside this one *)
Fixpoint comment (lim d : nat) (esc : bool) (s : str) : option (str * str) :=
  match s with
  | [] => Some ([], [])
  | c :: r =>
      if esc then option_map (fun p => (c :: fst p, snd p)) (comment lim d false r)
      else if N.eqb c 41 || N.eqb c 13 then
        match d with O => Some ([], r) | S d' => comment lim d' false r end
      else if N.eqb c 40 then if Nat.ltb d lim then comment lim (S d) false r else None
      else if N.eqb c 92 then comment lim d true r
      else option_map (fun p => (c :: fst p, snd p)) (comment lim d false r)
  end.
Definition getcomment (lim : nat) (s : str) : option (str * str) := comment lim 0 false s.

(** [gotonext]: the blanks, the comments with those before, what is left *)
Fixpoint gotonext_loop (fuel lim : nat) (cl : list str) (s : str) : option (str * list str * str) :=
  match fuel, s with
  | _, [] => Some ([], cl, [])
  | O, _ => None
  | S f, c :: r =>
      if mem_char c fws then
        match gotonext_loop f lim cl r with
        | Some (ws, cl', rest) => Some (if mem_char c [10; 13]%N then ws else c :: ws, cl', rest)
        | None => None
        end
      else if N.eqb c 40 then
        match getcomment lim r with
        | Some (t, rest) => gotonext_loop f lim (cl ++ [t]) rest
        | None => None
        end
      else Some ([], cl, s)
  end.
Definition gotonext (lim : nat) (cl : list str) (s : str) := gotonext_loop (length s) lim cl s.

(** [getphraselist] *)
Fixpoint phrase_loop (fuel lim : nat) (cl : list str) (s : str) : option (list str * list str * str) :=
  match fuel, s with
  | _, [] => Some ([], cl, [])
  | O, _ => None
  | S f, c :: r =>
      if mem_char c fws then phrase_loop f lim cl r
      else if N.eqb c 34 then
        let (q, rest) := getquote r in
        match phrase_loop f lim cl rest with
        | Some (pl, cl', rest') => Some (q :: pl, cl', rest')
        | None => None
        end
      else if N.eqb c 40 then
        match getcomment lim r with
        | Some (t, rest) => phrase_loop f lim (cl ++ [t]) rest
        | None => None
        end
      else if mem_char c phraseends then Some ([], cl, s)
      else
        let (a, rest) := getatom phraseends s in
        match phrase_loop f lim cl rest with
        | Some (pl, cl', rest') => Some (a :: pl, cl', rest')
        | None => None
        end
  end.
Definition getphraselist (lim : nat) (cl : list str) (s : str) := phrase_loop (length s) lim cl s.

(** [getdomain]; [None] in the first place: a second at sign was met *)
Fixpoint domain_loop (fuel lim : nat) (cl : list str) (s : str) : option (option str * list str * str) :=
  match fuel, s with
  | _, [] => Some (Some [], cl, [])
  | O, _ => None
  | S f, c :: r =>
      if mem_char c lws then domain_loop f lim cl r
      else if N.eqb c 40 then
        match getcomment lim r with
        | Some (t, rest) => domain_loop f lim (cl ++ [t]) rest
        | None => None
        end
      else if N.eqb c 91 then
        let (l, rest) := getdomainliteral r in
        match domain_loop f lim cl rest with
        | Some (d, cl', rest') => Some (option_map (app l) d, cl', rest')
        | None => None
        end
      else if N.eqb c 46 then
        match domain_loop f lim cl r with
        | Some (d, cl', rest') => Some (option_map (cons c) d, cl', rest')
        | None => None
        end
      else if N.eqb c 64 then Some (None, cl, s)
      else if mem_char c atomends then Some (Some [], cl, s)
      else
        let (a, rest) := getatom atomends s in
        match domain_loop f lim cl rest with
        | Some (d, cl', rest') => Some (option_map (app a) d, cl', rest')
        | None => None
        end
  end.
Definition getdomain (lim : nat) (cl : list str) (s : str) : option (str * list str * str) :=
  match domain_loop (length s) lim cl s with
  | Some (Some d, cl', rest) => Some (d, cl', rest)
  | Some (None, cl', rest) => Some ([], cl', rest)
  | None => None
  end.

(** [email._parseaddr.quote] *)
Definition quote (s : str) : str := flat_map (fun c => if N.eqb c 92 || N.eqb c 34 then [92; c]%N else [c]) s.
(** [if aslist and not aslist[-1].strip(): aslist.pop()], the list backwards *)
Definition pop_blank (l : list str) : list str :=
  match l with
  | x :: l' => match strip x with [] => l' | _ => l end
  | [] => []
  end.
(** the loop of [getaddrspec]; [l] is [aslist] backwards *)
Fixpoint addrspec_loop (fuel lim : nat) (l : list str) (cl : list str) (s : str) : option (list str * list str * str) :=
  match fuel, s with
  | _, [] => Some (l, cl, [])
  | O, _ => None
  | S f, c :: r =>
      if N.eqb c 46 then
        match gotonext lim cl r with
        | Some (_, cl', rest) => addrspec_loop f lim ([c] :: pop_blank l) cl' rest
        | None => None
        end
      else if N.eqb c 34 then
        let (q, rest) := getquote r in
        match gotonext lim cl rest with
        | Some (ws, cl', rest') =>
            let l' := ([34%N] ++ quote q ++ [34%N]) :: l in
            addrspec_loop f lim (match ws with [] => l' | _ => ws :: l' end) cl' rest'
        | None => None
        end
      else if mem_char c atomends then Some (pop_blank l, cl, s)
      else
        let (a, rest) := getatom atomends s in
        match gotonext lim cl rest with
        | Some (ws, cl', rest') =>
            addrspec_loop f lim (match ws with [] => a :: l | _ => ws :: a :: l end) cl' rest'
        | None => None
        end
  end.
(** [getaddrspec] *)
Definition getaddrspec (lim : nat) (cl : list str) (s : str) : option (str * list str * str) :=
  match gotonext lim cl s with
  | None => None
  | Some (_, cl1, s1) =>
      match addrspec_loop (length s1) lim [] cl1 s1 with
      | None => None
      | Some (l, cl2, s2) =>
          match s2 with
          | c :: r =>
              if N.eqb c 64 then
                match gotonext lim cl2 r with
                | None => None
                | Some (_, cl3, s3) =>
                    match getdomain lim cl3 s3 with
                    | None => None
                    | Some ([], cl4, s4) => Some ([], cl4, s4)
                    | Some (d, cl4, s4) => Some (concat (rev l) ++ $"@" ++ d, cl4, s4)
                    end
                end
              else Some (concat (rev l), cl2, s2)
          | [] => Some (concat (rev l), cl2, s2)
          end
      end
  end.

(** the loop of [getrouteaddr]; [er]: [expectroute] *)
Fixpoint route_loop (fuel lim : nat) (er : bool) (cl : list str) (s : str) : option (str * list str * str) :=
  match fuel, s with
  | _, [] => Some ([], cl, [])
  | O, _ => None
  | S f, c :: r =>
      if er then
        match getdomain lim cl s with
        | None => None
        | Some (_, cl1, s1) =>
            match gotonext lim cl1 s1 with
            | None => None
            | Some (_, cl2, s2) => route_loop f lim false cl2 s2
            end
        end
      else if N.eqb c 62 then Some ([], cl, r)
      else if N.eqb c 64 || N.eqb c 58 then
        match gotonext lim cl r with
        | None => None
        | Some (_, cl1, s1) => route_loop f lim (N.eqb c 64) cl1 s1
        end
      else
        match getaddrspec lim cl s with
        | None => None
        | Some (a, cl1, s1) => Some (a, cl1, tl s1)
        end
  end.
(** [getrouteaddr], after the opening bracket *)
Definition getrouteaddr (lim : nat) (cl : list str) (s : str) : option (str * list str * str) :=
  match gotonext lim cl s with
  | None => None
  | Some (_, cl1, s1) => route_loop (2 * length s1) lim false cl1 s1
  end.

(** the loop over the members of a group, in [getaddress]; [ga]: [getaddress] *)
Fixpoint group_loop (ga : str -> option (list (str * str) * str)) (fuel lim : nat) (s : str)
  : option (list (str * str) * str) :=
  match fuel, s with
  | _, [] => Some ([], [])
  | O, _ => None
  | S f, _ =>
      match gotonext lim [] s with
      | None => None
      | Some (_, _, s1) =>
          let member :=
            match ga s1 with
            | None => None
            | Some (l, s2) =>
                match group_loop ga f lim s2 with
                | None => None
                | Some (l', s3) => Some (l ++ l', s3)
                end
            end in
          match s1 with
          | c :: r => if N.eqb c 59 then Some ([], r) else member
          | [] => member
          end
      end
  end.
(** the end of [getaddress] *)
Definition after_address (lim : nat) (l : list (str * str)) (s : str) : option (list (str * str) * str) :=
  match gotonext lim [] s with
  | None => None
  | Some (_, _, c :: r) => if N.eqb c 44 then Some (l, r) else Some (l, c :: r)
  | Some (_, _, []) => Some (l, [])
  end.
(** [getaddress] *)
Fixpoint getaddress (lim : nat) (s : str) : option (list (str * str) * str) :=
  match gotonext lim [] s with
  | None => None
  | Some (_, cl0, s0) =>
      match getphraselist lim cl0 s0 with
      | None => None
      | Some (pl, cl1, s1) =>
          match gotonext lim cl1 s1 with
          | None => None
          | Some (_, cl, s2) =>
              let only := match pl with [] => [] | p :: _ => [(join [32%N] cl, p)] end in
              match s2 with
              | [] => after_address lim only []
              | c :: r =>
                  if N.eqb c 46 || N.eqb c 64 then
                    match getaddrspec lim cl s0 with
                    | None => None
                    | Some (a, cl', s3) => after_address lim [(join [32%N] cl', a)] s3
                    end
                  else if N.eqb c 58 then
                    match lim with
                    | O => None
                    | S l =>
                        match group_loop (getaddress l) (length r) lim r with
                        | None => None
                        | Some (g, s3) => after_address lim g s3
                        end
                    end
                  else if N.eqb c 60 then
                    match getrouteaddr lim cl r with
                    | None => None
                    | Some (a, cl', s3) =>
                        let name := join [32%N] pl in
                        after_address lim
                          [(match cl' with [] => name | _ => name ++ $" (" ++ join [32%N] cl' ++ $")" end, a)] s3
                    end
                  else
                    match pl with
                    | _ :: _ => after_address lim only s2
                    | [] => after_address lim [] (if mem_char c specials then r else s2)
                    end
              end
          end
      end
  end.
(** [getaddrlist] *)
Fixpoint addrlist_loop (fuel lim : nat) (s : str) : option (list (str * str)) :=
  match fuel, s with
  | _, [] => Some []
  | O, _ => None
  | S f, _ =>
      match getaddress lim s with
      | None => None
      | Some (l, r) =>
          match addrlist_loop f lim r with
          | None => None
          | Some l' => Some (match l with [] => [([], [])] | _ => l end ++ l')
          end
      end
  end.
Definition getaddrlist (lim : nat) (s : str) : option (list (str * str)) := addrlist_loop (length s) lim s.

(** ** email/utils.py *)
(** [_strip_quoted_realnames]; [op]: the text since an opening quote, backwards *)
Fixpoint strip_quoted (op : option str) (esc : bool) (s : str) : str :=
  match s with
  | [] => match op with Some p => rev p | None => [] end
  | c :: r =>
      let esc' := negb esc && N.eqb c 92 in
      if negb esc && N.eqb c 34 then
        match op with None => strip_quoted (Some [c]) false r | Some _ => strip_quoted None false r end
      else match op with
           | None => c :: strip_quoted None esc' r
           | Some p => strip_quoted (Some (c :: p)) esc' r
           end
  end.
Definition strip_quoted_realnames : str -> str := strip_quoted None false.
(** the loop of [_check_parenthesis]; [n]: [opens] *)
Fixpoint balanced (n : nat) (esc : bool) (s : str) : bool :=
  match s with
  | [] => Nat.eqb n 0
  | c :: r =>
      if esc then balanced n false r
      else if N.eqb c 92 then balanced n true r
      else if N.eqb c 40 then balanced (S n) false r
      else if N.eqb c 41 then match n with O => false | S n' => balanced n' false r end
      else balanced n false r
  end.
Definition check_parenthesis (v : str) : bool := balanced 0 false (strip_quoted_realnames v).
(** [_pre_parse_validation] and [_post_parse_validation] *)
Definition pre_validate (v : str) : str := if check_parenthesis v then v else $"('', '')".
Definition post_validate (l : list (str * str)) : list (str * str) :=
  map (fun p => if mem_char 91 (snd p) then ([], []) else p) l.
(** [getaddresses([v], strict=strict)]; before the strict parser was added to the library (3.11.10), as if
    [strict] were false *)
Definition getaddresses (lim : nat) (strict : bool) (v : str) : option (list (str * str)) :=
  if strict then
    let w := pre_validate v in
    match getaddrlist lim w with
    | None => None
    | Some l =>
        let result := post_validate l in
        Some (if Nat.eqb (length result) (1 + count_char 44 (strip_quoted_realnames w)) then result else [([], [])])
    end
  else getaddrlist lim v.
