(** Model of the class [Regex] of oa/regex.py.  Definitions only. *)
From Verif Require Import PyStr.

Section Lazy.
(** [re.compile]: the compiled expression, or [None], an [re.error]. *)
Context {P R : Type}.
Variable re_compile : str -> N -> option P.
(** oa/regex.py:130-152: the methods, with their arguments besides the text. *)
Inductive method := Search | Match | Fullmatch | Sub (repl : str) (count : nat) | Subn (repl : str) (count : nat)
  | Split (maxsplit : nat) | Findall | Finditer.
(** What the library answers for a compiled expression. *)
Variable answer : P -> method -> str -> R.

(** oa/regex.py:116-120: the object; [compiled] is [None] at first. *)
Record lazy := mkLazy { z_pattern : str; z_flags : N; z_compiled : option P }.
(** For oa/regex.py:118-120. *)
Definition make (pattern : str) (flags : N) : lazy := mkLazy pattern flags None.
(** oa/regex.py:122-128 [compile]; [mode]: LAZY_MODE.  A compiled expression is true. *)
Definition compile (mode : bool) (z : lazy) : option P * lazy :=
  if mode then (re_compile (z_pattern z) (z_flags z), z)
  else match z_compiled z with
       | Some p => (Some p, z)
       | None => match re_compile (z_pattern z) (z_flags z) with
                 | Some p => (Some p, mkLazy (z_pattern z) (z_flags z) (Some p))
                 | None => (None, z)
                 end
       end.
(** oa/regex.py:130-152: what each method calls; [subn], 142-143, calls [sub]. *)
Definition called (m : method) : method := match m with Subn r c => Sub r c | _ => m end.
(** For oa/regex.py:130-152. *)
Definition use (z : lazy) (mode : bool) (m : method) (text : str) : option R * lazy :=
  let (p, z) := compile mode z in (option_map (fun p => answer p (called m) text) p, z).
(** Any uses of one object, in any mode, one after the other.  For oa/regex.py:115-152. *)
Fixpoint uses (z : lazy) (l : list (bool * method * str)) : list (option R) * lazy :=
  match l with
  | [] => ([], z)
  | (mode, m, text) :: l => let (r, z) := use z mode m text in let (rs, z) := uses z l in (r :: rs, z)
  end.
End Lazy.
