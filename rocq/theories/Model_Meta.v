(** Model of oa/rules/meta.py and of the post-parsing pass in
    oa/rules/ruleset.py:329-339.  Definitions only. *)
From Verif Require Import PyStr PyDict Model_Rules.

(** ** From the rule text to a Python expression *)

(** Tokens of a meta rule text after the textual conversions of
    oa/rules/meta.py:12-16,48-51 (every name becomes a call, "&&", "||", "!"
    become "and", "or", "not").  Simplification: "/", "%", "&", "|", "!=" and
    other Python operators are not modelled (they lex to an error). *)
Inductive mtok :=
| TName (s : str) | TNum (digits : str)
| TAnd | TOr | TNot | TLp | TRp
| TPlus | TMinus | TMul
| TLt | TGt | TLe | TGe | TEq.

(** For oa/rules/meta.py:21. *)
Definition is_alpha_ (c : char) : bool :=
  (N.leb 65 c && N.leb c 90) || (N.leb 97 c && N.leb c 122) || N.eqb c 95.
(** [\w], ASCII part only.  For oa/rules/meta.py:21. *)
Definition is_word (c : char) : bool := is_alpha_ c || is_digit c.

(** Python keywords cannot be called like "and(msg)": the compilation fails.
    For oa/rules/meta.py:21. *)
Definition py_keywords : list str :=
  [$"and"; $"or"; $"not"; $"if"; $"else"; $"in"; $"is"; $"lambda"; $"for"; $"None"; $"True"; $"False";
   $"as"; $"assert"; $"async"; $"await"; $"break"; $"class"; $"continue"; $"def"; $"del"; $"elif";
   $"except"; $"finally"; $"from"; $"global"; $"import"; $"nonlocal"; $"pass"; $"raise"; $"return";
   $"try"; $"while"; $"with"; $"yield"].

(** A Python integer literal: no leading zero unless it is all zeros.
    For oa/rules/meta.py:21. *)
Definition num_ok (w : str) : bool :=
  match w with
  | [] => false
  | c :: w' => forallb is_digit w && (negb (N.eqb c 48) || forallb (N.eqb 48) w')
  end.
(** For oa/rules/meta.py:21. *)
Definition name_ok (w : str) : bool :=
  match w with
  | [] => false
  | c :: _ => is_alpha_ c && forallb is_word w && negb (mem_str w py_keywords)
  end.

(** End of a run of word characters: [_SUBRULE_P] (oa/rules/meta.py:21) takes
    the whole run; a run starting with a digit is a number. *)
Definition flush (cur : str) : option (list mtok) :=
  match cur with
  | [] => Some []
  | _ => if name_ok cur then Some [TName cur] else if num_ok cur then Some [TNum cur] else None
  end.

(** For oa/rules/meta.py:48-55. *)
Definition oapp (a b : option (list mtok)) : option (list mtok) :=
  match a, b with Some x, Some y => Some (x ++ y) | _, _ => None end.

(** Lexing of the converted text (oa/rules/meta.py:48-55, the tokenizer part of
    [compile]).  [None] is a [SyntaxError]. *)
Fixpoint lex_from (s cur : str) : option (list mtok) :=
  match s with
  | [] => flush cur
  | c :: s' =>
      if is_word c then lex_from s' (cur ++ [c])
      else oapp (flush cur)
        (if is_space c then lex_from s' []
         else if N.eqb c 40 then oapp (Some [TLp]) (lex_from s' [])
         else if N.eqb c 41 then oapp (Some [TRp]) (lex_from s' [])
         else if N.eqb c 43 then oapp (Some [TPlus]) (lex_from s' [])
         else if N.eqb c 45 then oapp (Some [TMinus]) (lex_from s' [])
         else if N.eqb c 42 then oapp (Some [TMul]) (lex_from s' [])
         else if N.eqb c 33 then oapp (Some [TNot]) (lex_from s' [])
         else match s' with
              | d :: s'' =>
                  if N.eqb c 38 && N.eqb d 38 then oapp (Some [TAnd]) (lex_from s'' [])
                  else if N.eqb c 124 && N.eqb d 124 then oapp (Some [TOr]) (lex_from s'' [])
                  else if N.eqb c 62 && N.eqb d 61 then oapp (Some [TGe]) (lex_from s'' [])
                  else if N.eqb c 60 && N.eqb d 61 then oapp (Some [TLe]) (lex_from s'' [])
                  else if N.eqb c 61 && N.eqb d 61 then oapp (Some [TEq]) (lex_from s'' [])
                  else if N.eqb c 62 then oapp (Some [TGt]) (lex_from s' [])
                  else if N.eqb c 60 then oapp (Some [TLt]) (lex_from s' [])
                  else None
              | [] => None
              end)
  end.
(** For oa/rules/meta.py:36-71. *)
Definition lex (s : str) : option (list mtok) := lex_from s [].

(** Expressions.  For oa/rules/meta.py:52-55. *)
Inductive mop := OAnd | OOr | OPlus | OMinus | OMul | OLt | OGt | OLe | OGe | OEq.
(** For oa/rules/meta.py:52-55. *)
Inductive mexpr :=
| EName (s : str)
| ENum (digits : str)
| EBin (op : mop) (a b : mexpr)
| ENot (a : mexpr)
| ENeg (a : mexpr).

(** For oa/rules/meta.py:52-55. *)
Definition tok_op (t : mtok) : option mop :=
  match t with
  | TAnd => Some OAnd | TOr => Some OOr | TPlus => Some OPlus | TMinus => Some OMinus | TMul => Some OMul
  | TLt => Some OLt | TGt => Some OGt | TLe => Some OLe | TGe => Some OGe | TEq => Some OEq
  | _ => None
  end.

(** Python binding strength: or < and < not (3) < comparisons < + - < * < unary.
    For oa/rules/meta.py:52-55. *)
Definition op_bp (o : mop) : nat :=
  match o with
  | OOr => 1 | OAnd => 2
  | OLt | OGt | OLe | OGe | OEq => 4
  | OPlus | OMinus => 5
  | OMul => 6
  end.
(** For oa/rules/meta.py:52-55. *)
Definition is_cmp (o : mop) : bool := op_bp o =? 4.

(** The expression grammar [compile] applies (operator precedence form).
    [lhs = None]: parse an operand; [lhs = Some (e, c)]: continue after operand
    [e], [c] telling that [e] is an unparenthesised comparison.  "not" is only
    allowed where the binding strength around it is below that of comparisons,
    as in Python's grammar.  Simplification: chained comparisons (a < b < c) are
    not modelled and yield [None], like syntax errors.  [fuel] exhaustion also
    yields [None]; [parse] supplies enough.  For oa/rules/meta.py:52-55. *)
Fixpoint pe (fuel : nat) (lhs : option (mexpr * bool)) (minbp : nat) (ts : list mtok) {struct fuel}
  : option (mexpr * list mtok) :=
  match fuel with
  | 0 => None
  | S fuel' =>
      match lhs with
      | None =>
          match ts with
          | TName s :: ts' => pe fuel' (Some (EName s, false)) minbp ts'
          | TNum d :: ts' => pe fuel' (Some (ENum d, false)) minbp ts'
          | TLp :: ts' =>
              match pe fuel' None 0 ts' with
              | Some (e, TRp :: ts'') => pe fuel' (Some (e, false)) minbp ts''
              | _ => None
              end
          | TNot :: ts' =>
              if 3 <? minbp then None
              else match pe fuel' None 3 ts' with
                   | Some (e, ts'') => pe fuel' (Some (ENot e, false)) minbp ts''
                   | None => None
                   end
          | TMinus :: ts' =>
              match pe fuel' None 7 ts' with
              | Some (e, ts'') => pe fuel' (Some (ENeg e, false)) minbp ts''
              | None => None
              end
          | _ => None
          end
      | Some (e, c) =>
          match ts with
          | t :: ts' =>
              match tok_op t with
              | Some o =>
                  if minbp <? op_bp o then
                    if c && is_cmp o then None
                    else match pe fuel' None (op_bp o) ts' with
                         | Some (e2, ts'') => pe fuel' (Some (EBin o e e2, is_cmp o)) minbp ts''
                         | None => None
                         end
                  else Some (e, ts)
              | None => Some (e, ts)
              end
          | [] => Some (e, ts)
          end
      end
  end.

(** oa/rules/meta.py:52-55 [compile]: the whole text must be one expression. *)
Definition parse (ts : list mtok) : option mexpr :=
  match pe (S (length ts)) None 0 ts with
  | Some (e, []) => Some e
  | _ => None
  end.

(** For oa/rules/meta.py:36-71. *)
Definition compile_text (text : str) : option mexpr :=
  match lex text with Some ts => parse ts | None => None end.

(** oa/rules/meta.py:48 [_SUBRULE_P.findall]: the names in the text. *)
Fixpoint expr_names (e : mexpr) : list str :=
  match e with
  | EName s => [s]
  | ENum _ => []
  | EBin _ a b => expr_names a ++ expr_names b
  | ENot a | ENeg a => expr_names a
  end.

(** ** Evaluation (oa/rules/meta.py:73-74 [match], Python semantics) *)

(** oa/rules/meta.py:73-74. *)
Definition num_of (v : value) : option Q :=
  match v with
  | VBool b => Some (if b then 1%Q else 0%Q)
  | VNum q => Some q
  | VNone | VStr _ => None
  end.

(** oa/rules/meta.py:73-74. *)
Definition Qlt_bool (a b : Q) : bool := Qle_bool a b && negb (Qeq_bool a b).

(** Arithmetic and comparisons on two evaluated operands.  Simplification: on
    text or [None] operands everything raises (Python allows a few text
    operations and [==]).  oa/rules/meta.py:73-74. *)
Definition arith (o : mop) (a b : value) : outcome :=
  match num_of a, num_of b with
  | Some x, Some y =>
      match o with
      | OPlus => Returns (VNum (x + y)%Q)
      | OMinus => Returns (VNum (x - y)%Q)
      | OMul => Returns (VNum (x * y)%Q)
      | OLt => Returns (VBool (Qlt_bool x y))
      | OGt => Returns (VBool (Qlt_bool y x))
      | OLe => Returns (VBool (Qle_bool x y))
      | OGe => Returns (VBool (Qle_bool y x))
      | OEq => Returns (VBool (Qeq_bool x y))
      | OAnd | OOr => Raises
      end
  | _, _ => Raises
  end.

(** [res n] is the outcome of [n(msg)], i.e. of the sub-rule's [match].
    oa/rules/meta.py:73-74. *)
Fixpoint py_eval (res : str -> outcome) (e : mexpr) : outcome :=
  match e with
  | EName s => res s
  | ENum d => match nat_val d with
              | Some z => Returns (VNum (inject_Z z))
              | None => Raises
              end
  | EBin OAnd a b =>
      match py_eval res a with
      | Returns v => if truthy v then py_eval res b else Returns v
      | o => o
      end
  | EBin OOr a b =>
      match py_eval res a with
      | Returns v => if truthy v then Returns v else py_eval res b
      | o => o
      end
  | EBin op a b =>
      match py_eval res a with
      | Returns v => match py_eval res b with
                     | Returns w => arith op v w
                     | o => o
                     end
      | o => o
      end
  | ENot a =>
      match py_eval res a with
      | Returns v => Returns (VBool (negb (truthy v)))
      | o => o
      end
  | ENeg a =>
      match py_eval res a with
      | Returns v => match num_of v with Some q => Returns (VNum (- q)%Q) | None => Raises end
      | o => o
      end
  end.

(** ** Loading *)

(** A rule as seen by the post-parsing pass: a meta rule with its text, or any
    other rule.  For oa/rules/ruleset.py:276-287. *)
Inductive mrule := RBase | RMeta (text : str).

(** Rule tables; [order] enumerates the set of names of a meta rule in the
    (arbitrary) iteration order of a Python [set].  For oa/rules/ruleset.py:276-287. *)
Record mtables := mkT { t_checked : dict mrule; t_not_checked : dict mrule }.

(** oa/rules/ruleset.py:276-287 *)
Definition mget (t : mtables) (n : str) : option mrule :=
  match dget n (t_checked t) with
  | Some r => Some r
  | None => dget n (t_not_checked t)
  end.

(** For oa/rules/meta.py:36-71. *)
Inductive ppres :=
| PPok (done : list str)      (** processed; the meta rules with a usable [match] *)
| PPinvalid (done : list str) (** [InvalidRule] *)
| PPsyntax.                   (** [SyntaxError] from [compile], not caught *)

Section Load.
Variable order : list str -> list str.

(** oa/rules/meta.py:36-71 [MetaRule.postparsing] for the rule object [r] named
    [n].  [left] is [MAX_RECURSION + 1 - _depth]: at 0 the depth limit (10) is
    exceeded.  [done] are the meta rules already processed ("match" in
    [_location]).  Non-meta rules do nothing (oa/rules/base.py:86-88).
    Simplification: Python evaluates references after compiling; a failure
    leaves already processed references processed, as here. *)
Fixpoint pp (left : nat) (t : mtables) (n : str) (r : mrule) (done : list str) {struct left} : ppres :=
  match r with
  | RBase => PPok done
  | RMeta text =>
      match left with
      | 0 => PPinvalid done
      | S left' =>
          if mem_str n done then PPok done
          else match compile_text text with
               | None => PPsyntax
               | Some e =>
                   (fix refs (l : list str) (done : list str) : ppres :=
                      match l with
                      | [] => PPok (n :: done)
                      | s :: l' =>
                          match mget t s with
                          | None => PPinvalid done
                          | Some rs => match pp left' t s rs done with
                                       | PPok done' => refs l' done'
                                       | err => err
                                       end
                          end
                      end) (order (expr_names e)) done
               end
      end
  end.

(** oa/rules/meta.py:19 [MAX_RECURSION = 10] *)
Definition max_left : nat := 11.

(** oa/rules/ruleset.py:331-339, one table in non-paranoid mode: the snapshot
    [items] is walked, invalid rules are deleted from the table.  [None] is an
    uncaught exception. *)
Fixpoint pp_items (which : bool) (items : list (str * mrule)) (t : mtables) (done : list str)
  : option (mtables * list str) :=
  match items with
  | [] => Some (t, done)
  | (n, r) :: rest =>
      match pp max_left t n r done with
      | PPok done' => pp_items which rest t done'
      | PPinvalid done' =>
          pp_items which rest
            (if which then mkT (ddel n (t_checked t)) (t_not_checked t)
             else mkT (t_checked t) (ddel n (t_not_checked t))) done'
      | PPsyntax => None
      end
  end.

(** oa/rules/ruleset.py:329-339 [call_postparsing] *)
Definition call_postparsing (t : mtables) : option (mtables * list str) :=
  match pp_items true (t_checked t) t [] with
  | None => None
  | Some (t1, done1) => pp_items false (t_not_checked t1) t1 done1
  end.
End Load.

(** ** Matching a loaded rule (oa/rules/meta.py:69,73-74): sub-rules are called
    through their [match].  [None] is running out of [fuel] (unbounded
    recursion in Python). *)
Section Match.
Variable t : mtables.
Variable base : str -> outcome.

(** All sub-rule results, or [None] if one of them runs out of fuel.
    oa/rules/meta.py:73-74. *)
Fixpoint mmatch (fuel : nat) (n : str) {struct fuel} : option outcome :=
  match fuel with
  | 0 => None
  | S fuel' =>
      match mget t n with
      | None => None
      | Some RBase => Some (base n)
      | Some (RMeta text) =>
          match compile_text text with
          | None => None
          | Some e =>
              if forallb (fun s => match mmatch fuel' s with Some _ => true | None => false end) (expr_names e)
              then Some (py_eval (fun s => match mmatch fuel' s with Some o => o | None => Raises end) e)
              else None
          end
      end
  end.
End Match.
