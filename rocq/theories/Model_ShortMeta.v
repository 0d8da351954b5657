(** Meta rules and short-circuiting together.  [ShortCircuit.finish_parsing_end] replaces the [match] of rules
    (oa/rules/parser.py:309, oa/plugins/short_circuit.py:79-105) before [post_parsing] binds the names in meta rules to
    the [match] of the rules they name (oa/rules/parser.py:311, oa/rules/meta.py:58-69): what a meta rule calls is the
    short-circuited rule, which records itself and stops the check when it hits.  Definitions only. *)
From Verif Require Import PyStr PyDict Model_Rules Model_Meta.

Section ShortMeta.
Context {X : Type}.
Notation msg := (msg X).
Notation rule := (rule X).

(** oa/rules/meta.py:73-74: evaluation of the expression, where every name is a call that may change the message and may
    raise.  [call]: the [match] bound to a name; [None] is unbounded recursion. *)
Fixpoint py_run (call : str -> msg -> option (msg * outcome)) (e : mexpr) (m : msg) : option (msg * outcome) :=
  match e with
  | EName s => call s m
  | ENum d => Some (m, match nat_val d with Some z => Returns (VNum (inject_Z z)) | None => Raises end)
  | EBin OAnd a b =>
      match py_run call a m with
      | Some (m1, Returns v) => if truthy v then py_run call b m1 else Some (m1, Returns v)
      | other => other
      end
  | EBin OOr a b =>
      match py_run call a m with
      | Some (m1, Returns v) => if truthy v then Some (m1, Returns v) else py_run call b m1
      | other => other
      end
  | EBin op a b =>
      match py_run call a m with
      | Some (m1, Returns v) => match py_run call b m1 with
                                | Some (m2, Returns w) => Some (m2, arith op v w)
                                | other => other
                                end
      | other => other
      end
  | ENot a =>
      match py_run call a m with
      | Some (m1, Returns v) => Some (m1, Returns (VBool (negb (truthy v))))
      | other => other
      end
  | ENeg a =>
      match py_run call a m with
      | Some (m1, Returns v) => Some (m1, match num_of v with Some q => Returns (VNum (- q)%Q) | None => Raises end)
      | other => other
      end
  end.

(** A rule object with another [match]: oa/plugins/short_circuit.py:104-105, oa/rules/meta.py:70-74 *)
Definition bound (r : rule) (f : msg -> msg * outcome) : rule :=
  mkRule (r_name r) (r_kind r) (r_scores r) (r_score r) (r_desc r) (r_prio r) (r_tflags r) (r_eval r) f.

Variable spam_score ham_score : Q.
Variable configs : list str.                    (** the values of "shortcircuit" *)
Variable rs : ruleset X.                        (** the rules before [post_parsing] *)
Variable t : mtables.                           (** the rules that are left after it, by class *)

(** oa/plugins/short_circuit.py:84-105 for one rule: it is wrapped once for every configured value that names it. *)
Definition wrapped (r : rule) : rule :=
  fold_left (fun r c => match sc_parse c with
                        | Some (n, ty) => if streqb n (r_name r) then sc_wrap ty spam_score ham_score r else r
                        | None => r
                        end) configs r.

(** [rule.match(msg)] for the rule named [n].  The own [match] of a meta rule looks up its compiled expression when it is
    called (oa/rules/meta.py:73-74), whoever wrapped it before.  [None]: unbounded recursion, or no such rule. *)
Fixpoint called (fuel : nat) (n : str) (m : msg) {struct fuel} : option (msg * outcome) :=
  match fuel with
  | 0 => None
  | S fuel' =>
      match get_rule rs n false, mget t n with
      | Some r, Some k =>
          match match k with
                | RBase => Some (r_match r m)
                | RMeta text => match compile_text text with
                                | Some e => py_run (called fuel') e m
                                | None => None
                                end
                end with
          | Some result => Some (r_match (wrapped (bound r (fun _ => result))) m)
          | None => None
          end
      | _, _ => None
      end
  end.

(** The checked rules as [RuleSet.match] runs them, oa/rules/ruleset.py:341-346: those of [l] that [post_parsing] left. *)
Definition in_force (fuel : nat) (l : list (str * rule)) : list (str * rule) :=
  flat_map (fun e => match dget (fst e) (t_checked t) with
                     | Some _ => [(fst e, bound (snd e) (fun m => match called fuel (fst e) m with
                                                                  | Some result => result
                                                                  | None => (m, Raises)
                                                                  end))]
                     | None => []
                     end) l.
End ShortMeta.

(** oa/rules/ruleset.py:331-333: the rules by class; [kind] tells the class of a rule. *)
Definition classes {X : Type} (kind : str -> mrule) (rs : ruleset X) : mtables :=
  mkT (map (fun e => (fst e, kind (fst e))) (rs_checked rs)) (map (fun e => (fst e, kind (fst e))) (rs_not_checked rs)).
