(** Vocabulary for what is asked, and in which order, while a rule is matched. *)
From Verif Require Import PyStr PyDict Model_Rules Spec_Rules Model_Meta Spec_Meta.

(** The rules whose results are needed, in the order they are needed, when [e] is worked out from left to right: the right
    side of "&&" is not looked at if the left is false, that of "||" not if the left is true, and nothing after an
    operand that fails.  [res]: what each name gives; [sub]: what each name needs. *)
Fixpoint visits (res : str -> outcome) (sub : str -> list str) (e : mexpr) : list str :=
  match e with
  | EName s => sub s
  | ENum _ => []
  | EBin o a b =>
      let go_on := match py_eval res a with
                   | Returns v => match o with OAnd => truthy v | OOr => negb (truthy v) | _ => true end
                   | _ => false
                   end in
      visits res sub a ++ (if go_on then visits res sub b else [])
  | ENot a | ENeg a => visits res sub a
  end.

Section Asks.
Variable t : mtables.
Variable base : str -> outcome.

(** Matching the rule [n] needs the results of the rules in the list, in this order; [n] itself comes last. *)
Inductive asks : str -> list str -> Prop :=
| asks_base : forall n, mget t n = Some RBase -> asks n [n]
| asks_meta : forall n text e res sub,
    mget t n = Some (RMeta text) -> compile_text text = Some e ->
    (forall s, In s (expr_names e) -> gives t base s (res s)) -> (forall s, In s (expr_names e) -> asks s (sub s)) ->
    asks n (visits res sub e ++ [n]).

(** [s] is short-circuited and true of the message. *)
Definition ends (configs : list str) (s : str) : Prop :=
  sc_setting configs s <> None /\ exists v, gives t base s (Returns v) /\ truthy v = true.
End Asks.
