(** Vocabulary for the meta rule properties (C10-C12). *)
From Verif Require Import PyStr PyDict Model_Rules Model_Meta.

(** ** What an expression is worth, given the worth of the rules it names
    (a rule that hits is worth 1, one that does not is worth 0; operators as in
    Perl/SpamAssassin). *)
Definition of_bool (b : bool) : Q := if b then 1%Q else 0%Q.
Definition is_zero (q : Q) : bool := Qeq_bool q 0.
Definition number (digits : str) : Q :=
  inject_Z (fold_left (fun acc c => 10 * acc + Z.of_N (c - 48))%Z digits 0%Z).

Fixpoint worth (w : str -> Q) (e : mexpr) : Q :=
  match e with
  | EName s => w s
  | ENum d => number d
  | ENot a => of_bool (is_zero (worth w a))
  | ENeg a => (- worth w a)%Q
  | EBin o a b =>
      let x := worth w a in
      let y := worth w b in
      match o with
      | OAnd => if is_zero x then x else y
      | OOr => if is_zero x then y else x
      | OPlus => (x + y)%Q
      | OMinus => (x - y)%Q
      | OMul => (x * y)%Q
      | OLt => of_bool (negb (Qle_bool y x))
      | OGt => of_bool (negb (Qle_bool x y))
      | OLe => of_bool (Qle_bool x y)
      | OGe => of_bool (Qle_bool y x)
      | OEq => of_bool (Qeq_bool x y)
      end
  end.

(** A returned value seen as a number: hits are 1, misses 0. *)
Definition value_is (v : value) (q : Q) : Prop :=
  match v with
  | VBool b => of_bool b == q
  | VNum x => x == q
  | _ => False
  end.

(** ** How an expression is written *)

Definition op_tok (o : mop) : mtok :=
  match o with
  | OAnd => TAnd | OOr => TOr | OPlus => TPlus | OMinus => TMinus | OMul => TMul
  | OLt => TLt | OGt => TGt | OLe => TLe | OGe => TGe | OEq => TEq
  end.
Definition tok_text (t : mtok) : str :=
  match t with
  | TName s => s | TNum d => d
  | TAnd => $"&&" | TOr => $"||" | TNot => $"!" | TLp => $"(" | TRp => $")"
  | TPlus => $"+" | TMinus => $"-" | TMul => $"*"
  | TLt => $"<" | TGt => $">" | TLe => $"<=" | TGe => $">=" | TEq => $"=="
  end.

(** The usual strengths: || 1, && 2, ! 3, comparisons 4, + - 5, * 6, unary - 7. *)
Definition strength (o : mop) : nat :=
  match o with
  | OOr => 1 | OAnd => 2 | OLt | OGt | OLe | OGe | OEq => 4 | OPlus | OMinus => 5 | OMul => 6
  end.
Definition paren (b : bool) (ts : list mtok) : list mtok := if b then TLp :: ts ++ [TRp] else ts.

(** Writing [e] where everything stronger than [k] may stand without
    parentheses.  Only the parentheses that are needed are written, except that
    a "!" inside arithmetic or a comparison, and the operand of a "!" or unary
    "-" when it is not a name, a number or (for "!") arithmetic, are put in
    parentheses. *)
Fixpoint written (k : nat) (e : mexpr) : list mtok :=
  match e with
  | EName s => [TName s]
  | ENum d => [TNum d]
  | ENot a => paren (2 <? k) (TNot :: written 3 a)
  | ENeg a => TMinus :: written 7 a
  | EBin o a b =>
      let p := strength o in
      let left := if p =? 4 then 4 else p - 1 in
      paren (p <=? k) (written left a ++ op_tok o :: written p b)
  end.

(** The same with the SpamAssassin convention that "!" binds tightest. *)
Fixpoint written_tight (k : nat) (e : mexpr) : list mtok :=
  match e with
  | EName s => [TName s]
  | ENum d => [TNum d]
  | ENot a => TNot :: written_tight 7 a
  | ENeg a => TMinus :: written_tight 7 a
  | EBin o a b =>
      let p := strength o in
      let left := if p =? 4 then 4 else p - 1 in
      paren (p <=? k) (written_tight left a ++ op_tok o :: written_tight p b)
  end.

(** Text of a token list with any blanks (possibly none) around the tokens. *)
Fixpoint spell (blanks : list str) (ts : list mtok) : str :=
  match ts with
  | [] => hd [] blanks
  | t :: ts' => hd [] blanks ++ tok_text t ++ spell (tl blanks) ts'
  end.
Definition all_blank (blanks : list str) : Prop := Forall (fun b => forallb is_space b = true) blanks.

(** Names are identifiers, numbers are decimal literals. *)
Fixpoint proper (e : mexpr) : Prop :=
  match e with
  | EName s => name_ok s = true
  | ENum d => num_ok d = true
  | EBin _ a b => proper a /\ proper b
  | ENot a | ENeg a => proper a
  end.

(** The words that Python keeps for itself *)
Definition reserved : list str :=
  [$"False"; $"None"; $"True"; $"and"; $"as"; $"assert"; $"async"; $"await"; $"break"; $"class"; $"continue"; $"def"; $"del";
   $"elif"; $"else"; $"except"; $"finally"; $"for"; $"from"; $"global"; $"if"; $"import"; $"in"; $"is"; $"lambda"; $"nonlocal";
   $"not"; $"or"; $"pass"; $"raise"; $"return"; $"try"; $"while"; $"with"; $"yield"].
Definition letter_or_underscore (c : char) : Prop := (65 <= c <= 90)%N \/ (97 <= c <= 122)%N \/ c = 95%N.
Definition decimal_digit (c : char) : Prop := (48 <= c <= 57)%N.

(** [text] is a way to write [e]. *)
Definition writes (text : str) (e : mexpr) : Prop :=
  proper e /\ exists blanks, all_blank blanks /\ text = spell blanks (written 0 e).

(** ** Loaded rules *)

(** Names are unique over the two tables (that is C14). *)
Definition tables_ok (t : mtables) : Prop :=
  NoDup (dkeys (t_checked t)) /\ NoDup (dkeys (t_not_checked t)) /\
  forall n, In n (dkeys (t_checked t)) -> ~ In n (dkeys (t_not_checked t)).

Definition defined (t : mtables) (n : str) : Prop :=
  In n (dkeys (t_checked t)) \/ In n (dkeys (t_not_checked t)).

(** [n] is a meta rule whose expression mentions [s]. *)
Definition mentions (t : mtables) (n s : str) : Prop :=
  exists text e, mget t n = Some (RMeta text) /\ compile_text text = Some e /\ In s (expr_names e).

(** The iteration order of a set of names is some enumeration of it. *)
Definition enumerates (order : list str -> list str) : Prop :=
  forall l s, In s (order l) <-> In s l.

(** What matching rule [n] gives. *)
Definition gives (t : mtables) (base : str -> outcome) (n : str) (o : outcome) : Prop :=
  exists fuel, mmatch t base fuel n = Some o.

(** A rule nested at most [d] meta rules deep, everything it mentions defined. *)
Inductive depth_le (t : mtables) : str -> nat -> Prop :=
| depth_base : forall n d, mget t n = Some RBase -> depth_le t n d
| depth_meta : forall n d text e,
    mget t n = Some (RMeta text) -> compile_text text = Some e ->
    (forall s, In s (expr_names e) -> depth_le t s d) -> depth_le t n (S d).

(** Every meta rule text is syntactically correct. *)
Definition all_compile (t : mtables) : Prop :=
  forall n text, mget t n = Some (RMeta text) -> compile_text text <> None.
