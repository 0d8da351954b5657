(** Small independent definitions used to state the option properties. *)
From Verif Require Import PyStr PyDict Model_Rules Model_Parser Model_Conf.

Section S.
Variable classes : dict table.
Variable py_float : str -> option Q.
Variable h0 : list (list str).   (** the list objects made with the classes *)

Definition option_of (cls key : str) : option (otype * cval) :=
  match dget cls classes with Some t => dget key t | None => None end.

(** The tables are as Python makes them: keys are distinct, every default list is
    an object of its own, append options start as lists and clear options name
    their keys. *)
Definition classes_ok : Prop :=
  (forall cls t, dget cls classes = Some t -> NoDup (dkeys t)) /\
  (forall cls key ty n, option_of cls key = Some (ty, CList n) -> n < length h0) /\
  (forall cls key ty cls' key' ty' n, option_of cls key = Some (ty, CList n) ->
     option_of cls' key' = Some (ty', CList n) -> cls = cls' /\ key = key') /\
  (forall cls key ty d, option_of cls key = Some (ty, d) ->
     match ty with
     | OAppend | OAppendSplit => exists n, d = CList n
     | OClear => exists ks, d = CKeys ks
     | _ => True
     end).

(** The worlds a process can be in: any history from no context at all. *)
Definition reachable (w : world) : Prop :=
  exists ops, w = crun classes py_float (mkW h0 []) ops.

(** The class that takes an option line: the first in order that has it. *)
Fixpoint taker (order : list str) (key : str) : option (str * otype) :=
  match order with
  | [] => None
  | cls :: rest => match option_of cls key with
                   | Some (ty, _) => Some (cls, ty)
                   | None => taker rest key
                   end
  end.
(** The keys a clear option governs. *)
Definition governs (cls key : str) (k : str) : Prop :=
  exists ks, option_of cls key = Some (OClear, CKeys ks) /\ In k ks.

(** Seconds in a unit. *)
Inductive unit_of : char -> Q -> Prop :=
| Us : unit_of 115%N 1 | Um : unit_of 109%N (inject_Z 60) | Uh : unit_of 104%N (inject_Z 3600)
| Ud : unit_of 100%N (inject_Z 86400) | Uw : unit_of 119%N (inject_Z 604800).

(** What a text means for an option of each type, given what it held:
    the new value, or that the text is refused. *)
Inductive means : otype -> str -> option seen -> option seen -> Prop :=
| M_int t z old : t <> [] -> py_int t = Some z -> means OInt t old (Some (SInt z))
| M_int_none old : means OInt [] old old
| M_float t q old : t <> [] -> py_float t = Some q -> means OFloat t old (Some (SFloat q))
| M_float_none old : means OFloat [] old old
| M_time t q old : t <> [] -> py_float t = Some q -> (0 <= q)%Q -> means OTime t old (Some (SFloat q))
| M_time_unit t u q k old : py_float (t ++ [u]) = None -> t <> [] -> py_float t = Some q -> (0 <= q)%Q ->
    unit_of u k -> means OTime (t ++ [u]) old (Some (SFloat (q * k)%Q))
| M_time_none old : means OTime [] old old
| M_time_neg t q old : t <> [] -> py_float t = Some q -> (q < 0)%Q -> means OTime t old old
| M_time_bare u old : py_float [u] = None -> means OTime [u] old old
| M_time_unit_neg t u q old : py_float (t ++ [u]) = None -> t <> [] -> py_float t = Some q -> (q < 0)%Q ->
    means OTime (t ++ [u]) old old
| M_time_unit_bad t u q old : py_float (t ++ [u]) = None -> t <> [] -> py_float t = Some q ->
    (forall k, ~ unit_of u k) -> means OTime (t ++ [u]) old old
| M_bool_yes t old : lower t = $"1" \/ lower t = $"true" -> means OBool t old (Some (SBool true))
| M_bool_no t old : lower t <> $"1" -> lower t <> $"true" -> means OBool t old (Some (SBool false))
| M_str t old : means OStr t old (Some (SStr t))
| M_list t l old : l <> [] -> join ($",") l = t -> Forall (fun x => ~ In 44%N x) l -> means OList t old (Some (SList l))
| M_append t l : means OAppend t (Some (SList l)) (Some (SList (l ++ [t])))
| M_append_split t l : means OAppendSplit t (Some (SList l)) (Some (SList (l ++ words t))).
Inductive refused : otype -> str -> Prop :=
| R_int t : t <> [] -> py_int t = None -> refused OInt t
| R_float t : t <> [] -> py_float t = None -> refused OFloat t
| R_time t u : py_float (t ++ [u]) = None -> t <> [] -> py_float t = None -> refused OTime (t ++ [u]).

(** The operations that concern context [c]. *)
Definition concerns (c : nat) (o : cop) : bool :=
  match o with Create => true | Load c' _ | Set_ c' _ _ => Nat.eqb c' c end.
Definition is_append (cls key : str) : bool :=
  match option_of cls key with Some (OAppend, _) | Some (OAppendSplit, _) => true | _ => false end.

(** The order of the classes after loading one more. *)
Definition reorder (cls : str) (order : list str) : list str := filter (fun n => negb (streqb cls n)) order ++ [cls].

(** What context [c] adds to the list [cls.key] in a history, starting from
    [acc]: the texts of its own option lines that reach it, since the last
    clear. [order]: the classes loaded in [c]. *)
Fixpoint added (c : nat) (cls key : str) (order : list str) (acc : list str) (ops : list cop) : list str :=
  match ops with
  | [] => acc
  | Create :: r => added c cls key order acc r
  | Load c' cls' :: r => added c cls key (if Nat.eqb c' c then reorder cls' order else order) acc r
  | Set_ c' k v :: r =>
      added c cls key order
        (if Nat.eqb c' c then
           match taker (main :: order) k with
           | Some (cls', ty) =>
               if streqb cls' cls then
                 match ty with
                 | OAppend => if streqb k key then acc ++ [v] else acc
                 | OAppendSplit => if streqb k key then acc ++ words v else acc
                 | OClear => match option_of cls k with
                             | Some (_, CKeys ks) => if mem_str key ks then [] else acc
                             | _ => acc
                             end
                 | _ => acc
                 end
               else acc
           | None => acc
           end
         else acc) r
  end.
Definition order_of (w : world) (c : nat) : list str :=
  match nth_error (w_ctxs w) c with Some x => c_order x | None => [] end.
End S.
