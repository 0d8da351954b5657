(** Small independent definitions for tag replacement. *)
From Verif Require Import PyStr PyDict.

(** "<", a text without angle brackets, ">". *)
Definition tag_shape (t : str) : Prop :=
  exists body, t = $"<" ++ body ++ $">" /\ body <> [] /\ ~ In 60%N body /\ ~ In 62%N body.
Definition tags_ok (d : dict str) : Prop := forall t, In t (dkeys d) -> tag_shape t.
(** No defined tag occurs in the text. *)
Definition plain (d : dict str) (s : str) : Prop := forall t a b, In t (dkeys d) -> s <> a ++ t ++ b.

(** [s'] is [s] without its occurrences of the tag. *)
Definition removed (tag s s' : str) : Prop :=
  exists chunks, chunks <> [] /\ s = join tag chunks /\ (forall c a b, In c chunks -> c <> a ++ tag ++ b) /\ s' = concat chunks.
(** The texts of the pre (inter, post) tags that occur, and the pattern without them. *)
Inductive meta_removed : dict str -> str -> str -> str -> Prop :=
| MR_none s : meta_removed [] s [] s
| MR_absent tag v defs s vs s' : (forall a b, s <> a ++ tag ++ b) ->
    meta_removed defs s vs s' -> meta_removed ((tag, v) :: defs) s vs s'
| MR_found tag v defs s s1 vs s' : (exists a b, s = a ++ tag ++ b) -> removed tag s s1 ->
    meta_removed defs s1 vs s' -> meta_removed ((tag, v) :: defs) s (v ++ vs) s'.

(** A pattern: a text, then defined tags each followed by a text. *)
Fixpoint written (l : list (str * str)) : str :=
  match l with [] => [] | (tag, text) :: l => tag ++ text ++ written l end.
(** The same with each tag replaced: its value between the pre and post texts, and
    the inter text between two tags that follow each other directly. *)
Fixpoint expanded (value : str -> str) (pre inter post : str) (l : list (str * str)) : str :=
  match l with
  | [] => []
  | (tag, text) :: l =>
      pre ++ value tag ++ post ++
      match text, l with [], _ :: _ => inter | _, _ => [] end ++
      text ++ expanded value pre inter post l
  end.
(** The last definition of a name. *)
Definition last_defines (lines : list str) (name value : str) : Prop :=
  exists before line after, lines = before ++ line :: after /\ split_ws_max 1 line = [name; value] /\
    forall l v, In l after -> split_ws_max 1 l <> [name; v].
