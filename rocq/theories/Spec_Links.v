(** What the properties about the links of a text talk about. *)
From Verif Require Import PyStr Spec_Html.

(** The kinds of tags that are links, and the attributes that hold an address. *)
Definition kinds : list str := [$"a"; $"link"].
Definition holders : list str := [$"href"; $"src"].

Section Pages.
Variable unescape : str -> str.

(** The text of a value, and the addresses of a tag. *)
Definition value_of_text (v : str) : str := match v with [] => [] | _ => unescape v end.
Definition addresses (a : list (str * value)) : list str :=
  flat_map (fun x => match snd x with Quoted _ v => if mem_str (lower (fst x)) holders then [value_of_text v] else [] | NoValue => [] end) a.
(** What a link tag leads to, with its kind. *)
Definition leads (m : markup) : list (str * str) :=
  match m with
  | Tag n a _ => if mem_str (lower n) kinds then map (pair (lower n)) (addresses a) else []
  | _ => []
  end.
(** Markup that ends an element: an end tag, a tag that closes itself, a script or style. *)
Definition ends (m : markup) : bool :=
  match m with
  | Tag _ _ c => negb (streqb c ($">"))
  | EndTag _ | Program _ _ _ _ => true
  | _ => false
  end.
(** The link a text stands in, from the markup before it, the nearest first: the last address of
    the nearest link tag with an address, if no element ends in between. *)
Fixpoint link_at (before : list markup) : option (str * str) :=
  match before with
  | [] => None
  | m :: r => if ends m then None else match rev (leads m) with l :: _ => Some l | [] => link_at r end
  end.
Definition in_link (before : list markup) (ts : list str) : list ((str * str) * str) :=
  match link_at before with Some (_, []) | None => [] | Some l => map (pair l) ts end.
(** The texts that stand in a link with an address that is not empty, each with its link. *)
Fixpoint linked (before : list markup) (parts : list (str * markup)) (last : str) : list ((str * str) * str) :=
  match parts with
  | [] => in_link before (some_text last)
  | (t, m) :: r => in_link before (some_text t ++ code_of m) ++ linked (m :: before) r last
  end.
Definition is_link (k u : str) (x : (str * str) * str) : bool := streqb (fst (fst x)) k && streqb (snd (fst x)) u.
Definition texts_in (k u : str) (d : document) : list str := map snd (filter (is_link k u) (linked [] (fst d) (snd d))).
Definition has_link (k u : str) (d : document) : Prop := exists p, In p (fst d) /\ In (k, u) (leads (snd p)).

(** A link tag with an attribute that should hold an address, but has no value or one that
    [urlparse] rejects. *)
Definition broken_link (urlparse : str -> option (str * str)) (m : markup) : Prop :=
  exists n a c h v, m = Tag n a c /\ In (lower n) kinds /\ In (h, v) a /\ In (lower h) holders /\
    match v with NoValue => True | Quoted _ v => urlparse (value_of_text v) = None end.
(** A link tag without an address where a link of the other kind is open *)
Definition stray (before : list markup) (m : markup) : Prop :=
  exists n a c k u, m = Tag n a c /\ In (lower n) kinds /\ leads m = [] /\ link_at before = Some (k, u) /\ k <> lower n.
Definition a_page (urlparse : str -> option (str * str)) (d : document) : Prop :=
  proper d /\ forall x p y, fst d = x ++ p :: y -> ~ broken_link urlparse (snd p) /\ ~ stray (rev (map snd x)) (snd p).
(** The secure web addresses shown in anchors can be parsed. *)
Definition words_parse (urlparse : str -> option (str * str)) (d : document) : Prop :=
  forall u t w, In t (texts_in ($"a") u d) -> In w (words t) -> startswith ($"https://") w = true -> urlparse w <> None.
End Pages.
