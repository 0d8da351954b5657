(** Vocabulary for the properties of the picture and PDF rules. *)
From Coq Require Import QArith.
From Verif Require Import PyStr PyDict.
From Verif Require Import Model_Attach.
From Verif Require Model_Rules.
Open Scope nat_scope.

(** ** Parts *)
Definition picture (p : part) : Prop := p_main p = $"image".
(** A picture of a type; "all" stands for every type. *)
Definition of_type (t : str) (p : part) : Prop := picture p /\ (t = $"all" \/ p_sub p = t).
Definition pdf_part (p : part) : Prop := p_main p = $"application" /\ p_sub p = $"pdf".
(** [n] is the sum of [f] over the parts for which [P] holds. *)
Inductive sum_over (P : part -> Prop) (f : part -> nat) : list part -> nat -> Prop :=
| so_nil : sum_over P f [] 0
| so_yes : forall p l n, P p -> sum_over P f l n -> sum_over P f (p :: l) (f p + n)
| so_no : forall p l n, ~ P p -> sum_over P f l n -> sum_over P f (p :: l) n.
Definition one (p : part) : nat := 1.
(** No two attachments of the message with the same digest have different bytes. *)
Definition no_collision (md5 : str -> str) (P : part -> Prop) (l : list part) : Prop :=
  forall p p', In p l -> In p' l -> P p -> P p' -> md5 (p_payload p) = md5 (p_payload p') -> p_payload p = p_payload p'.

(** ** Arguments: the number that an argument stands for, written with or without quotes *)
Inductive means : arg Z -> Z -> Prop :=
| means_num : forall z, means (Num z) z
| means_text : forall s z, Model_Rules.py_int s = Some z -> means (Quoted s) z.
Definition at_least (lo : arg Z) (n : nat) : Prop := exists a, means lo a /\ (a <= Z.of_nat n)%Z.
Definition at_most (hi : option (arg Z)) (n : nat) : Prop :=
  match hi with Some h => exists b, means h b /\ (Z.of_nat n <= b)%Z | None => True end.
(** A maximum that is not a bare zero or an empty text *)
Definition real_limit (hi : option (arg Z)) : Prop := hi <> Some (Num 0%Z) /\ hi <> Some (Quoted []).
(** The same for a limit without quotes *)
Definition num_at_least (lo : arg Z) (n : nat) : Prop := exists a, lo = Num a /\ (a <= Z.of_nat n)%Z.
Definition num_at_most (hi : option (arg Z)) (n : nat) : Prop :=
  match hi with Some h => exists b, h = Num b /\ (Z.of_nat n <= b)%Z | None => True end.

(** ** Pictures *)
(** The number of pixels of a picture that can be read, 0 for the others *)
Definition pixels (open_image : str -> opened) (p : part) : nat :=
  match open_image (p_payload p) with Opened s => width s * height s | _ => 0 end.
(** A rule about all types: no picture has "all" for its type. *)
Definition no_all (t : str) (l : list part) : Prop := t = $"all" -> forall p, In p l -> picture p -> p_sub p <> $"all".
(** A size within the limits *)
Definition fits (minh minw : arg Z) (maxh maxw : option (arg Z)) (sz : size) : Prop :=
  at_least minh (height sz) /\ at_least minw (width sz) /\ at_most maxh (height sz) /\ at_most maxw (width sz).
(** Arguments that all stand for numbers *)
Definition readable_args (minh minw : arg Z) (maxh maxw : option (arg Z)) : Prop :=
  (exists z, means minh z) /\ (exists z, means minw z) /\
  (forall h, maxh = Some h -> exists z, means h z) /\ (forall h, maxw = Some h -> exists z, means h z).
(** The rational number an argument means, and maxima that are in force *)
Definition means_ratio (float_of : str -> option Q) (a : arg Q) (x : Q) : Prop :=
  match a with Num y => x = y | Quoted s => float_of s = Some x end.
Definition real_ratio (a : arg Q) : Prop := match a with Num y => ~ (y == 0)%Q | Quoted s => s <> [] end.
(** The picture is the first one with these bytes. *)
Definition first_copy (before : list part) (p : part) : Prop :=
  forall p', In p' before -> picture p' -> p_payload p' <> p_payload p.

(** ** PDF files *)
(** The objects of all the pages of a document that can be read *)
Definition objects_of (d : document) : list xobject :=
  match d with
  | Document _ ps => concat (map (fun p : page => match p with Some os => os | None => [] end) ps)
  | _ => []
  end.
Definition is_image (o : xobject) : bool := match o_subtype o with Some t => streqb t ($"/Image") | None => false end.
Definition surface (o : xobject) : nat :=
  match o_width o, o_height o with Some w, Some h => w * h | _, _ => 0 end.
Definition pictures_in (read_pdf : str -> document) (p : part) : nat :=
  length (filter is_image (objects_of (read_pdf (p_payload p)))).
Definition surface_in (read_pdf : str -> document) (p : part) : nat :=
  fold_right Nat.add 0 (map surface (filter is_image (objects_of (read_pdf (p_payload p))))).
Definition bytes_in (p : part) : nat := length (p_payload p).
(** An object without the entries that every object, and every image, must have *)
Definition broken_object (o : xobject) : Prop :=
  o_subtype o = None \/ (o_subtype o = Some ($"/Image") /\ (o_width o = None \/ o_height o = None)).
(** A document that the plugin cannot get through *)
Definition broken (d : document) : Prop := d = Unreadable \/ exists o, In o (objects_of d) /\ broken_object o.
(** The values of the properties that the plugin keeps; "" for a missing one *)
Definition text_of (v : option str) : str := match v with Some x => x | None => [] end.
Definition has_detail (d : document) (k v : str) : Prop :=
  exists i ps, d = Document (Some i) ps /\
    ((k = $"author" /\ v = text_of (d_author i)) \/ (k = $"creator" /\ v = text_of (d_creator i)) \/
     (k = $"producer" /\ v = text_of (d_producer i)) \/ (k = $"title" /\ v = text_of (d_title i))).
