(** Model of oa/plugins/body_eval.py (the stock word list is in Model_Stock) and of the order in
    which oa/message.py:449-469 gives it the parts of a message.  Floats are rationals.
    Definitions only. *)
From Coq Require Import QArith Qabs.
From Verif Require Import PyStr PyDict.
Open Scope nat_scope.

(** A part with its content type (lower case, [get_content_type]) and the text made of it
    ([[]] also for parts that have none), or with its own parts.
    For oa/plugins/body_eval.py:50-76. *)
Inductive part := Leaf (ty text : str) | Multi (ty : str) (subs : list part).
(** For oa/plugins/body_eval.py:50-76. *)
Definition ty_of (p : part) : str := match p with Leaf t _ => t | Multi t _ => t end.
(** For oa/plugins/body_eval.py:50-76. *)
Definition text_of (p : part) : str := match p with Leaf _ t => t | Multi _ _ => [] end.

(** [msg.walk()]; a part is identified by its path, standing for [id(part)].
    For oa/plugins/body_eval.py:50-76. *)
Definition ident := list nat.
(** oa/plugins/body_eval.py:50-76. *)
Fixpoint walk (id : ident) (p : part) : list (ident * part) :=
  (id, p) :: match p with
             | Leaf _ _ => []
             | Multi _ subs =>
                 (fix go (i : nat) (l : list part) : list (ident * part) :=
                    match l with [] => [] | q :: r => walk (i :: id) q ++ go (S i) r end) 0 subs
             end.
(** For oa/plugins/body_eval.py:50-76. *)
Definition sub_ids (id : ident) (p : part) : list ident :=
  match p with Leaf _ _ => [] | Multi _ subs => map (fun i => i :: id) (seq 0 (length subs)) end.
(** For oa/plugins/body_eval.py:50-76. *)
Definition ident_eq_dec : forall a b : ident, {a = b} + {a <> b} := list_eq_dec Nat.eq_dec.

(** [re.split(r"\s+", text)]: there may be empty pieces at both ends.
    For oa/plugins/body_eval.py:67-71. *)
Fixpoint resplit (s cur : str) (gap : bool) : list str :=
  match s with
  | [] => [rev cur]
  | x :: s' => if is_space x then if gap then resplit s' cur true else rev cur :: resplit s' [] true
               else resplit s' (x :: cur) false
  end.

(** [collections.Counter].  For oa/plugins/body_eval.py:50-76. *)
Definition counter := dict nat.
(** For oa/plugins/body_eval.py:50-76. *)
Definition count_one (d : counter) (w : str) : counter :=
  dset w (S (match dget w d with Some n => n | None => 0 end)) d.

(** What is kept for one message (oa/plugins/body_eval.py:41-48). *)
Record local := mkLoc { multiparts : list ident; text_tokens : counter; html_tokens : counter }.
(** oa/plugins/body_eval.py:41-48. *)
Definition check_start : local := mkLoc [] [] [].

Section BodyEval.
Variable is_w : char -> bool.     (** [\w] *)
Variable low : str -> str.        (** [lower()] *)

(** oa/plugins/body_eval.py:67-71 *)
Definition tokens (text : str) : list str :=
  map low (filter (fun w => match w with [] => false | _ => true end) (map (filter is_w) (resplit text [] false))).
(** oa/plugins/body_eval.py:50-76 *)
Definition extract_metadata (st : local) (ip : ident * part) : local :=
  let '(id, p) := ip in
  if streqb (ty_of p) ($"multipart/alternative") then
    mkLoc (multiparts st ++ sub_ids id p) (text_tokens st) (html_tokens st)
  else if (if in_dec ident_eq_dec id (multiparts st) then false else true) ||
          match text_of p with [] => true | _ => false end ||
          negb (streqb (ty_of p) ($"text/plain") || streqb (ty_of p) ($"text/html")) then st
  else if streqb (ty_of p) ($"text/plain") then
    mkLoc (multiparts st) (fold_left count_one (tokens (text_of p)) (text_tokens st)) (html_tokens st)
  else mkLoc (multiparts st) (text_tokens st) (fold_left count_one (tokens (text_of p)) (html_tokens st)).
(** All parts of a message.  oa/plugins/body_eval.py:50-76. *)
Definition extract_all (root : part) : local := fold_left extract_metadata (walk [] root) check_start.
End BodyEval.

(** oa/plugins/body_eval.py:84-99 *)
Definition valid_count (st : local) : nat :=
  length (filter (fun e => match dget (fst e) (html_tokens st) with Some h => h <=? snd e | None => false end) (text_tokens st)).
(** For oa/plugins/body_eval.py:107-129. *)
Definition q (n : nat) : Q := inject_Z (Z.of_nat n).
(** For oa/plugins/body_eval.py:107-129. *)
Definition madiff (st : local) : Q :=
  match length (html_tokens st) with
  | 0 => 0%Q
  | n => Qabs ((q n - q (valid_count st)) / q n * 100)
  end.
(** For oa/plugins/body_eval.py:107-129. *)
Definition between (minr ratio maxr : Q) : bool := Qle_bool minr ratio && Qle_bool ratio maxr.
(** oa/plugins/body_eval.py:107-129 *)
Definition multipart_alternative_difference (minr maxr : Q) (st : local) : bool := between minr (madiff st) maxr.
(** oa/plugins/body_eval.py:131-159 *)
Definition multipart_alternative_difference_count (ratio : Q) (minhtml : Z) (st : local) : bool :=
  let text := length (text_tokens st) in
  let html := length (html_tokens st) in
  if Z.ltb (Z.of_nat html) minhtml then false
  else match html with
       | 0 => false
       | _ => negb (Qle_bool (q text / q html) ratio)
       end.

(** [s.count(p)] for non-empty [p]: left to right, non-overlapping.
    For oa/plugins/body_eval.py:161-181. *)
Fixpoint count_aux (p s : str) (k : nat) : nat :=
  match s with
  | [] => 0
  | _ :: s' => match k with
               | S k' => count_aux p s' k'
               | 0 => if startswith p s then S (count_aux p s' (length p - 1)) else count_aux p s' 0
               end
  end.
(** For oa/plugins/body_eval.py:161-181. *)
Definition count_sub (p s : str) : nat := count_aux p s 0.
(** oa/plugins/body_eval.py:104-105 *)
Definition line_count (raw_text : str) : nat := count_char 10%N raw_text.
(** For oa/plugins/body_eval.py:161-181. *)
Definition blank_line_count (raw_text : str) : nat := count_sub [10%N; 10%N] raw_text.
(** oa/plugins/body_eval.py:161-181 *)
Definition check_blank_line_ratio (minr maxr : Q) (minlines : Z) (raw_text : str) : bool :=
  if Z.ltb (Z.of_nat (line_count raw_text)) (Z.max minlines 1) then false
  else between minr (q (blank_line_count raw_text) / q (line_count raw_text) * 100) maxr.

(** oa/plugins/body_eval.py:184-203 *)
Definition tvd_vertical_words (minr maxr : Q) (text : str) : bool :=
  let spaces := length (filter is_space text) in
  match length text - spaces with
  | 0 => false
  | n => between minr (q spaces / q n * 100) maxr
  end.

(** Several messages at a time: what is kept belongs to the message.
    oa/plugins/body_eval.py:41-105. *)
Inductive bevent := BStart | BPart (id : ident) (p : part).
(** oa/plugins/body_eval.py:41-105. *)
Definition bstep is_w low (e : bevent) (st : local) : local :=
  match e with BStart => check_start | BPart id p => extract_metadata is_w low st (id, p) end.
(** oa/plugins/body_eval.py:41-105. *)
Definition bstore := nat -> local.
(** oa/plugins/body_eval.py:41-105. *)
Definition brun is_w low (l : list (nat * bevent)) (s : bstore) : bstore :=
  fold_left (fun s me i => if Nat.eqb i (fst me) then bstep is_w low (snd me) (s i) else s i) l s.
