(** Model of oa/plugins/replace_tags.py.  Definitions only. *)
From Verif Require Import PyStr PyDict.

(** oa/plugins/replace_tags.py:32-64 [prepare_tags], for [replace_start] and
    [replace_end] without "%"; [which] is "pre", "inter", "post" or "tag". *)
Definition prepare_tags (start stop which : str) (lines : list str) : dict str :=
  let extra := if streqb which ($"tag") then [] else which ++ $" " in
  fold_left (fun d line => match split_ws_max 1 line with
                           | [name; value] => dset (start ++ extra ++ name ++ stop) value d
                           | _ => d
                           end) lines [].

(** oa/plugins/replace_tags.py:66-78 [get_metatags], in the order of the dictionary *)
Fixpoint get_metatags (defs : dict str) (rule_value : str) : str * str :=
  match defs with
  | [] => ([], rule_value)
  | (tag, value) :: rest =>
      if contains tag rule_value
      then let '(v, r) := get_metatags rest (replace tag [] rule_value) in (value ++ v, r)
      else get_metatags rest rule_value
  end.

(** oa/plugins/replace_tags.py:11: the text "<...>" at the front, if there is one *)
Definition angle (c : char) : bool := N.eqb c 60 || N.eqb c 62.
(** For oa/plugins/replace_tags.py:80-110. *)
Definition tag_at (s : str) : option str :=
  match s with
  | c :: r => if N.eqb c 60 then
                match take_while (fun x => negb (angle x)) r, drop_while (fun x => negb (angle x)) r with
                | b :: body, d :: _ => if N.eqb d 62 then Some (60%N :: (b :: body) ++ [62%N]) else None
                | _, _ => None
                end
              else None
  | [] => None
  end.
(** [SPLIT_TAGS.split]: texts and tags in turn.  [k] characters of a tag are still to be
    skipped, [cur] is the text so far, reversed.  For oa/plugins/replace_tags.py:80-110. *)
Fixpoint split_tags (s : str) (k : nat) (cur : str) : list str :=
  match s with
  | [] => [rev cur]
  | c :: r => match k with
              | S k => split_tags r k cur
              | O => match tag_at s with
                     | Some t => rev cur :: t :: split_tags r (length t - 1) []
                     | None => split_tags r 0 (c :: cur)
                     end
              end
  end.

(** oa/plugins/replace_tags.py:88-109 *)
Fixpoint put_tags (tags : dict str) (pre inter post : str) (splits : list str) : str :=
  match splits with
  | [] => []
  | value :: rest =>
      match dget value tags with
      | None => value
      | Some replace_value =>
          pre ++ replace_value ++ post ++
          (match rest with
           | [] :: next :: _ => if dhas next tags then inter else []
           | _ => []
           end)
      end ++ put_tags tags pre inter post rest
  end.
(** oa/plugins/replace_tags.py:80-110 [replace_tags] *)
Definition replace_tags (pre inter post tags : dict str) (rule_value : str) : str :=
  let '(p, v1) := get_metatags pre rule_value in
  let '(i, v2) := get_metatags inter v1 in
  let '(q, v3) := get_metatags post v2 in
  put_tags tags p i q (split_tags v3 0 []).

(** oa/plugins/replace_tags.py:112-130 [finish_parsing_start], after the
    preparation.  A rule of [results] has a value unless only other lines, such as a
    score, name it.  [None]: [KeyError], loading fails. *)
Fixpoint replace_rules (f : str -> str) (names : list str) (results : dict (option str)) : option (dict (option str)) :=
  match names with
  | [] => Some results
  | n :: rest => match dget n results with
                 | None => replace_rules f rest results
                 | Some None => None
                 | Some (Some v) => replace_rules f rest (dset n (Some (f v)) results)
                 end
  end.
