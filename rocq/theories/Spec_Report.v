(** Vocabulary for the properties of templates, tags and header edits. *)
From Verif Require Import PyStr PyDict Model_Rules Model_Net Model_Report.

(** A template as it is read: from left to right, a tag wherever an underscore,
    capital letters and an underscore stand, and otherwise a single character. *)
Definition capital (c : char) : Prop := (65 <= c <= 90)%N.
Inductive piece := Tag (t : str) | Chr (c : char).
Definition starts_tag (s : str) : Prop := exists t r, Forall capital t /\ s = [95%N] ++ t ++ [95%N] ++ r.
Inductive reads : str -> list piece -> Prop :=
| R_end : reads [] []
| R_tag t r ps : Forall capital t -> reads r ps -> reads ([95%N] ++ t ++ [95%N] ++ r) (Tag t :: ps)
| R_chr c r ps : ~ starts_tag (c :: r) -> reads r ps -> reads (c :: r) (Chr c :: ps).
Definition tags_in (ps : list piece) : list str :=
  flat_map (fun p => match p with Tag t => [t] | Chr _ => [] end) ps.

Section Spec.
Context {X : Type}.
Implicit Types (m : msg X) (rs : ruleset X) (rc : rconf (X := X)).

(** The tags the program itself fills in; [None]: making the text fails. *)
Definition own_tags rc rs m : dict (option str) :=
  [ ($"CONTACTADDRESS", Some (rc_contact rc)); ($"HOSTNAME", Some (rc_hostname rc));
    ($"YESNOCAPS", Some (if Qle_bool (rc_required rc) (m_score m) then $"YES" else $"NO"));
    ($"YESNO", Some (if Qle_bool (rc_required rc) (m_score m) then $"Yes" else $"No"));
    ($"SCORE", Some (rc_fmt1 rc (m_score m))); ($"REQD", Some (rc_fmt1 rc (rc_required rc)));
    ($"SUBVERSION", Some (rc_subversion rc)); ($"VERSION", Some (rc_version rc));
    ($"REPORT", get_matched_report (rc_fmt rc) rs m);
    ($"TESTS", Some (match hit_names m with [] => $"none" | l => join ($",") l end));
    ($"TESTSSCORES", tests_scores_tag m); ($"SUMMARY", get_summary_report rc rs m);
    ($"PREVIEW", Some (preview (rc_raw_text rc (m_ext m)))) ].
(** The value of a tag: a plugin's, else the program's own, else a mark. *)
Definition tag_value rc rs m (t v : str) : Prop :=
  match dget t (m_tags m) with
  | Some w => v = w
  | None => match dget t (own_tags rc rs m) with
            | Some o => o = Some v
            | None => v = $"@@" ++ t ++ $"@@"
            end
  end.
Definition piece_value rc rs m (p : piece) (v : str) : Prop :=
  match p with Tag t => tag_value rc rs m t v | Chr c => v = [c] end.

(** The kind of message, for the header edits. *)
Definition kind_of rc m : str := if Qle_bool (rc_required rc) (m_score m) then $"spam" else $"ham".

(** The summary line of a hit rule. *)
Definition line_of_hit rc rs (name line : str) : Prop :=
  exists r, get_rule rs name false = Some r /\
    line = pad_left 4 (match rc_whole rc (r_score r) with Some t => t | None => rc_fmt1 rc (r_score r) end)
           ++ $" " ++ pad_right 22 (r_name r) ++ $" " ++ r_desc r.
End Spec.

(** ** Header edits *)
(** The additions configured for a kind of message: header and template. *)
Definition additions (kind : str) (adds : list str) : list (str * str) :=
  flat_map (fun line => match split_ws_max 2 line with
                        | [s; n; v] => if streqb (lower s) kind then [($"X-Spam-" ++ n, v)] else []
                        | _ => []
                        end) adds.
Definition removals (kind : str) (removes : list str) : list str :=
  flat_map (fun line => match split_ws_max 1 line with
                        | [s; n] => if streqb (lower s) kind then [$"X-Spam-" ++ n] else []
                        | _ => []
                        end) removes.
(** The headers whose name is none of [names], in any letter case. *)
Definition without (names : list str) (h : headers) : headers :=
  filter (fun x => negb (mem_str (lower (fst x)) (map lower names))) h.

(** The whole number [z] that is left of [q] when its fraction is dropped, and how a whole number is written *)
Definition whole_part (q : Q) (z : Z) : Prop :=
  ((0 <= q)%Q -> (0 <= z)%Z /\ (inject_Z z <= q < inject_Z (z + 1))%Q) /\
  ((q < 0)%Q -> (z <= 0)%Z /\ (inject_Z (z - 1) < q <= inject_Z z)%Q).
Definition writes_whole (z : Z) (t : str) : Prop :=
  ((0 <= z)%Z /\ t = dec (Z.to_N z)) \/ ((z < 0)%Z /\ t = $"-" ++ dec (Z.to_N (- z))).
(** What is shown of the answer of a rule *)
Definition shown (v : value) (t : str) : Prop :=
  match v with
  | VBool b => t = if b then $"1" else $"0"
  | VNum q => exists z, whole_part q z /\ writes_whole z t
  | _ => False
  end.
