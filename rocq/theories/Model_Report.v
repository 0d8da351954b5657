(** Model of the templates, tags and header edits of oa/rules/ruleset.py.
    Definitions only. *)
From Verif Require Import PyStr PyDict Model_Rules Model_Net.

(** For oa/rules/ruleset.py:21,123-128. *)
Definition is_capital (c : char) : bool := N.leb 65 c && N.leb c 90.
(** For oa/rules/ruleset.py:21,123-128. *)
Definition underscore : char := 95%N.

(** ** Templates *)
(** oa/rules/ruleset.py:21,123-128: [_TAG_RE], "_([A-Z_]*?)_".  The shortest match
    at an underscore ends at the next one, so only capitals are between.  Returns
    the text with placeholders and the tags; [k] characters of the current match
    are still to be skipped. *)
Fixpoint conv (s : str) (k : nat) : str * list str :=
  match s with
  | [] => ([], [])
  | c :: r =>
      match k with
      | S k' => conv r k'
      | 0 =>
          if N.eqb c underscore then
            let tag := take_while is_capital r in
            match drop_while is_capital r with
            | d :: _ => if N.eqb d underscore
                        then let (t, tags) := conv r (S (length tag)) in ($"%(" ++ tag ++ $")s" ++ t, tag :: tags)
                        else let (t, tags) := conv r 0 in (c :: t, tags)
            | [] => let (t, tags) := conv r 0 in (c :: t, tags)
            end
          else let (t, tags) := conv r 0 in (c :: t, tags)
      end
  end.
(** For oa/rules/ruleset.py:123-128. *)
Definition quotes : str := [39%N; 34%N].
(** oa/rules/ruleset.py:123-128 [_convert_tags] *)
Definition convert_tags (text : str) : str * list str := conv (strip_chars quotes text) 0.

(** [text % data].  Modelled: [%(name)s] and [%%]; any other use of "%" is
    [FOther] - an exception or a conversion that is not modelled - except for one
    at the end of the text, which raises [ValueError].  For oa/rules/ruleset.py:60-110. *)
Inductive fres := FText (s : str) | FKeyError | FValueError | FOther.
(** For oa/rules/ruleset.py:60-110. *)
Definition fcons (a : str) (r : fres) : fres := match r with FText s => FText (a ++ s) | e => e end.
(** For oa/rules/ruleset.py:60-110. *)
Fixpoint format (fuel : nat) (data : dict str) (s : str) : fres :=
  match fuel with
  | 0 => FOther
  | S fuel' =>
      match s with
      | [] => FText []
      | c :: r =>
          if N.eqb c 37 then
            match r with
            | d :: r' =>
                if N.eqb d 37 then fcons [37%N] (format fuel' data r')
                else if N.eqb d 40 then
                  match split1 41 r' with
                  | Some (name, e :: r'') =>
                      if mem_char 40 name then FOther
                      else if N.eqb e 115 then
                        match dget name data with
                        | Some v => fcons v (format fuel' data r'')
                        | None => FKeyError
                        end
                      else FOther
                  | _ => FOther
                  end
                else FOther
            | [] => FValueError
            end
          else fcons [c] (format fuel' data r)
      end
  end.

Section Report.
Context {X : Type}.

(** What [_interpolate] reads: the options, the machine, and Python's number
    formats ([%s] and [%0.1f] of a number, [str(int(x))] or [None] if it is not
    whole).  For oa/rules/ruleset.py:259-274. *)
Record rconf := mkRC {
  rc_required : Q; rc_contact : str; rc_hostname : str; rc_subversion : str; rc_version : str;
  rc_fmt : Q -> str; rc_fmt1 : Q -> str; rc_whole : Q -> option str; rc_raw_text : X -> str }.

(** oa/rules/ruleset.py:91-98: [int(result)] of a recorded result; [None]: it
    raises.  (A recorded text, which only short-circuiting leaves behind, is never
    taken as a number.) *)
Definition int_of (v : value) : option Z :=
  match v with
  | VBool b => Some (if b then 1 else 0)%Z
  | VNum q => Some (Z.quot (Qnum q) (Zpos (Qden q)))
  | _ => None
  end.
(** For oa/rules/ruleset.py:60-110. *)
Definition show_z (z : Z) : str :=
  match z with Z0 => dec 0 | Zpos p => dec (Npos p) | Zneg p => 45%N :: dec (Npos p) end.
(** For oa/rules/ruleset.py:60-110. *)
Fixpoint scores_list (l : dict value) : option (list str) :=
  match l with
  | [] => Some []
  | (name, v) :: r =>
      if truthy v then match int_of v, scores_list r with
                       | Some z, Some t => Some ((name ++ $"=" ++ show_z z) :: t)
                       | _, _ => None
                       end
      else scores_list r
  end.
(** For oa/rules/ruleset.py:60-110. *)
Definition tests_scores_tag (m : msg X) : option str :=
  match scores_list (m_checked m) with
  | None => None
  | Some [] => Some ($"none")
  | Some l => Some (join ($",") l)
  end.

(** For oa/rules/ruleset.py:259-274. *)
Definition pad_left (n : nat) (s : str) : str := repeat 32%N (n - length s) ++ s.
(** For oa/rules/ruleset.py:259-274. *)
Definition pad_right (n : nat) (s : str) : str := s ++ repeat 32%N (n - length s).
(** oa/rules/ruleset.py:259-274 [get_summary_report]; [None]: [KeyError]. *)
Fixpoint summary_lines (rc : rconf) (rs : ruleset X) (l : dict value) : option (list str) :=
  match l with
  | [] => Some []
  | (name, v) :: l' =>
      if truthy v then
        match get_rule rs name false, summary_lines rc rs l' with
        | Some r, Some rest =>
            Some ((pad_left 4 (match rc_whole rc (r_score r) with Some t => t | None => rc_fmt1 rc (r_score r) end)
                    ++ $" " ++ pad_right 22 (r_name r) ++ $" " ++ r_desc r) :: rest)
        | _, _ => None
        end
      else summary_lines rc rs l'
  end.
(** oa/rules/ruleset.py:259-274. *)
Definition get_summary_report (rc : rconf) (rs : ruleset X) (m : msg X) : option str :=
  option_map (join crlf) (summary_lines rc rs (m_checked m)).

(** [text.split("\n", 3)[:3]].  For oa/rules/ruleset.py:60-110. *)
Fixpoint first_lines (n : nat) (s : str) : list str :=
  match n with
  | 0 => []
  | S n' => match split1 10 s with
            | None => [s]
            | Some (a, b) => a :: first_lines n' b
            end
  end.
(** For oa/rules/ruleset.py:60-110. *)
Definition preview (text : str) : str := firstn 200 (join ($" ") (first_lines 3 text)) ++ $"[...]".

(** [msg.score >= required_score], oa/rules/ruleset.py:64,174 *)
Definition is_spam (rc : rconf) (m : msg X) : bool := Qle_bool (rc_required rc) (m_score m).

(** oa/rules/ruleset.py:64-109: the values of the tags.  [None]: a [KeyError]
    while a report is made. *)
Definition set_if (b : bool) (k : str) (v : option str) (d : option (dict str)) : option (dict str) :=
  match d with
  | None => None
  | Some d => if b then match v with Some v => Some (dset k v d) | None => None end else Some d
  end.
(** For oa/rules/ruleset.py:60-110. *)
Definition update (d : dict str) (e : dict str) : dict str := fold_left (fun d x => dset (fst x) (snd x) d) e d.
(** For oa/rules/ruleset.py:60-110. *)
Definition tag_data (rc : rconf) (rs : ruleset X) (tags : list str) (m : msg X) : option (dict str) :=
  let spam := is_spam rc m in
  let d := fold_left (fun d t => dset t ($"@@" ++ t ++ $"@@") d) tags [] in
  let d := dset ($"CONTACTADDRESS") (rc_contact rc) d in
  let d := dset ($"HOSTNAME") (rc_hostname rc) d in
  let d := dset ($"YESNOCAPS") (if spam then $"YES" else $"NO") d in
  let d := dset ($"YESNO") (if spam then $"Yes" else $"No") d in
  let d := dset ($"SCORE") (rc_fmt1 rc (m_score m)) d in
  let d := dset ($"REQD") (rc_fmt1 rc (rc_required rc)) d in
  let d := dset ($"SUBVERSION") (rc_subversion rc) d in
  let d := dset ($"VERSION") (rc_version rc) d in
  let has t := mem_str t tags in
  let d := set_if (has ($"REPORT")) ($"REPORT") (get_matched_report (rc_fmt rc) rs m) (Some d) in
  let d := set_if (has ($"TESTS")) ($"TESTS") (Some (tests_tag m)) d in
  let d := set_if (has ($"TESTSSCORES")) ($"TESTSSCORES") (tests_scores_tag m) d in
  let d := set_if (has ($"SUMMARY")) ($"SUMMARY") (get_summary_report rc rs m) d in
  let d := set_if (has ($"PREVIEW")) ($"PREVIEW") (Some (preview (rc_raw_text rc (m_ext m)))) d in
  option_map (fun d => update d (m_tags m)) d.

(** oa/rules/ruleset.py:60-110 [_interpolate].  The values are computed once per
    message and kept; here they are computed again from the same message. *)
Definition interpolate (rc : rconf) (rs : ruleset X) (tags : list str) (m : msg X) (text : str) : fres :=
  match tag_data rc rs tags m with
  | None => FKeyError
  | Some d => format (S (length text)) d text
  end.

(** ** Header edits.  For oa/rules/ruleset.py:34,146-170. *)
Definition edit : Type := bool * str * str.   (** remove, header name, template *)
(** For oa/rules/ruleset.py:34,146-170. *)
Record edits := mkEdits { ed_spam : list edit; ed_ham : list edit; ed_all : list edit; ed_tags : list str }.
(** oa/rules/ruleset.py:34,146-170. *)
Definition no_edits : edits := mkEdits [] [] [] [].

(** oa/rules/ruleset.py:34,146-170 [_add_header_rule]: [None]: [ValueError] (too
    few words) or [InvalidRule] (unknown kind of message). *)
Definition add_header_rule (value : str) (remove : bool) (ed : edits) : option edits :=
  match (if remove
         then match split_ws_max 1 value with [s; n] => Some (s, n, ([], [])) | _ => None end
         else match split_ws_max 2 value with [s; n; v] => Some (s, n, convert_tags v) | _ => None end) with
  | None => None
  | Some (status, name, (template, tags)) =>
      let e := (remove, $"X-Spam-" ++ name, template) in
      let all_tags := ed_tags ed ++ tags in
      if streqb (lower status) ($"spam") then Some (mkEdits (ed_spam ed ++ [e]) (ed_ham ed) (ed_all ed) all_tags)
      else if streqb (lower status) ($"ham") then Some (mkEdits (ed_spam ed) (ed_ham ed ++ [e]) (ed_all ed) all_tags)
      else if streqb (lower status) ($"all") then Some (mkEdits (ed_spam ed) (ed_ham ed) (ed_all ed ++ [e]) all_tags)
      else None
  end.
(** oa/rules/ruleset.py:303-306: all additions, then all removals. *)
Fixpoint add_edits (values : list str) (remove : bool) (ed : edits) : option edits :=
  match values with
  | [] => Some ed
  | v :: r => match add_header_rule v remove ed with Some ed' => add_edits r remove ed' | None => None end
  end.
(** oa/rules/ruleset.py:303-306. *)
Definition load_edits (adds removes : list str) : option edits :=
  match add_edits adds false no_edits with Some ed => add_edits removes true ed | None => None end.

(** For oa/rules/ruleset.py:191-205. *)
Definition headers := list (str * str).
(** oa/rules/ruleset.py:191-205 [_adjust_headers].  [del msg[name]] removes all
    headers of that name in any letter case, [add_header] appends one.  [render]:
    [_interpolate]; [None]: it raises. *)
Fixpoint adjust (render : str -> option str) (h : headers) (es : list edit) : option headers :=
  match es with
  | [] => Some h
  | (true, name, _) :: r => adjust render (filter (fun x => negb (streqb (lower name) (lower (fst x)))) h) r
  | (false, name, t) :: r => match render t with
                             | Some v => adjust render (h ++ [(name, v)]) r
                             | None => None
                             end
  end.

(** The new message: its headers, and its content - that of the original, or the
    report with the original attached (oa/rules/ruleset.py:207-242). *)
Inductive content := Same (body : str) | Wrapped (report original : str) (attach_as : str).
(** For oa/rules/ruleset.py:207-225. *)
Definition first_value (name : str) (h : headers) : option str :=
  option_map snd (find (fun x => streqb (lower name) (lower (fst x))) h).
(** For oa/rules/ruleset.py:207-225. *)
Definition opt_header (name : str) (v : option str) : headers := match v with Some v => [(name, v)] | None => [] end.
(** oa/rules/ruleset.py:207-225: the headers of the wrapping message; [received]
    and [now]: texts made from the host name and the time. *)
Definition bounce_headers (received now : str) (h : headers) : headers :=
  [($"Content-Type", $"multipart/mixed"); ($"MIME-Version", $"1.0"); ($"Received", received)]
  ++ opt_header ($"From") (first_value ($"To") h) ++ opt_header ($"To") (first_value ($"From") h)
  ++ opt_header ($"Subject") (first_value ($"Subject") h)
  ++ [($"Date", match first_value ($"Date") h with Some (c :: d) => c :: d | _ => now end)].

(** oa/rules/ruleset.py:289-306: what loading makes of the templates. *)
Record templates := mkT { t_report : str; t_unsafe : str; t_edits : edits; t_tags : list str }.
(** oa/rules/ruleset.py:289-306. *)
Definition convert_lines (lines : list str) : str * list str :=
  let l := map convert_tags lines in (join [10%N] (map fst l), concat (map snd l)).
(** oa/rules/ruleset.py:289-306. *)
Definition load_templates (report unsafe adds removes : list str) : option templates :=
  let (r, rt) := convert_lines report in
  let (u, ut) := convert_lines unsafe in
  match load_edits adds removes with
  | Some ed => Some (mkT r u ed (rt ++ ut ++ ed_tags ed))
  | None => None
  end.

(** oa/rules/ruleset.py:130-144 [get_report], [get_unsafe_report] *)
Definition no_template : str := [10%N] ++ $"(no report template found)" ++ [10%N].
(** For oa/rules/ruleset.py:130-139. *)
Definition render_report (rc : rconf) (rs : ruleset X) (tags : list str) (m : msg X) (template : str) : fres :=
  match template with
  | [] => FText no_template
  | _ => match interpolate rc rs tags m template with FText s => FText (s ++ [10%N]) | e => e end
  end.
(** oa/rules/ruleset.py:130-139. *)
Definition get_report (rc : rconf) (rs : ruleset X) (t : templates) (m : msg X) : fres :=
  render_report rc rs (t_tags t) m (t_report t).
(** oa/rules/ruleset.py:141-144. *)
Definition get_unsafe_report (rc : rconf) (rs : ruleset X) (t : templates) (m : msg X) : fres :=
  render_report rc rs (t_tags t) m (t_unsafe t).

(** oa/rules/ruleset.py:172-189 [get_adjusted_message], up to the conversion to
    text.  [h], [body], [raw]: headers, body and full text of the original;
    [received], [now]: see [bounce_headers]; [None]: an exception (or a conversion
    that is not modelled). *)
Definition text_of (f : fres) : option str := match f with FText s => Some s | _ => None end.
(** oa/rules/ruleset.py:172-189. *)
Definition get_adjusted (rc : rconf) (rs : ruleset X) (t : templates) (report_safe : Z) (header_only : bool)
    (received now : str) (h : headers) (body raw : str) (m : msg X) : option (headers * content) :=
  let spam := is_spam rc m in
  let render v := text_of (interpolate rc rs (t_tags t) m v) in
  match (if negb spam || header_only || Z.eqb report_safe 0 then Some (h, Same body)
         else match get_report rc rs t m, get_unsafe_report rc rs t m with
              | FText r, FText u =>
                  Some (bounce_headers received now h,
                        Wrapped (r ++ u) raw (if Z.eqb report_safe 2 then $"text/plain" else $"message/rfc882"))
              | _, _ => None
              end) with
  | None => None
  | Some (h1, c) =>
      match (if Z.eqb report_safe 0
             then option_map (fun x => h1 ++ [($"X-Spam-Report", x)]) (get_matched_report (rc_fmt rc) rs m)
             else Some h1) with
      | None => None
      | Some h2 =>
          match adjust render h2 (ed_all (t_edits t)) with
          | None => None
          | Some h3 => option_map (fun h4 => (h4, c))
                         (adjust render h3 (if spam then ed_spam (t_edits t) else ed_ham (t_edits t)))
          end
      end
  end.
End Report.
