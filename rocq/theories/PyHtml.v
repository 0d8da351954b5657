(** [html.parser.HTMLParser] of CPython 3.11, made with [convert_charrefs=False], and the parts of
    [_markupbase.ParserBase] it uses: what it hands to [handle_starttag], [handle_endtag] and
    [handle_data] when it is fed a text, and whether it raises.  The other methods do nothing in the
    classes of /repo and are left out; [handle_startendtag] calls the first two.
    Library file: the semantics of the standard library, not of code in /repo. *)
From Verif Require Import PyStr Regexp.

Definition pattern (x : bool) (s : str) : re := match compile false x s with Some r => r | None => Eps end.
Definition entityref : re := Eval vm_compute in pattern false ($"&([a-zA-Z][-.a-zA-Z0-9]*)[^a-zA-Z0-9]").
Definition charref : re := Eval vm_compute in pattern false ($"&#(?:[0-9]+|[xX][0-9a-fA-F]+)[^0-9a-fA-F]").
Definition commentclose : re := Eval vm_compute in pattern false ($"--\s*>").
Definition markedsectionclose : re := Eval vm_compute in pattern false ($"]\s*]\s*>").
Definition msmarkedsectionclose : re := Eval vm_compute in pattern false ($"]\s*>").
Definition declname : re := Eval vm_compute in pattern false ($"[a-zA-Z][-_.a-zA-Z0-9]*\s*").
Definition endtagfind : re := Eval vm_compute in pattern false ($"</\s*([a-zA-Z][-.a-zA-Z0-9:_]*)\s*>").
(** The escapes of the form feed and of the NUL are written as the characters. *)
Definition escapes (s : str) : str := replace ($"\f") [12%N] (replace ($"\x00") [0%N] s).
Definition tagfind_tolerant : re := Eval vm_compute in
  pattern false (escapes ($"([a-zA-Z][^\t\n\r\f />\x00]*)(?:\s|/(?!>))*")).
Definition attrfind_tolerant : re := Eval vm_compute in
  pattern false ($"((?<=[\'""\s/])[^\s/>][^\s/=>]*)(\s*=+\s*(\'[^\']*\'|""[^""]*""|(?![\'""])[^>\s]*))?(?:\s|/(?!>))*").
(** The blank in the class of the tag name does not count as white space of VERBOSE. *)
Definition locatestarttagend_tolerant : re := Eval vm_compute in pattern true (escapes ($"
  <[a-zA-Z][^\t\n\r\f />\x00]*       # tag name
  (?:[\s/]*                          # optional whitespace before attribute name
    (?:(?<=['""\s/])[^\s/>][^\s/=>]*  # attribute name
      (?:\s*=+\s*                    # value indicator
        (?:'[^']*'                   # LITA-enclosed value
          |""[^""]*""                   # LIT-enclosed value
          |(?!['""])[^>\s]*           # bare value
         )
        \s*                          # possibly followed by a space
       )?(?:\s|/(?!>))*
     )*
   )?
  \s*                                # trailing whitespace
")).
(** [set_cdata_mode] *)
Definition interesting (elem : str) : re :=
  match compile true false ($"</\s*" ++ elem ++ $"\s*>") with Some r => r | None => Eps end.

(** [pattern.match(rawdata, i)] and [pattern.search(rawdata, i)], with the text before [i]
    (backwards) and the text from [i] on.  The expressions use no digits or word characters. *)
Definition no_char (c : char) : bool := false.
Definition match_at (r : re) (b s : str) : option state := hd_error (ways no_char no_char r (mkS b s [])).
Definition search_at (r : re) (b s : str) : option state := search_from no_char no_char r b s.

Definition letter (c : char) : bool := (N.leb 65 c && N.leb c 90) || (N.leb 97 c && N.leb c 122).
(** The text before the first place where [p] holds, that place. *)
Fixpoint seek (p : str -> str -> bool) (b s : str) : str * option (str * str) :=
  if p b s then ([], Some (b, s))
  else match s with
       | [] => ([], None)
       | c :: r => let '(pre, at_) := seek p (c :: b) r in (c :: pre, at_)
       end.
(** [rawdata.find('>', i) + 1] *)
Definition after_gt (b s : str) : option (str * str) :=
  match seek (fun _ t => match t with c :: _ => N.eqb c 62 | [] => false end) b s with
  | (_, Some (b', _ :: s')) => Some (62%N :: b', s')
  | _ => None
  end.

(** Calls of [handle_starttag], [handle_endtag] and [handle_data].  Values of attributes are as they
    are written, [html.unescape] is left to the caller; [None]: no value. *)
Inductive event := OnStart (tag : str) (attrs : list (str * option str)) | OnEnd (tag : str) | OnData (text : str).
(** What a [parse_...] method does: it returns -1, it raises, or it goes to another place after
    calling these methods; and the value of [cdata_elem] then. *)
Inductive jump := Waits | Raises | Goes (data : list event) (cdata : option str) (b s : str).
Definition goes_to (cdata : option str) (o : option (str * str)) : jump :=
  match o with Some (b, s) => Goes [] cdata b s | None => Waits end.
(** The text between two places. *)
Definition between (s s' : str) : str := firstn (length s - length s') s.
(** [rawdata[i+n:]] and what is before it *)
Fixpoint skip_chars (n : nat) (b s : str) : str * str :=
  match n, s with
  | S k, c :: r => skip_chars k (c :: b) r
  | _, _ => (b, s)
  end.

(** [check_for_whole_start_tag] *)
Definition whole_start_tag (b s : str) : jump :=
  match match_at locatestarttagend_tolerant b s with
  | None => Raises
  | Some st =>
      match s_after st with
      | [] => Waits
      | c :: r =>
          if N.eqb c 62 then Goes [] None (c :: s_before st) r
          else if N.eqb c 47 then
            match r with
            | d :: r' => if N.eqb d 62 then Goes [] None (d :: c :: s_before st) r' else Waits
            | [] => Waits
            end
          else if letter c || N.eqb c 61 then Waits
          else Goes [] None (s_before st) (s_after st)
      end
  end.
(** The value of an attribute without its quotes *)
Definition unquoted (v : str) : str :=
  match v, rev v with
  | c :: _, d :: _ => if N.eqb c d && (N.eqb c 39 || N.eqb c 34) then removelast (tl v) else v
  | _, _ => v
  end.
(** One attribute: its name in lower case, its value *)
Definition attribute (st : state) : str * option str :=
  (lower (match group 1 (s_caps st) with Some n => n | None => [] end),
   match group 2 (s_caps st) with
   | Some (_ :: _) => option_map unquoted (group 3 (s_caps st))
   | _ => None
   end).
(** The loop over the attributes: these, and the place after them. [endpos]: how much text there
    is after the tag. *)
Fixpoint attributes (fuel endpos : nat) (b s : str) : list (str * option str) * str :=
  match fuel with
  | O => ([], s)
  | S f =>
      if Nat.ltb endpos (length s) then
        match match_at attrfind_tolerant b s with
        | None => ([], s)
        | Some st => let '(l, k) := attributes f endpos (s_before st) (s_after st) in (attribute st :: l, k)
        end
      else ([], s)
  end.
Definition cdata_content_elements : list str := [$"script"; $"style"].
Definition parse_starttag (b s : str) : jump :=
  match whole_start_tag b s with
  | Goes _ _ b' s' =>
      let '(b1, s1) := skip_chars 1 b s in
      match match_at tagfind_tolerant b1 s1 with
      | None => Raises
      | Some st =>
          let tag := lower (match group 1 (s_caps st) with Some n => n | None => [] end) in
          let '(attrs, k) := attributes (length s) (length s') (s_before st) (s_after st) in
          let end_ := strip (between k s') in
          if streqb end_ ($">") then Goes [OnStart tag attrs] (if mem_str tag cdata_content_elements then Some tag else None) b' s'
          else if streqb end_ ($"/>") then Goes [OnStart tag attrs; OnEnd tag] None b' s'
          else Goes [OnData (between s s')] None b' s'
      end
  | x => x
  end.

(** [parse_endtag].  The last [Raises] is never reached: there is a > after the name. *)
Definition parse_endtag (cdata : option str) (b s : str) : jump :=
  match after_gt b s with
  | None => Waits
  | Some (b', s') =>
      match match_at endtagfind b s with
      | None =>
          match cdata with
          | Some _ => Goes [OnData (between s s')] cdata b' s'
          | None =>
              let '(b2, s2) := skip_chars 2 b s in
              match match_at tagfind_tolerant b2 s2 with
              | None => Goes [] cdata b' s'
              | Some st => match after_gt (s_before st) (s_after st) with
                           | Some (b3, s3) => Goes [OnEnd (lower (match group 1 (s_caps st) with Some n => n | None => [] end))] cdata b3 s3
                           | None => Raises
                           end
              end
          end
      | Some st =>
          let elem := lower (match group 1 (s_caps st) with Some n => n | None => [] end) in
          match cdata with
          | Some e => if streqb elem e then Goes [OnEnd elem] None b' s' else Goes [OnData (between s s')] cdata b' s'
          | None => Goes [OnEnd elem] None b' s'
          end
      end
  end.

(** [parse_comment], [parse_pi] and [parse_bogus_comment] *)
Definition parse_comment (cdata : option str) (b s : str) : jump :=
  let '(b4, s4) := skip_chars 4 b s in
  match search_at commentclose b4 s4 with
  | Some st => Goes [] cdata (s_before st) (s_after st)
  | None => Waits
  end.
Definition parse_pi (cdata : option str) (b s : str) : jump :=
  let '(b2, s2) := skip_chars 2 b s in goes_to cdata (after_gt b2 s2).
Definition parse_bogus_comment := parse_pi.
(** [parse_marked_section] with [_scan_name] *)
Definition parse_marked_section (cdata : option str) (b s : str) : jump :=
  let '(b3, s3) := skip_chars 3 b s in
  match s3 with
  | [] => Waits
  | _ =>
      match match_at declname b3 s3 with
      | None => Raises
      | Some st =>
          match s_after st with
          | [] => Waits
          | _ =>
              let name := lower (strip (between s3 (s_after st))) in
              let close := if mem_str name [$"temp"; $"cdata"; $"ignore"; $"include"; $"rcdata"] then Some markedsectionclose
                           else if mem_str name [$"if"; $"else"; $"endif"] then Some msmarkedsectionclose
                           else None in
              match close with
              | None => Raises
              | Some r => match search_at r b3 s3 with
                          | Some st' => Goes [] cdata (s_before st') (s_after st')
                          | None => Waits
                          end
              end
          end
      end
  end.
(** [parse_html_declaration] *)
Definition parse_html_declaration (cdata : option str) (b s : str) : jump :=
  if startswith ($"<![") s then parse_marked_section cdata b s
  else if streqb (lower (firstn 9 s)) ($"<!doctype") then
    let '(b9, s9) := skip_chars 9 b s in goes_to cdata (after_gt b9 s9)
  else parse_bogus_comment cdata b s.

(** [goahead(0)]: the methods called, and how it ends. *)
Inductive finish := Done (rest : str) | Failed | NoFuel.
Fixpoint goahead (fuel : nat) (cdata : option str) (b s : str) : list event * finish :=
  match fuel with
  | O => ([], NoFuel)
  | S f =>
      let go (data : list event) (cd : option str) (b' s' : str) :=
        let '(l, e) := goahead f cd b' s' in (data ++ l, e) in
      let '(pre, place) := seek (match cdata with
                                 | None => fun _ t => match t with c :: _ => N.eqb c 60 || N.eqb c 38 | [] => false end
                                 | Some e => fun b0 t => nonempty (ways no_char no_char (interesting e) (mkS b0 t []))
                                 end) b s in
      let data := match pre with [] => [] | _ => [OnData pre] end in
      match place with
      | None => match cdata with
                | Some _ => ([], Done s)
                | None => (data, Done [])
                end
      | Some (b1, s1) =>
          match s1 with
          | [] => (data, Done [])
          | c :: r =>
              if N.eqb c 60 then
                let where_ :=
                  if match r with d :: _ => letter d | [] => false end then parse_starttag b1 s1
                  else if startswith ($"</") s1 then parse_endtag cdata b1 s1
                  else if startswith ($"<!--") s1 then parse_comment cdata b1 s1
                  else if startswith ($"<?") s1 then parse_pi cdata b1 s1
                  else if startswith ($"<!") s1 then parse_html_declaration cdata b1 s1
                  else match r with
                       | [] => Waits
                       | _ => Goes [OnData ($"<")] cdata (c :: b1) r
                       end in
                match where_ with
                | Waits => (data, Done s1)
                | Raises => (data, Failed)
                | Goes d cd b' s' => go (data ++ d) cd b' s'
                end
              else if startswith ($"&#") s1 then
                match match_at charref b1 s1 with
                | Some st => match s_before st with
                             | x :: b' => if N.eqb x 59 then go data cdata (s_before st) (s_after st)
                                          else go data cdata b' (x :: s_after st)
                             | [] => (data, Failed)
                             end
                | None => if mem_char 59%N s1 then (data ++ [OnData ($"&#")], Done (skipn 2 s1)) else (data, Done s1)
                end
              else
                match match_at entityref b1 s1 with
                | Some st => match s_before st with
                             | x :: b' => if N.eqb x 59 then go data cdata (s_before st) (s_after st)
                                          else go data cdata b' (x :: s_after st)
                             | [] => (data, Failed)
                             end
                | None =>
                    match r with
                    | [] => (data, Done s1)
                    | d :: _ => if letter d || N.eqb d 35 then (data, Done s1)
                                else go (data ++ [OnData ($"&")]) cdata (c :: b1) r
                    end
                end
          end
      end
  end.
(** [feed], on a new parser: the methods called; whether it raises. *)
Definition html_events (s : str) : list event * bool :=
  let '(l, e) := goahead (S (length s)) None [] s in
  (l, match e with Done _ => false | _ => true end).
(** The texts handed to [handle_data] *)
Definition texts (l : list event) : list str := flat_map (fun e => match e with OnData t => [t] | _ => [] end) l.
Definition html_feed (s : str) : list str * bool := let '(l, r) := html_events s in (texts l, r).
