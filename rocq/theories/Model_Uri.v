(** Model of oa/plugins/uri_eval.py, oa/plugins/uri_detail.py and
    oa/html_parser.py.  Definitions only. *)
From Verif Require Import PyStr PyDict.

(** ** [urlparse(text).netloc] for a text that starts with "http:" or "https:": what
    follows "//" up to "/", "?" or "#".  [None]: [ValueError], only one of "[" and "]".
    (Other checks of newer Python versions are left out.).  For oa/plugins/uri_eval.py:40-47. *)
Definition netloc_of_rest (rest : str) : option str :=
  if startswith ($"//") rest then
    let n := take_while (fun c => negb (mem_char c ($"/?#"))) (skipn 2 rest) in
    if Bool.eqb (mem_char 91%N n) (mem_char 93%N n) then Some n else None
  else Some [].
(** For oa/plugins/uri_eval.py:40-47. *)
Definition netloc (u : str) : option str :=
  if startswith ($"http:") u then netloc_of_rest (skipn 5 u)
  else if startswith ($"https:") u then netloc_of_rest (skipn 6 u)
  else Some [].

(** ** oa/plugins/uri_eval.py:20 [HTTP_REDIR] *)
(** [[^\/:\?]] *)
Definition cls (c : char) : bool := negb (mem_char c ($"/:?")).
(** For oa/plugins/uri_eval.py:20. *)
Definition not_nl (c : char) : bool := negb (N.eqb c 10).
(** [[^\/:\?]+.*] at the front of [r]: the text matched, with [p] before it.
    oa/plugins/uri_eval.py:20. *)
Definition run_from (p r : str) : option str :=
  match r with
  | c :: _ => if cls c then Some (p ++ take_while cls r ++ take_while not_nl (drop_while cls r)) else None
  | [] => None
  end.
(** [\/{0,2}?[^\/:\?]+.*] at the front: the text matched.  oa/plugins/uri_eval.py:20. *)
Definition after_colon (s : str) : option str :=
  match run_from [] s with
  | Some x => Some x
  | None => match (if startswith ($"/") s then run_from ($"/") (skipn 1 s) else None) with
            | Some x => Some x
            | None => if startswith ($"//") s then run_from ($"//") (skipn 2 s) else None
            end
  end.
(** The second group at the front of the text.  oa/plugins/uri_eval.py:20. *)
Definition dest_at (s : str) : option str :=
  if startswith ($"http:") s then option_map (app ($"http:")) (after_colon (skipn 5 s))
  else if startswith ($"https:") s then option_map (app ($"https:")) (after_colon (skipn 6 s))
  else None.
(** [.+?] and the second group.  oa/plugins/uri_eval.py:20. *)
Fixpoint lazy_dest (s : str) : option (str * str) :=
  match s with
  | [] => None
  | c :: r => if not_nl c then
                match dest_at r with
                | Some d => Some ([c], d)
                | None => match lazy_dest r with Some (m, d) => Some (c :: m, d) | None => None end
                end
              else None
  end.
(** [[^\/:\?]+], longest first, then the rest.  oa/plugins/uri_eval.py:20. *)
Fixpoint host_then (s : str) : option (str * str) :=
  match s with
  | [] => None
  | c :: r => if cls c then
                match host_then r with
                | Some (m, d) => Some (c :: m, d)
                | None => match lazy_dest r with Some (m, d) => Some (c :: m, d) | None => None end
                end
              else None
  end.
(** The two groups of [HTTP_REDIR.match].  oa/plugins/uri_eval.py:20. *)
Definition redir (u : str) : option (str * str) :=
  let go p r := match host_then r with Some (m, d) => Some (p ++ m, d) | None => None end in
  if startswith ($"http://") u then go ($"http://") (skipn 7 u)
  else if startswith ($"https://") u then go ($"https://") (skipn 8 u)
  else None.

(** For oa/plugins/uri_eval.py:40-47. *)
Inductive verdict := Hit | NoHit | Raises | OutOfFuel.
(** oa/plugins/uri_eval.py:40-47, for one URI *)
Fixpoint follow (fuel : nat) (u : str) : verdict :=
  match fuel with
  | O => OutOfFuel
  | S fuel => match redir u with
              | None => NoHit
              | Some (h_redir, h_dest) =>
                  match netloc h_redir, netloc h_dest with
                  | Some a, Some b => if streqb a b then follow fuel h_dest else Hit
                  | _, _ => Raises
                  end
              end
  end.
(** oa/plugins/uri_eval.py:33-48 [check_for_http_redirector] *)
Fixpoint check_for_http_redirector (uris : list str) : verdict :=
  match uris with
  | [] => NoHit
  | u :: rest => match follow (S (length u)) u with
                 | NoHit => check_for_http_redirector rest
                 | v => v
                 end
  end.

(** ** oa/html_parser.py *)
(** oa/html_parser.py:64-73: what is kept for one link; the text only for links of tags. *)
Record item := mkItem { i_raw : str; i_scheme : str; i_cleaned : str; i_domain : str; i_text : option (list str) }.
(** For oa/html_parser.py:30-62. *)
Inductive html_event :=
| StartTag (tag : str) (attrs : list (str * str))
| EndTag (tag : str)
| Data (text : str).
(** Links by address and tag; the last tag and the current link.
    For oa/html_parser.py:37-50. *)
Record pstate := mkP { p_links : dict (dict item); p_tag : option str; p_current : option str }.

Section Links.
Variable parse_link : str -> item.   (** oa/html_parser.py:64-73 [parse_link]; without a text *)

(** For oa/html_parser.py:37-50. *)
Definition with_text (t : list str) (i : item) : item := mkItem (i_raw i) (i_scheme i) (i_cleaned i) (i_domain i) (Some t).
(** oa/html_parser.py:37-50, one attribute.  An update of an existing link leaves its
    text. *)
Definition add_attr (tag : str) (st : pstate) (attr : str * str) : pstate :=
  let '(prop, value) := attr in
  if mem_str prop [$"href"; $"src"] then
    let entry := match dget value (p_links st) with Some e => e | None => [] end in
    let text := match dget tag entry with Some i => match i_text i with Some t => t | None => [] end | None => [] end in
    mkP (dset value (dset tag (with_text text (parse_link value)) entry) (p_links st)) (p_tag st) (Some value)
  else st.
(** oa/html_parser.py:30-62; [None]: [KeyError], the current link was not given by a
    tag of the last kind *)
Definition on_event (st : pstate) (e : html_event) : option pstate :=
  match e with
  | StartTag tag attrs =>
      if mem_str tag [$"a"; $"link"]
      then Some (fold_left (add_attr tag) attrs (mkP (p_links st) (Some tag) (p_current st)))
      else Some st
  | EndTag _ => Some (mkP (p_links st) None None)
  | Data text =>
      match text, p_tag st, p_current st with
      | _ :: _, Some (t :: tag), Some (c :: cur) =>
          let tag := t :: tag in let cur := c :: cur in
          match dget cur (p_links st) with
          | Some entry => match dget tag entry with
                          | Some i => let old := match i_text i with Some l => l | None => [] end in
                                      Some (mkP (dset cur (dset tag (with_text (old ++ [text]) i) entry) (p_links st)) (p_tag st) (p_current st))
                          | None => None
                          end
          | None => None
          end
      | _, _, _ => Some st
      end
  end.
(** For oa/html_parser.py:76-87. *)
Fixpoint run_events (events : list html_event) (st : pstate) : option pstate :=
  match events with
  | [] => Some st
  | e :: rest => match on_event st e with Some st => run_events rest st | None => None end
  end.
(** For oa/html_parser.py:76-87. *)
Definition collect (events : list html_event) : option (dict (dict item)) :=
  option_map p_links (run_events events (mkP [] None None)).
(** oa/html_parser.py:84-85: the entry of a URI that no tag gave *)
Definition parsed_entry (u : str) : dict item := [($"parsed", parse_link u)].
(** oa/html_parser.py:76-87 [parsed_metadata]: the links of the text, then the other
    URIs of the message. *)
Definition all_links (events : list html_event) (uris : list str) : option (dict (dict item)) :=
  option_map (fold_left (fun links u => if dhas u links then links else dset u (parsed_entry u) links) uris) (collect events).
End Links.

(** ** The other checks of oa/plugins/uri_eval.py *)
Section Checks.
Variable is_ip : str -> bool.                  (** [ipaddress.ip_address] does not raise *)
Variable url_netloc : str -> option str.       (** [urlparse(...).netloc]; [None]: it raises *)

(** oa/plugins/uri_eval.py:75-84 [extract_url_from_text] *)
Definition extract_url_from_text (anchor_text : list str) : list str :=
  filter (startswith ($"https://")) (concat (map words anchor_text)).
(** oa/plugins/uri_eval.py:66-72 *)
Fixpoint names_host (uris : list str) : verdict :=
  match uris with
  | [] => NoHit
  | u :: rest => match url_netloc u with
                 | None => Raises
                 | Some d => if is_ip d then names_host rest else Hit
                 end
  end.
(** oa/plugins/uri_eval.py:50-73 [check_https_ip_mismatch]: 0 as soon as a link does
    not lead to an address *)
Fixpoint check_https_ip_mismatch (links : dict (dict item)) : verdict :=
  match links with
  | [] => NoHit
  | (_, entry) :: rest =>
      match dget ($"a") entry with
      | None => check_https_ip_mismatch rest
      | Some i =>
          if is_ip (i_domain i) then
            match names_host (extract_url_from_text (match i_text i with Some t => t | None => [] end)) with
            | NoHit => check_https_ip_mismatch rest
            | v => v
            end
          else NoHit
      end
  end.
(** oa/plugins/uri_eval.py:22, 86-96 [check_uri_truncated] *)
Definition max_uri_length : N := 8192.
(** oa/plugins/uri_eval.py:86-96. *)
Definition check_uri_truncated (links : dict (dict item)) : bool :=
  existsb (fun l => existsb (fun t => mem_str t [$"a"; $"link"] && N.ltb max_uri_length (N.of_nat (length (fst l)))) (dkeys (snd l))) links.
End Checks.

(** ** oa/plugins/uri_detail.py *)
Section Detail.
Variable pattern : Type.
Variable re_match : pattern -> str -> bool.

(** A field of an item: absent, a text, or the list of texts.
    For oa/plugins/uri_detail.py:29-42. *)
Inductive field := Absent | Text (s : str) | Texts (l : list str).
(** For oa/plugins/uri_detail.py:29-42. *)
Definition field_of (key : str) (i : item) : field :=
  if streqb key ($"raw") then Text (i_raw i)
  else if streqb key ($"scheme") then Text (i_scheme i)
  else if streqb key ($"cleaned") then Text (i_cleaned i)
  else if streqb key ($"domain") then Text (i_domain i)
  else if streqb key ($"text") then match i_text i with Some l => Texts l | None => Absent end
  else Absent.
(** oa/plugins/uri_detail.py:29-42 [check_single_item]; [None]: a list is given to a
    regular expression *)
Fixpoint check_single_item (patterns : list (str * pattern)) (i : item) : option bool :=
  match patterns with
  | [] => Some true
  | (key, re) :: rest => match field_of key i with
                         | Absent => Some false
                         | Texts _ => None
                         | Text s => if re_match re s then check_single_item rest i else Some false
                         end
  end.
(** oa/plugins/uri_detail.py:44-52 [match] *)
Fixpoint detail_match (patterns : list (str * pattern)) (items : list item) : option bool :=
  match items with
  | [] => Some false
  | i :: rest => match check_single_item patterns i with
                 | Some false => detail_match patterns rest
                 | r => r
                 end
  end.
(** oa/plugins/uri_detail.py:44-52. *)
Definition match_links (patterns : list (str * pattern)) (links : dict (dict item)) : option bool :=
  detail_match patterns (concat (map (fun l => dvalues (snd l)) links)).
End Detail.
