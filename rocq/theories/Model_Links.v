(** Model of oa/html_parser.py fed with the text of a message: the events come from the HTML parser
    of the standard library (PyHtml), the handlers are those of Model_Uri.  Definitions only. *)
From Verif Require Import PyStr PyDict Model_Headers Model_Load PyHtml Model_Uri.

Section Links.
Variable urlparse : str -> option (str * str).   (** [urllib.parse.urlparse]: scheme and netloc; [None]: [ValueError] *)
Variable unquote : str -> str.                   (** [urllib.parse.unquote] *)
Variable unescape : str -> str.                  (** [html.unescape] *)

(** html/parser.py:337-338 (CPython 3.11): what the handler gets of a value.
    For oa/html_parser.py:37-41. *)
Definition plain (v : str) : str := match v with [] => [] | _ => unescape v end.
(** oa/html_parser.py:64-73 [parse_link] of a text [urlparse] accepts *)
Definition parse_link (u : str) : item :=
  match urlparse u with
  | Some (scheme, domain) => mkItem u scheme (unquote u) domain None
  | None => mkItem u [] [] [] None
  end.
(** oa/html_parser.py:37-41: one attribute.  [None]: [parse_link] raises: [unquote(None)], or
    [urlparse] rejects the address.  The value of an attribute that is not looked at is dropped. *)
Definition read_attr (a : str * option str) : option (str * str) :=
  if mem_str (fst a) [$"href"; $"src"] then
    match snd a with
    | None => None
    | Some v => match urlparse (plain v) with Some _ => Some (fst a, plain v) | None => None end
    end
  else Some (fst a, []).
(** For oa/html_parser.py:30-62. *)
Fixpoint read_all {A B} (f : A -> option B) (l : list A) : option (list B) :=
  match l with
  | [] => Some []
  | x :: r => match f x, read_all f r with Some y, Some ys => Some (y :: ys) | _, _ => None end
  end.
(** oa/html_parser.py:30-62: one event, as the handlers of Model_Uri take it.  [None]: the handler
    raises, which ends [feed]; when it raises makes no difference, nothing is kept. *)
Definition read_event (e : event) : option html_event :=
  match e with
  | OnStart tag attrs => if mem_str tag [$"a"; $"link"] then option_map (StartTag tag) (read_all read_attr attrs) else Some (StartTag tag [])
  | OnEnd tag => Some (EndTag tag)
  | OnData t => Some (Data t)
  end.
(** oa/html_parser.py:79-80: the links of a text.  [None]: [feed] raises. *)
Definition links_of (text : str) : option (dict (dict item)) :=
  let '(events, raised) := html_events text in
  if raised then None else match read_all read_event events with Some l => collect parse_link l | None => None end.
(** oa/html_parser.py:76-87 [parsed_metadata]; the URIs that no tag gave come after the others *)
Definition parsed_metadata (raw_text : str) (uris : list str) : option (dict (dict item)) :=
  match links_of raw_text with
  | None => None
  | Some links =>
      if forallb (fun u => dhas u links || match urlparse u with Some _ => true | None => false end) uris
      then Some (fold_left (fun links u => if dhas u links then links else dset u (parsed_entry parse_link u) links) uris links)
      else None
  end.
(** oa/message.py:167-168 with the plugin of oa/plugins/uri_detail.py:66-79 loaded: no message if
    parsing it or the hook raises *)
Definition load_links (load : list part -> option loaded) (ps : list part) : option (loaded * dict (dict item)) :=
  match load ps with
  | None => None
  | Some l => option_map (pair l) (parsed_metadata (l_raw_text l) (l_uris l))
  end.
(** oa/plugins/uri_eval.py:69-70: [urlparse(uri).netloc] *)
Definition url_netloc (u : str) : option str := option_map snd (urlparse u).
End Links.
