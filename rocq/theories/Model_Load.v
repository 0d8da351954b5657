(** Model of how oa/message.py turns the parts of a message into the texts that rules look at:
    decoding of headers and parts, the texts for body and rawbody rules, the URIs and the MIME
    headers.  Definitions only.
    The [email] package splits the message: a part is given with its headers, its content type
    and its bytes.  Plugin hooks (oa/message.py:469) are in other files. *)
From Verif Require Import PyStr PyDict Regexp Model_Headers Model_Scripts.

(** What a Python expression comes to: a value, an exception that the code around it expects,
    another exception.  oa/message.py:194-216. *)
Inductive res (A : Type) := Ok (a : A) | Expected | Unexpected.
Arguments Ok {A}. Arguments Expected {A}. Arguments Unexpected {A}.

(** ** [URL_RE], oa/message.py:35-49.  The escapes of the two characters are written as the
    characters they stand for. *)
Definition URL_RE : re := Eval vm_compute in match compile false true (replace ($"\x7f") [127%N] (replace ($"\xff") [255%N] ($"
(
    \b                      # the preceding character must not be alphanumeric
    (?:
        (?:
            (?:https? | ftp)  # capture the protocol
            ://               # skip the boilerplate
        )|
        (?= ftp\.[^\.\s<>""'\x7f-\xff] )|  # allow the protocol to be missing,
        (?= www\.[^\.\s<>""'\x7f-\xff] )   # but only if the rest of the url
                                          # starts with ""www.x"" or ""ftp.x""
    )
    (?:[^\s<>""'\x7f-\xff]+)  # capture the guts
)
"))) with Some r => r | None => Eps end.

Section Load.
Variable udigit uword : char -> bool.
(** [bytes.decode(name, errors)]: name, strict or not, the bytes; [None]: [LookupError],
    [UnicodeError] or [AssertionError]. *)
Variable codec : str -> bool -> list N -> option str.
(** What an HTML parser hands to [handle_data] when it is fed a text, and whether it raises. *)
Variable feed : str -> list str * bool.

(** [bytes.decode]; a name with a NUL makes it raise [ValueError].
    oa/message.py:194-216. *)
Definition py_decode (name : str) (strict : bool) (bytes : list N) : res str :=
  if mem_char 0%N name then Unexpected
  else match codec name strict bytes with Some t => Ok t | None => Expected end.

(** ** oa/message.py:194-216 [_decode_header] *)
(** [email.header.decode_header]: a text as it is, or bytes with the name of a charset. *)
Inductive hpart := HText (s : str) | HBytes (b : list N) (charset : option str).
Variable header_parts : str -> option (list hpart).  (** [None]: [ValueError], [HeaderParseError] *)
(** For oa/message.py:194-216. *)
Fixpoint decode_parts (l : list hpart) : res (list str) :=
  match l with
  | [] => Ok []
  | p :: r =>
      let t := match p with
               | HText s => Ok s
               | HBytes b None | HBytes b (Some []) => Ok (decode_ignore b)
               | HBytes b (Some name) => py_decode name false b
               end in
      match t with
      | Unexpected => Unexpected
      | Expected => decode_parts r
      | Ok s => match decode_parts r with Ok ts => Ok (s :: ts) | x => x end
      end
  end.
(** [Ok None]: the function returns [None].  oa/message.py:194-216. *)
Definition decode_header (h : str) : res (option str) :=
  match header_parts h with
  | None => Ok None
  | Some l => match decode_parts l with Ok ts => Ok (Some (concat ts)) | Expected => Expected | Unexpected => Unexpected end
  end.

(** ** oa/message.py:493-518 [_iter_parts] *)
Record part := mkPart {
  p_headers : list (str * str);
  p_main : str; p_sub : str;      (** [get_content_maintype()], [get_content_subtype()] *)
  p_charset : option str;         (** [get_content_charset()] *)
  p_bytes : list N                (** [get_payload(decode=True)]; a part of a text type has bytes *)
}.
(** oa/message.py:52-53 *)
Definition strict_charsets : list str := [$"quopri-codec"; $"quopri"; $"quoted-printable"; $"quotedprintable"].
(** [bytes.decode("ascii", "ignore")], which cannot fail.  oa/message.py:493-518. *)
Definition ascii_ignore (bytes : list N) : str := filter (fun b => N.ltb b 128) bytes.
(** The payload of a text part.  oa/message.py:493-518. *)
Definition payload (p : part) : res str :=
  let '(name, strict) := match p_charset p with
                         | None | Some [] => ($"ascii", false)
                         | Some c => (c, mem_str (replace ($"_") ($"-") (lower c)) strict_charsets)
                         end in
  match py_decode name strict (p_bytes p) with
  | Expected => Ok (ascii_ignore (p_bytes p))
  | x => x
  end.

(** ** oa/message.py:65-74 and 181-192 [normalize_html_part].  [None]: it raises: what the
    parser raises is not listed, and [html.parser.HTMLParseError] no longer exists (Python 3.5
    and later). *)
Definition collect (chunks : list str) : list str :=
  flat_map (fun d => match strip d with [] => [] | s => [s] end) chunks.
(** oa/message.py:181-192. *)
Definition normalize_html_part (text : str) : option (list str) :=
  let '(chunks, raised) := feed text in if raised then None else Some (collect chunks).

(** ** oa/message.py:442-473.  [l_uris]: the set, in the order of the text; [l_mime]:
    [raw_mime_headers]. *)
Record loaded := mkLoaded { l_text : str; l_raw_text : str; l_uris : list str; l_mime : headers str }.

(** oa/message.py:449-470, one part: the text for body rules and the text for rawbody rules, if it is a text
    part, and its URIs.  [None]: an exception. *)
Definition flatten (s : str) : str := replace [10%N] ($" ") s.
(** For oa/message.py:442-473. *)
Definition part_texts (p : part) : option (option (str * str) * list str) :=
  if streqb (p_main p) ($"text") then
    match payload p with
    | Ok t =>
        let uris := findall udigit uword URL_RE t in
        if streqb (p_sub p) ($"html") then
          match normalize_html_part (flatten t) with
          | Some l => Some (Some (join ($" ") l, t), uris)
          | None => None
          end
        else Some (Some (flatten t, t), uris)
    | _ => None
    end
  else Some (None, []).
(** For oa/message.py:442-473. *)
Definition add_mime (p : part) (m : headers str) : headers str :=
  fold_left (fun h f => h_append (fst f) (snd f) h) (p_headers p) m.
(** For oa/message.py:442-473. *)
Fixpoint all_parts (ps : list part) (body raw uris : list str) (mime : headers str) : option (list str * list str * list str * headers str) :=
  match ps with
  | [] => Some (body, raw, uris, mime)
  | p :: r =>
      match part_texts p with
      | None => None
      | Some (texts, us) =>
          let '(b, w) := match texts with Some (t, w) => ([t], [w]) | None => ([], []) end in
          all_parts r (body ++ b) (raw ++ w) (uris ++ us) (add_mime p mime)
      end
  end.
(** oa/message.py:447: the decoded subjects.  [None]: an exception; a subject that is [None] makes the join
    at 470 fail. *)
Fixpoint subjects (l : list str) : option (list str) :=
  match l with
  | [] => Some []
  | h :: r => match decode_header h, subjects r with
              | Ok (Some t), Some ts => Some (t :: ts)
              | _, _ => None
              end
  end.
(** [ps]: the message itself and all parts inside it, in the order of [walk()]; the headers of
    the message are those of the first.  oa/message.py:442-473. *)
Definition load (ps : list part) : option loaded :=
  let fields := match ps with p :: _ => p_headers p | [] => [] end in
  match subjects (h_get ($"Subject") (raw_of fields)) with
  | None => None
  | Some subj =>
      match all_parts ps subj [] [] [] with
      | None => None
      | Some (body, raw, uris, mime) => Some (mkLoaded (join ($" ") body) (join [10%N] raw) (nodup str_eq_dec uris) mime)
      end
  end.

(** ** oa/message.py:298-310 and oa/rules/header.py:41-72: rules on MIME headers.  [None]: an
    exception (also when a value cannot be decoded: [search(None)]). *)
Definition get_raw_mime_header (name : str) (l : loaded) : list str := h_get name (l_mime l).
(** For oa/message.py:304-310. *)
Fixpoint decoded_values (l : list str) : option (list (option str)) :=
  match l with
  | [] => Some []
  | h :: r => match decode_header h, decoded_values r with
              | Ok v, Some vs => Some (v :: vs)
              | _, _ => None
              end
  end.
(** oa/message.py:304-310. *)
Definition get_decoded_mime_header (name : str) (l : loaded) : option (list (option str)) :=
  decoded_values (get_raw_mime_header name l).
End Load.
