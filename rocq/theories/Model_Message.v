(** Model of how oa/message.py loads a message from its text: line breaks (Model_Headers), the parts the [email]
    package makes of it (PyEmail), what these methods of a part return, and Model_Load.
    Definitions only. *)
From Verif Require Import PyStr PyDict PyMime PyEmail Model_Headers Model_Load.

Section Message.
Variable udigit uword : char -> bool.
Variable codec : str -> bool -> list N -> option str.
Variable feed : str -> list str * bool.
Variable header_parts : str -> option (list hpart).
Variable decode : str -> bool -> list N -> option (option str).   (** for parameters, see PyEmail *)
Variable repair : list N -> list N.                               (** base64 that is not proper, see PyMime *)

(** oa/message.py:493-518: what [_iter_parts] asks a part; its charset only if it is text.
    [None]: [get_content_charset] raises, or there are no bytes ([None.decode]).
    A part that is not text has no bytes here: they are not used. *)
Definition part_of (m : message) : option part :=
  let '(Message default hs p) := m in
  let t := content_type default hs in
  if streqb (maintype t) ($"text") then
    match get_content_charset decode hs, p with
    | Some cs, inl text => Some (mkPart hs (maintype t) (subtype t) cs (get_payload repair (lower (match get ($"content-transfer-encoding") hs with Some v => v | None => [] end)) text))
    | _, _ => None
    end
  else Some (mkPart hs (maintype t) (subtype t) None []).
(** For oa/message.py:133-168. *)
Fixpoint parts_of (ms : list message) : option (list part) :=
  match ms with
  | [] => Some []
  | m :: r => match part_of m, parts_of r with Some p, Some ps => Some (p :: ps) | _, _ => None end
  end.
(** oa/message.py:133-168 and 442-473.  [None]: an exception. *)
Definition load_text (raw : str) : option loaded :=
  match message_from_string decode (translate_line_breaks raw) with
  | None => None
  | Some m => match parts_of (walk m) with
              | None => None
              | Some ps => load udigit uword codec feed header_parts ps
              end
  end.
(** oa/message.py:451-452: [missing_boundary_header] *)
Definition missing_boundary_header (m : message) : bool :=
  existsb (fun p => match p with Message _ [] _ => true | _ => false end) (walk m).
End Message.
