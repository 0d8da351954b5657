(** Model of oa/plugins/dump_text.py and of [iter_decoded_headers] of oa/message.py.  Definitions only. *)
From Verif Require Import PyStr PyDict Model_Rules Model_Headers.

Section Dump.
Variable decode : str -> option str.
(** The text of a decoded value ("%s"); [None] is written "None".  For oa/message.py:319. *)
Definition show_value (v : option str) : str := match v with Some t => t | None => $"None" end.
(** oa/message.py:312-319, for the names still to come *)
Fixpoint iter_names (names : list str) (m : hmsg) : list str * hmsg :=
  match names with
  | [] => ([], m)
  | n :: names => let (vs, m) := get_decoded decode n m in
                  let (rest, m) := iter_names names m in
                  (map (fun v => n ++ $": " ++ show_value v) vs ++ rest, m)
  end.
(** oa/message.py:312-319 [iter_decoded_headers]: the names are the (lower case) keys, in the order of a dict *)
Definition iter_decoded_headers (m : hmsg) : list str * hmsg := iter_names (dkeys (h_raw m)) m.
(** oa/plugins/dump_text.py:18-28 [dump_text] and [dump_raw_text]: the answer and the rows written *)
Definition dump (text : str) : value * list str := (VBool true, [text]).
(** oa/plugins/dump_text.py:30-39 [dump_meta_data]; [uris]: the set of links, in some order *)
Definition dump_meta_data (m : hmsg) (uris : list str) : (value * list str) * hmsg :=
  let (hs, m) := iter_decoded_headers m in
  ((VNone, [$"Decoded Headers:"] ++ hs ++ [$""] ++ [$"URI list:"] ++ uris), m).
End Dump.
