(** Model of the addresses and names that rules and plugins read from the headers of a message: oa/message.py:255-296
    and 520-547, over the parser of the [email] package (PyAddr).  Definitions only. *)
From Verif Require Import PyStr PyDict PyAddr Model_Headers Model_Wlbl.

Section Address.
Variable lim : nat.                    (** see PyAddr *)
Variable strict : bool.                (** which parser the library has, see PyAddr *)
Variable decode : str -> option str.   (** [_decode_header], see Model_Headers *)

(** [if addr: values.append(addr)], oa/message.py:270-272 *)
Definition all_of (sel : str * str -> str) (l : list (str * str)) : list str :=
  filter (fun t => match t with [] => false | _ => true end) (map sel l).
(** oa/message.py:255-264 [get_addr_header] *)
Definition get_addr_header (name : str) (m : hmsg) : option (list str) :=
  addr_values decode (getaddresses lim strict) snd name m.
(** oa/message.py:266-273 [get_all_addr_header] *)
Definition get_all_addr_header (name : str) (m : hmsg) : option (list str) :=
  collect (getaddresses lim strict) (all_of snd) (fst (get_decoded decode name m)).
(** oa/message.py:287-296 [get_name_header] *)
Definition get_name_header (name : str) (m : hmsg) : option (list str) :=
  addr_values decode (getaddresses lim strict) fst name m.

(** oa/message.py:276-278 *)
Definition all_from_headers : list str :=
  [$"From"; $"Envelope-Sender"; $"Resent-Sender"; $"X-Envelope-From"; $"EnvelopeFrom"; $"Resent-From"].
(** The loop of oa/message.py:280-285; [sender]: [sender_address] *)
Fixpoint from_headers_addr (sender : str) (names : list str) (m : hmsg) : option (list str) :=
  match names with
  | [] => Some []
  | h :: r =>
      let here := if streqb h ($"EnvelopeFrom") && negb (match sender with [] => true | _ => false end)
                  then Some [sender] else get_all_addr_header h m in
      match here, from_headers_addr sender r m with
      | Some l, Some l' => Some (l ++ l')
      | _, _ => None
      end
  end.
(** oa/message.py:275-285 [get_all_from_headers_addr].  A generator in the code: an exception comes only when the
    addresses before it have been read; its one user, oa/plugins/free_mail.py:205-206, reads them all at once. *)
Definition get_all_from_headers_addr (sender : str) (m : hmsg) : option (list str) :=
  from_headers_addr sender all_from_headers m.

(** oa/plugins/awl.py:128-132 [_get_from] *)
Definition awl_from (m : hmsg) : option str :=
  option_map (fun l => match l with [] => [] | a :: _ => a end) (get_addr_header ($"From") m).

(** oa/message.py:520-532 [get_from_addresses] and 534-547 [get_to_addresses], when no header makes the parser raise *)
Definition senders (m : hmsg) : list str :=
  from_addresses (fun n => match get_all_addr_header n m with Some l => l | None => [] end).
(** oa/message.py:534-547, as above *)
Definition recipients (m : hmsg) : list str :=
  to_addresses (fun n => match get_all_addr_header n m with Some l => l | None => [] end).
End Address.
