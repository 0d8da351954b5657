(** Transfer encodings as Python's [email] package undoes them ([Message.get_payload(decode=True)],
    CPython 3.11) when the message was given as a text.
    Library file: the semantics of the standard library, not of code in /repo. *)
From Verif Require Import PyStr.
Local Open Scope N_scope.

(** [str.encode("ascii")], or the codec raw-unicode-escape if the text is not ASCII.
    Simplification: the text has no surrogates. *)
Definition hex_char (n : N) : char := if n <? 10 then 48 + n else 87 + n.
Fixpoint hex_digits (k : nat) (n : N) : list N :=
  match k with
  | O => []
  | S k' => hex_digits k' (n / 16) ++ [hex_char (n mod 16)]
  end.
Definition raw_unicode_escape (s : str) : list N :=
  flat_map (fun c => if c <? 256 then [c]
                     else if c <? 65536 then 92 :: 117 :: hex_digits 4 c
                     else 92 :: 85 :: hex_digits 8 c) s.

(** [binascii.a2b_qp] *)
Definition hex_value (b : N) : option N :=
  if (48 <=? b) && (b <=? 57) then Some (b - 48)
  else if (65 <=? b) && (b <=? 70) then Some (b - 55)
  else if (97 <=? b) && (b <=? 102) then Some (b - 87)
  else None.
Fixpoint qp_from (soft : bool) (s : list N) : list N :=
  match s with
  | [] => []
  | c :: r =>
      if soft then qp_from (negb (c =? 10)) r
      else if c =? 61 then
        match r with
        | [] => []
        | d :: r1 =>
            if d =? 10 then qp_from false r1
            else if d =? 13 then qp_from true r1
            else if d =? 61 then 61 :: qp_from false r1
            else match r1 with
                 | [] => 61 :: qp_from false r
                 | e :: r2 => match hex_value d, hex_value e with
                              | Some x, Some y => (x * 16 + y) :: qp_from false r2
                              | _, _ => 61 :: qp_from false r
                              end
                 end
        end
      else c :: qp_from false r
  end.
Definition a2b_qp (s : list N) : list N := qp_from false s.

(** [email._encoded_words.decode_b] without line breaks, where it needs no repairs but padding.
    [None]: it needs others. *)
Definition b64_value (b : N) : option N :=
  if (65 <=? b) && (b <=? 90) then Some (b - 65)
  else if (97 <=? b) && (b <=? 122) then Some (b - 71)
  else if (48 <=? b) && (b <=? 57) then Some (b + 4)
  else if b =? 43 then Some 62
  else if b =? 47 then Some 63
  else None.
Fixpoint b64_groups (s : list N) : option (list N) :=
  match s with
  | [] => Some []
  | a :: b :: c :: d :: r =>
      match b64_value a, b64_value b with
      | Some x, Some y =>
          if (c =? 61) && (d =? 61) then match r with [] => Some [x * 4 + y / 16] | _ => None end
          else match b64_value c with
               | None => None
               | Some z =>
                   let two := [x * 4 + y / 16; (y mod 16) * 16 + z / 4] in
                   if d =? 61 then match r with [] => Some two | _ => None end
                   else match b64_value d, b64_groups r with
                        | Some w, Some l => Some (two ++ (z mod 4) * 64 + w :: l)
                        | _, _ => None
                        end
               end
      | _, _ => None
      end
  | _ => None
  end.
Definition decode_b (s : list N) : option (list N) :=
  let pad := match Nat.modulo (length s) 4 with O => [] | n => repeat 61 (4 - n)%nat end in
  b64_groups (s ++ pad).

(** [get_payload(decode=True)] of a part that is not a multipart: the transfer encoding (in small
    letters) and the text.  [repair]: base64 that is not proper.  Simplification: no uuencode. *)
Definition get_payload (repair : list N -> list N) (cte : str) (text : str) : list N :=
  let b := raw_unicode_escape text in
  if streqb cte ($"quoted-printable") then a2b_qp b
  else if streqb cte ($"base64") then
    let joined := filter (fun c => negb ((c =? 10) || (c =? 13))) b in
    match decode_b joined with Some l => l | None => repair joined end
  else b.
