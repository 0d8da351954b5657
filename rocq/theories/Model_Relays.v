(** Model of the relay analysis: oa/message.py:325-427 [_parse_sender] and
    [_parse_relays], oa/message.py:239-256 the address lists, and of the address and
    authentication parts of oa/received_parser.py.  Definitions only. *)
From Verif Require Import PyStr Model_Net.

(** One parsed Received header, oa/received_parser.py:692-697, with the two
    entries added by [_parse_relays]; [rl_intl] is [None] until set. *)
Record relay := mkRelay {
  rl_rdns : str; rl_ip : str; rl_by : str; rl_helo : str; rl_ident : str; rl_id : str;
  rl_envfrom : str; rl_auth : str; rl_msa : bool; rl_intl : option bool
}.
(** For oa/message.py:368-404. *)
Definition set_marks (msa : bool) (intl : option bool) (r : relay) : relay :=
  mkRelay (rl_rdns r) (rl_ip r) (rl_by r) (rl_helo r) (rl_ident r) (rl_id r) (rl_envfrom r) (rl_auth r) msa intl.

(** State of the loop: the flags and what the message holds so far.
    For oa/message.py:361-404. *)
Record rstate := mkRS_ {
  s_trusted : bool; s_internal : bool; s_msa : bool;
  trusted_relays : list relay; untrusted_relays : list relay;
  internal_relays : list relay; external_relays : list relay;
  last_trusted_index : nat; last_internal_index : nat;
  received : list relay      (** the relays, as updated *)
}.
(** For oa/message.py:361-404. *)
Definition rstate0 : rstate := mkRS_ true true false [] [] [] [] 0 0 [].

Section Relays.
Variable ip_address : str -> option addr.  (** [ipaddress.ip_address]; [None]: [ValueError] *)
Variable is_private : addr -> bool.        (** [ip.is_private] *)
Variable nw : nets.                        (** [self.ctxt.networks] *)

(** For oa/message.py:368-404. *)
Definition nonempty (s : str) : bool := match s with [] => false | _ => true end.

(** oa/message.py:378-391: the three flags after looking at one address, and the
    relay's own msa mark. *)
Definition judge (st : rstate) (a : addr) (in_internal in_trusted in_msa has_auth : bool) : bool * bool * bool * bool :=
  if s_trusted st && negb (s_msa st) then
    if configured nw then
      if negb in_trusted && negb has_auth then (false, false, s_msa st, false)
      else (s_trusted st,
            (if s_internal st && negb has_auth && negb in_internal then false else s_internal st),
            (if in_msa then true else s_msa st),
            in_msa)
    else if negb (is_private a) && negb has_auth then (false, false, s_msa st, false)
    else (s_trusted st, s_internal st, s_msa st, false)
  else (s_trusted st, s_internal st, s_msa st, false).

(** oa/message.py:368-404: one round.  [None]: an exception. *)
Definition relay_step (position : nat) (r : relay) (st : rstate) : option rstate :=
  if nonempty (rl_ip r) then
    match ip_address (rl_ip r) with
    | None => None
    | Some a =>
        match contains_addr (n_internal nw) a, contains_addr (n_trusted nw) a, contains_addr (n_msa nw) a with
        | Some ii, Some it, Some im =>
            let '(t, i, m, mark) := judge st a ii it im (nonempty (rl_auth r)) in
            let r' := set_marks mark (Some i) r in
            Some (mkRS_ t i m
                    (if t then trusted_relays st ++ [r'] else trusted_relays st)
                    (if t then untrusted_relays st else untrusted_relays st ++ [r'])
                    (if i then internal_relays st ++ [r'] else internal_relays st)
                    (if i then external_relays st else external_relays st ++ [r'])
                    (if t then position else last_trusted_index st)
                    (if i then position else last_internal_index st)
                    (received st ++ [r']))
        | _, _, _ => None
        end
    end
  else Some (mkRS_ (s_trusted st) (s_internal st) (s_msa st) (trusted_relays st) (untrusted_relays st)
               (internal_relays st) (external_relays st) (last_trusted_index st) (last_internal_index st)
               (received st ++ [set_marks false (rl_intl r) r])).

(** For oa/message.py:361-404. *)
Fixpoint relay_loop (position : nat) (l : list relay) (st : rstate) : option rstate :=
  match l with
  | [] => Some st
  | r :: l' => match relay_step position r st with
               | Some st' => relay_loop (S position) l' st'
               | None => None
               end
  end.
(** oa/message.py:361-404 *)
Definition parse_relays (l : list relay) : option rstate := relay_loop 0 l rstate0.
End Relays.

(** oa/message.py:405-427: the tags.  [intl={intl}] shows 1 or 0; a relay in one
    of the lists always has it. *)
Definition bit (b : bool) : str := if b then $"1" else $"0".
(** oa/message.py:405-427. *)
Definition relay_text (r : relay) : str :=
  $"[ ip=" ++ rl_ip r ++ $" rdns=" ++ rl_rdns r ++ $" helo=" ++ rl_helo r ++ $" by=" ++ rl_by r ++
  $" ident=" ++ rl_ident r ++ $" envfrom=" ++ rl_envfrom r ++
  $" intl=" ++ bit (match rl_intl r with Some b => b | None => false end) ++
  $" id=" ++ rl_id r ++ $" auth=" ++ rl_auth r ++ $" msa=" ++ bit (rl_msa r) ++ $" ]".
(** oa/message.py:405-427. *)
Definition relays_tag (l : list relay) : str := join ($" ") (map relay_text l).
(** oa/message.py:405-427. *)
Definition last_external (st : rstate) : option relay :=
  match rev (external_relays st) with r :: _ => Some r | [] => None end.

(** oa/message.py:325-359 [_parse_sender].  [addr_header name] is the list
    [get_addr_header] gives. *)
Fixpoint sender_from_headers (addr_header : str -> list str) (hs : list str) : str :=
  match hs with
  | [] => []
  | h :: hs' => match addr_header h with
                | a :: _ => if nonempty a then strip a else sender_from_headers addr_header hs'
                | [] => sender_from_headers addr_header hs'
                end
  end.
(** For oa/message.py:325-359. *)
Definition default_sender_headers : list str := [$"X-Sender"; $"X-Envelope-From"; $"Envelope-Sender"; $"Return-Path"].
(** oa/message.py:325-359. *)
Definition parse_sender (always_trust : bool) (conf_headers : list str) (addr_header : str -> list str) (st : rstate) : str :=
  let headers := match conf_headers with [] => default_sender_headers | _ => conf_headers end in
  match external_relays st with
  | r :: _ => if nonempty (rl_envfrom r) then strip (rl_envfrom r) else []
  | [] =>
      let from_trusted := match rev (trusted_relays st) with
                          | r :: _ => if negb always_trust && nonempty (rl_envfrom r) then Some (strip (rl_envfrom r)) else None
                          | [] => None
                          end in
      match from_trusted with
      | Some s => s
      | None =>
          match untrusted_relays st with
          | r :: _ => if nonempty (rl_envfrom r) then strip (rl_envfrom r) else sender_from_headers addr_header headers
          | [] => sender_from_headers addr_header headers
          end
      end
  end.

(** oa/message.py:252-256,239-249: [None]: an exception. *)
Fixpoint header_ips (ip_address : str -> option addr) (l : list relay) : option (list addr) :=
  match l with
  | [] => Some []
  | r :: l' => match ip_address (rl_ip r), header_ips ip_address l' with
               | Some a, Some rest => Some (a :: rest)
               | _, _ => None
               end
  end.
(** oa/message.py:252-256,239-249. *)
Fixpoint not_in (l : netlist) (ips : list addr) : option (list addr) :=
  match ips with
  | [] => Some []
  | a :: r => match contains_addr l a, not_in l r with
              | Some b, Some rest => Some (if b then rest else a :: rest)
              | _, _ => None
              end
  end.
(** oa/message.py:252-256,239-249. *)
Definition untrusted_ips (ip_address : str -> option addr) (nw : nets) (l : list relay) : option (list addr) :=
  match header_ips ip_address l with
  | Some ips => not_in (n_trusted nw) ips
  | None => None
  end.

(** ** oa/received_parser.py *)
Section Received.
Variable find_ips : str -> list str.       (** [IP_ADDRESS.findall] *)
Variable private_re : str -> bool.         (** [IP_PRIVATE.search] *)

(** oa/received_parser.py:541-543 *)
Definition clean_ip (item : str) : str :=
  replace ($"::ffff:") [] (lower (replace ($"ipv6:") [] (lower (strip_chars ($"[ ]();" ++ [10%N]) item)))).
(** oa/received_parser.py:530-553 [get_ip] *)
Definition get_ip (header : str) : str :=
  let front := match split1_sub ($" by ") header with Some (a, _) => a | None => header end in
  let ips := map clean_ip (find_ips front) in
  let privates := filter private_re ips in
  let ip := fold_left (fun acc i => if private_re i then acc else i) ips [] in
  if negb (length ips =? 0) && (length privates =? length ips) then hd [] privates else ip.

(** The regexes of [get_auth], oa/received_parser.py:346-357: each gives what
    the code uses of it. *)
Record auth_re := mkAR {
  ar_with : str -> option str;        (** [AUTH_RE.match]: group 0 *)
  ar_postfix : str -> bool;           (** [AUTH_RE3.search] *)
  ar_cipher : str -> option (str * str);   (** [AUTH_VC_RE.match] *)
  ar_as : str -> bool;                (** [AUTH_RE2.search] *)
  ar_gmx : str -> option (str * str); (** [AUTH_RE4.search]: groups 3 and 0 *)
  ar_communigate : str -> bool        (** [AUTH_RE5.search] *)
}.
(** oa/received_parser.py:643-675 [get_auth] *)
Definition get_auth (R : auth_re) (h : str) : str :=
  match (if contains ($" by ") h then ar_with R h else None) with
  | Some a => a
  | None =>
      if ar_postfix R h then $"Postfix"
      else if contains ($" by mx.google.com with ESMTPS id ") h then
        match ar_cipher R h with
        | Some (v, c) => $"GMail - transport=" ++ v ++ $" cipher=" ++ c
        | None => []
        end
      else if contains ($"SquirrelMail authenticated ") h then $"SquirrelMail"
      else if contains ($"authenticated") h && ar_as R h then $"CriticalPath"
      else if contains ($"authenticated") h then $"Sendmail"
      else match ar_gmx R h with
           | Some (a, b) => $"GMX (" ++ a ++ $" / " ++ b ++ $")"
           | None => if ar_communigate R h then $"Communigate" else []
           end
  end.
End Received.
