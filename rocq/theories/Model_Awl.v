(** Model of oa/plugins/awl.py.  Numbers are exact rationals instead of floats.
    Definitions only. *)
From Verif Require Import PyStr PyDict Model_Rules Model_Net.

(** A row of the table, oa/plugins/awl.py:60-75. *)
Record row := mkRow { w_user : str; w_email : str; w_ip : str; w_count : Z; w_tot : Q; w_signed : str }.
(** For oa/plugins/awl.py:197-225. *)
Definition table := list row.
(** For oa/plugins/awl.py:197-225. *)
Definition no_ip : str := $"none".

(** oa/plugins/awl.py:200-204: [AWL.username == ... and AWL.ip == ip] *)
Definition is_row (user email signed ip : str) (r : row) : bool :=
  streqb (w_user r) user && streqb (w_email r) email && streqb (w_signed r) signed && streqb (w_ip r) ip.
(** For oa/plugins/awl.py:197-225. *)
Definition first_row (user email signed ip : str) (t : table) : option row := find (is_row user email signed ip) t.

(** oa/plugins/awl.py:197-225 [get_sqlalch_entry]: the entry, and the [ip] under
    which it is in the table ([None]: a new one).  The entry found under "none"
    gets the address, in memory only. *)
Definition get_entry (user email signed ip : str) (t : table) : row * option str :=
  match first_row user email signed ip t with
  | Some r => (r, Some ip)
  | None =>
      match first_row user email signed no_ip t with
      | Some r => (mkRow (w_user r) (w_email r) ip (w_count r) (w_tot r) (w_signed r), Some no_ip)
      | None => (mkRow user email ip 0 0%Q signed, None)
      end
  end.

(** oa/plugins/awl.py:258-261 [session.merge(entry)], [commit]: an UPDATE of the row
    with the primary key the entry was read with, or an INSERT. *)
Definition merge (e : row) (was : option str) (t : table) : table :=
  match was with
  | Some ip => map (fun r => if is_row (w_user e) (w_email e) (w_signed e) ip r then e else r) t
  | None => t ++ [e]
  end.

(** oa/plugins/awl.py:229-252: the change of the score.  [None]: none is made - the
    entry has no messages, or [mean] is zero ([if mean]). *)
Definition delta (score factor tot : Q) (count : Z) : option Q :=
  if Z.eqb count 0 then None
  else let mean := (tot / inject_Z count)%Q in
       if Qeq_bool mean 0 then None else Some ((mean - score) * factor)%Q.
(** For oa/plugins/awl.py:317-349. *)
Definition new_score (score factor tot : Q) (count : Z) : Q :=
  match delta score factor tot count with Some d => (score + d)%Q | None => score end.

(** oa/plugins/awl.py:255-256 *)
Definition counted (score : Q) (e : row) : row :=
  mkRow (w_user e) (w_email e) (w_ip e) (w_count e + 1) (w_tot e + score)%Q (w_signed e).

(** oa/plugins/awl.py:317-349 [check_from_in_auto_whitelist] with sqlalchemy: the
    table and the score afterwards. *)
Definition check (user email signed ip : str) (factor : Q) (t : table) (score : Q) : table * Q :=
  let (e, was) := get_entry user email signed ip t in
  (merge (counted score e) was t, new_score score factor (w_tot e) (w_count e)).

(** ** With pymysql *)
(** oa/plugins/awl.py:162-195 [get_mysql_entry] *)
Definition mysql_entry (user email signed ip : str) (t : table) : table :=
  match first_row user email signed ip t with
  | Some _ => t
  | None => t ++ [mkRow user email ip 0 0%Q signed]
  end.
(** oa/plugins/awl.py:263-315 [plugin_tags_mysql]: reads the first row of the whole
    table (in the order given here), and updates all rows. *)
Definition check_mysql (user email signed ip : str) (factor : Q) (t : table) (score : Q) : table * Q :=
  let t := mysql_entry user email signed ip t in
  match t with
  | [] => (t, score)
  | r :: _ =>
      (map (fun x => mkRow (w_user x) (w_email x) (w_ip x) (w_count r + 1) (w_tot r + score)%Q (w_signed x)) t,
       new_score score factor (w_tot r) (w_count r))
  end.

(** ** As a rule *)
(** The eval rule on a message whose extension is the table and the message's own
    three values ([parsed_metadata], oa/plugins/awl.py:128-137; the tags are not
    modelled).  It returns [False]. *)
Record origin := mkOrigin { o_email : str; o_signed : str; o_ip : str }.
(** oa/plugins/awl.py:128-137. *)
Definition awl_match (user : str) (factor : Q) (m : msg (table * origin)) : msg (table * origin) * outcome :=
  let (t, o) := m_ext m in
  let (t', s) := check user (o_email o) (o_signed o) (o_ip o) factor t (m_score m) in
  (mkMsg s (m_checked m) (m_descs m) (m_tags m) (t', o), Returns (VBool false)).

(** ** The key of an address *)
(** [IPV4SUFFIXRE.sub("", text)]: up to three ".0" at the end are removed.
    For oa/plugins/awl.py:139-147. *)
Fixpoint strip_zeros (n : nat) (s : str) : str :=
  match n with
  | 0 => s
  | S n' => if endswith ($".0") s then strip_zeros n' (firstn (length s - 2) s) else s
  end.
(** [str(IPv4Address)].  For oa/plugins/awl.py:139-147. *)
Definition show4 (v : N) : str :=
  join ($".") [dec (v / 16777216); dec (v / 65536 mod 256); dec (v / 256 mod 256); dec (v mod 256)].
(** oa/plugins/awl.py:139-147 [ip_to_awl_key].  [show6]: [str(IPv6Address)]. *)
Definition ip_to_awl_key (mask4 mask6 : N) (show6 : N -> str) (a : addr) : str :=
  let network mask := (a_val a / 2 ^ (bits (a_ver a) - mask) * 2 ^ (bits (a_ver a) - mask))%N in
  strip_zeros 3 (match a_ver a with V4 => show4 (network mask4) | V6 => show6 (network mask6) end).

(** oa/plugins/awl.py:102-112 [_get_origin_ip]: the last public address in the
    trusted, then untrusted relays.  [None] inside: no address; [None] outside: an
    exception. *)
Fixpoint first_public (ip_address : str -> option addr) (is_private : addr -> bool) (ips : list str) : option (option addr) :=
  match ips with
  | [] => Some None
  | s :: r => match ip_address s with
              | None => None
              | Some a => if is_private a then first_public ip_address is_private r else Some (Some a)
              end
  end.
(** oa/plugins/awl.py:102-112. *)
Definition origin_ip (ip_address : str -> option addr) (is_private : addr -> bool) (trusted untrusted : list str) : option (option addr) :=
  first_public ip_address is_private (rev (trusted ++ untrusted)).

(** oa/plugins/awl.py:114-119 [_get_signed_by]: the first "d=" parameter. *)
Fixpoint signed_param (params : list str) : str :=
  match params with
  | [] => []
  | p :: r => if startswith ($"d=") (strip p)
              then match split1 61 p with Some (_, v) => strip_chars ($" ;" ++ [13%N; 10%N]) v | None => [] end
              else signed_param r
  end.
(** oa/plugins/awl.py:114-119. *)
Definition signed_by (dkim : str) : str := signed_param (split_char 59 dkim).
