(** Model of oa/networks.py.  Definitions only. *)
From Coq Require Import Decimal DecimalN.
From Verif Require Import PyStr.

(** [str(n)] for a natural number.  For oa/networks.py:22-35. *)
Fixpoint uint_str (d : Decimal.uint) : str :=
  match d with
  | Decimal.Nil => []
  | Decimal.D0 d => 48%N :: uint_str d | Decimal.D1 d => 49%N :: uint_str d | Decimal.D2 d => 50%N :: uint_str d
  | Decimal.D3 d => 51%N :: uint_str d | Decimal.D4 d => 52%N :: uint_str d | Decimal.D5 d => 53%N :: uint_str d
  | Decimal.D6 d => 54%N :: uint_str d | Decimal.D7 d => 55%N :: uint_str d | Decimal.D8 d => 56%N :: uint_str d
  | Decimal.D9 d => 57%N :: uint_str d
  end.
(** For oa/networks.py:22-35. *)
Definition dec (n : N) : str := uint_str (N.to_uint n).

(** ** The parts of [ipaddress] used.  For oa/networks.py:52-56. *)
Inductive ver := V4 | V6.
(** For oa/networks.py:52-56. *)
Record addr := mkA { a_ver : ver; a_val : N }.
(** For oa/networks.py:52-56. *)
Record net := mkNet { n_ver : ver; n_base : N; n_len : N }.
(** For oa/networks.py:52-56. *)
Definition bits (v : ver) : N := match v with V4 => 32 | V6 => 128 end.
(** For oa/networks.py:52-56. *)
Definition ver_eqb (a b : ver) : bool := match a, b with V4, V4 | V6, V6 => true | _, _ => false end.
(** [address in network]: [address & netmask == network_address], and an address
    is never in a network of the other version.  For oa/networks.py:52-56. *)
Definition in_net (a : addr) (n : net) : bool :=
  ver_eqb (a_ver a) (n_ver n) &&
  N.eqb (a_val a / 2 ^ (bits (n_ver n) - n_len n)) (n_base n / 2 ^ (bits (n_ver n) - n_len n)).

(** Digits only, read in base 10.  For oa/networks.py:86-93. *)
Fixpoint digits_val (acc : N) (s : str) : option N :=
  match s with
  | [] => Some acc
  | c :: r => if is_digit c then digits_val (10 * acc + (c - 48)) r else None
  end.
(** For oa/networks.py:86-93. *)
Definition natural (s : str) : option N := match s with [] => None | _ => digits_val 0 s end.

(** [_parse_octet]: at most three digits, no leading zero, at most 255.  (Python
    before 3.9.5 accepts some leading zeros.).  For oa/networks.py:86-93. *)
Definition parse_octet (s : str) : option N :=
  match natural s with
  | Some n => if (length s <=? 3) && (negb (startswith ($"0") s) || (length s =? 1)) && N.leb n 255 then Some n else None
  | None => None
  end.
(** For oa/networks.py:86-93. *)
Definition parse_ip4 (s : str) : option N :=
  match map parse_octet (split_char 46%N s) with
  | [Some a; Some b; Some c; Some d] => Some (a * 16777216 + b * 65536 + c * 256 + d)%N
  | _ => None
  end.
(** [IPv4Network(text)] with a numeric mask: [None] when the text is not one,
    [Some None] when host bits are set.  For oa/networks.py:86-93. *)
Definition parse_net4 (s : str) : option (option net) :=
  let mk a m := if N.eqb (a mod 2 ^ (32 - m)) 0 then Some (mkNet V4 a m) else None in
  match split_char 47%N s with
  | [t] => option_map (fun a => Some (mkNet V4 a 32)) (parse_ip4 t)
  | [t; m] => match parse_ip4 t, natural m with
              | Some a, Some m => if N.leb m 32 then Some (mk a m) else None
              | _, _ => None
              end
  | _ => None
  end.

(** ** oa/networks.py:9-19 [_NETWORK_RE].  Whichever alternative is taken, the
    longest run of its characters is taken: giving some back could only help if
    they were the mask, and then the rest is empty and the longest run works
    too. *)
Definition is_hex (c : char) : bool :=
  is_digit c || (N.leb 97 c && N.leb c 102) || (N.leb 65 c && N.leb c 70).
(** For oa/networks.py:86-93. *)
Definition opt_char (c : char) (s : str) : str := match s with x :: r => if N.eqb x c then r else s | [] => s end.
(** For oa/networks.py:86-93. *)
Definition at_eol (s : str) : bool := match s with [] => true | c :: _ => N.eqb c 10 end.
(** For oa/networks.py:86-93. *)
Definition re_tail (s : str) : option str :=
  let s := opt_char 47%N (opt_char 93%N s) in
  let port := take_while is_digit s in
  if (length port <=? 5) && at_eol (drop_while is_digit s) then Some port else None.
(** For oa/networks.py:86-93. *)
Definition network_re (s : str) : option (bool * str * str) :=
  let excl := match s with c :: _ => N.eqb c 33 | [] => false end in
  let s := opt_char 91%N (opt_char 33%N s) in
  let v4 := fun c => is_digit c || N.eqb c 46 in
  let v6 := fun c => is_hex c || N.eqb c 58 in
  let alt (p : char -> bool) := option_map (fun port => (excl, take_while p s, port)) (re_tail (drop_while p s)) in
  match take_while v4 s with
  | [] => alt v6
  | _ => match alt v4 with Some r => Some r | None => alt v6 end
  end.

(** oa/networks.py:22-35 *)
Definition format_network (network mask : str) : str :=
  let parts := length (split_char 46%N network) in
  let network :=
    if negb (endswith ($".") network) && ((parts =? 3) || (parts =? 7)) && negb (contains ($"/") network)
    then network ++ $"." else network in
  let dots := count_char 46%N network in
  let '(padding, mask) :=
    if endswith ($".") network
    then (join ($".") (repeat ($"0") (4 - dots)), match mask with [] => dec (N.of_nat dots * 8) | _ => mask end)
    else ([], mask) in
  match mask with
  | [] => network ++ padding
  | _ => network ++ padding ++ $"/" ++ mask
  end.

Section Net.
Variable parse_net6 : str -> option net.   (** [IPv6Network(text)]; [None]: [ValueError] *)

(** [ipaddress.ip_network(text)]: [None]: [ValueError].  For oa/networks.py:86-93. *)
Definition ip_network (s : str) : option net :=
  match parse_net4 s with
  | Some r => r
  | None => parse_net6 s
  end.

(** oa/networks.py:86-93: [None]: the text does not match and [None.groups()]
    raises; otherwise the exclusion mark and the network, [None] for a text that
    is not a network. *)
Definition extract_network (s : str) : option (bool * option net) :=
  match network_re s with
  | None => None
  | Some (excluded, network, mask) => Some (excluded, ip_network (format_network network mask))
  end.

(** oa/networks.py:37-56,59-71: a list of networks; [None] stands for Python's
    [None] stored as a network. *)
Definition netlist := list (option net * bool).
(** For oa/context.py:325-331. *)
Definition always_accepted : netlist := [(Some (mkNet V4 2130706432 8), true); (Some (mkNet V6 1 128), true)].

(** oa/networks.py:52-56: [None]: [TypeError], "in None". *)
Fixpoint contains_addr (l : netlist) (a : addr) : option bool :=
  match l with
  | [] => Some false
  | (None, _) :: _ => None
  | (Some n, accepted) :: r => if in_net a n then Some accepted else contains_addr r a
  end.

(** oa/networks.py:74-84: the lists are attributes of the class, shared by all
    contexts of the process. *)
Record nets := mkNets { n_trusted : netlist; n_tconf : bool; n_internal : netlist; n_iconf : bool; n_msa : netlist }.
(** oa/networks.py:74-84. *)
Definition nets0 : nets := mkNets always_accepted false always_accepted false [].
(** oa/networks.py:82-84. *)
Definition configured (s : nets) : bool := n_iconf s || n_tconf s.

(** oa/networks.py:95-113.  [None]: the line raises. *)
Inductive nline := LTrusted (t : str) | LInternal (t : str) | LMsa (t : str).
(** For oa/context.py:325-331. *)
Definition add_line (l : nline) (s : nets) : option nets :=
  match l with
  | LTrusted t =>
      match extract_network t with
      | None => None
      | Some (e, n) => Some (mkNets (n_trusted s ++ [(n, negb e)]) true
                               (if n_iconf s then n_internal s else n_internal s ++ [(n, negb e)]) (n_iconf s) (n_msa s))
      end
  | LInternal t =>
      match extract_network t with
      | None => None
      | Some (e, n) =>
          let internal := if n_iconf s then n_internal s else always_accepted in
          Some (mkNets (n_trusted s ++ [(n, negb e)]) (n_tconf s) (internal ++ [(n, negb e)]) true (n_msa s))
      end
  | LMsa t =>
      match extract_network t with
      | None => None
      | Some (e, n) => Some (mkNets (n_trusted s) (n_tconf s) (n_internal s) true (n_msa s ++ [(n, negb e)]))
      end
  end.

(** Any sequence of network lines of any contexts; a line that raises leaves the
    lists as they were.  oa/context.py:325-331. *)
Definition run_lines (ls : list nline) (s : nets) : nets :=
  fold_left (fun s l => match add_line l s with Some s' => s' | None => s end) ls s.

(** oa/context.py:325-331: trusted, then internal, then msa lines; [None]: an
    exception stops it. *)
Fixpoint add_all (ls : list nline) (s : nets) : option nets :=
  match ls with
  | [] => Some s
  | l :: r => match add_line l s with Some s' => add_all r s' | None => None end
  end.
(** oa/context.py:325-331. *)
Definition add_networks (trusted internal msa : list str) (s : nets) : option nets :=
  add_all (map LTrusted trusted ++ map LInternal internal ++ map LMsa msa) s.
End Net.
