(** Model of the configuration of the resolver: oa/context.py:35-44 and 294-323,
    oa/rules/ruleset.py:23-29 and 320-327, and the attributes of oa/dns_interface.py:14-115.
    Definitions only. *)
From Coq Require Import QArith.
From Verif Require Import PyStr Model_Rules Regexp Model_Received.
Open Scope nat_scope.

(** [dns.resolver.Resolver]: the attributes used.  [q_edns]: the version of EDNS, [None] if it
    is not used; [q_payload]: the size of answers it announces.
    For oa/dns_interface.py:40-49. *)
Record resolver := mkQ {
  q_servers : list str; q_port : Z; q_edns : option N; q_payload : Z; q_rotate : bool;
  q_lifetime : Q; q_timeout : Q
}.
(** oa/dns_interface.py:40-49: the resolver and the test interval, in seconds; and the
    attributes that oa/context.py and oa/rules/ruleset.py add to the object. *)
Record interface := mkI {
  i_resolver : resolver; i_interval : Z;
  i_lifetime : option Q; i_timeout : option Q; i_rotate : option str
}.
(** For oa/context.py:299-322. *)
Definition set_resolver (q : resolver) (i : interface) : interface :=
  mkI q (i_interval i) (i_lifetime i) (i_timeout i) (i_rotate i).
(** oa/dns_interface.py:40-49 [__init__]; [fresh]: what [dns.resolver.Resolver()] makes of the system's settings *)
Definition new_interface (fresh : resolver) : interface :=
  mkI (mkQ (q_servers fresh) (q_port fresh) (Some 0%N) (q_payload fresh) false (q_lifetime fresh) (q_timeout fresh)) 600 None None None.

(** oa/context.py:35-44.  Simplification: values contain no line breaks, so that MULTILINE
    makes no difference. *)
Definition SERVER_RE : re := Eval vm_compute in pattern true true ($"
^\[?
    ([0-9.]+|           # IPv4
     [0-9a-f:]+)        # IPv6
\]?
(?:
    :                   # A port is following the address
    ([0-9]+)            # The port
)?$
").
(** oa/rules/ruleset.py:23-29: a single class of characters; it has no groups, so
    [groupdict()] is empty. *)
Definition OPTIONS_RE : re := Eval vm_compute in pattern true true ($"
[
(?P<edns>(no)?edns0?=\d*)?,?
(?P<rotate>(no)?rotate)?,?
(?P<dns0x20>(no)?dns0x20)?,?
]
").
(** oa/rules/ruleset.py:23-29. *)
Definition options_groups : list (str * nat) := [].

Section Unicode.
Variable udigit uword : char -> bool.

(** oa/context.py:303-304: the groups of a line ([None]: no match, 305-307) *)
Definition server_line (line : str) : option (str * option str) :=
  match re_match udigit uword SERVER_RE line with
  | Some st => match group 1 (s_caps st) with
               | Some a => Some (a, group 2 (s_caps st))
               | None => None
               end
  | None => None
  end.
(** oa/context.py:301-313 *)
Fixpoint server_lines (lines : list str) (cport : option str) (servers : list str) : option str * list str :=
  match lines with
  | [] => (cport, servers)
  | line :: rest =>
      match server_line line with
      | None => server_lines rest cport servers
      | Some (a, port) =>
          match cport, port with
          | Some c, Some p => if streqb c p then server_lines rest (Some p) (servers ++ [a]) else server_lines rest cport servers
          | _, Some p => server_lines rest (Some p) (servers ++ [a])
          | _, None => server_lines rest cport (servers ++ [a])
          end
      end
  end.
(** oa/context.py:299-322.  [None]: [int] raises. *)
Definition configure (lifetime timeout : Q) (lines : list str) (i : interface) : option interface :=
  let i := mkI (i_resolver i) (i_interval i) (Some lifetime) (Some timeout) (i_rotate i) in
  match server_lines lines None [] with
  | (_, []) => Some i
  | (cport, servers) =>
      match (match cport with Some p => py_int p | None => Some 53%Z end) with
      | None => None
      | Some port =>
          let q := i_resolver i in
          Some (set_resolver (mkQ servers port (q_edns q) (q_payload q) (q_rotate q) (q_lifetime q) (q_timeout q)) i)
      end
  end.

(** oa/dns_interface.py:80-85, the setter of [edns].  [None]: [split] or [int] fail. *)
Definition set_edns (value : str) (i : interface) : option interface :=
  let with_payload n := let q := i_resolver i in
    set_resolver (mkQ (q_servers q) (q_port q) (q_edns q) n (q_rotate q) (q_lifetime q) (q_timeout q)) i in
  if startswith ($"no") value then Some (with_payload 512%Z)
  else match split1 61%N value with
       | Some (_, n) => option_map with_payload (py_int n)
       | None => None
       end.
(** oa/dns_interface.py:72-74, the setter of [rotate_nameservers] *)
Definition set_rotate_nameservers (value : str) (i : interface) : interface :=
  let q := i_resolver i in
  set_resolver (mkQ (q_servers q) (q_port q) (q_edns q) (q_payload q) (streqb value ($"rotate")) (q_lifetime q) (q_timeout q)) i.
(** oa/dns_interface.py:91-105, the setter of [test_interval]; a [timedelta] in seconds *)
Definition set_test_interval (value : str) (i : interface) : option interface :=
  let unit_of := match rev value with
    | c :: _ => if N.eqb c 115 then Some 1%Z
                else if N.eqb c 109 then Some 60%Z
                else if N.eqb c 104 then Some 3600%Z
                else if N.eqb c 100 then Some 86400%Z
                else if N.eqb c 119 then Some 604800%Z
                else None
    | [] => None
    end in
  let '(text, u) := match unit_of with
    | Some u => (firstn (length value - 1) value, u)
    | None => (value, 1%Z)
    end in
  option_map (fun n => mkI (i_resolver i) (n * u) (i_lifetime i) (i_timeout i) (i_rotate i)) (py_int text).

(** oa/rules/ruleset.py:320-327 *)
Definition dict_of (d : list (str * str)) (name : str) : str :=
  match find (fun p => streqb (fst p) name) d with Some (_, v) => v | None => [] end.
(** oa/rules/ruleset.py:320-327. *)
Definition apply_options (value : str) (i : interface) : option interface :=
  let defaults := [($"edns", $"edns=4096"); ($"rotate", $"norotate"); ($"dns0x20", $"nodns0x20")] in
  let given := match re_match udigit uword OPTIONS_RE value with
    | Some st => flat_map (fun g => match group (snd g) (s_caps st) with Some v => [(fst g, v)] | None => [] end) options_groups
    | None => []
    end in
  let options := given ++ defaults in
  let i := mkI (i_resolver i) (i_interval i) (i_lifetime i) (i_timeout i) (Some (dict_of options ($"rotate"))) in
  set_edns (dict_of options ($"edns")) i.

(** All of it: oa/rules/ruleset.py:290-327 runs when the rule set is made, oa/context.py:334-338
    after the parsing.  The option dns_test_interval is read nowhere. *)
(** oa/rules/ruleset.py:320-327. *)
Record dns_conf := mkC {
  c_lifetime : Q; c_timeout : Q; c_servers : list str; c_options : str; c_test_interval : str
}.
(** oa/rules/ruleset.py:320-327. *)
Definition configured (c : dns_conf) (fresh : resolver) : option interface :=
  match configure (c_lifetime c) (c_timeout c) (c_servers c) (new_interface fresh) with
  | Some i => apply_options (c_options c) i
  | None => None
  end.
(** oa/dns_interface.py:51-58 and scripts/match.py:108-112: a stored rule set gets a new
    resolver, and the settings of oa/context.py, but not those of oa/rules/ruleset.py, are
    made again. *)
(** oa/rules/ruleset.py:320-327. *)
Definition restored (c : dns_conf) (stored : interface) (fresh : resolver) : option interface :=
  configure (c_lifetime c) (c_timeout c) (c_servers c) (set_resolver fresh stored).
End Unicode.
