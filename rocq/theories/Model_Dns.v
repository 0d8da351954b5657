(** Model of oa/dns_interface.py (restrictions, availability, queries), of the
    restriction lines in oa/rules/ruleset.py:308-319 and of
    oa/plugins/dns_eval.py.  Definitions only. *)
From Coq Require Import ZArith.
From Verif Require Import PyStr PyDict Model_Net Model_Relays.

(** ** oa/dns_interface.py:142-162 [is_query_restricted]
    [None]: the fuel, one more than the length of the name, is spent. *)
Fixpoint restricted_loop (fuel : nat) (table : dict bool) (qname : str) : option bool :=
  match fuel with
  | O => None
  | S fuel =>
      match dget qname table with
      | Some denied => Some denied
      | None => match split1 46%N qname with
                | Some (_, parent) => restricted_loop fuel table parent
                | None => Some false
                end
      end
  end.
(** oa/dns_interface.py:142-162. *)
Definition is_query_restricted (table : dict bool) (qname : str) : option bool :=
  match table with
  | [] => Some false
  | _ => restricted_loop (S (length qname)) table qname
  end.

(** oa/rules/ruleset.py:308-319.  The names [option] and [qname] keep the values of
    the previous line ([last]) when a line cannot be split; [None]: there was none
    ([UnboundLocalError]). *)
Fixpoint restriction_lines (lines : list str) (last : option (str * str)) (table : dict bool) : option (dict bool) :=
  match lines with
  | [] => Some table
  | value :: rest =>
      match (match split1 32%N value with Some p => Some p | None => last end) with
      | None => None
      | Some (opt, qname) =>
          restriction_lines rest (Some (opt, qname))
            (if streqb opt ($"allow") || streqb opt ($"deny") then dset qname (streqb opt ($"deny")) table else table)
      end
  end.

(** ** Availability and queries *)
(** oa/dns_interface.py:40-50: the fields used here.  Times are numbers of seconds. *)
Record dns := mkDns {
  d_restrictions : dict bool;
  d_test : bool;
  d_names : list str;
  d_next : N;
  d_interval : N;
  d_available : bool
}.
(** What a query makes the resolver do.  For oa/dns_interface.py:117-131. *)
Inductive event :=
| Tested (now : N) (names : list str) (ok : bool)   (** a round of test lookups *)
| Asked (now : N) (qname qtype : str).              (** the lookup itself *)

(** oa/dns_interface.py:133-140, the setter of [available] *)
Definition set_available (value : str) (d : dns) : dns :=
  let d := mkDns (d_restrictions d) (d_test d) (d_names d) (d_next d) (d_interval d) (streqb value ($"yes")) in
  if startswith ($"test") value then
    let names := match split_char 58%N value with
                 | _ :: servers :: _ => words servers
                 | _ => d_names d
                 end in
    mkDns (d_restrictions d) true names (d_next d) (d_interval d) (d_available d)
  else d.

Section Query.
(** The answers of the resolver at a time, as texts ([str(result)]). *)
Variable resolve : N -> str -> str -> list str.
(** [random.sample] from a set of names. *)
Variable sample : N -> list str -> nat -> list str.

(** For oa/dns_interface.py:117-131. *)
Definition answered (now : N) (qname qtype : str) : bool :=
  match resolve now qname qtype with [] => false | _ => true end.

(** oa/dns_interface.py:117-131 [available].  The clock is read once (the code
    reads it a second time after the lookups).  [None]: [random.sample] raises
    because the set is smaller than the sample.  (Python before 3.11: later
    versions refuse to sample from a set.) *)
Definition available (now : N) (d : dns) : option (bool * list event * dns) :=
  if d_test d && N.leb (d_next d) now then
    let names := nodup str_eq_dec (d_names d) in
    let k := Nat.min 3 (length (d_names d)) in
    if length names <? k then None
    else
      let chosen := sample now names k in
      let ok := existsb (fun n => answered now n ($"A")) chosen in
      Some (ok, [Tested now chosen ok],
            mkDns (d_restrictions d) (d_test d) (d_names d) (now + d_interval d) (d_interval d) ok)
  else Some (d_available d, [], d).

(** oa/dns_interface.py:164-181 [query] (and [_query], 183-197, whose handled
    exceptions count as no answer).  [None]: an exception. *)
Definition query (now : N) (qname qtype : str) (d : dns) : option (list str * list event * dns) :=
  match is_query_restricted (d_restrictions d) qname with
  | None => None
  | Some true => Some ([], [], d)
  | Some false =>
      match available now d with
      | None => None
      | Some (false, ev, d) => Some ([], ev, d)
      | Some (true, ev, d) => Some (resolve now qname qtype, ev ++ [Asked now qname qtype], d)
      end
  end.

(** A history of queries; one that raises is left where it is.
    oa/dns_interface.py:164-181. *)
Fixpoint queries (h : list (N * str * str)) (d : dns) : list event * dns :=
  match h with
  | [] => ([], d)
  | (now, qname, qtype) :: rest =>
      match query now qname qtype d with
      | None => queries rest d
      | Some (_, ev, d) => let '(ev', d) := queries rest d in (ev ++ ev', d)
      end
  end.
End Query.

(** ** oa/dns_interface.py:199-201 [reverse_ip]
    [dns.reversename.from_address(ip.exploded)]: octets, or hexadecimal digits,
    last first, under in-addr.arpa or ip6.arpa. *)
Definition hex_digit (n : N) : char := if N.ltb n 10 then (48 + n)%N else (87 + n)%N.
(** For oa/dns_interface.py:199-201. *)
Definition octets (n : N) : list N := map (fun i => n / 2 ^ (8 * i) mod 256)%N [3; 2; 1; 0]%N.
(** For oa/dns_interface.py:199-201. *)
Fixpoint low_nibbles (k : nat) (n : N) : list N :=
  match k with O => [] | S k => (n mod 16)%N :: low_nibbles k (n / 16) end.
(** For oa/dns_interface.py:199-201. *)
Definition reverse_name (a : addr) : str :=
  match a_ver a with
  | V4 => join ($".") (map dec (rev (octets (a_val a)))) ++ $".in-addr.arpa."
  | V6 => join ($".") (map (fun n => [hex_digit n]) (low_nibbles 32 (a_val a))) ++ $".ip6.arpa."
  end.
(** [rstrip(".").rsplit(".", 2)[0]].  oa/dns_interface.py:199-201. *)
Definition reverse_ip (a : addr) : str :=
  let s := rstrip_chars ($".") (reverse_name a) in
  match rsplit1 46%N s with
  | Some (x, _) => match rsplit1 46%N x with Some (y, _) => y | None => x end
  | None => s
  end.

(** ** oa/plugins/dns_eval.py *)
Section Eval.
(** [ctxt.dns.query]: the answers as texts. *)
Variable ask : str -> str -> list str.
(** [Regex(subtest).match(text)]; [None]: the expression does not compile. *)
Variable re_ok : str -> str -> option bool.
(** [int(text)], and the number of the address in a text. *)
Variable to_int : str -> option Z.
Variable ip_int : str -> option N.

(** A check: its answer ([None]: an exception, after which the rule does not hit,
    oa/rules/eval_.py:67-74) and the lookups made. *)
Definition outcome : Type := option bool * list (str * str).

(** oa/plugins/dns_eval.py:95-97, 169-171 *)
Fixpoint any_ok (subtest : str) (results : list str) : option bool :=
  match results with
  | [] => Some false
  | r :: rest => match re_ok subtest r with
                 | Some true => Some true
                 | Some false => any_ok subtest rest
                 | None => None
                 end
  end.
(** For oa/plugins/dns_eval.py:65-98. *)
Definition result_ok (subtest : option str) (results : list str) : option bool :=
  match subtest, results with
  | None, [] => Some false
  | None, _ => Some true
  | Some t, _ => any_ok t results
  end.
(** The loops of oa/plugins/dns_eval.py:88-98,124-135 and 159-172: one lookup after the other until one
    satisfies [ok]. *)
Fixpoint first_hit (ok : list str -> option bool) (qtype : str) (names : list str) : outcome :=
  match names with
  | [] => (Some false, [])
  | n :: rest => match ok (ask n qtype) with
                 | Some false => let '(r, asked) := first_hit ok qtype rest in (r, (n, qtype) :: asked)
                 | r => (r, [(n, qtype)])
                 end
  end.
(** For oa/plugins/dns_eval.py:65-98. *)
Definition under (rbl_server name : str) : str := name ++ $"." ++ rbl_server.

(** oa/plugins/dns_eval.py:65-98 [_check_rbl]; also [check_rbl] and
    [check_rbl_txt], 174-186, 230-243.  [ips]: [msg.get_untrusted_ips()], [None]
    when it raises. *)
Definition check_rbl (skip : bool) (ips : option (list addr)) (rbl_server qtype : str) (subtest : option str) : outcome :=
  if skip then (Some false, [])
  else match ips with
       | None => (None, [])
       | Some ips => first_hit (result_ok subtest) qtype (map (fun a => under rbl_server (reverse_ip a)) ips)
       end.

(** oa/plugins/dns_eval.py:114-122: [None]: not a mask. *)
Definition read_mask (mask : str) : option Z :=
  match to_int mask with
  | Some z => Some z
  | None => option_map Z.of_N (ip_int mask)
  end.
(** oa/plugins/dns_eval.py:131-134; [None]: an answer is no address *)
Fixpoint any_bit (mask : Z) (results : list str) : option bool :=
  match results with
  | [] => Some false
  | r :: rest => match ip_int r with
                 | None => None
                 | Some a => if Z.eqb (Z.land (Z.of_N a) mask) 0 then any_bit mask rest else Some true
                 end
  end.
(** For oa/plugins/dns_eval.py:100-135. *)
Definition mask_ok (mask : Z) (results : list str) : option bool :=
  match results with
  | [] => Some false
  | _ => if Z.eqb mask 0 then Some true else any_bit mask results
  end.
(** oa/plugins/dns_eval.py:100-135 [_check_multi_rbl]: always called with a mask. *)
Definition check_multi_rbl (skip : bool) (ips : option (list addr)) (rbl_server mask : str) : outcome :=
  if skip then (Some false, [])
  else match read_mask mask with
       | None => (Some false, [])
       | Some m => match ips with
                   | None => (None, [])
                   | Some ips => first_hit (mask_ok m) ($"A") (map (fun a => under rbl_server (reverse_ip a)) ips)
                   end
       end.

(** oa/plugins/dns_eval.py:160-163 *)
Definition address_domain (a : str) : str :=
  match rsplit1 64%N a with Some (_, d) => strip d | None => strip a end.
(** oa/plugins/dns_eval.py:137-172 [_check_rbl_addr]; 306-326 *)
Definition check_rbl_addr (skip : bool) (addresses : list str) (rbl_server : str) (subtest : option str) : outcome :=
  if skip then (Some false, [])
  else first_hit (result_ok subtest) ($"A") (map (fun a => under rbl_server (address_domain a)) addresses).
(** oa/plugins/dns_eval.py:285-304 [check_rbl_envfrom] *)
Definition check_rbl_envfrom (skip : bool) (sender rbl_server : str) (subtest : option str) : outcome :=
  match sender with
  | [] => (Some false, [])
  | _ => check_rbl_addr skip [sender] rbl_server subtest
  end.

(** oa/plugins/dns_eval.py:262-283 [check_dns_sender] *)
Definition check_dns_sender (sender : str) : outcome :=
  match sender with
  | [] => (Some false, [])
  | _ =>
      let domain := match rsplit1 64%N sender with Some (_, d) => d | None => sender end in
      match ask domain ($"A") with
      | _ :: _ => (Some false, [(domain, $"A")])
      | [] => match ask domain ($"MX") with
              | _ :: _ => (Some false, [(domain, $"A"); (domain, $"MX")])
              | [] => (Some true, [(domain, $"A"); (domain, $"MX")])
              end
      end
  end.

(** oa/plugins/dns_eval.py:188-228 [check_rbl_accreditor]; [sender_tag]: the group
    found by [ACCREDITOR_RE], line 16; [headers]: the Accreditor headers. *)
Definition header_tags (header : str) : list str :=
  map (fun part => strip (hd [] (split_char 44%N part))) (split_char 59%N header).
(** oa/plugins/dns_eval.py:188-228. *)
Definition check_rbl_accreditor (skip : bool) (ips : option (list addr)) (sender_tag : option str) (headers : list str)
    (rbl_server subtest accreditor : str) : outcome :=
  let tags := match sender_tag with Some t => [t] | None => [] end ++ concat (map header_tags headers) in
  if mem_str accreditor tags then check_rbl skip ips rbl_server ($"A") (Some subtest) else (Some false, []).

(** oa/plugins/dns_eval.py:20-31, 46-63: the zones, from the eval rules (name and
    arguments) of the ruleset; [None]: a rule has fewer than two arguments
    ([IndexError], loading fails). *)
Definition zone_evals : list str :=
  [$"check_rbl"; $"check_rbl_txt"; $"check_rbl_envfrom"; $"check_rbl_from_host"; $"check_rbl_from_domain"; $"check_rbl_accreditor"].
(** oa/plugins/dns_eval.py:20-31. *)
Fixpoint zones (rules : list (str * list str)) (d : dict str) : option (dict str) :=
  match rules with
  | [] => Some d
  | (name, args) :: rest =>
      if mem_str name zone_evals then
        match args with
        | zone :: server :: _ => zones rest (dset (strip (hd [] (split_char 45%N zone))) server d)
        | _ => None
        end
      else zones rest d
  end.
(** oa/plugins/dns_eval.py:245-260 [check_rbl_sub] *)
Definition check_rbl_sub (zs : dict str) (skip : bool) (ips : option (list addr)) (zone_set mask : str) : outcome :=
  match dget zone_set zs with
  | None => (Some false, [])
  | Some rbl_server => check_multi_rbl skip ips rbl_server mask
  end.
End Eval.
