(** Model of oa/plugins/relay_eval.py and of the IPv4 part of [IP_PRIVATE] in
    oa/received_parser.py.  Definitions only. *)
From Verif Require Import PyStr PyRe Model_Net Model_Relays.

(** One newline at the end, which [$] also accepts, removed.  For oa/plugins/relay_eval.py:169-190. *)
Definition chop_nl (s : str) : str :=
  match rev s with 10%N :: r => rev r | _ => s end.

(** oa/received_parser.py:89-97: the IPv4 alternative of [IP_PRIVATE], matched at the
    front of the text.  The second octet of 100.64.0.0/10 is written out as in the
    expression: 64-69, 70-99, 100-119, 120-127. *)
Definition cgn : list str := map (fun n => dec (N.of_nat n)) (seq 64 64).
(** For oa/plugins/relay_eval.py:50-58. *)
Definition private4 (s : str) : bool :=
  startswith ($"10.") s || startswith ($"127.") s || startswith ($"169.254.") s || startswith ($"192.168.") s ||
  existsb (fun b => startswith ($"100." ++ b ++ $".") s) cgn.

Section RelayEval.
Variable private6 : str -> bool.   (** the IPv6 alternative, oa/received_parser.py:98-158 *)
(** For oa/plugins/relay_eval.py:50-58. *)
Definition ip_private (s : str) : bool := private4 s || private6 s.

(** oa/plugins/relay_eval.py:32-41 [hostname_to_domain]; letters are ASCII *)
Definition is_letter (c : char) : bool := (N.leb 65 c && N.leb c 90) || (N.leb 97 c && N.leb c 122).
(** For oa/plugins/relay_eval.py:32-41. *)
Definition long_tld (t : str) : bool :=
  match t with
  | a :: b :: c :: _ => negb (is_space a) && negb (is_space b) && negb (is_space c)
  | _ => false
  end || startswith ($"ie") t || startswith ($"fr") t || startswith ($"de") t.
(** [l[-n:]].  For oa/plugins/relay_eval.py:32-41. *)
Definition last_n {A} (n : nat) (l : list A) : list A := skipn (length l - n) l.
(** oa/plugins/relay_eval.py:32-41. *)
Definition hostname_to_domain (h : str) : str :=
  match h with
  | c :: _ =>
      if is_letter c then
        let parts := split_char 46%N h in
        if (1 <? length parts) && long_tld (last parts []) then join ($".") (last_n 2 parts)
        else if 2 <? length parts then join ($".") (last_n 3 parts)
        else h
      else h
  | [] => h
  end.

(** oa/plugins/relay_eval.py:44-47 *)
Definition helo_forgery_whitelisted (helo rdns : str) : bool :=
  streqb helo ($"msn.com") && streqb rdns ($"hotmail.com").

(** oa/plugins/relay_eval.py:50-58: an address object is always true in a condition *)
Definition check_helo (r : relay) : bool :=
  match parse_ip4 (rl_helo r) with
  | None => false
  | Some _ => nonempty (rl_helo r) && negb (ip_private (rl_helo r))
  end.
(** oa/plugins/relay_eval.py:60-66 *)
Definition check_for_numeric_helo (untrusted : list relay) : bool := existsb check_helo untrusted.

(** oa/plugins/relay_eval.py:74-78,80-84 *)
Definition check_all_trusted (trusted untrusted : list relay) : bool :=
  match trusted, untrusted with _ :: _, [] => true | _, _ => false end.
(** oa/plugins/relay_eval.py:80-84. *)
Definition check_no_relays (trusted untrusted : list relay) : bool :=
  match trusted, untrusted with [], [] => true | _, _ => false end.

(** oa/plugins/relay_eval.py:90-105: a relay is a dictionary with entries, so always true in a condition *)
Definition check_for_sender_no_reverse (untrusted : list relay) : bool :=
  match rev untrusted with
  | [] => false
  | r :: _ => if negb (contains ($".") (rl_rdns r)) then false
              else if ip_private (rl_ip r) then false else true
  end.

(** oa/plugins/relay_eval.py:107-124: [froms] is [msg.get_addr_header("from")].  [rsplit("@", 1)[-1]] never raises. *)
Definition after_at (a : str) : str := match rsplit1 64%N a with Some (_, d) => d | None => a end.
(** oa/plugins/relay_eval.py:107-124. *)
Definition check_for_from_domain_in_received_headers (froms : list str) (trusted untrusted : list relay)
    (domain desired : str) : bool :=
  if negb (mem_str domain (map after_at froms)) then false
  else if existsb (fun r => contains domain (rl_rdns r) && contains domain (rl_by r)) (trusted ++ untrusted)
  then streqb desired ($"true")
  else negb (streqb desired ($"true")).

(** [IPv4Network(text).supernet(k)]; [None]: [ValueError], here turned into [None] or
    [""].  Masks written as addresses are not covered.  For oa/plugins/relay_eval.py:152-167. *)
Definition supernet (k : N) (s : str) : option net :=
  match parse_net4 s with
  | Some (Some n) =>
      if N.eqb (n_len n) 0 then Some n
      else if N.ltb (n_len n) k then None
      else let w := (32 - (n_len n - k))%N in
           Some (mkNet V4 (n_base n / 2 ^ w * 2 ^ w) (n_len n - k))
  | _ => None
  end.
(** For oa/plugins/relay_eval.py:152-167. *)
Definition net_eqb (a b : net) : bool := N.eqb (n_base a) (n_base b) && N.eqb (n_len a) (n_len b).

(** oa/plugins/relay_eval.py:152-167: [IPv4Network(helo)] cannot raise after [_check_helo] *)
Definition helo_ip_mismatch (untrusted : list relay) : bool :=
  existsb (fun r =>
    check_helo r &&
    match supernet 8 (rl_helo r), supernet 8 (rl_ip r) with
    | Some h, Some i => negb (streqb (rl_helo r) (rl_ip r)) && negb (net_eqb h i)
    | _, _ => false
    end) untrusted.

(** oa/plugins/relay_eval.py:182-186: [.*(?:\.|^)(names)$] *)
Definition big_isps : list str :=
  [$"lycos.com"; $"lycos.co.uk"; $"hotmail.com"; $"localhost.com"; $"excite.com"; $"caramail.com";
   $"cs.com"; $"aol.com"; $"msn.com"; $"yahoo.com"; $"drizzle.com"].
(** For oa/plugins/relay_eval.py:169-190. *)
Definition big_isp (helo : str) : bool :=
  let s := chop_nl helo in
  negb (mem_char 10%N s) && existsb (fun n => streqb s n || endswith ($"." ++ n) s) big_isps.
(** oa/plugins/relay_eval.py:169-190 *)
Definition dotcom_step (hit : bool) (r : relay) : bool :=
  if ip_private (rl_ip r) then hit
  else if negb (nonempty (rl_helo r)) then hit
  else big_isp (rl_helo r) && negb (nonempty (rl_rdns r)).
(** oa/plugins/relay_eval.py:169-190. *)
Definition check_for_no_rdns_dotcom_helo (untrusted : list relay) : bool := fold_left dotcom_step untrusted false.

(** oa/plugins/relay_eval.py:195 [^\w+(?:[\w.-]+\.)+\w+$]: what follows the last dot is a word, and before it are
    at least two characters, the first a word character.  Word characters are ASCII. *)
Definition hostname_re (h : str) : bool :=
  match rsplit1 46%N (chop_nl h) with
  | Some (c :: p, t) =>
      is_alnum c && nonempty p && forallb (fun x => is_alnum x || N.eqb x 46 || N.eqb x 45) p &&
      nonempty t && forallb is_alnum t
  | _ => false
  end.

(** oa/plugins/relay_eval.py:198-225: one relay with a usable "by" name: is its HELO an address of another /16? *)
Definition ip_helo_mismatch (r : relay) : bool :=
  let helo := hostname_to_domain (rl_helo r) in
  match supernet 16 (rl_ip r), supernet 16 helo with
  | Some i, Some h => negb (streqb (rl_ip r) helo) && negb (net_eqb i h) && negb (ip_private helo)
  | _, _ => false
  end.
(** oa/plugins/relay_eval.py:226-235 *)
Definition from_mismatch (prev r : relay) : bool :=
  let by_host := hostname_to_domain (rl_by r) in
  hostname_re (rl_rdns prev) && negb (streqb by_host (rl_rdns prev)) &&
  negb (helo_forgery_whitelisted by_host (rl_rdns prev)).
(** oa/plugins/relay_eval.py:192-237: the counts (mismatch_from, mismatch_ip_helo) *)
Fixpoint forged_loop (prev : option relay) (rs : list relay) (counts : nat * nat) : nat * nat :=
  match rs with
  | [] => counts
  | r :: rest =>
      let by_host := hostname_to_domain (rl_by r) in
      let counts' :=
        if negb (nonempty by_host) || negb (hostname_re by_host) then counts
        else let '(mf, mi) := counts in
             ((match prev with Some p => if from_mismatch p r then S mf else mf | None => mf end),
              (if ip_helo_mismatch r then S mi else mi)) in
      forged_loop (Some r) rest counts'
  end.
(** For oa/plugins/relay_eval.py:126-137. *)
Definition forged_received (untrusted : list relay) : nat * nat := forged_loop None untrusted (0, 0).

(** oa/plugins/relay_eval.py:126-137,139-150: the counts are kept in the context ([get_global], [set_global]),
    not in the message; [None]: not yet there.  Both are always written together. *)
Definition fstate := option (nat * nat).
(** oa/plugins/relay_eval.py:126-137,139-150. *)
Definition fstate0 : fstate := None.
(** For oa/plugins/relay_eval.py:126-137. *)
Definition settle (untrusted : list relay) (st : fstate) : nat * nat :=
  match st with Some c => c | None => forged_received untrusted end.
(** oa/plugins/relay_eval.py:126-137. *)
Definition check_for_forged_received_trail (untrusted : list relay) (st : fstate) : bool * fstate :=
  let c := settle untrusted st in (1 <? fst c, Some c).
(** oa/plugins/relay_eval.py:139-150. *)
Definition check_for_forged_received_ip_helo (untrusted : list relay) (st : fstate) : bool * fstate :=
  let c := settle untrusted st in (0 <? snd c, Some c).

(** A context checks a sequence of messages; per message, which of the two rules and the
    message's relays.  oa/plugins/relay_eval.py:139-150. *)
Inductive fcheck := Trail | IpHelo.
(** oa/plugins/relay_eval.py:139-150. *)
Definition forged_check (k : fcheck) : list relay -> fstate -> bool * fstate :=
  match k with Trail => check_for_forged_received_trail | IpHelo => check_for_forged_received_ip_helo end.
(** oa/plugins/relay_eval.py:139-150. *)
Fixpoint forged_run (l : list (fcheck * list relay)) (st : fstate) : list bool :=
  match l with
  | [] => []
  | (k, m) :: rest => let '(b, st') := forged_check k m st in b :: forged_run rest st'
  end.
End RelayEval.
