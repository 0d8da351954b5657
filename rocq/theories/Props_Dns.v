(** Theorems about DNS queries and block lists (C47, C48, C82-C84). *)
From Coq Require Import ZArith.
From Verif Require Import PyStr PyDict Model_Net Spec_Net Model_Relays Model_Dns Spec_Dns Proofs_Dns.

(** C47: a name is suppressed exactly when the nearest domain that has a
    restriction line, the name itself or one above it, is denied; the last line
    about a domain counts and other texts are passed over. *)
Theorem C47_nearest_domain_partial : forall first rest, In 32%N first ->
  exists table, restriction_lines (first :: rest) None [] = Some table /\
  forall name, exists b, is_query_restricted table name = Some b /\ (b = true <-> denied (first :: rest) name).
Proof. exact restricted_denied. Qed.
Print Assumptions C47_nearest_domain_partial.
(** What that means for a query: nothing is asked and there is no answer, or the
    resolver is asked and its answer given back. *)
Theorem C47_query : forall resolve sample first rest d now qname qtype, In 32%N first ->
  restriction_lines (first :: rest) None [] = Some (d_restrictions d) -> d_test d = false -> d_available d = true ->
  (denied (first :: rest) qname -> query resolve sample now qname qtype d = Some ([], [], d)) /\
  (~ denied (first :: rest) qname ->
   query resolve sample now qname qtype d = Some (resolve now qname qtype, [Asked now qname qtype], d)).
Proof. exact query_suppressed. Qed.
Print Assumptions C47_query.
(** Missing: a first line without a blank makes loading fail, and names are
    compared with their case. *)
Theorem C47_bad_line_refuted : forall first rest, ~ In 32%N first -> restriction_lines (first :: rest) None [] = None.
Proof. intros first rest H. cbn [restriction_lines]. now rewrite (proj2 (split1_None 32%N first) H). Qed.
Print Assumptions C47_bad_line_refuted.
Theorem C47_case_refuted : exists table,
  restriction_lines [$"deny example.com"] None [] = Some table /\
  is_query_restricted table ($"www.example.com") = Some true /\ is_query_restricted table ($"www.Example.com") = Some false.
Proof. exists [($"example.com", true)]. repeat split. Qed.
Print Assumptions C47_case_refuted.
Definition ex_lines : list str := [$"deny com"; $"nonsense"; $"allow example.com"; $"deny mail.example.com"; $"allow com"; $"deny com"].
Definition ex_table : dict bool := [($"com", true); ($"example.com", false); ($"mail.example.com", true)].
Example C47_example : restriction_lines ex_lines None [] = Some ex_table /\
  map (is_query_restricted ex_table) [$"com"; $"a.com"; $"example.com"; $"a.example.com"; $"b.mail.example.com"; $"notexample.com"; $"org"] =
  map Some [true; true; false; false; true; true; false].
Proof. split; vm_compute; reflexivity. Qed.

(** C82: with testing on (dns_available test), rounds of test lookups are at least
    one interval apart, whatever is asked and when. *)
Theorem C82_tests_apart : forall resolve sample h d a t1 n1 o1 b t2 n2 o2 c,
  fst (queries resolve sample h d) = a ++ Tested t1 n1 o1 :: b ++ Tested t2 n2 o2 :: c -> (t1 + d_interval d <= t2)%N.
Proof. exact tests_apart. Qed.
Print Assumptions C82_tests_apart.
(** A lookup is made only when the latest round of tests succeeded, less than an
    interval ago. *)
Theorem C82_asked_only_when_tested : forall resolve sample h value d a t q ty c,
  (0 < d_interval d)%N -> startswith ($"test") value = true ->
  fst (queries resolve sample h (set_available value d)) = a ++ Asked t q ty :: c ->
  exists a1 t1 names a2, a = a1 ++ Tested t1 names true :: a2 /\
    (forall t' n' o', ~ In (Tested t' n' o') a2) /\ (t < t1 + d_interval d)%N.
Proof.
  intros resolve sample h value d a t q ty c Hpos Hv H.
  assert (Hy : streqb value ($"yes") = false). { destruct (streqb_spec value ($"yes")) as [->|]; [discriminate|reflexivity]. }
  assert (E : d_interval (set_available value d) = d_interval d /\ d_test (set_available value d) = true /\ d_available (set_available value d) = false).
  { unfold set_available. rewrite Hv, Hy. repeat split. }
  destruct E as [E1 [E2 E3]]. rewrite <- E1 in *.
  destruct (asked_after_test resolve sample h (set_available value d) [] a t q ty c Hpos E2) as [a1 [t1 [ns [a2 [H1 [H2 H3]]]]]].
  - intros Hx. congruence.
  - exact H.
  - exists a1, t1, ns, a2. repeat split; [exact H1| |exact H3]. intros t' n' o' Hin. now apply (H2 _ Hin).
Qed.
Print Assumptions C82_asked_only_when_tested.
(** A round looks up a choice of the test names and succeeds when one of them has
    an address. *)
Theorem C82_round : forall resolve sample h d t names ok,
  In (Tested t names ok) (fst (queries resolve sample h d)) ->
  names = sample t (nodup str_eq_dec (d_names d)) (Nat.min 3 (length (d_names d))) /\
  (ok = true <-> exists n, In n names /\ resolve t n ($"A") <> []).
Proof. exact round_meaning. Qed.
Print Assumptions C82_round.
Theorem C82_no_testing : forall resolve sample h d t names ok, d_test d = false ->
  ~ In (Tested t names ok) (fst (queries resolve sample h d)).
Proof. intros resolve sample h d t names ok H Hin. now apply (no_tests resolve sample h d H _ Hin). Qed.
Print Assumptions C82_no_testing.
(** A test name given twice breaks every query. *)
Theorem C82_repeated_name_refuted : forall resolve sample now q ty d,
  d_restrictions d = [] -> (d_next d <= now)%N ->
  query resolve sample now q ty (set_available ($"test: a.org a.org") d) = None.
Proof.
  intros resolve sample now q ty d Hr Hn. unfold query, set_available. cbn [startswith].
  change (startswith ($"test") ($"test: a.org a.org")) with true. cbn [d_restrictions]. rewrite Hr. cbn [is_query_restricted].
  unfold available. cbn [d_test d_next d_names andb]. apply N.leb_le in Hn. rewrite Hn. reflexivity.
Qed.
Print Assumptions C82_repeated_name_refuted.
Definition ex_dns : dns := mkDns [] false [$"a.org"; $"b.org"] 0 600 true.
Definition ex_resolve (now : N) (q ty : str) : list str := if N.ltb now 1000 && streqb q ($"b.org") then [$"192.0.2.1"] else [].
Example C82_example :
  fst (queries ex_resolve (fun _ l k => firstn k l)
         [(5, $"x.org", $"A"); (10, $"x.org", $"A"); (2000, $"x.org", $"A"); (2010, $"x.org", $"A")]%N
         (set_available ($"test") ex_dns)) =
  [Tested 5 [$"a.org"; $"b.org"] true; Asked 5 ($"x.org") ($"A"); Asked 10 ($"x.org") ($"A"); Tested 2000 [$"a.org"; $"b.org"] false].
Proof. vm_compute. reflexivity. Qed.

(** C48: a block list check hits exactly when an answer for one of the addresses
    passes the sub-test; when it does not hit, exactly these names were asked. *)
Theorem C48_hits_partial : forall ask re_ok ips rbl_server qtype subtest,
  (forall t r, subtest = Some t -> re_ok t r <> None) ->
  exists b, fst (check_rbl ask re_ok false (Some ips) rbl_server qtype subtest) = Some b /\
    (b = true <-> exists ip r, In ip ips /\ In r (ask (reverse_ip ip ++ $"." ++ rbl_server) qtype) /\ passes re_ok subtest r) /\
    (b = false -> snd (check_rbl ask re_ok false (Some ips) rbl_server qtype subtest) =
       map (fun ip => (reverse_ip ip ++ $"." ++ rbl_server, qtype)) ips).
Proof. exact check_rbl_hits. Qed.
Print Assumptions C48_hits_partial.
(** When it hits, the names asked are those up to the first address that does. *)
Theorem C48_stops : forall ask re_ok ips rbl_server qtype subtest before ip after,
  let passing a := exists r, In r (ask (reverse_ip a ++ $"." ++ rbl_server) qtype) /\ passes re_ok subtest r in
  (forall t r, subtest = Some t -> re_ok t r <> None) ->
  ips = before ++ ip :: after -> (forall a, In a before -> ~ passing a) -> passing ip ->
  snd (check_rbl ask re_ok false (Some ips) rbl_server qtype subtest) =
  map (fun a => (reverse_ip a ++ $"." ++ rbl_server, qtype)) (before ++ [ip]).
Proof. exact check_rbl_stops. Qed.
Print Assumptions C48_stops.
(** The addresses asked about are those of relays outside the trusted networks,
    and none when the checks are off. *)
Theorem C48_untrusted_only : forall ask re_ok ip_address nw relays skip rbl_server qtype subtest name ty,
  In (name, ty) (snd (check_rbl ask re_ok skip (untrusted_ips ip_address nw relays) rbl_server qtype subtest)) ->
  ty = qtype /\ skip = false /\ exists r a, In r relays /\ ip_address (rl_ip r) = Some a /\
    contains_addr (n_trusted nw) a = Some false /\ name = reverse_ip a ++ $"." ++ rbl_server.
Proof. exact check_rbl_untrusted. Qed.
Print Assumptions C48_untrusted_only.
Theorem C48_disabled : forall ask re_ok to_int ip_int ips rbl_server qtype subtest mask zs zone addresses,
  check_rbl ask re_ok true ips rbl_server qtype subtest = (Some false, []) /\
  check_multi_rbl ask to_int ip_int true ips rbl_server mask = (Some false, []) /\
  check_rbl_sub ask to_int ip_int zs true ips zone mask = (Some false, []) /\
  check_rbl_addr ask re_ok true addresses rbl_server subtest = (Some false, []).
Proof. intros. unfold check_rbl_sub. destruct (dget zone zs); repeat split. Qed.
Print Assumptions C48_disabled.
(** The name asked is the address reversed, and different addresses have different
    names. *)
Theorem C48_reversed : forall a b c d, octet a -> octet b -> octet c -> octet d ->
  reverse_ip (ip4 a b c d) = dec d ++ $"." ++ dec c ++ $"." ++ dec b ++ $"." ++ dec a.
Proof. exact reverse_ip4. Qed.
Print Assumptions C48_reversed.
Theorem C48_names_differ : forall x y, valid_addr x -> valid_addr y -> reverse_ip x = reverse_ip y -> x = y.
Proof. exact reverse_ip_injective. Qed.
Print Assumptions C48_names_differ.
(** With a bit mask: exactly when an answer has a bit of the mask. *)
Theorem C48_mask : forall ask to_int ip_int ips rbl_server mask m,
  read_mask to_int ip_int mask = Some m ->
  (forall n r, In r (ask n ($"A")) -> ip_int r <> None) ->
  exists b, fst (check_multi_rbl ask to_int ip_int false (Some ips) rbl_server mask) = Some b /\
    (b = true <-> exists ip r a, In ip ips /\ In r (ask (reverse_ip ip ++ $"." ++ rbl_server) ($"A")) /\ ip_int r = Some a /\ shares_bit m a).
Proof. exact check_multi_hits. Qed.
Print Assumptions C48_mask.
(** A mask that is no number and no address never hits and asks nothing. *)
Theorem C48_no_mask : forall ask to_int ip_int ips rbl_server mask,
  read_mask to_int ip_int mask = None -> check_multi_rbl ask to_int ip_int false ips rbl_server mask = (Some false, []).
Proof. intros ask to_int ip_int ips rbl_server mask H. unfold check_multi_rbl. now rewrite H. Qed.
Print Assumptions C48_no_mask.
(** A mask written as an address of 127.0.0.0/8, the way block lists publish their
    codes, therefore accepts every such code. *)
Theorem C48_address_mask : forall b c d b' c' d', octet b -> octet c -> octet d -> octet b' -> octet c' -> octet d' ->
  shares_bit (Z.of_N (a_val (ip4 127 b c d))) (a_val (ip4 127 b' c' d')).
Proof.
  unfold octet, ip4. cbn [a_val]. intros b c d b' c' d' H1 H2 H3 H4 H5 H6.
  change (2 ^ 24)%N with 16777216%N. change (2 ^ 16)%N with 65536%N. change (2 ^ 8)%N with 256%N.
  apply loopback_share; change (2 ^ 24)%N with 16777216%N; split; Lia.lia.
Qed.
Print Assumptions C48_address_mask.
(** Private addresses are asked about like all others unless they are trusted. *)
Theorem C48_private_refuted : exists ask re_ok ip_address r,
  ip_address (rl_ip r) = Some (ip4 10 0 0 1) /\
  snd (check_rbl ask re_ok false (untrusted_ips ip_address nets0 [r]) ($"bl.org") ($"A") None) = [($"1.0.0.10.bl.org", $"A")].
Proof.
  exists (fun _ _ => []), (fun _ _ => None), (fun s => option_map (mkA V4) (parse_ip4 s)),
    (mkRelay [] ($"10.0.0.1") [] [] [] [] [] [] false None). split; vm_compute; reflexivity.
Qed.
Print Assumptions C48_private_refuted.
Example C48_example :
  let ask n (_ : str) := if streqb n ($"4.3.2.1.bl.org") then [$"127.0.0.6"] else [] in
  let re_ok t r := Some (startswith t r) in
  let ips := [ip4 8 8 8 8; ip4 1 2 3 4; ip4 9 9 9 9] in
  check_rbl ask re_ok false (Some ips) ($"bl.org") ($"A") None = (Some true, [($"8.8.8.8.bl.org", $"A"); ($"4.3.2.1.bl.org", $"A")]) /\
  fst (check_rbl ask re_ok false (Some ips) ($"bl.org") ($"A") (Some ($"127.0.0.6"))) = Some true /\
  fst (check_rbl ask re_ok false (Some ips) ($"bl.org") ($"A") (Some ($"127.0.0.7"))) = Some false /\
  map (fun m => fst (check_multi_rbl ask (fun t => option_map Z.of_N (natural t)) parse_ip4 false (Some ips) ($"bl.org") m)) [$"2"; $"8"; $"0"] =
    [Some true; Some false; Some true].
Proof. vm_compute. repeat split. Qed.

(** C83: a zone name stands for the server of the last rule that declares it: by the
    text before the first "-" of its zone argument. *)
Theorem C83_zone : forall rules zs, zones rules [] = Some zs -> forall z server,
  dget z zs = Some server <->
  exists before r after, rules = before ++ r :: after /\ declares r z server /\ forall r' s', In r' after -> ~ declares r' z s'.
Proof.
  intros rules zs H z server. rewrite (zones_spec rules [] zs H z server). split; [|now left]. intros [H1|[H1 _]]; [exact H1|discriminate].
Qed.
Print Assumptions C83_zone.
(** The sub-test of a zone is the bit mask test of C48 on that server; for a zone
    nobody declares nothing is asked. *)
Theorem C83_sub : forall ask to_int ip_int rules zs skip ips z mask, zones rules [] = Some zs ->
  (forall server, dget z zs = Some server ->
     check_rbl_sub ask to_int ip_int zs skip ips z mask = check_multi_rbl ask to_int ip_int skip ips server mask) /\
  ((forall r server, In r rules -> ~ declares r z server) -> check_rbl_sub ask to_int ip_int zs skip ips z mask = (Some false, [])).
Proof.
  intros ask to_int ip_int rules zs skip ips z mask H. unfold check_rbl_sub. split.
  - now intros server ->.
  - intros Hn. destruct (dget z zs) as [server|] eqn:E; [|reflexivity]. apply (C83_zone rules zs H z server) in E as [b [r [a [-> [Hd _]]]]].
    exfalso. apply (Hn r server); [apply in_or_app; right; now left|exact Hd].
Qed.
Print Assumptions C83_sub.
(** A zone name with a "-" cannot be used, although the block list rule itself works. *)
Theorem C83_dash_refuted : forall rules zs z, zones rules [] = Some zs -> In 45%N z -> dget z zs = None.
Proof.
  intros rules zs z H Hz. destruct (dget z zs) as [server|] eqn:E; [|reflexivity].
  apply (C83_zone rules zs H z server) in E as [b [r [a [_ [[_ [zone [more [p [_ [[_ Hp] ->]]]]]] _]]]]].
  exfalso. apply Hp. unfold strip, strip_p, rstrip_p, lstrip_p in Hz.
  apply in_rev in Hz. destruct (drop_while_suffix is_space (rev (drop_while is_space p))) as [x [Hx _]].
  assert (In 45%N (rev (drop_while is_space p))) by (rewrite Hx; apply in_or_app; now right).
  apply in_rev in H0. destruct (drop_while_suffix is_space p) as [y [Hy _]]. rewrite Hy. apply in_or_app. now right.
Qed.
Print Assumptions C83_dash_refuted.
(** A rule without a server makes loading fail. *)
Theorem C83_loading_fails : forall rules,
  zones rules [] = None <-> exists r, In r rules /\ In (fst r) zone_rules /\ length (snd r) < 2.
Proof. intros rules. apply zones_fail. Qed.
Print Assumptions C83_loading_fails.
Definition ex_rules : list (str * list str) :=
  [($"check_rbl", [$"sorbs-lastexternal"; $"dnsbl.sorbs.net"]); ($"check_rbl_sub", [$"sorbs"; $"2"]);
   ($"check_rbl_txt", [$"a-b"; $"ab.org"]); ($"check_rbl", [$"sorbs"; $"new.sorbs.net"])].
Example C83_example : exists zs, zones ex_rules [] = Some zs /\
  map (fun z => dget z zs) [$"sorbs"; $"a"; $"a-b"] = [Some ($"new.sorbs.net"); Some ($"ab.org"); None].
Proof. exists [($"sorbs", $"new.sorbs.net"); ($"a", $"ab.org")]. split; vm_compute; reflexivity. Qed.

(** C84: checks of a sender's domain hit exactly when an answer for the domain of one
    of the addresses passes the sub-test. *)
Theorem C84_listed : forall ask re_ok addresses rbl_server subtest,
  (forall t r, subtest = Some t -> re_ok t r <> None) ->
  exists b, fst (check_rbl_addr ask re_ok false addresses rbl_server subtest) = Some b /\
    (b = true <-> exists a d r, In a addresses /\ domain_part a d /\ In r (ask (strip d ++ $"." ++ rbl_server) ($"A")) /\ passes re_ok subtest r).
Proof. exact check_addr_hits. Qed.
Print Assumptions C84_listed.
(** The same for the sender of the envelope; a mail without one is asked nothing about. *)
Theorem C84_envelope : forall ask re_ok sender rbl_server subtest,
  (forall t r, subtest = Some t -> re_ok t r <> None) ->
  exists b, fst (check_rbl_envfrom ask re_ok false sender rbl_server subtest) = Some b /\
    (b = true <-> sender <> [] /\ exists d r, domain_part sender d /\ In r (ask (strip d ++ $"." ++ rbl_server) ($"A")) /\ passes re_ok subtest r).
Proof.
  intros ask re_ok sender rbl_server subtest H. destruct sender as [|c s].
  - exists false. split; [reflexivity|]. split; [discriminate | intros [N _]; congruence].
  - destruct (C84_listed ask re_ok [c :: s] rbl_server subtest H) as (b & E & I). exists b. split; [exact E|]. rewrite I. split.
    + intros (a & d & r & [<- | []] & R). split; [discriminate|]. exists d, r. exact R.
    + intros (_ & d & r & R). exists (c :: s), d, r. split; [left; reflexivity | exact R].
Qed.
Print Assumptions C84_envelope.
Theorem C84_no_sender : forall ask re_ok skip rbl_server subtest,
  check_rbl_envfrom ask re_ok skip [] rbl_server subtest = (Some false, []) /\ check_dns_sender ask [] = (Some false, []).
Proof. intros. split; reflexivity. Qed.
Print Assumptions C84_no_sender.
(** The sender's domain counts as not existing exactly when it has neither kind of
    answer; nothing else is asked. *)
Theorem C84_no_records_partial : forall ask sender d, sender <> [] -> domain_part sender d ->
  (fst (check_dns_sender ask sender) = Some true <-> ask d ($"A") = [] /\ ask d ($"MX") = []) /\
  fst (check_dns_sender ask sender) <> None /\
  (forall n ty, In (n, ty) (snd (check_dns_sender ask sender)) -> n = d /\ (ty = $"A" \/ ty = $"MX")).
Proof. exact (fun ask => check_dns_sender_spec ask (fun _ _ => None) (fun _ => None) (fun _ => None)). Qed.
Print Assumptions C84_no_records_partial.
(** Missing: when the query was suppressed there is no answer either, so a sender
    whose domain has records counts as not existing. *)
Theorem C84_suppressed_refuted : forall resolve sample now sender d,
  sender <> [] -> d_restrictions d = [] -> d_test d = false -> d_available d = false ->
  fst (check_dns_sender (fun q ty => match query resolve sample now q ty d with Some (r, _, _) => r | None => [] end) sender) = Some true.
Proof.
  intros resolve sample now sender d Hs Hr Ht Ha. unfold check_dns_sender. destruct sender as [|c s]; [congruence|].
  assert (E : forall q ty, query resolve sample now q ty d = Some ([], [], d)).
  { intros q ty. unfold query, available. rewrite Hr, Ht. cbn. now rewrite Ha. }
  now rewrite !E.
Qed.
Print Assumptions C84_suppressed_refuted.
(** A list of accredited senders is asked only for messages that carry the tag. *)
Theorem C84_accreditor : forall ask re_ok skip ips sender_tag headers rbl_server subtest accreditor,
  ((sender_tag = Some accreditor \/ exists h, In h headers /\ lists_tag h accreditor) ->
   check_rbl_accreditor ask re_ok skip ips sender_tag headers rbl_server subtest accreditor =
   check_rbl ask re_ok skip ips rbl_server ($"A") (Some subtest)) /\
  (~ (sender_tag = Some accreditor \/ exists h, In h headers /\ lists_tag h accreditor) ->
   check_rbl_accreditor ask re_ok skip ips sender_tag headers rbl_server subtest accreditor = (Some false, [])).
Proof. exact accreditor_spec. Qed.
Print Assumptions C84_accreditor.
Example C84_example :
  let ask n ty := if streqb n ($"spam.org.bl.org") || (streqb n ($"spam.org") && streqb ty ($"MX")) then [$"x"] else [] in
  let re_ok (_ r : str) := Some true in
  fst (check_rbl_addr ask re_ok false [$"a@ok.org"; $"b@c@spam.org "] ($"bl.org") None) = Some true /\
  fst (check_rbl_envfrom ask re_ok false ($"a@ok.org") ($"bl.org") None) = Some false /\
  check_dns_sender ask ($"b@spam.org") = (Some false, [($"spam.org", $"A"); ($"spam.org", $"MX")]) /\
  fst (check_dns_sender ask ($"b@nospam.org")) = Some true /\
  header_tags ($"good, x=1; other") = [$"good"; $"other"].
Proof. vm_compute. repeat split. Qed.
