(** Property theorems about the relays of a message: C29, C30, C61-C64. *)
From Verif Require Import PyStr Model_Net Spec_Net Model_Relays Spec_Relays Proofs_Relays.

(** ** C29 *)
(** The relays keep their content and order; those with an address are split
    into trusted followed by untrusted, and into internal followed by external;
    the internal ones are the first of the trusted ones. *)
Theorem C29_relays_partitioned : forall ip_address is_private nw l st,
  parse_relays ip_address is_private nw l = Some st ->
  map unmark (received st) = map unmark l /\
  trusted_relays st ++ untrusted_relays st = filter has_address (received st) /\
  internal_relays st ++ external_relays st = filter has_address (received st) /\
  exists between, trusted_relays st = internal_relays st ++ between.
Proof. exact partition. Qed.
Print Assumptions C29_relays_partitioned.

(** The marks and the recorded positions agree with the lists. *)
Theorem C29_marks_and_positions : forall ip_address is_private nw l st,
  parse_relays ip_address is_private nw l = Some st ->
  Forall (fun r => rl_intl r = Some true) (internal_relays st) /\
  Forall (fun r => rl_intl r = Some false) (external_relays st) /\
  (forall r q, trusted_relays st = q ++ [r] -> nth_error (received st) (last_trusted_index st) = Some r) /\
  (forall r q, internal_relays st = q ++ [r] -> nth_error (received st) (last_internal_index st) = Some r).
Proof.
  intros ip pr nw l st H. destruct (marks _ _ _ _ _ H) as [H1 H2]. destruct (indexes _ _ _ _ _ H) as [H3 H4]. auto.
Qed.
Print Assumptions C29_marks_and_positions.

(** Addresses for the examples: dotted decimals; 10.* is private. *)
Definition ex_ip (s : str) : option addr := option_map (mkA V4) (parse_ip4 s).
Definition ex_private (a : addr) : bool := in_net a (mkNet V4 167772160 8).
Definition rel (ip env auth : str) : relay := mkRelay [] ip [] [] [] [] env auth false None.
Definition ex_nw : nets := run_lines (fun _ => None) [LTrusted ($"10."); LTrusted ($"20.1.1."); LInternal ($"10.")] nets0.
Definition ex_relays : list relay :=
  [rel ($"10.0.0.1") [] []; rel [] [] []; rel ($"20.1.1.7") ($"<a@b>") []; rel ($"66.1.2.3") [] []; rel ($"10.0.0.2") [] ($"ESMTPA")].
Example C29_example : exists st, parse_relays ex_ip ex_private ex_nw ex_relays = Some st /\
  map rl_ip (internal_relays st) = [$"10.0.0.1"] /\ map rl_ip (trusted_relays st) = [$"10.0.0.1"; $"20.1.1.7"] /\
  map rl_ip (untrusted_relays st) = [$"66.1.2.3"; $"10.0.0.2"] /\ last_trusted_index st = 2 /\ last_internal_index st = 0.
Proof. eexists. split; [vm_compute; reflexivity|]. repeat split. Qed.

(** ** C30 *)
(** [pre]: the relays recorded by trusted hosts, none of them a mail submission
    agent; [r]: the first relay outside, unauthenticated.  Whatever further
    headers [suf] the sender put into the message, they are not trusted or
    internal, and they change nothing in these two lists.  Missing for the full
    property: hand-overs through a configured MSA, and relays whose header text
    merely looks authenticated - see the two refutations. *)
Theorem C30_forged_relays_untrusted_partial : forall ip_address is_private nw pre r suf a st0 st,
  parse_relays ip_address is_private nw pre = Some st0 ->
  Forall (fun p => ~ is_msa ip_address nw p) pre ->
  rl_ip r <> [] -> ip_address (rl_ip r) = Some a -> rl_auth r = [] -> outside is_private nw a ->
  parse_relays ip_address is_private nw (pre ++ r :: suf) = Some st ->
  trusted_relays st = trusted_relays st0 /\ internal_relays st = internal_relays st0.
Proof. exact forged. Qed.
Print Assumptions C30_forged_relays_untrusted_partial.

Example C30_example : outside ex_private ex_nw (ip4 66 1 2 3) /\ outside ex_private nets0 (ip4 66 1 2 3) /\
  Forall (fun p => ~ is_msa ex_ip ex_nw p) (firstn 3 ex_relays).
Proof.
  split; [reflexivity|]. split; [reflexivity|].
  apply Forall_cons; [|apply Forall_cons; [|apply Forall_cons; [|apply Forall_nil]]];
    intros (a & _ & _ & H); vm_compute in H; discriminate.
Qed.

(** Behind a submission agent every header is trusted, wherever it claims to
    come from. *)
Theorem C30_after_msa_everything_trusted : forall ip_address is_private nw pre r suf a st0 st,
  parse_relays ip_address is_private nw pre = Some st0 -> untrusted_relays st0 = [] ->
  Forall (fun p => ~ is_msa ip_address nw p) pre ->
  rl_ip r <> [] -> ip_address (rl_ip r) = Some a -> contains_addr (n_msa nw) a = Some true ->
  configured nw = true -> contains_addr (n_trusted nw) a = Some true \/ rl_auth r <> [] ->
  s_trusted st0 = true ->
  parse_relays ip_address is_private nw (pre ++ r :: suf) = Some st -> untrusted_relays st = [].
Proof. exact after_msa. Qed.
Print Assumptions C30_after_msa_everything_trusted.
Theorem C30_behind_msa_refuted : exists nw forged st,
  outside ex_private nw (ip4 66 1 2 3) /\ rl_ip forged = $"66.1.2.3" /\ rl_auth forged = [] /\
  parse_relays ex_ip ex_private nw [rel ($"10.0.0.1") [] []; forged] = Some st /\
  In ($"66.1.2.3") (map rl_ip (trusted_relays st)).
Proof.
  exists (run_lines (fun _ => None) [LTrusted ($"10."); LMsa ($"10.0.0.1")] nets0), (rel ($"66.1.2.3") [] []).
  eexists. split; [reflexivity|]. split; [reflexivity|]. split; [reflexivity|]. split; [vm_compute; reflexivity|]. simpl. auto.
Qed.
Print Assumptions C30_behind_msa_refuted.

(** A header that contains the word "authenticated" anywhere - for instance as
    the name the client announced - counts as authenticated, and the relay as
    trusted, from any address. *)
Theorem C30_announced_name_refuted : forall (R : auth_re) a b nw ip_address is_private ip x st r,
  (forall h, ar_with R h <> Some []) ->
  let header := a ++ $"authenticated" ++ b in
  contains ($" by mx.google.com with ESMTPS id ") header = false ->
  rl_ip r = ip -> ip <> [] -> rl_auth r = get_auth R header -> ip_address ip = Some x -> outside is_private nw x ->
  parse_relays ip_address is_private nw [r] = Some st -> map rl_ip (trusted_relays st) = [ip].
Proof. exact auth_word_trusted. Qed.
Print Assumptions C30_announced_name_refuted.

(** ** C61 *)
(** The address of a relay: the last public address before " by ", or the first
    one when all are private. *)
Theorem C61_relay_address : forall find_ips private_re header front,
  before_by header front ->
  let found := map clean_ip (find_ips front) in
  (found = [] -> get_ip find_ips private_re header = []) /\
  (forall before i after, found = before ++ i :: after -> private_re i = false ->
     (forall x, In x after -> private_re x = true) -> get_ip find_ips private_re header = i) /\
  (forall i rest, found = i :: rest -> (forall x, In x found -> private_re x = true) ->
     get_ip find_ips private_re header = i).
Proof. exact get_ip_spec. Qed.
Print Assumptions C61_relay_address.

Example C61_example :
  before_by ($"helo [1.2.3.4] by mx by my") ($"helo [1.2.3.4]") /\
  get_ip (fun _ => [$"[10.0.0.1]"; $"IPv6:::ffff:1.2.3.4"; $"10.0.0.2"]) (startswith ($"10.")) ($"x by y") = $"1.2.3.4".
Proof.
  split; [|vm_compute; reflexivity]. right. exists ($"mx by my"). split; [reflexivity|].
  intros x y H. assert (Hs : firstn 4 (skipn (length x) ($"helo [1.2.3.4] by mx by my")) = $" by ")
    by (rewrite H, skipn_app, skipn_all, Nat.sub_diag; reflexivity).
  clear H. generalize dependent (length x). intros n Hs.
  do 14 (destruct n as [|n]; [vm_compute in Hs; discriminate Hs|]). vm_compute. lia.
Qed.

(** ** C62 *)
(** With an external relay, the envelope sender is the one its header gives, and
    neither headers further down nor sender headers in the message matter. *)
Theorem C62_sender_from_first_external : forall ip_address is_private nw always hs get pre suf st0 st r q,
  parse_relays ip_address is_private nw pre = Some st0 -> external_relays st0 = r :: q ->
  parse_relays ip_address is_private nw (pre ++ suf) = Some st ->
  parse_sender always hs get st = strip (rl_envfrom r).
Proof. exact sender_external. Qed.
Print Assumptions C62_sender_from_first_external.

(** Without one, it is the sender of the last relay, or, if there is none or
    sender headers are to be trusted, the first address in the sender headers. *)
Theorem C62_sender_when_all_internal : forall ip_address is_private nw hs get l st,
  parse_relays ip_address is_private nw l = Some st -> external_relays st = [] ->
  let headers := match hs with [] => default_sender_headers | _ => hs end in
  (forall always, (forall r, In r (trusted_relays st) -> rl_envfrom r = []) ->
     parse_sender always hs get st = sender_from_headers get headers) /\
  parse_sender true hs get st = sender_from_headers get headers /\
  (forall q r, filter has_address (received st) = q ++ [r] -> rl_envfrom r <> [] ->
     parse_sender false hs get st = strip (rl_envfrom r)).
Proof. exact sender_all_internal. Qed.
Print Assumptions C62_sender_when_all_internal.
Theorem C62_first_sender_header : forall get hs,
  (forall a, In a (map (fun h => hd [] (get h)) hs) -> a = []) /\ sender_from_headers get hs = [] \/
  exists before h after, hs = before ++ h :: after /\ (forall h', In h' before -> hd [] (get h') = []) /\
    hd [] (get h) <> [] /\ sender_from_headers get hs = strip (hd [] (get h)).
Proof. exact sender_headers_spec. Qed.
Print Assumptions C62_first_sender_header.

Example C62_example : exists st0 r q, parse_relays ex_ip ex_private ex_nw (firstn 3 ex_relays) = Some st0 /\
  external_relays st0 = r :: q /\ rl_envfrom r = $"<a@b>".
Proof. eexists _, _, _. split; [vm_compute; reflexivity|]. split; reflexivity. Qed.

(** ** C63 *)
(** The untrusted addresses are the relay addresses outside the trusted
    networks, in order.  Missing: relays without an address. *)
Theorem C63_untrusted_addresses_partial : forall ip_address nw l,
  (forall r, In r l -> exists a b, ip_address (rl_ip r) = Some a /\ contains_addr (n_trusted nw) a = Some b) ->
  exists ips, Forall2 (fun r a => ip_address (rl_ip r) = Some a) l ips /\
    untrusted_ips ip_address nw l =
    Some (filter (fun a => match contains_addr (n_trusted nw) a with Some false => true | _ => false end) ips).
Proof. exact untrusted_ips_spec. Qed.
Print Assumptions C63_untrusted_addresses_partial.

(** One Received header without an address, and the list cannot be computed. *)
Theorem C63_untrusted_addresses_refuted : forall ip_address nw l r,
  ip_address [] = None -> In r l -> rl_ip r = [] -> untrusted_ips ip_address nw l = None.
Proof. exact untrusted_ips_fails. Qed.
Print Assumptions C63_untrusted_addresses_refuted.

Example C63_example : untrusted_ips ex_ip ex_nw [rel ($"10.0.0.1") [] []; rel ($"66.1.2.3") [] []; rel ($"20.1.1.7") [] []] = Some [ip4 66 1 2 3] /\
  ex_ip [] = None.
Proof. split; vm_compute; reflexivity. Qed.

(** ** C64 *)
(** The analysis fails exactly when a relay states an address that is not one,
    or whose lookup meets an unusable entry of a network list. *)
Theorem C64_relay_analysis_fails_exactly : forall ip_address is_private nw l,
  parse_relays ip_address is_private nw l = None <->
  exists r, In r l /\ rl_ip r <> [] /\
    (ip_address (rl_ip r) = None \/
     exists a, ip_address (rl_ip r) = Some a /\
       (contains_addr (n_internal nw) a = None \/ contains_addr (n_trusted nw) a = None \/ contains_addr (n_msa nw) a = None)).
Proof. intros. exact (loop_fails _ _ _ l 0 rstate0). Qed.
Print Assumptions C64_relay_analysis_fails_exactly.
Theorem C64_every_message_refuted : parse_relays ex_ip ex_private nets0 [rel ($"66.1.2.03") [] []] = None.
Proof. vm_compute. reflexivity. Qed.
Print Assumptions C64_every_message_refuted.

(** ** C61, C30, C74: written forms of addresses, unmarked headers, tags *)
(** Brackets, blanks and the prefixes "IPv6:" and "::ffff:" do not matter. *)
Theorem C61_written_forms : forall o pre a c,
  Forall (fun x => In x ($"[ ]();" ++ [10%N])) o -> Forall (fun x => In x ($"[ ]();" ++ [10%N])) c ->
  In (lower pre) [[]; $"ipv6:"; $"::ffff:"; $"ipv6:::ffff:"] ->
  a <> [] -> (forall x, In x a -> is_digit x = true \/ x = 46%N) ->
  clean_ip (o ++ pre ++ a ++ c) = a.
Proof. exact clean_ip_written. Qed.
Print Assumptions C61_written_forms.
Example C61_written_example : clean_ip ($"[IPv6:::FFFF:66.1.2.3])") = $"66.1.2.3".
Proof. vm_compute. reflexivity. Qed.

(** A header without any of the marks of authentication is not authenticated. *)
Theorem C30_unmarked : forall (R : auth_re) h,
  ar_with R h = None -> ar_postfix R h = false -> contains ($"authenticated") h = false -> ar_gmx R h = None ->
  ar_communigate R h = false -> (ar_cipher R h = None \/ contains ($" by mx.google.com with ESMTPS id ") h = false) -> get_auth R h = [].
Proof. exact no_auth. Qed.
Print Assumptions C30_unmarked.
Example C30_unmarked_example :
  let R := mkAR (fun _ => None) (fun _ => false) (fun _ => None) (fun _ => true) (fun _ => None) (fun _ => false) in
  get_auth R ($"mx by y (version) with ESMTP") = [] /\ get_auth R ($"authenticated by y") = $"CriticalPath".
Proof. split; reflexivity. Qed.

(** Each relay in a RELAYS tag shows its own fields under their names. *)
Theorem C74_relay_fields : forall r,
  (forall f, In f [rl_ip r; rl_rdns r; rl_helo r; rl_by r; rl_ident r; rl_envfrom r; rl_id r; rl_auth r] -> ~ In 32%N f) ->
  split_char 32 (relay_text r) =
    [$"["; $"ip=" ++ rl_ip r; $"rdns=" ++ rl_rdns r; $"helo=" ++ rl_helo r; $"by=" ++ rl_by r; $"ident=" ++ rl_ident r;
     $"envfrom=" ++ rl_envfrom r; $"intl=" ++ bit (match rl_intl r with Some b => b | None => false end);
     $"id=" ++ rl_id r; $"auth=" ++ rl_auth r; $"msa=" ++ bit (rl_msa r); $"]"].
Proof. exact relay_text_fields. Qed.
Print Assumptions C74_relay_fields.
(** The LASTEXTERNAL tags are those of the relay farthest away; they are meant to be
    those of the relay that handed the message over to the internal network
    (docs/configuration.rst:461-466).  The two are the same if only one relay is
    external. *)
Theorem C74_last_external_partial : forall ip_address is_private nw l st r,
  parse_relays ip_address is_private nw l = Some st -> external_relays st = [r] -> last_external st = Some r.
Proof. intros ip pr nw l st r _ H. unfold last_external. rewrite H. reflexivity. Qed.
Print Assumptions C74_last_external_partial.
Theorem C74_last_external_is_farthest : forall ip_address is_private nw l st r q,
  parse_relays ip_address is_private nw l = Some st -> filter has_address (received st) = q ++ [r] ->
  last_external st = match rl_intl r with Some true => None | _ => Some r end.
Proof. exact last_external_spec. Qed.
Print Assumptions C74_last_external_is_farthest.
Theorem C74_last_external_refuted : exists l st handover farthest,
  parse_relays ex_ip ex_private ex_nw l = Some st /\ hd_error (external_relays st) = Some handover /\
  last_external st = Some farthest /\ rl_ip handover = $"66.1.2.3" /\ rl_ip farthest = $"77.1.2.3".
Proof.
  exists [rel ($"10.0.0.1") [] []; rel ($"66.1.2.3") [] []; rel ($"77.1.2.3") [] []]. do 3 eexists.
  split; [vm_compute; reflexivity|]. repeat split; reflexivity.
Qed.
Print Assumptions C74_last_external_refuted.
Example C74_example : relay_text (mkRelay ($"r") ($"1.2.3.4") ($"b") ($"h") ($"i") ($"d") ($"e") ($"a") true (Some false)) =
  $"[ ip=1.2.3.4 rdns=r helo=h by=b ident=i envfrom=e intl=0 id=d auth=a msa=1 ]".
Proof. reflexivity. Qed.
