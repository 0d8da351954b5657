(** The main options as they are documented: their names, the kind of value each takes, what
    each is before any line sets it, and what each "clear" option empties. *)
From Verif Require Import PyStr Model_Conf.

Definition documented : list (str * otype) :=
  [($"report", OAppend); ($"unsafe_report", OAppend); ($"report_contact", OStr); ($"report_safe", OInt);
   ($"add_header", OAppend); ($"remove_header", OAppend); ($"required_score", OFloat); ($"use_bayes", OBool);
   ($"use_network", OBool); ($"envelope_sender_header", OAppend); ($"dns_server", OAppend);
   ($"default_dns_lifetime", OFloat); ($"default_dns_timeout", OFloat); ($"allow_user_rules", OBool);
   ($"skip_rbl_checks", OBool); ($"trusted_networks", OAppendSplit); ($"internal_networks", OAppendSplit);
   ($"msa_networks", OAppendSplit); ($"originating_ip_headers", OAppendSplit);
   ($"always_trust_envelope_sender", OInt); ($"dns_available", OStr); ($"dns_local_ports_permit", OAppendSplit);
   ($"dns_local_ports_avoid", OAppendSplit); ($"dns_test_interval", OStr); ($"dns_options", OStr);
   ($"dns_query_restriction", OAppend); ($"autolearn", OBool); ($"training", OBool); ($"user_config", OBool);
   ($"ok_locales", OStr)].

Definition clears : list (str * list str) :=
  [($"clear_report_template", [$"report"]); ($"clear_unsafe_report_template", [$"unsafe_report"]);
   ($"clear_headers", [$"add_header"; $"remove_header"]); ($"clear_dns_servers", [$"dns_server"]);
   ($"clear_trusted_networks", [$"trusted_networks"]); ($"clear_internal_networks", [$"internal_networks"]);
   ($"clear_msa_networks", [$"msa_networks"]); ($"clear_originating_ip_headers", [$"originating_ip_headers"]);
   ($"clear_dns_query_restriction", [$"dns_query_restriction"])].

(** The score from which a message is spam is 5, nothing is learned, the network is used, and so on. *)
Definition before_any_line : list (str * seen) :=
  [($"report_contact", SStr []); ($"report_safe", SInt 1); ($"required_score", SFloat 5); ($"use_bayes", SBool true);
   ($"use_network", SBool true); ($"default_dns_lifetime", SFloat 10); ($"default_dns_timeout", SFloat 2);
   ($"allow_user_rules", SBool false); ($"skip_rbl_checks", SInt 0); ($"always_trust_envelope_sender", SInt 0);
   ($"dns_available", SStr ($"yes")); ($"dns_test_interval", SStr ($"600"));
   ($"dns_options", SStr ($"norotate, nodns0x20, edns=4096")); ($"autolearn", SBool false); ($"training", SBool false);
   ($"user_config", SBool true); ($"ok_locales", SStr [])].
