{
 "claims": [
  {
   "property": "C01",
   "status": "proved",
   "theorems": [
    "C01_score_is_sum_of_recorded_hits",
    "C01_score_from_outcomes"
   ],
   "note": "Exact rational scores, additions in processing order; rules that change the score themselves (auto-whitelist, short-circuit) are covered by C09/C40."
  },
  {
   "property": "C02",
   "status": "proved",
   "theorems": [
    "C02_failing_rule_is_a_miss",
    "C02_failing_rule_contained",
    "C02_eval_rule_never_raises"
   ],
   "note": ""
  },
  {
   "property": "C03",
   "status": "proved",
   "theorems": [
    "C03_priority_order"
   ],
   "note": ""
  },
  {
   "property": "C04",
   "status": "proved",
   "theorems": [
    "C04_hit_list_is_exact"
   ],
   "note": ""
  },
  {
   "property": "C05",
   "status": "proved",
   "theorems": [
    "C05_surfaces_agree"
   ],
   "note": "CHECK line, REPORT_IFSPAM, YESNO tags and choice of header edits; a plugin that publishes a tag named YESNO would override it, hence the hypothesis"
  },
  {
   "property": "C06",
   "status": "partial",
   "theorems": [
    "C06_mode_score_partial",
    "C06_wrong_number_of_scores_rejected",
    "C06_mode_score_refuted"
   ],
   "note": "False of the code when the first of four scores is zero (BaseRule.preprocess returns early); proved otherwise."
  },
  {
   "property": "C07",
   "status": "partial",
   "theorems": [
    "C07_subrules_are_silent_partial",
    "C07_short_circuit_refuted"
   ],
   "note": "Holds without the ShortCircuit plugin. A short-circuited sub-rule that a meta rule asks for is listed as a hit and brings the bonus of its type (refuted); C244 says when."
  },
  {
   "property": "C08",
   "status": "proved",
   "theorems": [
    "C08_flags_switch_rules_off",
    "C08_unflagged_rules_unaffected"
   ],
   "note": "The selected score is that of C06."
  },
  {
   "property": "C09",
   "status": "partial",
   "theorems": [
    "C09_short_circuit_stops_partial",
    "C09_no_short_circuit_hit_no_change_partial",
    "C09_meta_rules_refuted"
   ],
   "note": "Holds for rule sets whose meta rules mention no short-circuited rule. Otherwise a meta rule that asks for a short-circuited rule is cut off before it is recorded (refuted); C244 is the exact behaviour."
  },
  {
   "property": "C10",
   "status": "partial",
   "theorems": [
    "C10_meta_means_expression_partial",
    "C10_meta_means_expression_refuted",
    "C10_names",
    "C10_numbers"
   ],
   "note": "False as stated: \"!\" binds weaker than arithmetic and comparisons (\"!A + B\" is \"!(A+B)\", \"A + !B\" aborts loading). Proved from the rule text through lexing, parsing and evaluation for every expression whose \"!\" inside arithmetic is parenthesised."
  },
  {
   "property": "C11",
   "status": "proved",
   "theorems": [
    "C11_no_circular_or_dangling_meta",
    "C11_loading_succeeds"
   ],
   "note": ""
  },
  {
   "property": "C12",
   "status": "partial",
   "theorems": [
    "C12_shallow_meta_rules_kept_partial",
    "C12_well_founded_meta_rules_kept_refuted"
   ],
   "note": "False as stated: acyclic nesting of twelve or more meta rules is kept or dropped depending on the order. Proved for nesting up to eleven."
  },
  {
   "property": "C13",
   "status": "partial",
   "theorems": [
    "C13_match_test",
    "C13_not_match_test_partial",
    "C13_exists_test_partial",
    "C13_raw_test",
    "C13_addr_name_test",
    "C13_polarity_refuted"
   ],
   "note": "=~ proved in full. !~ proved for headers occurring exactly once; refuted for absent and repeated headers and for a pattern containing =~. exists: proved for names not starting with one of e,x,i,s,t,: (lstrip of a character set); refuted for subject."
  },
  {
   "property": "C14",
   "status": "proved",
   "theorems": [
    "C14_rule_lookup"
   ],
   "note": ""
  },
  {
   "property": "C15",
   "status": "proved",
   "theorems": [
    "C15_last_definition_wins",
    "C15_rules_do_not_interfere"
   ],
   "note": "Over every list of files, includes and conditional blocks. Assumes no plugin adds a rule type called score, priority, describe or tflags."
  },
  {
   "property": "C16",
   "status": "proved",
   "theorems": [
    "C16_comments_inert"
   ],
   "note": "Trailing comments must not follow a backslash (an escaped hash is not a comment)."
  },
  {
   "property": "C17",
   "status": "partial",
   "theorems": [
    "C17_conditional_block_partial",
    "C17_block_without_else_partial",
    "C17_skipped_lines_have_no_effect",
    "C17_nested_blocks_refuted",
    "C17_nested_else_refuted",
    "C17_open_block_leaks_refuted"
   ],
   "note": "Flat blocks are proved; nested blocks and blocks left open at the end of a file are refuted (single flag, never reset per file)."
  },
  {
   "property": "C18",
   "status": "proved",
   "theorems": [
    "C18_includes_processed_in_place",
    "C18_limit_only_reports",
    "C18_cycle_is_reported"
   ],
   "note": ""
  },
  {
   "property": "C19",
   "status": "partial",
   "theorems": [
    "C19_unusable_line_skipped_partial",
    "C19_invalid_rule_skipped_partial",
    "C19_bad_option_value_refuted",
    "C19_bad_rule_text_refuted",
    "C19_bad_redefinition_refuted"
   ],
   "note": "Missing arguments, unknown options and rejected rules are skipped; bad option values, non-numeric scores, empty patterns and header rules without operator abort the load."
  },
  {
   "property": "C20",
   "status": "proved",
   "theorems": [
    "C20_typed_values",
    "C20_refused_is_exact"
   ],
   "note": "Any option tables, any reachable process state. float() and timedelta are exact; unknown units and negative times leave the option unchanged."
  },
  {
   "property": "C21",
   "status": "partial",
   "theorems": [
    "C21_isolation_partial",
    "C21_isolation_refuted",
    "C21_reload_refuted",
    "C22_clear_then_only_later",
    "C21_networks_refuted"
   ],
   "note": "False for append options: their default list is shared by all contexts; so are the network lists. Proved for every other type, and for append lists after a clear."
  },
  {
   "property": "C22",
   "status": "proved",
   "theorems": [
    "C22_clear_then_only_later",
    "C22_clear_changes_only_its_lists"
   ],
   "note": "Histories interleave any number of contexts; reloading the class itself (which restores its defaults) is excluded."
  },
  {
   "property": "C23",
   "status": "partial",
   "theorems": [
    "C23_file_order",
    "C23_once_refuted",
    "C23_once_partial",
    "C23_default_directory"
   ],
   "note": "Order and content of the file list proved. A file can be read twice when the two directories are one directory spelled differently."
  },
  {
   "property": "C24",
   "status": "partial",
   "theorems": [
    "C24_confined_partial",
    "C24_confined_refuted"
   ],
   "note": "False for names containing a slash or equal to \"..\": the path leaves the home directory. Proved for plain names."
  },
  {
   "property": "C25",
   "status": "proved",
   "theorems": [
    "C25_first_entry_decides",
    "C25_lookup_fails_only_on_bad_entry",
    "C25_bad_line_breaks_lookup_refuted",
    "C25_address_in_network"
   ],
   "note": "For lists made of networks; texts that are no network (host bits set, two octets) are stored and make later lookups raise, which is stated exactly."
  },
  {
   "property": "C26",
   "status": "proved",
   "theorems": [
    "C26_loopback"
   ],
   "note": "Every history of lines of every context."
  },
  {
   "property": "C27",
   "status": "partial",
   "theorems": [
    "C27_internal_is_trusted_partial",
    "C27_internal_is_trusted_refuted",
    "C27_trusted_is_internal_by_default"
   ],
   "note": "False with exclusions among the trusted lines; proved without them."
  },
  {
   "property": "C28",
   "status": "proved",
   "theorems": [
    "C28_shorthand",
    "C28_full_and_mask"
   ],
   "note": "IPv4. IPv6 text parsing is a parameter."
  },
  {
   "property": "C29",
   "status": "proved",
   "theorems": [
    "C29_relays_partitioned",
    "C29_marks_and_positions"
   ],
   "note": ""
  },
  {
   "property": "C30",
   "status": "partial",
   "theorems": [
    "C30_forged_relays_untrusted_partial",
    "C30_after_msa_everything_trusted",
    "C30_behind_msa_refuted",
    "C30_announced_name_refuted",
    "C30_unmarked"
   ],
   "note": "Proved when no relay before the forged one is a configured MSA and the outside relay's header carries no authentication mark. Both exclusions are needed: behind an MSA everything is trusted, and the word \"authenticated\" anywhere in the header (e.g. the announced name) counts as authentication."
  },
  {
   "property": "C31",
   "status": "proved",
   "theorems": [
    "C31_unknown_command",
    "C31_letter_case",
    "C31_ping_skip",
    "C31_other_lines_raise",
    "C31_status_refuted",
    "C31_bad_option_reply"
   ],
   "note": "The property speaks of lines of two words; other lines make the handler raise without a reply (C31_other_lines_raise). C31_status_refuted: a KeyError inside a known command is reported as a bad header line after the OK line."
  },
  {
   "property": "C32",
   "status": "proved",
   "theorems": [
    "C32_options_exact",
    "C32_always_decided"
   ],
   "note": ""
  },
  {
   "property": "C33",
   "status": "partial",
   "theorems": [
    "C33_message_is_what_was_sent",
    "C33_fragmentation",
    "C33_announced_length",
    "C33_accepted_partial",
    "C33_long_message_refuted",
    "C33_timing_refuted",
    "C33_compressed_refuted"
   ],
   "note": "What is accepted is always exactly what was sent. Acceptance is proved for ASCII messages and for UTF-8 messages read in one piece; it fails for a character across a chunk boundary and for compressed messages."
  },
  {
   "property": "C34",
   "status": "partial",
   "theorems": [
    "C34_content_length_partial",
    "C34_numbers_differ",
    "C34_content_length_refuted"
   ],
   "note": "The announced length counts characters: right exactly for ASCII bodies."
  },
  {
   "property": "C35",
   "status": "partial",
   "theorems": [
    "C35_tell_partial",
    "C35_blanks_refuted"
   ],
   "note": "Proved for database lists without blanks; with a blank after the comma the database is silently skipped but echoed as done."
  },
  {
   "property": "C36",
   "status": "partial",
   "theorems": [
    "C36_user_ruleset_partial",
    "C36_cached_until_reload"
   ],
   "note": "Proved for the cache: the rule set is the one built from site configuration and preference file. That building is a function of these two fails for list options and networks, which are shared by the process (C21_networks_refuted and the other C21 refutations)."
  },
  {
   "property": "C37",
   "status": "partial",
   "theorems": [
    "C37_loaded_plugins",
    "C37_resolution_partial",
    "C37_last_loaded_partial",
    "C37_unload",
    "C37_unload_shared_refuted",
    "C37_failed_load_refuted"
   ],
   "note": "Exact for all histories of plugins that do not share names; unloading a plugin that shares a rule takes the rule away from the other one, and a failed load leaves rules registered (refuted)."
  },
  {
   "property": "C38",
   "status": "proved",
   "theorems": [
    "C38_hooks",
    "C38_core_options"
   ],
   "note": "All hooks share one loop over the plugins in load order."
  },
  {
   "property": "C39",
   "status": "partial",
   "theorems": [
    "C39_history",
    "C39_other_senders",
    "C39_mysql_refuted",
    "C39_two_processes_refuted"
   ],
   "note": "Proved for the sqlalchemy backend and one process. False for the pymysql backend (its statements have no WHERE clause) and for two processes (lost update)."
  },
  {
   "property": "C40",
   "status": "partial",
   "theorems": [
    "C40_adjustment_partial",
    "C40_between",
    "C40_zero_mean_refuted",
    "C40_as_last_rule"
   ],
   "note": "Proved whenever the mean of the earlier scores is not zero; a sender with mean exactly zero is never adjusted (refuted). C40_as_last_rule connects the check with the evaluation loop."
  },
  {
   "property": "C41",
   "status": "partial",
   "theorems": [
    "C41_spam_partial",
    "C41_hits_ignored_refuted",
    "C41_ham_never_learned_refuted",
    "C41_uri_detail_refuted",
    "C41_should_learn"
   ],
   "note": "The plugin sums the scores of all rules of the rule set instead of those that hit, never learns ham, and fails for rule classes without rule_type; the claim is proved for messages that hit every rule."
  },
  {
   "property": "C42",
   "status": "partial",
   "theorems": [
    "C42_learnt_twice_partial",
    "C42_disabled",
    "C42_unseen_refuted",
    "C42_nothing_learned_refuted",
    "C42_relearn_refuted",
    "C42_never_learned_refuted",
    "C42_bookkeeping_refuted",
    "C42_relearn_without_tokens_refuted",
    "C42_record_replaced_partial",
    "C42_counts_replaced_refuted"
   ],
   "note": "Only the idempotence for recorded messages holds. The stores fail for unrecorded messages, overwrite the totals instead of adding to them, and bind a tuple as token."
  },
  {
   "property": "C43",
   "status": "partial",
   "theorems": [
    "C43_probability",
    "C43_weighted_frequency",
    "C43_defined",
    "C43_share",
    "C43_grows_partial",
    "C43_grows_refuted",
    "C43_empty_corpus_refuted"
   ],
   "note": "Monotonicity in the spam count holds under the side condition of C43_grows_partial and fails in general (witness); a corpus with an empty class raises."
  },
  {
   "property": "C44",
   "status": "partial",
   "theorems": [
    "C44_combination",
    "C44_probability",
    "C44_order",
    "C44_complement",
    "C44_monotone",
    "C44_no_evidence_partial",
    "C44_no_evidence_refuted",
    "C44_certain_token"
   ],
   "note": "Over exact reals. Everything but the 1/2 for no evidence is proved; without evidence the result is the share of ham (not reachable from a scan, which returns earlier)."
  },
  {
   "property": "C45",
   "status": "partial",
   "theorems": [
    "C45_found",
    "C45_matches_partial",
    "C45_whole_address_refuted",
    "C45_case_refuted",
    "C45_question_mark_refuted",
    "C45_plain_entry_refuted"
   ],
   "note": "Exact characterisation proved; whoever an entry describes is hit; the converse fails because the code searches inside the address, respects case, lets ? stand for nothing and drops entries without ?, @ and ."
  },
  {
   "property": "C46",
   "status": "partial",
   "theorems": [
    "C46_spf_sticky",
    "C46_spf_refuted",
    "C46_forged_kept",
    "C46_forged_refuted",
    "C46_body_local",
    "C46_dkim_sticky",
    "C46_dkim_refuted",
    "C46_dkim_contexts"
   ],
   "note": "holds for the body rules; refuted for the SPF, DKIM and forged trail rules, whose results are kept for later messages"
  },
  {
   "property": "C47",
   "status": "partial",
   "theorems": [
    "C47_nearest_domain_partial",
    "C47_query",
    "C47_bad_line_refuted",
    "C47_case_refuted"
   ],
   "note": "Proved for names written in the same case; a first restriction line without a blank aborts loading (refuted)."
  },
  {
   "property": "C48",
   "status": "partial",
   "theorems": [
    "C48_hits_partial",
    "C48_stops",
    "C48_untrusted_only",
    "C48_disabled",
    "C48_reversed",
    "C48_names_differ",
    "C48_mask",
    "C48_address_mask",
    "C48_private_refuted",
    "C48_no_mask"
   ],
   "note": "All proved except that private addresses are asked about unless trusted (refuted)."
  },
  {
   "property": "C49",
   "status": "partial",
   "theorems": [
    "C49_replaced_partial",
    "C49_every_pattern",
    "C49_definitions",
    "C49_shape",
    "C49_listed_rules",
    "C49_no_pattern_refuted",
    "C49_brackets_refuted",
    "C49_listed_twice_refuted"
   ],
   "note": "Every tag in a listed rule's pattern is replaced with the default brackets. Missing: custom brackets are not recognised, a rule listed twice is replaced twice and a listed rule without a pattern aborts loading; each has a refuting theorem."
  },
  {
   "property": "C50",
   "status": "proved",
   "theorems": [
    "C50_terminates",
    "C50_sound",
    "C50_list",
    "C50_two_hosts"
   ],
   "note": "Termination for every list of URIs; also what a hit means."
  },
  {
   "property": "C51",
   "status": "proved",
   "theorems": [
    "C51_header_lookup_case_insensitive"
   ],
   "note": "ASCII lower-casing."
  },
  {
   "property": "C52",
   "status": "proved",
   "theorems": [
    "C52_line_breaks_normalised"
   ],
   "note": ""
  },
  {
   "property": "C53",
   "status": "proved",
   "theorems": [
    "C53_header_edits",
    "C53_original_headers_kept",
    "C53_always_made"
   ],
   "note": "exact list of headers; a removal also removes an addition of the same group"
  },
  {
   "property": "C54",
   "status": "partial",
   "theorems": [
    "C54_pattern_between_delimiters_partial",
    "C54_bad_delimiters_rejected",
    "C54_perl_conversion_refuted",
    "C54_converted_partial",
    "C54_one_conversion"
   ],
   "note": "Refuted: an empty text raises IndexError instead of InvalidRegex; a pattern starting with its own opening delimiter loses it. C54_converted_partial covers every pattern, with the three Perl rewrites specified as rewriting from left to right; C54_one_conversion: each text has one conversion."
  },
  {
   "property": "C55",
   "status": "partial",
   "theorems": [
    "C55_report_has_one_line_per_hit_partial",
    "C55_report_refuted"
   ],
   "note": "False of the code with short-circuiting: the stopping rule has no recorded description and the report raises KeyError."
  },
  {
   "property": "C56",
   "status": "proved",
   "theorems": [
    "C56_header_lookups_repeatable"
   ],
   "note": "Non-lazy mode; headers added by a plugin before the first lookup are outside this statement."
  },
  {
   "property": "C57",
   "status": "partial",
   "theorems": [
    "C57_message_loads_partial",
    "C57_every_message_loads_refuted"
   ],
   "note": "Refuted for an undecodable Subject (TypeError in join)."
  },
  {
   "property": "C58",
   "status": "partial",
   "theorems": [
    "C58_attributes_and_defaults",
    "C58_mimeheader_priority_refuted"
   ],
   "note": "All attributes of all rule types except the priority of mimeheader rules, which the code drops."
  },
  {
   "property": "C59",
   "status": "partial",
   "theorems": [
    "C59_eval_calls_named_function_partial",
    "C59_eval_calls_named_function_refuted",
    "C59_comma_in_argument_refuted"
   ],
   "note": "False for function names starting with e, v, a or l (the prefix is stripped as a character set) and for arguments containing a comma."
  },
  {
   "property": "C60",
   "status": "proved",
   "theorems": [
    "C60_score_follows_configuration",
    "C60_adds_is_a_function"
   ],
   "note": "Under the C06 exclusion (four scores beginning with 0), which is in plain_entry."
  },
  {
   "property": "C61",
   "status": "proved",
   "theorems": [
    "C61_relay_address",
    "C61_written_forms"
   ],
   "note": ""
  },
  {
   "property": "C62",
   "status": "proved",
   "theorems": [
    "C62_sender_from_first_external",
    "C62_sender_when_all_internal",
    "C62_first_sender_header"
   ],
   "note": ""
  },
  {
   "property": "C63",
   "status": "partial",
   "theorems": [
    "C63_untrusted_addresses_partial",
    "C63_untrusted_addresses_refuted"
   ],
   "note": "Proved when every relay has an address; one Received header without an address makes the call raise."
  },
  {
   "property": "C64",
   "status": "proved",
   "theorems": [
    "C64_relay_analysis_fails_exactly",
    "C64_every_message_refuted"
   ],
   "note": "The exact failure condition is proved; the second theorem shows a header text (octet with leading zero) that meets it."
  },
  {
   "property": "C65",
   "status": "partial",
   "theorems": [
    "C65_site_options_for_users_refuted"
   ],
   "note": "Refuted: options of the site are not in force in a user's rule set. What does hold is in C36 (the rules of the site are kept: the parser results are shared)."
  },
  {
   "property": "C66",
   "status": "proved",
   "theorems": [
    "C66_checking_request",
    "C66_bodies"
   ],
   "note": "For ASCII messages, the case in which every transport accepts the message (C33)."
  },
  {
   "property": "C67",
   "status": "partial",
   "theorems": [
    "C67_header_template_partial",
    "C67_one_reading",
    "C67_report_partial",
    "C67_percent_refuted",
    "C67_preview"
   ],
   "note": "holds for templates without a percent sign; false with one (lost, or an exception)"
  },
  {
   "property": "C68",
   "status": "partial",
   "theorems": [
    "C68_tests_scores_partial",
    "C68_tests_scores_refuted",
    "C68_tests_scores_numbers"
   ],
   "note": "names are right, numbers are not the scores: refuted"
  },
  {
   "property": "C69",
   "status": "proved",
   "theorems": [
    "C69_summary_lines",
    "C69_summary_always_made",
    "C69_tags_always_made",
    "C69_summary_columns"
   ],
   "note": ""
  },
  {
   "property": "C70",
   "status": "partial",
   "theorems": [
    "C70_report_spam_partial",
    "C70_class_ignored_refuted"
   ],
   "note": "The class and the databases are ignored: ham is reported as spam (refuted); exact for spam."
  },
  {
   "property": "C71",
   "status": "proved",
   "theorems": [
    "C71_last_write"
   ],
   "note": ""
  },
  {
   "property": "C72",
   "status": "partial",
   "theorems": [
    "C72_restored_partial",
    "C72_writing_refuted",
    "C72_shared_refuted"
   ],
   "note": "Restoring is exact for plugins that do not share rules; writing strips the live context (refuted)."
  },
  {
   "property": "C73",
   "status": "proved",
   "theorems": [
    "C73_keys",
    "C73_origin",
    "C73_signed",
    "C73_unsigned"
   ],
   "note": "The textual form of IPv6 addresses is a quantified injective function."
  },
  {
   "property": "C74",
   "status": "partial",
   "theorems": [
    "C74_relay_fields",
    "C74_last_external_partial",
    "C74_last_external_is_farthest",
    "C74_last_external_refuted"
   ],
   "note": "The LASTEXTERNAL tags describe the farthest relay, not the hand-over, when more than one relay is external."
  },
  {
   "property": "C75",
   "status": "partial",
   "theorems": [
    "C75_score_partial",
    "C75_weakest_tokens_refuted",
    "C75_own_probability_partial",
    "C75_own_probability_refuted",
    "C75_unavailable"
   ],
   "note": "The code keeps the least significant tokens beyond 150 and shifts probabilities after a token without one; both are proved as refutations."
  },
  {
   "property": "C76",
   "status": "proved",
   "theorems": [
    "C76_one_range",
    "C76_no_hit"
   ],
   "note": ""
  },
  {
   "property": "C77",
   "status": "partial",
   "theorems": [
    "C77_whitelist",
    "C77_default_whitelist",
    "C77_forged_partial",
    "C77_forged_refuted"
   ],
   "note": "Whitelisting proved exactly; the forged check also hits addresses the list does not mention (refuted)."
  },
  {
   "property": "C78",
   "status": "proved",
   "theorems": [
    "C78_any_order"
   ],
   "note": ""
  },
  {
   "property": "C79",
   "status": "proved",
   "theorems": [
    "C79_from",
    "C79_to"
   ],
   "note": ""
  },
  {
   "property": "C80",
   "status": "partial",
   "theorems": [
    "C80_base_domain",
    "C80_matches_partial",
    "C80_rejects",
    "C80_matches_refuted",
    "C80_no_at",
    "C80_base_domain_exact"
   ],
   "note": "The name is compared by its last letters, not by labels (refuted); a sender without @ raises."
  },
  {
   "property": "C81",
   "status": "partial",
   "theorems": [
    "C81_listed_partial",
    "C81_host_refuted",
    "C81_delisted"
   ],
   "note": "Exact characterisation proved; the code compares the end of the whole URI instead of its host (refuted)."
  },
  {
   "property": "C82",
   "status": "partial",
   "theorems": [
    "C82_tests_apart",
    "C82_asked_only_when_tested",
    "C82_round",
    "C82_no_testing",
    "C82_repeated_name_refuted"
   ],
   "note": "Proved for all histories of queries that do not raise; a test name listed twice makes every query raise (refuted)."
  },
  {
   "property": "C83",
   "status": "partial",
   "theorems": [
    "C83_zone",
    "C83_sub",
    "C83_dash_refuted",
    "C83_loading_fails"
   ],
   "note": "A zone is known by the text before its first hyphen, so zone names with a hyphen do not work (refuted)."
  },
  {
   "property": "C84",
   "status": "partial",
   "theorems": [
    "C84_listed",
    "C84_no_records_partial",
    "C84_suppressed_refuted",
    "C84_accreditor",
    "C84_envelope",
    "C84_no_sender"
   ],
   "note": "A suppressed query counts as a missing domain (refuted)."
  },
  {
   "property": "C85",
   "status": "partial",
   "theorems": [
    "C85_document_partial",
    "C85_other_uris",
    "C85_nested_refuted",
    "C85_named_anchor_refuted"
   ],
   "note": "Proved for anchors that contain only text. Missing: any end tag ends the link, so text after a nested element is lost; an anchor without address after a link element raises."
  },
  {
   "property": "C86",
   "status": "partial",
   "theorems": [
    "C86_sound",
    "C86_found_partial",
    "C86_order_refuted"
   ],
   "note": "Sound for all messages; complete only when all anchors lead to addresses, since the first other anchor ends the check."
  },
  {
   "property": "C87",
   "status": "proved",
   "theorems": [
    "C87_truncated"
   ],
   "note": ""
  },
  {
   "property": "C88",
   "status": "partial",
   "theorems": [
    "C88_detail_partial",
    "C88_text_refuted"
   ],
   "note": "Exact for all fields but the text, where the rule raises."
  },
  {
   "property": "C89",
   "status": "partial",
   "theorems": [
    "C89_headers_partial",
    "C89_header_text",
    "C89_header_text_plain",
    "C89_lookup",
    "C89_authres_partial",
    "C89_authres_equals_refuted",
    "C89_case_refuted",
    "C89_two_results_refuted"
   ],
   "note": "Exact for header-only and lookup-only messages seen first. Missing: results not in lower case, header and lookup together give two results, senders with = in Authentication-Results."
  },
  {
   "property": "C90",
   "status": "partial",
   "theorems": [
    "C90_whitelist_partial",
    "C90_longer_address_refuted"
   ],
   "note": "Exact account of the list check; missing: only the beginning of the address is compared."
  },
  {
   "property": "C91",
   "status": "proved",
   "theorems": [
    "C91_numeric_helo",
    "C91_helo_ip_mismatch",
    "C91_provider_helo",
    "C91_no_relays_all_trusted",
    "C91_from_domain"
   ],
   "note": "relay texts without \"/\" in addresses and without line breaks in names"
  },
  {
   "property": "C92",
   "status": "partial",
   "theorems": [
    "C92_trail_partial",
    "C92_ip_helo_partial",
    "C92_honest_trail_refuted"
   ],
   "note": "exact condition for the first message of a context; a consistent trail is flagged because only one of the two names is shortened to its domain"
  },
  {
   "property": "C93",
   "status": "partial",
   "theorems": [
    "C93_no_reverse_refuted",
    "C93_last_relay_partial"
   ],
   "note": "the rule is inverted: it never hits a sender without reverse name"
  },
  {
   "property": "C94",
   "status": "partial",
   "theorems": [
    "C94_private_partial",
    "C94_172_refuted"
   ],
   "note": "172.16.0.0/12 is not recognised"
  },
  {
   "property": "C95",
   "status": "proved",
   "theorems": [
    "C95_difference",
    "C95_range",
    "C95_zero",
    "C95_count",
    "C95_extra_plain_words_refuted",
    "C95_related_refuted"
   ],
   "note": "exact for all part trees; the docstring's reading (plain words missing from the HTML) and HTML inside multipart/related are refuted"
  },
  {
   "property": "C96",
   "status": "partial",
   "theorems": [
    "C96_ratio",
    "C96_blank_lines_partial",
    "C96_blank_lines_bounds",
    "C96_blank_run_refuted",
    "C96_vertical"
   ],
   "note": "runs of blank lines are counted about half; bounds proved"
  },
  {
   "property": "C97",
   "status": "proved",
   "theorems": [
    "C97_valid"
   ],
   "note": "exact for the first DKIM question of a process; addresses without blanks"
  },
  {
   "property": "C98",
   "status": "partial",
   "theorems": [
    "C98_signed_partial",
    "C98_signed_refuted",
    "C98_author_partial",
    "C98_author_sound",
    "C98_author_refuted",
    "C98_dependable_partial",
    "C98_dependable_refuted",
    "C98_blanks"
   ],
   "note": "exact conditions of the three rules; the named meanings are refuted: third-party signatures are not \"signed\", a signature that fails to verify is a \"valid author signature\", an unsigned message is \"dependable\""
  },
  {
   "property": "C99",
   "status": "partial",
   "theorems": [
    "C99_first_partial",
    "C99_malformed_refuted",
    "C99_unanswered_refuted"
   ],
   "note": "only the rule that meets the exception does not hit; every later rule and message is then taken for validly signed"
  },
  {
   "property": "C100",
   "status": "partial",
   "theorems": [
    "C100_whitelist_partial",
    "C100_refuted",
    "C100_contexts_refuted"
   ],
   "note": "exact condition; only the beginning of the address is compared, dots are wildcards, and contexts other than the first never hit"
  },
  {
   "property": "C101",
   "status": "partial",
   "theorems": [
    "C101_domains_partial",
    "C101_refuted"
   ],
   "note": "exact condition; the last two labels may occur anywhere in the signature's domain"
  },
  {
   "property": "C102",
   "status": "partial",
   "theorems": [
    "C102_override_partial",
    "C102_discardable_refuted",
    "C102_many_refuted"
   ],
   "note": "exact for the practices set by overrides; published practices are never looked up, more than three overrides switch the rule off"
  },
  {
   "property": "C103",
   "status": "partial",
   "theorems": [
    "C103_first_partial",
    "C103_failed",
    "C103_off",
    "C103_repeated_refuted"
   ],
   "note": "exact for the first rule and for failures; every later rule about the same message gets the opposite answer"
  },
  {
   "property": "C104",
   "status": "partial",
   "theorems": [
    "C104_pyzor_partial",
    "C104_cleared_refuted",
    "C104_silent_refuted",
    "C104_tags",
    "C104_report"
   ],
   "note": "exact condition; a server's whitelisting does not outweigh another's listing and a silent server ends the check"
  },
  {
   "property": "C105",
   "status": "partial",
   "theorems": [
    "C105_reported",
    "C105_whole",
    "C105_truncated",
    "C105_option_refuted",
    "C105_no_header_refuted"
   ],
   "note": "exact condition for messages with a dated Received header; dont_report_to_spamcop has no effect, no Received header raises"
  },
  {
   "property": "C106",
   "status": "partial",
   "theorems": [
    "C106_subject_partial",
    "C106_shared_refuted"
   ],
   "note": "exact condition over the lines of all contexts; the lists are shared by all contexts of the process"
  },
  {
   "property": "C107",
   "status": "partial",
   "theorems": [
    "C107_freemail_partial",
    "C107_question_refuted",
    "C107_case_refuted",
    "C107_invalid_refuted"
   ],
   "note": "Exact for well-formed lists and addresses with one \"@\", wildcards being entries with \"*\". False of the code: \"?\" is a wildcard only beside a \"*\"; domains are case-sensitive; a rejected entry with \"*\" is still used."
  },
  {
   "property": "C108",
   "status": "partial",
   "theorems": [
    "C108_from_partial",
    "C108_expression_partial",
    "C108_expression_refuted",
    "C108_no_at_refuted",
    "C108_header_partial"
   ],
   "note": "Exact without an expression for addresses with \"@\". False of the code: with an expression only the first free mail address counts; a sender text without \"@\" ends the rule."
  },
  {
   "property": "C109",
   "status": "partial",
   "theorems": [
    "C109_body_partial",
    "C109_over_max_refuted",
    "C109_alone"
   ],
   "note": "Exact, and independent of order and of earlier rules, with \"fewer than the maximum\". False of the code: the maxima themselves are already too many."
  },
  {
   "property": "C110",
   "status": "partial",
   "theorems": [
    "C110_replyto",
    "C110_reply_partial",
    "C110_reply_refuted"
   ],
   "note": "\"replyto\" is exact. \"reply\" also requires the sender to be free mail when there is a Reply-To, so it misses what \"replyto\" finds."
  },
  {
   "property": "C111",
   "status": "partial",
   "theorems": [
    "C111_faraway",
    "C111_unrestricted",
    "C111_names",
    "C111_languages",
    "C111_plain_refuted",
    "C111_message"
   ],
   "note": "Exact behaviour proved; but a header of plain ASCII text is faraway whenever ok_locales is set."
  },
  {
   "property": "C112",
   "status": "partial",
   "theorems": [
    "C112_independent_partial",
    "C112_all_deletes",
    "C112_independent_refuted"
   ],
   "note": "Holds without an illegal-character rule for ALL; refuted with one, since it deletes Subject and From."
  },
  {
   "property": "C113",
   "status": "proved",
   "theorems": [
    "C113_illegal_chars",
    "C113_all",
    "C113_control_refuted"
   ],
   "note": "Exact; control characters never count although described as illegal."
  },
  {
   "property": "C114",
   "status": "partial",
   "theorems": [
    "C114_sorted",
    "C114_similar",
    "C114_similarity",
    "C114_independent_partial",
    "C114_independent_refuted",
    "C114_share_refuted"
   ],
   "note": "Independence of earlier questions fails for fewer than five recipients."
  },
  {
   "property": "C115",
   "status": "partial",
   "theorems": [
    "C115_shifted_partial",
    "C115_independent_partial",
    "C115_agreeing_refuted",
    "C115_unreadable_refuted",
    "C115_undated_refuted"
   ],
   "note": "Messages whose dates can be read (further Date and Resent-Date headers allowed); zero differences are dropped; answers for unreadable or missing dates depend on earlier rules."
  },
  {
   "property": "C116",
   "status": "partial",
   "theorems": [
    "C116_months_partial",
    "C116_year_refuted"
   ],
   "note": "Years are dropped by the code."
  },
  {
   "property": "C117",
   "status": "partial",
   "theorems": [
    "C117_count_partial",
    "C117_count_refuted",
    "C117_all_caps",
    "C117_missing_to",
    "C117_domains_partial",
    "C117_domains_refuted"
   ],
   "note": "Counts distinct values; the domain rule is a substring test."
  },
  {
   "property": "C118",
   "status": "partial",
   "theorems": [
    "C118_ends_partial",
    "C118_ends_refuted"
   ],
   "note": "Exactly the words with a one-letter name before a dot (such as e.g.) make the loop run for ever; it ends on all other texts."
  },
  {
   "property": "C119",
   "status": "partial",
   "theorems": [
    "C119_fails_partial",
    "C119_fails_refuted"
   ],
   "note": "Fails exactly on words such as a@b, where the generator object itself is put into the token set."
  },
  {
   "property": "C120",
   "status": "partial",
   "theorems": [
    "C120_tokens",
    "C120_ordinary_words",
    "C120_word_is_token",
    "C120_which_headers",
    "C120_header_values",
    "C120_ignored_headers",
    "C120_groups",
    "C120_stop_words_refuted",
    "C120_separators_refuted",
    "C120_code_header_values",
    "C120_utf8_words"
   ],
   "note": "Exact set of tokens proved, down to which values of which headers are read; that no token is a stop word is refuted (a capitalised stop word adds its lower-case form)."
  },
  {
   "property": "C121",
   "status": "partial",
   "theorems": [
    "C121_apart",
    "C121_told_apart",
    "C121_foreign_words_refuted"
   ],
   "note": "Separation proved in full; the pieces of long non-Latin words are never made."
  },
  {
   "property": "C122",
   "status": "partial",
   "theorems": [
    "C122_addresses_refuted",
    "C122_code_addresses_refuted"
   ],
   "note": "Address headers contribute nothing, for every message (only the first character of the address is looked at). Proved for the code's own expression for addresses, too."
  },
  {
   "property": "C123",
   "status": "partial",
   "theorems": [
    "C123_order_partial",
    "C123_order_refuted"
   ],
   "note": "Holds when at most one of In-Reply-To/References/Message-ID and of X-Mailer/User-Agent is present; refuted otherwise."
  },
  {
   "property": "C124",
   "status": "partial",
   "theorems": [
    "C124_other_parts_refuted",
    "C124_own_words_partial",
    "C124_loaded_last_refuted"
   ],
   "note": "Only the subject and text/plain parts of the message loaded last are used."
  },
  {
   "property": "C125",
   "status": "partial",
   "theorems": [
    "C125_loading_partial",
    "C125_loading_refuted"
   ],
   "note": "Exactly which parts end the loading of a message; that there are such parts refutes the property."
  },
  {
   "property": "C126",
   "status": "proved",
   "theorems": [
    "C126_html",
    "C126_html_only",
    "C126_counts",
    "C126_unknown_name"
   ],
   "note": ""
  },
  {
   "property": "C127",
   "status": "partial",
   "theorems": [
    "C127_faraway_partial",
    "C127_all",
    "C127_mostly_ascii_refuted",
    "C127_no_locales_refuted"
   ],
   "note": "One non-ASCII byte is enough, in any part; without ok_locales every unusual charset is faraway."
  },
  {
   "property": "C128",
   "status": "partial",
   "theorems": [
    "C128_illegal_partial",
    "C128_declared_refuted",
    "C128_controls_refuted"
   ],
   "note": "Declared charset and encoding do not matter, control characters are not found."
  },
  {
   "property": "C129",
   "status": "partial",
   "theorems": [
    "C129_unicode_partial",
    "C129_entities_refuted"
   ],
   "note": "At most one entity per part is counted."
  },
  {
   "property": "C130",
   "status": "partial",
   "theorems": [
    "C130_ratio_refuted"
   ],
   "note": "The ratio is always 0: the rule does not depend on the message."
  },
  {
   "property": "C131",
   "status": "partial",
   "theorems": [
    "C131_length_partial",
    "C131_sum_refuted"
   ],
   "note": "The longest lines of all parts are added."
  },
  {
   "property": "C132",
   "status": "partial",
   "theorems": [
    "C132_non_text_partial",
    "C132_rtf_refuted"
   ],
   "note": "Rich text and multipart/related count as non-text."
  },
  {
   "property": "C133",
   "status": "partial",
   "theorems": [
    "C133_base64_text_partial",
    "C133_picture_refuted",
    "C133_case_refuted"
   ],
   "note": "Any part counts, not only text; the encoding is compared with case."
  },
  {
   "property": "C134",
   "status": "partial",
   "theorems": [
    "C134_long_line_partial",
    "C134_no_colon_refuted"
   ],
   "note": "Only the text after the first colon is measured."
  },
  {
   "property": "C135",
   "status": "partial",
   "theorems": [
    "C135_boundary_partial",
    "C135_single_part_refuted"
   ],
   "note": "Depends only on the number of double dashes and on there being a text/plain part."
  },
  {
   "property": "C136",
   "status": "proved",
   "theorems": [
    "C136_ratio"
   ],
   "note": ""
  },
  {
   "property": "C137",
   "status": "partial",
   "theorems": [
    "C137_capitals_partial",
    "C137_caseless_refuted"
   ],
   "note": "For letters whose capital form is one letter; letters without case count as capitals."
  },
  {
   "property": "C138",
   "status": "partial",
   "theorems": [
    "C138_separator",
    "C138_no_headers",
    "C138_truncated_partial",
    "C138_truncated_refuted"
   ],
   "note": "The separator and missing headers are characterised exactly; the value limit counts headers instead of characters (refuted)."
  },
  {
   "property": "C139",
   "status": "partial",
   "theorems": [
    "C139_order_partial",
    "C139_order_refuted"
   ],
   "note": "For orders that can both be loaded."
  },
  {
   "property": "C140",
   "status": "partial",
   "theorems": [
    "C140_count_partial",
    "C140_all_refuted",
    "C140_zero_refuted"
   ],
   "note": "Holds unless a picture has the type image/all (counted twice) or the maximum is a bare 0 (ignored)."
  },
  {
   "property": "C141",
   "status": "partial",
   "theorems": [
    "C141_coverage_partial"
   ],
   "note": "Same exceptions as C140; copies of a picture count each time."
  },
  {
   "property": "C142",
   "status": "partial",
   "theorems": [
    "C142_exact_all",
    "C142_exact_partial",
    "C142_exact_one_type",
    "C142_copy_refuted",
    "C142_range_all",
    "C142_range_partial",
    "C142_unreadable"
   ],
   "note": "For one type, a picture whose bytes came before under another type is not seen."
  },
  {
   "property": "C143",
   "status": "proved",
   "theorems": [
    "C143_named"
   ],
   "note": ""
  },
  {
   "property": "C144",
   "status": "partial",
   "theorems": [
    "C144_ratio_partial",
    "C144_no_picture_refuted",
    "C144_at_least_partial"
   ],
   "note": "A message without pictures is treated as one with one pixel."
  },
  {
   "property": "C145",
   "status": "partial",
   "theorems": [
    "C145_loading_partial",
    "C145_loading_refuted"
   ],
   "note": "Errors other than the four that are caught end the check of the message."
  },
  {
   "property": "C146",
   "status": "partial",
   "theorems": [
    "C146_count_partial",
    "C146_zero_refuted",
    "C146_quoted_refuted"
   ],
   "note": "A maximum of 0 is ignored and limits in quotes never match."
  },
  {
   "property": "C147",
   "status": "partial",
   "theorems": [
    "C147_images_partial",
    "C147_pixels_partial",
    "C147_copies_refuted"
   ],
   "note": "Sums over all PDF parts; a file sent twice counts twice."
  },
  {
   "property": "C148",
   "status": "partial",
   "theorems": [
    "C148_named",
    "C148_md5",
    "C148_regex_partial",
    "C148_unnamed_refuted"
   ],
   "note": "With an unnamed PDF file the answer of pdf_name_regex depends on the order of a set."
  },
  {
   "property": "C149",
   "status": "partial",
   "theorems": [
    "C149_details_partial",
    "C149_detail_refuted"
   ],
   "note": "The rule looks at all properties, whichever is asked for."
  },
  {
   "property": "C150",
   "status": "proved",
   "theorems": [
    "C150_encrypted"
   ],
   "note": ""
  },
  {
   "property": "C151",
   "status": "proved",
   "theorems": [
    "C151_empty"
   ],
   "note": ""
  },
  {
   "property": "C152",
   "status": "partial",
   "theorems": [
    "C152_loading_partial",
    "C152_loading_refuted"
   ],
   "note": "Exact condition proved; one damaged PDF file ends the check of the message."
  },
  {
   "property": "C153",
   "status": "partial",
   "theorems": [
    "C153_mysql_partial",
    "C153_mysql_direct",
    "C153_pg_partial",
    "C153_sqlite",
    "C153_password_refuted"
   ],
   "note": "Holds when host, user and password contain no URL separators; a password with a slash changes the host (refuted)."
  },
  {
   "property": "C154",
   "status": "partial",
   "theorems": [
    "C154_unknown",
    "C154_other",
    "C154_loading_refuted"
   ],
   "note": "Other formats are used as they are; an unknown driver gives an empty URL or silently no database; missing parts abort loading (refuted)."
  },
  {
   "property": "C155",
   "status": "partial",
   "theorems": [
    "C155_countries_partial",
    "C155_no_address_refuted",
    "C155_forged_refuted",
    "C155_modes_refuted"
   ],
   "note": "Words and order hold when all relays have addresses; a relay without one ends loading, a forged header is read too, and lazy and non-lazy mode differ (refuted)."
  },
  {
   "property": "C156",
   "status": "proved",
   "theorems": [
    "C156_language",
    "C156_default",
    "C156_tag",
    "C156_many_allowed"
   ],
   "note": "Exact characterisation; C156_many_allowed shows what passing the limit of languages means."
  },
  {
   "property": "C157",
   "status": "partial",
   "theorems": [
    "C157_own",
    "C157_bare",
    "C157_line_breaks",
    "C157_unique_partial",
    "C157_unique_refuted"
   ],
   "note": "Same identifier exactly for the same date and the same counted part of the body; so different messages can share one (refuted)."
  },
  {
   "property": "C158",
   "status": "partial",
   "theorems": [
    "C158_date_partial",
    "C158_now",
    "C158_invalid_refuted"
   ],
   "note": "Raises when the first text after a semicolon is not a date (refuted)."
  },
  {
   "property": "C159",
   "status": "partial",
   "theorems": [
    "C159_messages",
    "C159_count_partial",
    "C159_count_refuted"
   ],
   "note": "Every message once and in order; the number printed counts arguments, not messages (refuted for directories)."
  },
  {
   "property": "C160",
   "status": "partial",
   "theorems": [
    "C160_fields",
    "C160_apart",
    "C160_auth_refuted"
   ],
   "note": "The authentication method may contain blanks (GMail cipher text)."
  },
  {
   "property": "C161",
   "status": "partial",
   "theorems": [
    "C161_folding",
    "C161_date",
    "C161_originating_refuted"
   ],
   "note": "Headers from X-ORIGINATING-IP are not unfolded."
  },
  {
   "property": "C162",
   "status": "partial",
   "theorems": [
    "C162_postfix_partial",
    "C162_hidden_refuted",
    "C162_name_refuted",
    "C162_private_refuted"
   ],
   "note": "Excluded: the HELO words Unknown/Local and X-ORIGINATING-IP..., texts that contain fetchmail or with local, names that contain unknown; a private address beside a public one in HELO."
  },
  {
   "property": "C163",
   "status": "partial",
   "theorems": [
    "C163_exim_partial",
    "C163_address_refuted"
   ],
   "note": "As C162; an address as HELO name replaces the address of the relay."
  },
  {
   "property": "C164",
   "status": "partial",
   "theorems": [
    "C164_bare_partial"
   ],
   "note": "As C162; headers mentioning (Content Technologies are skipped by design."
  },
  {
   "property": "C165",
   "status": "partial",
   "theorems": [
    "C165_last_address",
    "C165_only_address",
    "C165_set_aside",
    "C165_private_refuted"
   ],
   "note": "172.16/12 is not set aside; proved for IPv4 addresses in brackets."
  },
  {
   "property": "C166",
   "status": "partial",
   "theorems": [
    "C166_id",
    "C166_refuted"
   ],
   "note": "C166_id is the whole claim in terms of the last 'id ' followed by a word; C166_refuted: a queue id that ends in id makes the next word the id."
  },
  {
   "property": "C167",
   "status": "proved",
   "theorems": [
    "C167_protocol",
    "C167_none"
   ],
   "note": "The listed texts (auth_methods, auth_marks) are in Spec_Received.v."
  },
  {
   "property": "C168",
   "status": "partial",
   "theorems": [
    "C168_outside_partial",
    "C168_announced_refuted"
   ],
   "note": "From the header text to the relay lists, for hand-overs in the Postfix form without the authentication texts; C168_announced_refuted: a HELO name containing authenticated makes any outside host trusted."
  },
  {
   "property": "C169",
   "status": "partial",
   "theorems": [
    "C169_sender_partial",
    "C169_equals_refuted"
   ],
   "note": "Proved for addresses without an equals sign that end in a letter or digit; C169_equals_refuted: of a list or bounce sender only the part after the last equals sign is reported."
  },
  {
   "property": "C170",
   "status": "proved",
   "theorems": [
    "C170_fake_aol_relay"
   ],
   "note": "equivalence with readable forms of the texts"
  },
  {
   "property": "C171",
   "status": "proved",
   "theorems": [
    "C171_not_both",
    "C171_forged",
    "C171_absent",
    "C171_exactly",
    "C171_spared"
   ],
   "note": ""
  },
  {
   "property": "C172",
   "status": "partial",
   "theorems": [
    "C172_raises",
    "C172_answers_partial",
    "C172_refuted",
    "C187_hotmail"
   ],
   "note": "false for mail to MSN groups with a display name; holds if the To header names no MSN group"
  },
  {
   "property": "C173",
   "status": "proved",
   "theorems": [
    "C173_forged",
    "C173_flagged"
   ],
   "note": "C173_flagged: for a missing address, the X-Sender-IP header has neither full stop nor colon"
  },
  {
   "property": "C174",
   "status": "proved",
   "theorems": [
    "C174_exactly",
    "C174_flagged",
    "C174_groups"
   ],
   "note": "C174_exactly: texts without NNFMP; C174_groups: mail of Yahoo groups is spared"
  },
  {
   "property": "C175",
   "status": "partial",
   "theorems": [
    "C175_flagged",
    "C175_spared_partial",
    "C175_without_address",
    "C175_refuted"
   ],
   "note": "false without X-Originating-IP"
  },
  {
   "property": "C176",
   "status": "proved",
   "theorems": [
    "C176_matching",
    "C176_refuted",
    "C176_refuted_no_sender"
   ],
   "note": "the exact condition; the intended meaning is refuted"
  },
  {
   "property": "C177",
   "status": "proved",
   "theorems": [
    "C177_gw05"
   ],
   "note": ""
  },
  {
   "property": "C178",
   "status": "proved",
   "theorems": [
    "C178_template"
   ],
   "note": ""
  },
  {
   "property": "C179",
   "status": "proved",
   "theorems": [
    "C179_not_usable"
   ],
   "note": ""
  },
  {
   "property": "C180",
   "status": "proved",
   "theorems": [
    "C180_address",
    "C180_user",
    "C180_other"
   ],
   "note": "C180_user: one recipient whose user name has no blank"
  },
  {
   "property": "C181",
   "status": "proved",
   "theorems": [
    "C181_outlook",
    "C181_other",
    "C181_refuted"
   ],
   "note": "the whole-second arithmetic of the code is exact on rationals; float rounding is not modelled"
  },
  {
   "property": "C182",
   "status": "proved",
   "theorems": [
    "C182_greeting"
   ],
   "note": "Spec: greets_inside in Spec_ReceivedFields.v, for a header that is listed (plain_text). Case: C182_case."
  },
  {
   "property": "C183",
   "status": "proved",
   "theorems": [
    "C183_ident",
    "C183_sender"
   ],
   "note": "Spec: states_ident, sends_as. Case: C183_case."
  },
  {
   "property": "C184",
   "status": "proved",
   "theorems": [
    "C184_table"
   ],
   "note": "Spec: the relation auth_of in Spec_ReceivedFields.v, one constructor for each row. Headers in which a text of a row occurs twice (a second version=, a second gmx server) are in no row. Case: C184_case."
  },
  {
   "property": "C185",
   "status": "proved",
   "theorems": [
    "C185_nameless"
   ],
   "note": "Spec: nameless. Case: C185_case."
  },
  {
   "property": "C186",
   "status": "proved",
   "theorems": [
    "C186_unlisted"
   ],
   "note": "Case: C186_case."
  },
  {
   "property": "C187",
   "status": "partial",
   "theorems": [
    "C187_group",
    "C187_notifications",
    "C187_hotmail",
    "C187_refuted"
   ],
   "note": "The claim for every group name is false (C187_refuted: a name with a bracket raises); proved exactly for names without characters special in patterns."
  },
  {
   "property": "C188",
   "status": "partial",
   "theorems": [
    "C188_name_id",
    "C188_other_id",
    "C188_raises",
    "C188_refuted",
    "C188_neither"
   ],
   "note": "Exact for addresses without characters special in patterns; C188_refuted: others may raise."
  },
  {
   "property": "C189",
   "status": "partial",
   "theorems": [
    "C189_exactly",
    "C189_bracketed",
    "C189_refuted"
   ],
   "note": "Exact for bare addresses without characters special in patterns; To headers ending in > are never found; C189_refuted: an address with a bracket raises."
  },
  {
   "property": "C190",
   "status": "partial",
   "theorems": [
    "C190_only",
    "C190_none",
    "C190_exactly_partial",
    "C190_refuted",
    "C190_number"
   ],
   "note": "Exact for subjects without five digits in a row, and for subjects that end in a number of seven digits or more (C190_number); for the others only that yes implies one of the forms; C190_refuted: the rule raises for some subjects."
  },
  {
   "property": "C191",
   "status": "proved",
   "theorems": [
    "C191_success",
    "C191_no_rules"
   ],
   "note": "Exact condition for status 0 with the exact list of effects. The case without rules covers stored rule sets too."
  },
  {
   "property": "C192",
   "status": "partial",
   "theorems": [
    "C192_before_partial",
    "C192_refuted",
    "C192_messages"
   ],
   "note": "False for the messages after the broken one (C192_refuted); the messages before it are handled exactly."
  },
  {
   "property": "C193",
   "status": "partial",
   "theorems": [
    "C193_file_or_input_partial",
    "C193_input",
    "C193_refuted"
   ],
   "note": "Holds for valid UTF-8; other files end the run (C193_refuted). C193_input is exact for texts with bytes between them that begin no character; truncated codes are not covered."
  },
  {
   "property": "C194",
   "status": "partial",
   "theorems": [
    "C194_stored_partial",
    "C194_short_circuit",
    "C194_fall_back",
    "C194_failed_partial",
    "C194_stale_refuted",
    "C194_unusable"
   ],
   "note": "The stored set is the one compiled last, followed by the post-parsing steps; that these change no result when repeated is proved for the short circuits. A stored set older than the configuration is used (C194_stale_refuted)."
  },
  {
   "property": "C195",
   "status": "partial",
   "theorems": [
    "C195_exactly_partial",
    "C195_three",
    "C195_refuted"
   ],
   "note": "Exact for numeric versions up to 2.7 and of 3; false for others (C195_refuted)."
  },
  {
   "property": "C196",
   "status": "partial",
   "theorems": [
    "C196_orderly_partial",
    "C196_refuted",
    "C196_killed_refuted",
    "C196_foreground"
   ],
   "note": "Holds for histories of daemons started one at a time without errors; C196_refuted and C196_killed_refuted give four that break it."
  },
  {
   "property": "C197",
   "status": "partial",
   "theorems": [
    "C197_options_partial",
    "C197_tell_refuted",
    "C197_server"
   ],
   "note": "Exact; --allow-tell has no effect (C197_tell_refuted)."
  },
  {
   "property": "C198",
   "status": "partial",
   "theorems": [
    "C198_screen",
    "C198_file",
    "C198_sentry_partial",
    "C198_sentry_refuted",
    "C198_twice_refuted"
   ],
   "note": "Exact for screen and file; Sentry is also limited by the level of the file, and setting up twice doubles every message."
  },
  {
   "property": "C199",
   "status": "partial",
   "theorems": [
    "C199_ifplugin",
    "C199_distinct",
    "C199_pdf_refuted",
    "C199_documented_partial",
    "C199_documented_refuted"
   ],
   "note": "Holds for every plugin of the table; the PDF plugin is not in it (C199_pdf_refuted)."
  },
  {
   "property": "C200",
   "status": "proved",
   "theorems": [
    "C200_servers"
   ],
   "note": "For lists of lines that are addresses (with or without brackets and port) or nothing of the kind; lines with one bracket missing and ports with leading zeros are not covered."
  },
  {
   "property": "C201",
   "status": "partial",
   "theorems": [
    "C201_refuted",
    "C201_interval_partial",
    "C201_edns_partial"
   ],
   "note": "False for every configuration (C201_refuted); the setters of the DNS interface work."
  },
  {
   "property": "C202",
   "status": "partial",
   "theorems": [
    "C202_stored_partial",
    "C202_refuted"
   ],
   "note": "Holds for servers, port and times; false for EDNS (C202_refuted)."
  },
  {
   "property": "C203",
   "status": "partial",
   "theorems": [
    "C203_sum",
    "C203_kinds_partial",
    "C203_kinds_refuted"
   ],
   "note": "The counts always add up; they are what they are called for messages with at most 150 known tokens. With more, strong tokens are counted as neutral (refuted)."
  },
  {
   "property": "C204",
   "status": "partial",
   "theorems": [
    "C204_hammy",
    "C204_spammy_partial",
    "C204_spammy_refuted",
    "C204_neutral"
   ],
   "note": "Exact for hammy tokens up to a millionth of a message; for spammy tokens the equation uses the mirrored prior: the distance is never too large, but can be too small (refuted)."
  },
  {
   "property": "C205",
   "status": "partial",
   "theorems": [
    "C205_list",
    "C205_limit_refuted",
    "C205_long_refuted",
    "C205_tags_partial",
    "C205_tags_refuted"
   ],
   "note": "The lists have exactly the used tokens; the limit is ignored, the long formats raise, and after a failed update of the access times making the tags raises."
  },
  {
   "property": "C206",
   "status": "partial",
   "theorems": [
    "C206_listed_partial",
    "C206_whole_refuted",
    "C206_star_refuted"
   ],
   "note": "Entries are used as expressions: for address-like entries the hits are characterised exactly; parts of addresses match and entries with a leading star make the check fail."
  },
  {
   "property": "C207",
   "status": "partial",
   "theorems": [
    "C207_found",
    "C207_all",
    "C207_own_partial",
    "C207_once",
    "C207_capitals_refuted",
    "C207_accent_refuted"
   ],
   "note": "Proved for addresses in small letters without characters from 127 to 255; others are missed or cut."
  },
  {
   "property": "C208",
   "status": "proved",
   "theorems": [
    "C208_texts"
   ],
   "note": "The HTML parser is a quantified function."
  },
  {
   "property": "C209",
   "status": "partial",
   "theorems": [
    "C209_loaded_partial",
    "C209_text",
    "C209_charset_refuted"
   ],
   "note": "Exact condition; a NUL in the name of a charset or an exception of the HTML parser stops loading."
  },
  {
   "property": "C210",
   "status": "partial",
   "theorems": [
    "C210_ascii_partial",
    "C210_latin_partial",
    "C210_escapes",
    "C210_utf8_refuted"
   ],
   "note": "True of ASCII and of ISO-8859-1; in UTF-8 other characters become escapes or vanish."
  },
  {
   "property": "C211",
   "status": "partial",
   "theorems": [
    "C211_words_partial",
    "C211_charset_refuted",
    "C211_unsplit",
    "C211_subject_refuted"
   ],
   "note": "True unless the name of a charset contains a NUL. A header that cannot be split has no value and, as the subject, stops loading."
  },
  {
   "property": "C212",
   "status": "proved",
   "theorems": [
    "C212_values",
    "C212_decoded"
   ],
   "note": "For all messages that are loaded."
  },
  {
   "property": "C213",
   "status": "proved",
   "theorems": [
    "C213_quoted_printable",
    "C213_base64"
   ],
   "note": "Decoding is that of CPython (PyMime.v); UTF-8 with errors ignored is modelled."
  },
  {
   "property": "C214",
   "status": "proved",
   "theorems": [
    "C214_pieces"
   ],
   "note": "Messages with one HTML part; the parser is a model of html.parser of CPython 3.11."
  },
  {
   "property": "C215",
   "status": "proved",
   "theorems": [
    "C215_document"
   ],
   "note": "For every document of the grammar of Spec_Html."
  },
  {
   "property": "C216",
   "status": "partial",
   "theorems": [
    "C216_refuted",
    "C216_program_refuted"
   ],
   "note": "The property is false: a blank stands in the place of every tag, comment or reference inside a word, and the text of scripts and styles is seen."
  },
  {
   "property": "C217",
   "status": "partial",
   "theorems": [
    "C217_refuted",
    "C217_number_refuted"
   ],
   "note": "The property is false: nothing after unfinished markup is seen."
  },
  {
   "property": "C218",
   "status": "partial",
   "theorems": [
    "C218_refuted",
    "C218_loaded_partial"
   ],
   "note": "The property is false: unknown marked sections make loading raise. Proved: messages without marked sections are loaded."
  },
  {
   "property": "C219",
   "status": "proved",
   "theorems": [
    "C219_page"
   ],
   "note": "Pages are those of Spec_Links.a_page: proper documents of Spec_Html without broken and stray link tags."
  },
  {
   "property": "C220",
   "status": "proved",
   "theorems": [
    "C220_placed"
   ],
   "note": "For every text, with the parser of the standard library as modelled in PyHtml."
  },
  {
   "property": "C221",
   "status": "partial",
   "theorems": [
    "C221_refuted",
    "C221_section_refuted"
   ],
   "note": "The property is false: an address attribute without value or with an address urlparse rejects makes loading raise, and so does an unknown marked section, in plain text too. C219_page is the positive part: pages are loaded."
  },
  {
   "property": "C222",
   "status": "partial",
   "theorems": [
    "C222_refuted"
   ],
   "note": "The property is false: what follows unfinished markup makes no difference. C219_page is the positive part: on pages all links are recorded."
  },
  {
   "property": "C223",
   "status": "partial",
   "theorems": [
    "C223_found_partial",
    "C223_refuted"
   ],
   "note": "The property is false: a first anchor to a named host switches the check off. Proved if all anchors lead to numeric addresses and the shown https addresses can be parsed."
  },
  {
   "property": "C224",
   "status": "proved",
   "theorems": [
    "C224_truncated"
   ],
   "note": "On pages."
  },
  {
   "property": "C225",
   "status": "proved",
   "theorems": [
    "C225_parts",
    "C225_texts"
   ],
   "note": "For mails composed by the grammar of Spec_Message: any nesting, folded fields, quoted parameters, preambles and epilogues. Texts in quoted-printable and base64 are covered by C225_parts together with C213. Digests and delivery reports are not part of the grammar."
  },
  {
   "property": "C226",
   "status": "proved",
   "theorems": [
    "C226_line_breaks"
   ],
   "note": "For every list of rows without carriage returns and line feeds."
  },
  {
   "property": "C227",
   "status": "partial",
   "theorems": [
    "C227_loaded_partial",
    "C227_sections_refuted",
    "C227_boundary_refuted"
   ],
   "note": "False: a charset or boundary given both as a whole and in sections raises. Proved for all texts, however malformed, without NUL and without asterisk in rows that could be a header, if header fields can be decoded and the HTML parser does not raise (C209, C218)."
  },
  {
   "property": "C228",
   "status": "proved",
   "theorems": [
    "C228_rows"
   ],
   "note": "For every text that the email package splits, well formed or not."
  },
  {
   "property": "C229",
   "status": "partial",
   "theorems": [
    "C229_refuted",
    "C229_closed_refuted"
   ],
   "note": "False: the body of a multipart message without its separator is seen by no rule, whatever it says. For composed mails C225_texts says what is seen."
  },
  {
   "property": "C230",
   "status": "proved",
   "theorems": [
    "C230_flag"
   ],
   "note": "For mails of the grammar of Spec_Message."
  },
  {
   "property": "C231",
   "status": "proved",
   "theorems": [
    "C231_addresses",
    "C231_rule"
   ],
   "note": "Both parsers of the library (strict and not); lim is the nesting limit of the interpreter, at least 1."
  },
  {
   "property": "C232",
   "status": "partial",
   "theorems": [
    "C232_total_partial",
    "C232_refuted"
   ],
   "note": "Proved for headers with at most as many opening brackets and colons as calls may nest. False in general: nested brackets raise RecursionError, for every limit."
  },
  {
   "property": "C233",
   "status": "proved",
   "theorems": [
    "C233_from_text"
   ],
   "note": "For every text whose addresses are read (no exception)."
  },
  {
   "property": "C234",
   "status": "partial",
   "theorems": [
    "C234_refuted",
    "C234_named_partial"
   ],
   "note": "False of the code: an address in the place of the name is used instead (older parser) or leaves no address at all, so that no black list entry matches (newer parser). Holds when the name is made of words or quoted."
  },
  {
   "property": "C235",
   "status": "proved",
   "theorems": [
    "C235_all_from",
    "C235_senders",
    "C235_recipients"
   ],
   "note": ""
  },
  {
   "property": "C236",
   "status": "partial",
   "theorems": [
    "C236_refuted"
   ],
   "note": "False of the code: such a header has the address None."
  },
  {
   "property": "C237",
   "status": "partial",
   "theorems": [
    "C237_words",
    "C237_tokens",
    "C237_paragraphs_refuted"
   ],
   "note": "Every word of every text is kept in order. A paragraph is not one line: the pattern for blanks is a sequence of five characters, so each row stays a line."
  },
  {
   "property": "C238",
   "status": "proved",
   "theorems": [
    "C238_alphabet",
    "C238_plain",
    "C238_outlook",
    "C238_exim",
    "C238_sendmail"
   ],
   "note": ""
  },
  {
   "property": "C239",
   "status": "partial",
   "theorems": [
    "C239_stop_words",
    "C239_kept",
    "C239_queue_id",
    "C239_queue_id_refuted"
   ],
   "note": "A date between id and the number leaves the number behind. That blanks are no word characters is a hypothesis about the Unicode tables. Removal of dates is only shown by example."
  },
  {
   "property": "C240",
   "status": "partial",
   "theorems": [
    "C240_stop_words",
    "C240_without_boundary",
    "C240_shape_partial",
    "C240_separators_refuted"
   ],
   "note": "The replacement is not a raw string: separators become the character 1, and the shape is joined to the boundary, which stays."
  },
  {
   "property": "C241",
   "status": "proved",
   "theorems": [
    "C241_score",
    "C241_named_are_there"
   ],
   "note": "Rules for one word of letters and digits and meta rules over them; plugins, eval rules and the modifiers of header rules are covered by their own properties."
  },
  {
   "property": "C242",
   "status": "proved",
   "theorems": [
    "C242_verdict"
   ],
   "note": "One rule set for all users."
  },
  {
   "property": "C243",
   "status": "proved",
   "theorems": [
    "C243_symbols"
   ],
   "note": "One rule set for all users."
  },
  {
   "property": "C244",
   "status": "proved",
   "theorems": [
    "C244_needed",
    "C244_plain",
    "C244_no_change",
    "C244_stops",
    "C244_either"
   ],
   "note": "needed: the list of needed rules exists and is unique; either: one of the cases no_change and stops always applies; plain: the meaning of the rules without short-circuiting. Python's limit on the depth of calls is not modelled."
  },
  {
   "property": "C245",
   "status": "partial",
   "theorems": [
    "C245_lists",
    "C245_unknown_list_refuted"
   ],
   "note": "Exact answers of the rules for lists that exist, from the option lines and header texts; false for unknown list names, which raise. Names of the relay and host lists are not covered."
  },
  {
   "property": "C246",
   "status": "partial",
   "theorems": [
    "C246_whitelist_partial",
    "C246_every_line_refuted"
   ],
   "note": "Each line replaces the one before and is split at commas: the exact answer by the last line is proved, that every line counts is refuted."
  },
  {
   "property": "C247",
   "status": "partial",
   "theorems": [
    "C247_hosts_partial",
    "C247_every_line_refuted",
    "C247_blank_piece_refuted"
   ],
   "note": "The exact answer by the last line of each option is proved; that every line counts and that no line stops the filter is refuted."
  },
  {
   "property": "C248",
   "status": "proved",
   "theorems": [
    "C248_two_at_signs",
    "C248_closing_bracket"
   ],
   "note": ""
  },
  {
   "property": "C249",
   "status": "proved",
   "theorems": [
    "C249_kinds",
    "C249_clears",
    "C249_no_others",
    "C249_before_any_line",
    "C249_lists_start_empty"
   ],
   "note": "The names, kinds, starting values and clear lists are written out in Spec_MainOptions.v, apart from the model. Lists are shared between contexts (C21), so a later context can start with what an earlier one added."
  },
  {
   "property": "C250",
   "status": "partial",
   "theorems": [
    "C250_sound",
    "C250_one",
    "C250_more_partial",
    "C250_refuted"
   ],
   "note": "Words that touch can hide each other (\"yearestimatesector\"): refuted; exact for one word, and for more when a character that is none of a word stands between any two."
  },
  {
   "property": "C251",
   "status": "partial",
   "theorems": [
    "C251_as_fresh_partial",
    "C251_compiled_once",
    "C251_subn_refuted"
   ],
   "note": "Refuted: subn gives the text only, without the number of replacements that the library's subn gives."
  },
  {
   "property": "C252",
   "status": "partial",
   "theorems": [
    "C252_order",
    "C252_each_once",
    "C252_answers",
    "C252_as_written_refuted"
   ],
   "note": "Every header is listed once. Names are listed in lower case and grouped, not as in the message; the rule that dumps the headers never hits, as it gives back nothing."
  },
  {
   "property": "C253",
   "status": "partial",
   "theorems": [
    "C253_sent_partial",
    "C253_answer_unused",
    "C253_unencodable_refuted",
    "C253_off_refuted"
   ],
   "note": "Refuted: a message that cannot be encoded makes the report fail after the program was started; with use_razor2 off, messages are reported all the same."
  },
  {
   "property": "C254",
   "status": "partial",
   "theorems": [
    "C254_read_partial",
    "C254_one",
    "C254_touched",
    "C254_shared_refuted"
   ],
   "note": "Refuted for tables with several rows of a token, which their keys allow: one store raises, the other answers with the first."
  },
  {
   "property": "C255",
   "status": "partial",
   "theorems": [
    "C255_chain_partial",
    "C255_shown",
    "C255_file_refuted"
   ],
   "note": "The list is a true way of includes with right numbers and texts, but each line names the included file instead of the including one (refuted)."
  },
  {
   "property": "C256",
   "status": "proved",
   "theorems": [
    "C256_true",
    "C256_reported",
    "C256_outcome",
    "C256_included",
    "C256_in_order"
   ],
   "note": "Places of missing arguments; the texts of the log lines themselves and the messages about unknown options are not modelled."
  },
  {
   "property": "C257",
   "status": "proved",
   "theorems": [
    "C257_report"
   ],
   "note": "From the lines of the configuration and the text of the mail to the text of the report. Templates with a percent sign (see C67) are outside the property. Nothing is said about the contents of the tags REPORT, TESTSSCORES and PREVIEW (see C55, C68, C67), only that they never make the report fail."
  },
  {
   "property": "C258",
   "status": "proved",
   "theorems": [
    "C258_changed"
   ],
   "note": "From the lines of the configuration and the text of the mail to the fields of the changed mail. Templates with a percent sign are outside the property (see C67). The text of the wrapping report is that of C257; the body kept is a parameter."
  }
 ]
}