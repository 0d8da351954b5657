{"id": "C01", "title": "The score of a message is the sum of its hits", "statement": "After RuleSet.match(msg) runs to the end, msg.score is the score the message had before plus the score of every checked rule that hit, added once each and in processing order; rules that did not hit add nothing. If processing is stopped early the same holds for the rules processed before the stop.", "quantifier": "every rule set (any number of rules, any scores), every message, every combination of rule outcomes (hit, miss, text result, exception, stop)", "why_tests_cant": "A test fixes a handful of rules and outcomes; the claim is an identity over unbounded rule lists and all outcome patterns.", "anchors": ["oa/rules/ruleset.py:RuleSet.match", "oa/rules/base.py:BaseRule"]}
{"id": "C02", "title": "A failing rule is contained", "statement": "If checking a rule raises any exception other than the stop request, the message ends up exactly as if that rule had reported no hit: same score, same results for all other rules, same descriptions.", "quantifier": "every rule set, message and position of the failing rule, any number of failing rules", "why_tests_cant": "Quantifies over all rule sets and all failing positions simultaneously.", "anchors": ["oa/rules/ruleset.py:RuleSet.match", "oa/rules/eval_.py:EvalRule.match"]}
{"id": "C03", "title": "Rules run in priority order", "statement": "The rules checked against a message are exactly the active rules of the rule set, each once, ordered by the configured priority (higher priority first), rules of equal priority in order of first definition.", "quantifier": "every set of rules and every assignment of priorities", "why_tests_cant": "Sorting stability and permutation over unbounded inputs.", "anchors": ["oa/rules/ruleset.py:RuleSet.post_parsing", "oa/rules/base.py:BaseRule.__lt__"]}
{"id": "C04", "title": "The hit list is exact", "statement": "After a message has been matched, the names listed by SYMBOLS and by the _TESTS_ tag are exactly the names of the rules that hit, each once, in processing order, and every rule that was processed has a recorded result.", "quantifier": "every rule set and message", "why_tests_cant": "Universal over result patterns and rule orders.", "anchors": ["oa/rules/ruleset.py:RuleSet.match", "oa/rules/ruleset.py:RuleSet._interpolate", "oa/protocol/check.py:SymbolsCommand"]}
{"id": "C05", "title": "All surfaces agree on the verdict", "statement": "CHECK, REPORT_IFSPAM, the YESNO tag and the choice of spam/ham header edits in PROCESS all call a message spam in exactly the same case: its score is greater than or equal to the required score.", "quantifier": "every score and threshold, including equality", "why_tests_cant": "Agreement of several code paths for every pair of values.", "anchors": ["oa/protocol/check.py", "oa/protocol/process.py", "oa/rules/ruleset.py:RuleSet.get_adjusted_message", "oa/rules/ruleset.py:RuleSet._interpolate"]}
{"id": "C06", "title": "Four-valued scores follow the Bayes/network mode", "statement": "A rule configured with four scores contributes the first when neither Bayes nor network tests are in use, the second with network only, the third with Bayes only, the fourth with both; a rule configured with one score contributes it in all modes; any other number of scores is rejected.", "quantifier": "every list of scores, every mode, every flag list", "why_tests_cant": "Universal over score values; the interesting case is a particular value (zero) a test would not pick.", "anchors": ["oa/rules/base.py:BaseRule.__init__", "oa/rules/base.py:BaseRule.preprocess"]}
{"id": "C07", "title": "Sub-rules never score by themselves", "statement": "A rule whose name starts with two underscores is never checked on its own and never changes the score or the hit list of any message, whatever score is configured for it; it can only act through meta rules.", "quantifier": "every configuration, every message", "why_tests_cant": "Needs all configurations and all messages.", "anchors": ["oa/rules/base.py:BaseRule.__init__", "oa/rules/base.py:BaseRule.should_check", "oa/rules/ruleset.py:RuleSet.add_rule"]}
{"id": "C08", "title": "Test flags switch rules off", "statement": "A rule flagged net (learn, noautolearn, userconf) is not checked when network tests are off (Bayes is off, autolearn is on, user configuration is off), and a rule with none of these flags is checked independently of those switches unless the score selected for it is zero.", "quantifier": "every flag list, every switch setting, every score list", "why_tests_cant": "Interaction of all flags and switches with arbitrary scores.", "anchors": ["oa/rules/base.py:BaseRule.preprocess", "oa/rules/base.py:BaseRule.should_check"]}
{"id": "C09", "title": "Short-circuit stops exactly at the hit", "statement": "If a short-circuited rule is the first one to hit, no rule after it in processing order is evaluated, recorded or scored, and the final score is the sum of the hits before it plus its own score plus the configured spam (or ham) bonus; if no short-circuited rule hits, the outcome is the same as without short-circuiting.", "quantifier": "every rule set, every subset of short-circuited rules with any type, every message", "why_tests_cant": "Universal over the position of the hit and over all rule outcomes.", "anchors": ["oa/plugins/short_circuit.py:ShortCircuitRule.__call__", "oa/plugins/short_circuit.py:ShortCircuitPlugin.finish_parsing_end", "oa/rules/ruleset.py:RuleSet.match"]}
{"id": "C10", "title": "Meta rules mean their expression", "statement": "The result of a meta rule on a message is the value of its boolean/arithmetic expression when every rule name in it stands for the result that rule gives on that message, to any nesting depth of meta rules.", "quantifier": "every expression, every acyclic rule set, every message", "why_tests_cant": "Expressions and nesting are unbounded.", "anchors": ["oa/rules/meta.py:MetaRule.postparsing", "oa/rules/meta.py:MetaRule.match"]}
{"id": "C11", "title": "No circular or dangling meta rule survives loading", "statement": "Loading a rule set always terminates, and afterwards no usable meta rule refers, directly or through other meta rules, to itself or to an undefined rule; consequently checking any message terminates.", "quantifier": "every set of meta rules with any reference graph, any loading order", "why_tests_cant": "All reference graphs, including every cyclic one.", "anchors": ["oa/rules/meta.py:MetaRule.postparsing", "oa/rules/ruleset.py:RuleSet.call_postparsing"]}
{"id": "C12", "title": "Well-founded meta rules are kept", "statement": "A meta rule all of whose direct and indirect references are defined and acyclic is available after loading, whatever the order in which rules were defined.", "quantifier": "every acyclic reference graph, every order", "why_tests_cant": "Depth is unbounded and order matters; tests use shallow graphs.", "anchors": ["oa/rules/meta.py:MAX_RECURSION", "oa/rules/meta.py:MetaRule.postparsing"]}
{"id": "C13", "title": "Header rules fire on the right polarity", "statement": "A header rule written with =~ hits exactly when some value of the named header matches the pattern; one written with !~ hits exactly when the header does not match the pattern (no value matches); an exists: rule hits exactly when the named header is present.", "quantifier": "every header name, pattern and message", "why_tests_cant": "All header multisets, including absent and repeated headers.", "anchors": ["oa/rules/header.py:HeaderRule.get_rule", "oa/rules/header.py:_PatternHeaderRule.match", "oa/rules/header.py:_ExistsHeaderRule.match", "oa/regex.py:NotMatchPattern"]}
{"id": "C14", "title": "Every accepted rule can be looked up and is in exactly one table", "statement": "After adding any sequence of rules with distinct names, each one is found by name, is either active or inactive but not both, and is active exactly when it does not start with two underscores and its effective score is not zero.", "quantifier": "every sequence of rule definitions", "why_tests_cant": "Induction over the definition history.", "anchors": ["oa/rules/ruleset.py:RuleSet.add_rule", "oa/rules/ruleset.py:RuleSet.get_rule"]}
{"id": "C15", "title": "Last definition wins, rules do not interfere", "statement": "For each rule and each of its attributes (pattern, score, priority, description, flags) the value in force is the one on the last accepted configuration line that sets it, wherever the other lines are; lines about one rule never change another rule.", "quantifier": "every sequence of configuration lines over any number of files", "why_tests_cant": "Histories of definitions are unbounded and interleave arbitrarily.", "anchors": ["oa/rules/parser.py:PADParser._handle_line", "oa/rules/parser.py:PADParser.get_ruleset"]}
{"id": "C16", "title": "Comments and blank lines are inert", "statement": "Inserting or deleting blank lines, whole-line comments and trailing comments anywhere in a configuration file changes nothing in the result.", "quantifier": "every file and every insertion position and comment text", "why_tests_cant": "Universal over positions and texts, inside and outside conditional blocks.", "anchors": ["oa/rules/parser.py:PADParser._handle_line"]}
{"id": "C17", "title": "Conditional blocks", "statement": "Lines inside an ifplugin block take effect if and only if the plugin is loaded when the block is reached, lines in its else part if and only if it is not, for blocks nested to any depth, and a block left open in one file does not affect another file.", "quantifier": "every file, every nesting, every set of loaded plugins", "why_tests_cant": "Nesting and block placement are unbounded.", "anchors": ["oa/rules/parser.py:PADParser._handle_line", "oa/rules/parser.py:PADParser._handle_ifplugin"]}
{"id": "C18", "title": "Include processing terminates", "statement": "Parsing terminates for every include graph, cyclic or not; nesting deeper than ten includes is reported as an error and never followed, and any graph nested at most ten deep is processed completely, each include contributing the lines of the included file in place.", "quantifier": "every file system and include graph", "why_tests_cant": "Cyclic and arbitrarily wide graphs.", "anchors": ["oa/rules/parser.py:PADParser.parse_file", "oa/rules/parser.py:PADParser._handle_include"]}
{"id": "C19", "title": "An unusable configuration line is skipped", "statement": "When not in paranoid mode, a configuration line that cannot be used (missing argument, unknown option, invalid rule or regex, bad option value) is ignored: the result is the one obtained without that line.", "quantifier": "every file, every bad line and position", "why_tests_cant": "Needs all positions and all surrounding configurations.", "anchors": ["oa/rules/parser.py:PADParser.parse_file", "oa/rules/parser.py:PADParser.get_ruleset", "oa/conf.py:Conf.set_int_option"]}
{"id": "C20", "title": "Typed option parsing", "statement": "Integer, float, boolean, list, append and time options store the value their text denotes: booleans are true exactly for 1/true in any case, time values are the number multiplied by the unit in seconds, negative or unknown units leave the option unchanged, and setting one option never changes another.", "quantifier": "every option table, option name and text", "why_tests_cant": "Texts are unbounded; frame condition over all other options.", "anchors": ["oa/conf.py:Conf"]}
{"id": "C21", "title": "Configurations of different rule sets are isolated", "statement": "Options set while building one rule set (one context) are not visible in any other context created before or after in the same process; in particular reloading the same files yields the same options.", "quantifier": "every sequence of context creations and option lines", "why_tests_cant": "A history property over interleavings of contexts; unit tests build one context.", "anchors": ["oa/conf.py:Conf.__init__", "oa/conf.py:Conf.set_append_option", "oa/conf.py:Conf.set_append_split_option", "oa/networks.py:NetworkList"]}
{"id": "C22", "title": "Clear options forget all and only their lists", "statement": "After a clear_* option the lists it governs contain exactly what is added after it, and no other option changes.", "quantifier": "every history of option lines", "why_tests_cant": "Histories are unbounded.", "anchors": ["oa/conf.py:Conf.set_clear_option"]}
{"id": "C23", "title": "Configuration file precedence", "statement": "Files are read in a fixed order: plugin-loading (.pre) files before rule files, distribution rules before site rules, user preferences last, so that a later file overrides an earlier one; no file is read twice.", "quantifier": "every directory content and every choice of directories", "why_tests_cant": "All directory listings.", "anchors": ["oa/config.py:get_config_files", "oa/config.py:get_default_configs"]}
{"id": "C24", "title": "User preference files are confined", "statement": "The preference file consulted for a client-supplied user name lies below that user's home directory; a client cannot make the server read a file elsewhere.", "quantifier": "every user name string a client can send", "why_tests_cant": "Adversarial strings are unbounded.", "anchors": ["oa/config.py:get_userprefs_path", "oa/server.py:Server.get_user_ruleset"]}
{"id": "C25", "title": "Network membership is decided by the first matching entry", "statement": "An address is in a network list exactly when the first configured entry that contains it is not an exclusion; an address no entry contains is not in the list.", "quantifier": "every list of networks and exclusions, every IPv4/IPv6 address", "why_tests_cant": "2^128 addresses and unbounded lists.", "anchors": ["oa/networks.py:NetworkListBase.__contains__"]}
{"id": "C26", "title": "Loopback is always trusted and internal", "statement": "127.0.0.0/8 and ::1 are in the trusted and internal lists after every sequence of network configuration lines.", "quantifier": "every sequence of trusted/internal/msa lines, every loopback address", "why_tests_cant": "History property over arbitrary exclusions and clears.", "anchors": ["oa/networks.py:TrustedNetworks", "oa/networks.py:NetworkList"]}
{"id": "C27", "title": "Internal networks are trusted", "statement": "Every address considered internal is also considered trusted, for every network configuration.", "quantifier": "every sequence of network lines, every address", "why_tests_cant": "Interleavings of trusted/internal/exclusion lines.", "anchors": ["oa/networks.py:NetworkList.add_trusted_network", "oa/networks.py:NetworkList.add_internal_network"]}
{"id": "C28", "title": "Network shorthand denotes the obvious prefix", "statement": "a., a.b., a.b.c. and a.b.c denote a.0.0.0/8, a.b.0.0/16, a.b.c.0/24 and a.b.c.0/24; an explicit mask is used as given.", "quantifier": "every octet values and masks", "why_tests_cant": "All octet values and string shapes.", "anchors": ["oa/networks.py:_format_network_str", "oa/networks.py:NetworkList._extract_network"]}
{"id": "C29", "title": "Relays are partitioned in order", "statement": "Every Received relay with an address appears exactly once in trusted or untrusted and exactly once in internal or external, in header order; the trusted relays precede all untrusted ones, internal precede external, and every internal relay is trusted.", "quantifier": "every relay list, every network configuration, every authentication pattern", "why_tests_cant": "Unbounded relay chains with adversarial content.", "anchors": ["oa/message.py:Message._parse_relays"]}
{"id": "C30", "title": "Forged relay headers cannot become trusted", "statement": "Once a relay is untrusted (an address outside the trusted networks with no authentication) every relay further from the receiver is untrusted, so a sender cannot make any header they supply count as trusted by choosing its contents, unless a trusted MSA was crossed before.", "quantifier": "every chain and every adversarial suffix", "why_tests_cant": "Universal over adversarial suffixes.", "anchors": ["oa/message.py:Message._parse_relays"]}
{"id": "C31", "title": "Command dispatch is total and isolated", "statement": "For every request line of two words, a known command in any letter case is run and an unknown one gets a 76 error line and has no other effect.", "quantifier": "every request line", "why_tests_cant": "All request lines.", "anchors": ["oa/server.py:RequestHandler.handle"]}
{"id": "C32", "title": "Request options are read completely and exactly", "statement": "The option block of a request is exactly the lines up to the first empty line; each option is available under its lower-cased name with surrounding blanks of the value removed, the last occurrence wins, a line without a colon is rejected, and the message body starts right after the empty line.", "quantifier": "every byte stream", "why_tests_cant": "Unbounded line lists.", "anchors": ["oa/protocol/base.py:BaseProtocol.get_options"]}
{"id": "C33", "title": "The message analysed is the message sent", "statement": "The text handed to the rules is the decoding of exactly the first Content-length bytes after the options (all remaining bytes if no length is given), independent of how the transport fragments them.", "quantifier": "every byte stream, content length and fragmentation", "why_tests_cant": "Message size unbounded, boundary positions arbitrary.", "anchors": ["oa/protocol/base.py:BaseProtocol.get_message"]}
{"id": "C34", "title": "Replies are framed correctly", "statement": "The Content-length announced in a reply equals the number of bytes of the body that follow.", "quantifier": "every result text", "why_tests_cant": "All texts, including non-ASCII.", "anchors": ["oa/protocol/check.py", "oa/protocol/process.py"]}
{"id": "C35", "title": "TELL performs exactly what was asked", "statement": "A TELL request reports the message when Set is given and revokes it when Remove is given, for exactly the databases listed, with the requested class, and echoes exactly the performed actions in DidSet/DidRemove.", "quantifier": "every option dictionary", "why_tests_cant": "All combinations and spellings of targets.", "anchors": ["oa/protocol/tell.py:TellCommand.handle"]}
{"id": "C36", "title": "User rule sets are isolated and cached correctly", "statement": "The rule set used for a user depends only on the site configuration and that user's preference file, not on which users were served before; requests without user, with user rules disallowed or without a preference file use the site rule set; after a reload no stale rule set is used.", "quantifier": "every history of requests, preference files and reloads", "why_tests_cant": "History property over all request interleavings.", "anchors": ["oa/server.py:Server.get_user_ruleset", "oa/server.py:Server.load_config"]}
{"id": "C37", "title": "Plugin registry consistency", "statement": "An eval rule name resolves to the most recently loaded plugin that provides it and is still loaded; after unloading a plugin none of its rules, commands or data remain and all rules of the other plugins remain available.", "quantifier": "every history of load/unload operations", "why_tests_cant": "Histories are unbounded.", "anchors": ["oa/context.py:GlobalContext.load_plugin", "oa/context.py:GlobalContext.unload_plugin"]}
{"id": "C38", "title": "Plugin hooks run in order until inhibited", "statement": "For every hook, plugins are called in load order, each at most once, until one inhibits the chain; a configuration option known to the core never reaches plugins.", "quantifier": "every plugin list and behaviour", "why_tests_cant": "Unbounded plugin lists.", "anchors": ["oa/context.py:_callback_chain", "oa/context.py:GlobalContext"]}
{"id": "C39", "title": "Auto-whitelist history is exact", "statement": "After any sequence of messages, the record of a sender/address pair holds exactly the number of messages filed under the pair and the sum of their scores before adjustment, where a message is filed under its own pair and the messages of unknown origin move to the next new address the sender uses; records of other senders are unaffected. This holds for every storage backend and for any number of processes sharing the table.", "quantifier": "every message history", "why_tests_cant": "Unbounded histories and interleavings of senders.", "anchors": ["oa/plugins/awl.py:AutoWhiteListPlugin.check_from_in_auto_whitelist"]}
{"id": "C40", "title": "Auto-whitelist adjustment", "statement": "A first message is not adjusted; a later one is moved towards the mean of the earlier scores by the configured factor, so with a factor in [0,1] the adjusted score lies between the raw score and the mean.", "quantifier": "every history, score and factor", "why_tests_cant": "All histories and rational values.", "anchors": ["oa/plugins/awl.py:AutoWhiteListPlugin.check_from_in_auto_whitelist"]}
{"id": "C41", "title": "Auto-learning is conservative", "statement": "A message is auto-learned as spam only if its score without no-autolearn rules reaches the spam threshold with enough header and body points and Bayes does not disagree, as ham only if it is below the ham threshold and Bayes does not disagree, and never both.", "quantifier": "every rule result set, thresholds and flags", "why_tests_cant": "Numeric boundary conditions over all rule sets.", "anchors": ["oa/plugins/auto_learn_threshold.py"]}
{"id": "C42", "title": "Bayes training bookkeeping", "statement": "Learning a message is idempotent, learning it with the opposite class first removes the earlier one, forgetting restores the counts, so after any history the spam and ham counts equal the number of messages currently learned in each class and each token count equals the number of such messages containing it.", "quantifier": "every history of learn/forget operations", "why_tests_cant": "Unbounded histories.", "anchors": ["oa/plugins/bayes.py:BayesPlugin.learn_message", "oa/plugins/bayes.py:BayesPlugin.forget_message", "oa/db/bayes/sqlalchemy.py:Store"]}
{"id": "C43", "title": "Token probabilities are probabilities", "statement": "The probability estimated for a token from any counts lies strictly between 0 and 1 (when defined), does not fall as its spam count grows, and is the mean of its observed spam share, weighted by its number of occurrences, and the prior 0.538, weighted 0.03.", "quantifier": "every token and corpus count", "why_tests_cant": "All naturals.", "anchors": ["oa/plugins/bayes.py:BayesPlugin._compute_prob_for_all_tokens"]}
{"id": "C44", "title": "Combined Bayes score is a probability", "statement": "The combined score of any list of token probabilities lies between 0 and 1, does not depend on their order, is 1/2 for no evidence, does not fall when a token's probability rises, and exchanging spam and ham evidence complements it.", "quantifier": "every list of probabilities", "why_tests_cant": "Unbounded lists of reals.", "anchors": ["oa/plugins/bayes.py:Chi.combine", "oa/plugins/bayes.py:Chi.chi2Q"]}
{"id": "C45", "title": "Address lists match whole addresses", "statement": "An address is matched by a whitelist/blacklist entry exactly when the entry, read with * as any string and ? as any character, equals the whole address, ignoring case.", "quantifier": "every entry and address", "why_tests_cant": "All strings, adversarial addresses.", "anchors": ["oa/plugins/wlbl_eval.py"]}
{"id": "C46", "title": "Messages do not influence each other's checks", "statement": "The result of a check on a message depends only on that message and the configuration, not on messages processed earlier by the same process.", "quantifier": "every sequence of messages, every check that keeps no declared history", "why_tests_cant": "History independence; unit tests check one message per process.", "anchors": ["oa/plugins/spf.py", "oa/plugins/relay_eval.py", "oa/plugins/dkim.py", "oa/plugins/razor2.py", "oa/plugins/body_eval.py"]}
{"id": "C47", "title": "DNS query restrictions follow the nearest domain", "statement": "A DNS query is suppressed exactly when the most specific restricted domain that is the queried name or a parent of it is denied; the lookup terminates for every name.", "quantifier": "every restriction table and name", "why_tests_cant": "All names and tables.", "anchors": ["oa/dns_interface.py:DNSInterface.is_query_restricted", "oa/dns_interface.py:DNSInterface.query"]}
{"id": "C48", "title": "Block list checks", "statement": "A block list check hits exactly when some answer for the reversed address (or its sub-test bit mask) satisfies the test; private addresses are never queried; when checks are disabled nothing is queried.", "quantifier": "every relay list, answer set and sub-test", "why_tests_cant": "All answers and masks.", "anchors": ["oa/plugins/dns_eval.py"]}
{"id": "C49", "title": "Tag replacement", "statement": "Replacing tags in a rule pattern substitutes every defined tag (with its pre/inter/post texts) and leaves all other text unchanged, and only for rules listed for replacement.", "quantifier": "every pattern and tag table", "why_tests_cant": "All patterns.", "anchors": ["oa/plugins/replace_tags.py:ReplaceTagsPlugin.replace_tags"]}
{"id": "C50", "title": "Redirector analysis terminates", "statement": "The search for nested redirect targets in a URI terminates for every URI.", "quantifier": "every URI", "why_tests_cant": "Termination for all strings.", "anchors": ["oa/plugins/uri_eval.py:URIEvalPlugin.check_for_http_redirector"]}
{"id": "C51", "title": "Header lookup is case-insensitive", "statement": "For every sequence of header insertions, looking up a name in any letter case returns all values inserted under any letter case of it, in order, and nothing else.", "quantifier": "every sequence of headers and every spelling", "why_tests_cant": "Unbounded sequences.", "anchors": ["oa/message.py:_Headers"]}
{"id": "C52", "title": "Line breaks are normalised", "statement": "After normalisation the text has no carriage return, normalising again changes nothing, and two texts that differ only in line-ending style normalise to the same text.", "quantifier": "every text", "why_tests_cant": "All texts, including mixed and adjacent CR/LF.", "anchors": ["oa/message.py:Message.translate_line_breaks"]}
{"id": "C53", "title": "Header edits are exactly the configured ones", "statement": "The adjusted message carries exactly the configured header edits: the additions for all messages, then the removals for all messages, then the additions and then the removals for its own kind (spam or ham), each in configuration order. Removals drop every header of that name in any letter case. Headers that no removal names, and the content, are untouched (unless the original is wrapped whole into a report message).", "quantifier": "every configured edit list and message", "why_tests_cant": "All edit lists.", "anchors": ["oa/rules/ruleset.py:RuleSet._add_header_rule", "oa/rules/ruleset.py:RuleSet._adjust_headers", "oa/rules/ruleset.py:RuleSet.get_adjusted_message"]}
{"id": "C54", "title": "Perl regex conversion", "statement": "For a rule written /pattern/flags the compiled pattern is the text between the delimiters with exactly the flags i, s, m, x given; anything without a known delimiter or without a closing one is rejected as an invalid regex.", "quantifier": "every pattern text, delimiter and flags", "why_tests_cant": "All strings.", "anchors": ["oa/regex.py:perl2re"]}
{"id": "C55", "title": "A report can be produced for every checked message", "statement": "After any message has been matched, the report of hits can be produced and has exactly one line per rule that hit, in processing order, with that rule's name, effective score and description.", "quantifier": "every rule set, every message, with or without short-circuiting", "why_tests_cant": "Ranges over all outcome patterns and all ways processing can end.", "anchors": ["oa/rules/ruleset.py:RuleSet.get_matched_report", "oa/plugins/short_circuit.py:ShortCircuitRule.__call__"]}
{"id": "C56", "title": "Header lookups are repeatable", "statement": "Reading a header any number of times, in any order and mixed with reads of other headers in any letter case, always gives the decoded values of exactly the fields of that name in the message.", "quantifier": "every message and every sequence of lookups", "why_tests_cant": "Cache transparency over all lookup histories.", "anchors": ["oa/message.py:_memoize", "oa/message.py:Message.get_decoded_header"]}
{"id": "C57", "title": "Every message can be loaded", "statement": "Any message, whatever bytes its headers carry, is loaded into a Message whose raw headers are its fields and whose text starts with the decoded subjects.", "quantifier": "every list of header fields, decodable or not", "why_tests_cant": "All header contents; hostile senders choose them.", "anchors": ["oa/message.py:Message._parse_message", "oa/message.py:Message._decode_header"]}
{"id": "C58", "title": "Rule attributes and their defaults", "statement": "A loaded rule has exactly the score(s), description, priority and flags its configuration states; without a score line it scores 1, or -1 when flagged nice; a name starting with two underscores scores 0 whatever is stated; the default description is 'No description available.', the default (and non-integer) priority is 0.", "quantifier": "every rule type, name and combination of attribute lines", "why_tests_cant": "the combinations of attributes, flags and rule types are unbounded", "anchors": ["oa/rules/base.py:BaseRule.__init__", "oa/rules/base.py:BaseRule.get_rule_kwargs", "oa/rules/header.py:MimeHeaderRule"]}
{"id": "C59", "title": "An eval rule calls the function it names", "statement": "A rule 'NAME eval:fn(args)' calls the eval function fn with the values of the listed arguments, and hits exactly when it returns a true value; an exception counts as no hit.", "quantifier": "every function name, argument list, rule and message", "why_tests_cant": "holds for every name and argument text", "anchors": ["oa/rules/eval_.py:EvalRule"]}
{"id": "C60", "title": "The score of a message follows from the configuration", "statement": "Loading any table of pattern rules (body, rawbody, full, uri) and matching any message gives the sum, over the entries, of the entry's score in the current mode if its pattern occurs in the text it looks at; invalid entries, sub-rules and switched-off rules add nothing.", "quantifier": "every rule table, mode, regex engine and message", "why_tests_cant": "ranges over all configurations and messages together", "anchors": ["oa/rules/parser.py:PADParser.get_ruleset", "oa/rules/ruleset.py:RuleSet", "oa/rules/body.py", "oa/rules/full.py", "oa/rules/uri.py"]}
{"id": "C61", "title": "The address taken from a Received header", "statement": "The address of a relay is the last public address that occurs before the first ' by ' of its Received header; if all addresses there are private it is the first of them; without any it is empty.", "quantifier": "every header text and every way addresses are recognised", "why_tests_cant": "holds for every header text, in particular adversarial ones", "anchors": ["oa/received_parser.py:ReceivedParser.get_ip"]}
{"id": "C62", "title": "The envelope sender comes from the first external relay", "statement": "If some relay is external, the envelope sender of the message is the one recorded in the Received header of the first external relay; headers below it and sender headers of the message cannot change it. If all relays are internal it is the one of the last relay, or else the first configured sender header that has an address.", "quantifier": "every list of relays, every continuation of it, every set of headers and network configuration", "why_tests_cant": "quantifies over all forged continuations", "anchors": ["oa/message.py:Message._parse_sender"]}
{"id": "C63", "title": "The untrusted addresses are the relay addresses outside the trusted networks", "statement": "get_untrusted_ips returns, in header order, exactly the relay addresses not contained in trusted_networks.", "quantifier": "every list of relays and network configuration", "why_tests_cant": "holds for all header lists", "anchors": ["oa/message.py:Message.get_untrusted_ips", "oa/message.py:Message.get_header_ips"]}
{"id": "C64", "title": "Relay analysis fails only on unusable addresses", "statement": "Analysing the relays of a message raises exactly when a Received header states an address that is not an IP address, or a configured network entry is unusable; no other message fails to load because of its Received headers.", "quantifier": "every list of relays and network configuration", "why_tests_cant": "absence of crashes over all inputs", "anchors": ["oa/message.py:Message._parse_relays"]}
{"id": "C65", "title": "User preferences are applied on top of the site configuration", "statement": "The rule set used for a user behaves like the site configuration followed by the user's preference file: options and plugins of the site are in force unless the user overrides them.", "quantifier": "every site configuration and preference file", "why_tests_cant": "ranges over all configurations", "anchors": ["oa/server.py:Server.get_user_ruleset"]}
{"id": "C66", "title": "Checking requests are answered from their own message", "statement": "Every well-formed CHECK, SYMBOLS, REPORT, REPORT_IFSPAM, PROCESS or HEADERS request, whatever its letter case, option order and fragmentation, is answered with a status line, the verdict on exactly the message it carries under the rule set of its user, the length and the body of the command.", "quantifier": "every request, transport, server state and rule set", "why_tests_cant": "covers all requests and transports at once", "anchors": ["oa/server.py:RequestHandler.handle", "oa/protocol/base.py", "oa/protocol/check.py", "oa/protocol/process.py"]}
{"id": "C67", "title": "Templates are rendered faithfully", "statement": "In a report or header template every _TAG_ is replaced by its value (a plugin's value, the program's own value, or a visible mark for an unknown tag) and all other text appears as written.", "quantifier": "every template text, tag set and checked message", "why_tests_cant": "The templates are free text chosen by the administrator.", "anchors": ["oa/rules/ruleset.py:RuleSet._convert_tags", "oa/rules/ruleset.py:RuleSet._interpolate", "oa/rules/ruleset.py:RuleSet.get_report"]}
{"id": "C68", "title": "The tests-and-scores tag lists the scores", "statement": "The TESTSSCORES tag lists every hit rule with the score it contributed.", "quantifier": "every rule set and message", "why_tests_cant": "All rule sets and hit patterns.", "anchors": ["oa/rules/ruleset.py:RuleSet._interpolate"]}
{"id": "C69", "title": "The summary lists every hit once", "statement": "The SUMMARY tag has one line for every hit rule, in processing order, with its score, name and description, and it can always be made after a message was matched.", "quantifier": "every rule set of rules that leave the bookkeeping to the engine, every message", "why_tests_cant": "All rule sets and hit patterns.", "anchors": ["oa/rules/ruleset.py:RuleSet.get_summary_report", "oa/rules/ruleset.py:RuleSet._interpolate"]}
{"id": "C70", "title": "Telling ham and spam apart when filing a message", "statement": "A client that files a message has the learning plugins told so as the class it names (spam or ham), and only for the databases it names.", "quantifier": "every set of plugins, class and list of databases", "why_tests_cant": "Any plugin list and behaviour.", "anchors": ["oa/context.py:GlobalContext.hook_report", "oa/context.py:GlobalContext.hook_revoke", "oa/protocol/tell.py:TellCommand.handle"]}
{"id": "C71", "title": "Plugin data is what was stored last", "statement": "A plugin reads under a key the value last stored under its name and that key, unless it was deleted since; other plugins and keys never interfere.", "quantifier": "every history of stores and deletions", "why_tests_cant": "Histories are unbounded.", "anchors": ["oa/context.py:_Context.set_plugin_data", "oa/context.py:_Context.get_plugin_data", "oa/context.py:_Context.del_plugin_data", "oa/context.py:_Context.pop_plugin_data"]}
{"id": "C72", "title": "Writing and restoring a context", "statement": "A context that was written and restored has the same plugins and the same eval rules, and writing does not change the context that is written.", "quantifier": "every history of loads and unloads before", "why_tests_cant": "Histories are unbounded.", "anchors": ["oa/context.py:_Context.__getstate__", "oa/context.py:_Context.__setstate__"]}
{"id": "C73", "title": "Auto-whitelist record keys", "statement": "Two originating addresses share an auto-whitelist record exactly if they are of the same family and agree on the configured number of leading bits, and the originating address of a message is the public address farthest from the receiver.", "quantifier": "every pair of addresses, every mask length, every list of relays", "why_tests_cant": "All address pairs and masks; textual abbreviation could merge or split keys.", "anchors": ["oa/plugins/awl.py:AutoWhiteListPlugin.ip_to_awl_key", "oa/plugins/awl.py:AutoWhiteListPlugin._get_origin_ip"]}
{"id": "C74", "title": "Relay tags", "statement": "Each relay in the RELAYS tags shows its own address, names, sender, id, authentication and marks under their field names, and the LASTEXTERNAL tags describe the client of the external-to-internal hand-over.", "quantifier": "every list of relays and field values", "why_tests_cant": "All relay lists and positions of the hand-over.", "anchors": ["oa/message.py:Message._parse_relays"]}
{"id": "C75", "title": "The Bayes score uses the most significant tokens", "statement": "The Bayes score of a message is the combination of the probabilities of its most significant tokens (at most 150, each at least 0.346 away from one half, each with its own probability), and there is no score when Bayes is disabled, untrained or the message has no significant token.", "quantifier": "every token list, store content and configuration", "why_tests_cant": "All token lists and all store contents.", "anchors": ["oa/plugins/bayes.py:BayesPlugin.scan", "oa/plugins/bayes.py:BayesPlugin._compute_prob_for_all_tokens", "oa/plugins/bayes.py:BayesPlugin.learner_is_scan_available"]}
{"id": "C76", "title": "Exactly one Bayes range rule hits", "statement": "Of rules that ask for the successive ranges between 0 and 1 of the Bayes score, exactly one hits for every score, and none when there is no score.", "quantifier": "every score and every increasing list of range bounds", "why_tests_cant": "All scores and all partitions.", "anchors": ["oa/plugins/bayes.py:BayesPlugin.check_bayes"]}
{"id": "C77", "title": "Whitelists that name the relay", "statement": "A sender counts as whitelisted exactly when one of its addresses reads like an entry of whitelist_from, or like the address part of a whitelist_from_rcvd line while the relay that handed the message over (any relay if all are trusted) is in one of that line's networks or domains; the default whitelist likewise; and the sender counts as forged exactly when an address reads like such a line but no relay matches it.", "quantifier": "every list, set of addresses and relay list", "why_tests_cant": "All lists, addresses and relays.", "anchors": ["oa/plugins/wlbl_eval.py:WLBLEvalPlugin.check_from_in_whitelist", "oa/plugins/wlbl_eval.py:WLBLEvalPlugin.check_whitelist_rcvd", "oa/plugins/wlbl_eval.py:WLBLEvalPlugin.check_forged_in_whitelist"]}
{"id": "C78", "title": "Whitelist checks do not disturb each other", "statement": "The answer of a whitelist check on a message does not depend on which whitelist checks were made on it before, nor how often.", "quantifier": "every sequence of checks of one message", "why_tests_cant": "All sequences.", "anchors": ["oa/plugins/wlbl_eval.py:WLBLEvalPlugin._check_whitelist"]}
{"id": "C79", "title": "Whose addresses are looked up", "statement": "List checks look at the addresses of the Resent- headers when there are any and otherwise at those of all sender (recipient) headers.", "quantifier": "every message", "why_tests_cant": "All header combinations.", "anchors": ["oa/message.py:Message.get_from_addresses", "oa/message.py:Message.get_to_addresses"]}
{"id": "C80", "title": "Sender domain against relay name", "statement": "The envelope sender agrees with the relay exactly when the name of the relay that handed the message over is the sender's base domain or below it; the base domain of a host name is the host or a domain above it.", "quantifier": "every sender, relay list and list of top-level domains", "why_tests_cant": "All names.", "anchors": ["oa/plugins/wlbl_eval.py:WLBLEvalPlugin.check_mailfrom_matches_rcvd", "oa/plugins/wlbl_eval.py:WLBLEvalPlugin.base_domain"]}
{"id": "C81", "title": "URI host lists", "statement": "A host list hits exactly when the host of some URI of the message is, or is below, a name put on that list, not taken off it again and not excluded with an exclamation mark.", "quantifier": "every configuration and every message", "why_tests_cant": "All lists and URIs.", "anchors": ["oa/plugins/wlbl_eval.py:WLBLEvalPlugin.check_uri_host_listed", "oa/plugins/wlbl_eval.py:WLBLEvalPlugin.parse_list_uri", "oa/plugins/wlbl_eval.py:WLBLEvalPlugin.parse_delist_uri"]}
{"id": "C82", "title": "DNS availability tests", "statement": "With DNS testing switched on, rounds of test lookups are at least one interval apart, a lookup is made only if the latest round succeeded less than an interval ago, and a round succeeds exactly when one of the names it tries has an address.", "quantifier": "every history of queries and every behaviour of the resolver", "why_tests_cant": "All histories and clocks.", "anchors": ["oa/dns_interface.py:DNSInterface.available", "oa/dns_interface.py:DNSInterface.query"]}
{"id": "C83", "title": "Block list zones", "statement": "A sub-test refers to the server of the last block list rule that declared its zone; for an undeclared zone nothing is asked.", "quantifier": "every rule set and zone name", "why_tests_cant": "All rule sets.", "anchors": ["oa/plugins/dns_eval.py:DNSEval.finish_parsing_end", "oa/plugins/dns_eval.py:DNSEval.check_rbl_sub"]}
{"id": "C84", "title": "Sender domain lookups", "statement": "Block lists of sender domains are asked about the part after the last @ of each address and hit exactly on a passing answer; a sender's domain counts as missing exactly when it has neither address nor mail exchanger; accredited-sender lists are asked only when the message carries the tag.", "quantifier": "every address, answer and header", "why_tests_cant": "All addresses and answers.", "anchors": ["oa/plugins/dns_eval.py:DNSEval._check_rbl_addr", "oa/plugins/dns_eval.py:DNSEval.check_dns_sender", "oa/plugins/dns_eval.py:DNSEval.check_rbl_accreditor"]}
{"id": "C85", "title": "Link texts belong to their link", "statement": "For every HTML text the addresses that anchors lead to are recorded with exactly the texts of those anchors, in order; URIs found elsewhere in the message are added without a text.", "quantifier": "every sequence of tags and texts, every list of URIs", "why_tests_cant": "All documents.", "anchors": ["oa/html_parser.py:HTML", "oa/html_parser.py:parsed_metadata"]}
{"id": "C86", "title": "Disguised address links", "statement": "The check for links whose text shows a secure web address with a host name while they lead to a bare address hits exactly when the message contains such a link.", "quantifier": "every list of links", "why_tests_cant": "All messages, any order of links.", "anchors": ["oa/plugins/uri_eval.py:URIEvalPlugin.check_https_ip_mismatch", "oa/plugins/uri_eval.py:URIEvalPlugin.extract_url_from_text"]}
{"id": "C87", "title": "Over-long URIs", "statement": "The check for truncated URIs hits exactly when an anchor or link element leads to a URI of more than 8192 characters.", "quantifier": "every list of links", "why_tests_cant": "All lengths and lists.", "anchors": ["oa/plugins/uri_eval.py:URIEvalPlugin.check_uri_truncated"]}
{"id": "C88", "title": "uri_detail rules", "statement": "A uri_detail rule hits exactly when one link of the message has all fields the rule names and each field matches its expression.", "quantifier": "every rule and list of links", "why_tests_cant": "All rules and links.", "anchors": ["oa/plugins/uri_detail.py:URIDetailRule"]}
{"id": "C89", "title": "SPF results", "statement": "The SPF result of a message for its sender and for its HELO name is the one recorded by the first Received-SPF header about it, or by an Authentication-Results header, or, without headers, the answer of the lookup for the first external relay; there is at most one result for each.", "quantifier": "every message, header list and lookup answer", "why_tests_cant": "All header lists and answers.", "anchors": ["oa/plugins/spf.py:SpfPlugin.check_spf_header", "oa/plugins/spf.py:SpfPlugin.check_spf_received_header", "oa/plugins/spf.py:SpfPlugin.check_authres_header", "oa/plugins/spf.py:SpfPlugin.received_headers"]}
{"id": "C90", "title": "SPF sender lists", "statement": "A sender is accepted by a whitelist for SPF exactly when SPF passed for this message and the sender's address reads like an entry of the list.", "quantifier": "every list, address and result", "why_tests_cant": "All addresses and entries.", "anchors": ["oa/plugins/spf.py:SpfPlugin.check_spf_whitelist", "oa/plugins/spf.py:SpfPlugin.parse_list"]}
{"id": "C91", "title": "Relay rules say what the Received headers say", "statement": "The numeric HELO rule hits exactly if an untrusted relay announced itself with a public dotted address; the mismatch rule exactly if that address is in another /24 than the relay's; the provider rule exactly if the last untrusted public relay with a HELO name has no reverse name and announced itself as a big provider; no relays / all trusted exactly if no relay states an address / some do and none is untrusted; the From domain rule exactly if a From address has the domain and a relay naming it is or is not there, as asked.", "quantifier": "all relay lists, addresses, names, From addresses and arguments", "why_tests_cant": "the rules range over all addresses and all relay sequences", "anchors": ["oa/plugins/relay_eval.py:check_for_numeric_helo", "oa/plugins/relay_eval.py:helo_ip_mismatch", "oa/plugins/relay_eval.py:check_for_no_rdns_dotcom_helo", "oa/plugins/relay_eval.py:check_all_trusted", "oa/plugins/relay_eval.py:check_no_relays", "oa/plugins/relay_eval.py:check_for_from_domain_in_received_headers"]}
{"id": "C92", "title": "Forged trail rules", "statement": "The trail rule hits exactly if at least two hand-overs between neighbouring untrusted relays do not fit, so never for a trail in which every receiving host is the one that sent the message on; the address rule hits exactly if a relay reports a HELO that is a public address of another /16.", "quantifier": "all relay lists", "why_tests_cant": "any length of trail and any names", "anchors": ["oa/plugins/relay_eval.py:_check_for_forged_received", "oa/plugins/relay_eval.py:check_for_forged_received_trail", "oa/plugins/relay_eval.py:check_for_forged_received_ip_helo", "oa/plugins/relay_eval.py:hostname_to_domain"]}
{"id": "C93", "title": "Sender without reverse name", "statement": "The rule for senders without reverse name hits exactly if the last untrusted relay has a public address and no reverse name.", "quantifier": "all relay lists", "why_tests_cant": "all relays and names", "anchors": ["oa/plugins/relay_eval.py:check_for_sender_no_reverse"]}
{"id": "C94", "title": "Private addresses", "statement": "An IPv4 address counts as private in the relay rules exactly if it is in 10/8, 127/8, 169.254/16, 192.168/16, 100.64/10 or 172.16/12.", "quantifier": "all IPv4 addresses", "why_tests_cant": "2^32 addresses", "anchors": ["oa/received_parser.py:IP_PRIVATE"]}
{"id": "C95", "title": "Difference between alternatives", "statement": "The difference of the HTML and plain text alternatives of a message is the percentage of distinct HTML words that the plain text has less often: between 0 and 100, 0 exactly if every HTML word is in the plain text at least as often; the count rule compares the numbers of distinct words.", "quantifier": "all part trees, texts and thresholds", "why_tests_cant": "all message structures and word multisets", "anchors": ["oa/plugins/body_eval.py:extract_metadata", "oa/plugins/body_eval.py:parsed_metadata", "oa/plugins/body_eval.py:multipart_alternative_difference", "oa/plugins/body_eval.py:multipart_alternative_difference_count"]}
{"id": "C96", "title": "Blank line and space ratios", "statement": "The blank line rule hits exactly if the text has at least the required lines and the percentage of blank ones is in the range; the space rule exactly if the percentage of blanks to other characters is.", "quantifier": "all texts and thresholds", "why_tests_cant": "all texts", "anchors": ["oa/plugins/body_eval.py:check_blank_line_ratio", "oa/plugins/body_eval.py:tvd_vertical_words"]}
{"id": "C97", "title": "check_dkim_valid answers yes exactly for correct author-domain signatures (first message)", "statement": "When check_dkim_valid is the first DKIM question asked in a process, and checking the signature raises nothing unexpected, it hits exactly if the DKIM-Signature names a domain of the From header, the signature verifies and has all its fields.", "quantifier": "every message, From header and verification outcome", "why_tests_cant": "the unit tests set the flags or mock the verification; the equivalence ranges over all combinations of header, domain and outcome", "anchors": ["oa/plugins/dkim.py:DKIMPlugin.check_dkim_signature", "oa/plugins/dkim.py:DKIMPlugin.check_dkim_valid", "oa/plugins/dkim.py:DKIMPlugin._get_authors"]}
{"id": "C98", "title": "The signed, author signature and dependable rules say what their names promise", "statement": "check_dkim_signed hits exactly for messages with a DKIM signature, check_dkim_valid_author_sig exactly for those with a valid signature of the author's domain, and check_dkim_dependable only for signed messages.", "quantifier": "every message and verification outcome", "why_tests_cant": "each rule needs all combinations of header, domain and outcome", "anchors": ["oa/plugins/dkim.py:DKIMPlugin.check_dkim_signed", "oa/plugins/dkim.py:DKIMPlugin.check_dkim_valid_author_sig", "oa/plugins/dkim.py:DKIMPlugin.check_dkim_dependable"]}
{"id": "C99", "title": "A message whose DKIM signature cannot be checked is never taken for validly signed", "statement": "If the DKIM-Signature header cannot be parsed or the key lookup fails, no DKIM rule hits for that message, and it does not affect others.", "quantifier": "every sequence of DKIM rules and messages after the failure", "why_tests_cant": "the effect shows only in the rules asked after the one that failed", "anchors": ["oa/plugins/dkim.py:DKIMPlugin.check_dkim_signature", "oa/rules/eval_.py:EvalRule.match", "oa/dns_interface.py:DNSInterface.query"]}
{"id": "C100", "title": "whitelist_from_dkim lists exactly the addresses its entries describe", "statement": "check_for_dkim_whitelist_from hits exactly if the message is validly signed and an author address matches an entry that is not unlisted, and, if the entry has domains, it is signed by one of them.", "quantifier": "every list of entries, message and context", "why_tests_cant": "entries become regular expressions; which addresses match cannot be enumerated", "anchors": ["oa/plugins/dkim.py:DKIMPlugin.parse_input", "oa/plugins/dkim.py:DKIMPlugin._check_dkim_whitelist"]}
{"id": "C101", "title": "DKIM rules restricted to given domains hit only for signatures of those domains", "statement": "check_dkim_valid with domains as arguments hits exactly if the message is validly signed by one of those domains or a subdomain of one.", "quantifier": "every list of domains and every signature domain", "why_tests_cant": "the comparison of names ranges over all pairs of names", "anchors": ["oa/plugins/dkim.py:DKIMPlugin._check_dkim_signed_by"]}
{"id": "C102", "title": "check_dkim_adsp hits exactly if an author domain has the given signing practice", "statement": "For a message without a valid author signature, check_dkim_adsp(practice) hits exactly if the practice, published or set by adsp_override, of an author's domain is the given one.", "quantifier": "every list of overrides, practice and message", "why_tests_cant": "ranges over all override lists and domains", "anchors": ["oa/plugins/dkim.py:DKIMPlugin.check_dkim_adsp", "oa/plugins/dkim.py:DKIMPlugin.parse_input"]}
{"id": "C103", "title": "check_razor2 hits exactly for messages the Razor catalogue lists", "statement": "Every rule that asks check_razor2 about a message hits exactly if razor-check ends with code 0 for it; if the program fails, times out or is switched off, none hits.", "quantifier": "every outcome of the program and every number of rules", "why_tests_cant": "the answer of later rules depends on the history of the message", "anchors": ["oa/plugins/razor2.py:Razor2Plugin.check_razor2"]}
{"id": "C104", "title": "check_pyzor hits exactly for messages listed often enough and never cleared", "statement": "check_pyzor hits exactly if a configured server lists the digest at least pyzor_max times and none has it whitelisted; the digest reported later is the one checked, and it goes to every server.", "quantifier": "every list of servers and their answers", "why_tests_cant": "ranges over all lists of servers and answers, including failures", "anchors": ["oa/plugins/pyzor.py:PyzorPlugin.check_pyzor", "oa/plugins/pyzor.py:PyzorPlugin._pyzor_report"]}
{"id": "C105", "title": "SpamCop reports are sent only when allowed, for recent messages, within the size limit", "statement": "A message is reported to SpamCop exactly if reporting is not switched off, the address is one and the message was received no more than two days ago; the report has the whole message, or its first spamcop_max_report_size KB and a notice.", "quantifier": "every message, date, address and size", "why_tests_cant": "ranges over all sizes, dates and headers", "anchors": ["oa/plugins/spam_cop.py:SpamCopPlugin.plugin_report", "oa/plugins/spam_cop.py:SpamCopPlugin.get_mail_date", "oa/plugins/spam_cop.py:SpamCopPlugin._spamcop_report"]}
{"id": "C106", "title": "Subject lists hold the expressions of the context's own configuration", "statement": "check_subject_in_whitelist (blacklist) hits exactly if the message has a Subject that matches, from its beginning, a valid expression given by whitelist_subject (blacklist_subject) in the configuration of the context.", "quantifier": "every configuration of every context of the process, and every subject", "why_tests_cant": "leaks between contexts show only in histories of several contexts", "anchors": ["oa/plugins/whitelist_subject.py:WhiteListSubjectPlugin.parse_config", "oa/plugins/whitelist_subject.py:WhiteListSubjectPlugin._check_subject"]}
{"id": "C107", "title": "Free mail addresses are recognised exactly", "statement": "An address counts as free mail exactly if its domain is in freemail_domains or fits an entry with wildcards, and neither the address nor its domain is in freemail_whitelist and it is no role account; this is so for every message of the context.", "quantifier": "all domain and white lists, all addresses, any number of earlier messages", "why_tests_cant": "the set of lists, wildcard entries and addresses is unbounded, and the compiled expression is rebuilt from the context's shared list for every message", "anchors": ["oa/plugins/free_mail.py:FreeMail.check_start", "oa/plugins/free_mail.py:FreeMail._is_freemail"]}
{"id": "C108", "title": "Free mail sender rules look at every sender address", "statement": "check_freemail_from hits exactly if some sender address is free mail and, if an expression is given, matches it, whatever the other sender addresses are; check_freemail_header likewise for the addresses of one header.", "quantifier": "all sets of sender addresses, all expressions, all lists", "why_tests_cant": "one address can mask another only for particular combinations and orders of addresses", "anchors": ["oa/plugins/free_mail.py:FreeMail.check_freemail_from", "oa/plugins/free_mail.py:FreeMail.check_freemail_header"]}
{"id": "C109", "title": "Free mail in the body is found exactly within the limits", "statement": "check_freemail_body hits exactly if the body has no more addresses and free mail addresses than the configured maxima and one of them is free mail (and matches the expression); the answer does not depend on the order in which addresses are visited or on rules evaluated before it.", "quantifier": "all sets of body addresses in all orders, all limits, all sequences of rules", "why_tests_cant": "the addresses are walked in the arbitrary order of a set, and rules share cached results", "anchors": ["oa/plugins/free_mail.py:FreeMail.check_freemail_body", "oa/plugins/free_mail.py:FreeMail._parse_body"]}
{"id": "C110", "title": "Reply-To at another free mail address is found exactly", "statement": "check_freemail_replyto hits exactly if the Reply-To address is free mail and the sender or a body address is a different free mail address; with 'reply' the sender is compared with the body if there is no Reply-To.", "quantifier": "all sender, Reply-To and body addresses, all limits", "why_tests_cant": "the claim is an equivalence over all combinations of addresses and lists", "anchors": ["oa/plugins/free_mail.py:FreeMail.check_freemail_replyto"]}
{"id": "C111", "title": "The far-away charset rule flags exactly the headers in charsets outside the accepted languages", "statement": "When ok_locales names languages, the rule for Subject and From hits exactly when a decodable one of them has a part whose charset is neither universally usual nor listed for one of the languages; without ok_locales (or with \"all\") it never hits. In fact a plain ASCII header, which has no charset, always hits.", "quantifier": "every ok_locales text, every decoding of headers into parts, every list of Subject and From headers", "why_tests_cant": "Tests use a few charsets and languages; the exactness needs every charset name and every list of languages.", "anchors": ["oa/plugins/header_eval.py:check_for_faraway_charset_in_headers", "oa/locales.py:charset_ok_for_locales"]}
{"id": "C112", "title": "Header rules do not influence each other", "statement": "The answer of a header rule on a message does not depend on which other header rules were asked before it. This fails for the illegal-character rule with \"ALL\", which deletes the Subject and From headers of the message being checked.", "quantifier": "every message, every sequence of the header rules", "why_tests_cant": "The property is about all sequences of rules over a shared message; unit tests call each rule once on a fresh mock.", "anchors": ["oa/plugins/header_eval.py:check_illegal_chars", "oa/plugins/header_eval.py:subject_is_all_caps", "oa/message.py:_memoize"]}
{"id": "C113", "title": "The illegal-character rule compares the right number with both thresholds", "statement": "check_illegal_chars(header, ratio, count) hits exactly when the header text is not empty, the characters above ASCII (less one in a Subject using exactly one of the cent, pound and registered signs) are at least count, and at least ratio of the whole; with ALL it is about all headers but Subject and From. Control characters never count.", "quantifier": "every header name, ratio, count and header content", "why_tests_cant": "Boundaries of a ratio and a count over texts of every length and content.", "anchors": ["oa/plugins/header_eval.py:check_illegal_chars"]}
{"id": "C114", "title": "Recipient order and similarity rules", "statement": "The sorted-recipients rule hits exactly for a non-empty list in order. With at least five recipients and no neighbouring repeats the similarity is the number of pairs with alike users plus the number with near hosts over the number of pairs, does not depend on their order, is at most 2 (not 1), and the similar-recipients rule compares it strictly with its bounds; with at least five recipients the answers do not depend on what was asked before.", "quantifier": "every list of recipients, all bounds, all sequences of the two rules", "why_tests_cant": "Ranges over lists of every length and their permutations, and over sequences of rules sharing stored results.", "anchors": ["oa/plugins/header_eval.py:_check_recipients", "oa/plugins/header_eval.py:sorted_recipients", "oa/plugins/header_eval.py:similar_recipients"]}
{"id": "C115", "title": "The shifted-date rule measures the distance between Date and Received times", "statement": "For a message whose dates can all be read the rule hits exactly when the smallest non-zero distance, in whole hours, is within the bounds, whatever date rule was asked before. Relays that agree exactly with the Date are left out, and with an unreadable date a second question is answered differently from the first.", "quantifier": "every list of Received times, every Date, all bounds, all sequences of date rules", "why_tests_cant": "Ranges over all lists of times and rule histories; the stored zero only shows on a second question.", "anchors": ["oa/plugins/header_eval.py:_check_date_diff", "oa/plugins/header_eval.py:check_for_shifted_date", "oa/plugins/header_eval.py:_get_date_header_time", "oa/plugins/header_eval.py:_get_received_header_times"]}
{"id": "C116", "title": "The received-within-months rule measures the age of a message from the middle of its times", "statement": "For a message whose dates can all be read the age is counted from a time with at most half of the times later and fewer than half earlier, and the rule hits exactly when its months part is within the bounds. Whole years are dropped, so a minimum of twelve months or more is never met.", "quantifier": "every list of Received times, every Date, every calendar difference, all bounds", "why_tests_cant": "Ranges over all lists of times; a test with one fixed date cannot show that years never count.", "anchors": ["oa/plugins/header_eval.py:_check_date_received", "oa/plugins/header_eval.py:received_within_months"]}
{"id": "C117", "title": "Header count, all-caps subject and sender domain rules", "statement": "The count rule hits exactly when the number of different values of the header is within the bounds (equal copies count once). The all-caps rule hits exactly when some Subject, without a reply notation and blanks, has at least ten characters, not exactly one word, an upper-case letter and no lower-case one. The domain rule hits only if sender address and From header have different domains, but not whenever they do.", "quantifier": "every header name, bounds, header values and addresses", "why_tests_cant": "Exactness over all texts and lists of header values.", "anchors": ["oa/plugins/header_eval.py:check_header_count_range", "oa/plugins/header_eval.py:subject_is_all_caps", "oa/plugins/header_eval.py:check_equal_from_domains"]}
{"id": "C118", "title": "The Bayes tokeniser always ends", "statement": "Turning a message into Bayes tokens ends for every message.", "quantifier": "all bodies, invisible texts, URI lists and headers", "why_tests_cant": "termination for every text", "anchors": ["oa/plugins/bayes.py:BayesPlugin._tokenise_line", "oa/plugins/bayes.py:BayesPlugin.tokenise"]}
{"id": "C119", "title": "No text makes the Bayes tokeniser fail", "statement": "Turning a message into Bayes tokens never raises, whatever words the body holds.", "quantifier": "all bodies, invisible texts, URI lists and headers", "why_tests_cant": "every text", "anchors": ["oa/plugins/bayes.py:BayesPlugin._tokenise_line", "oa/plugins/bayes.py:BayesPlugin._tokenise_mail_addrs"]}
{"id": "C120", "title": "The Bayes tokens of a message", "statement": "The tokens of a message are, each once, the words of its lines without surrounding punctuation, of at least three characters and not on the stop list, shortened if longer than fifteen characters; for the body also in lower case and without signs; header words carry the name of their header. A token is never a stop word.", "quantifier": "all messages", "why_tests_cant": "every text and every set of headers", "anchors": ["oa/plugins/bayes.py:BayesPlugin.tokenise", "oa/plugins/bayes.py:BayesPlugin._tokenise_line"]}
{"id": "C121", "title": "Header tokens and body tokens are told apart", "statement": "A word of a header and a word of the body never give the same Bayes token, so training on one does not affect the other; long words of non-Latin text are stored as pieces.", "quantifier": "all headers, bodies and words", "why_tests_cant": "every pair of words", "anchors": ["oa/plugins/bayes.py:BayesPlugin._tokenise_line", "oa/plugins/bayes.py:BayesPlugin._tokenise_headers"]}
{"id": "C122", "title": "Sender and recipient addresses are Bayes evidence", "statement": "The user name and the domains of the addresses in From, To, Cc and similar headers are tokens: two messages that differ only in them have different tokens.", "quantifier": "all address headers", "why_tests_cant": "every address", "anchors": ["oa/plugins/bayes.py:BayesPlugin._pre_chew_addr_header", "oa/plugins/bayes.py:BayesPlugin._parse_header"]}
{"id": "C123", "title": "Bayes tokens do not depend on the iteration order of headers", "statement": "Two runs over the same message give the same set of tokens, whatever order Python's set iteration gives the header names.", "quantifier": "all messages and all orders of the header names", "why_tests_cant": "the order changes from process to process with hash randomisation", "anchors": ["oa/plugins/bayes.py:BayesPlugin._tokenise_headers", "oa/plugins/bayes.py:BayesPlugin._parse_header"]}
{"id": "C124", "title": "The tokens of a message come from its own visible text", "statement": "Tokenising a message uses the subject and all readable text parts of that message, and of no other message loaded before or after.", "quantifier": "all messages and all histories of loaded messages", "why_tests_cant": "all sequences of messages", "anchors": ["oa/plugins/bayes.py:BayesPlugin.extract_metadata", "oa/plugins/bayes.py:BayesPlugin.parsed_metadata", "oa/plugins/bayes.py:BayesPlugin.tokenise"]}
{"id": "C125", "title": "No message structure stops a message from being loaded with the MIME plugin", "statement": "With the MIME rules plugin loaded, every message can be parsed, whatever content types, transfer encodings and part structure it declares.", "quantifier": "all lists of parts a message can have", "why_tests_cant": "any combination of declared type, encoding and real structure", "anchors": ["oa/plugins/mime_eval.py:MIMEEval.extract_metadata", "oa/message.py:Message._parse_message"]}
{"id": "C126", "title": "MIME part rules say which kinds of parts a message has", "statement": "check_for_mime_html hits exactly when a part is text/html; check_for_mime_html_only when in addition no part is text/plain; the counts of check_for_mime are true exactly when a part of that kind or encoding exists, and unknown names never hit.", "quantifier": "all messages that can be loaded", "why_tests_cant": "all lists of parts", "anchors": ["oa/plugins/mime_eval.py:MIMEEval.check_for_mime", "oa/plugins/mime_eval.py:MIMEEval.check_for_mime_html", "oa/plugins/mime_eval.py:MIMEEval.check_for_mime_html_only"]}
{"id": "C127", "title": "Faraway charsets of parts", "statement": "check_for_faraway_charset hits exactly when a part has more non-ASCII than ASCII characters and names a charset of a language outside ok_locales; with ok_locales unset or all it never hits.", "quantifier": "all messages and all values of ok_locales", "why_tests_cant": "all byte contents and charset names", "anchors": ["oa/plugins/mime_eval.py:MIMEEval.check_for_faraway_charset", "oa/plugins/mime_eval.py:MIMEEval._update_faraway_charset", "oa/locales.py:charset_ok_for_locales"]}
{"id": "C128", "title": "Illegal characters in ASCII text parts", "statement": "check_for_ascii_text_illegal hits exactly when a text/plain part declared (or by default) us-ascii and 7bit has a character other than tab, newline and the printable ASCII characters.", "quantifier": "all messages that can be loaded", "why_tests_cant": "all texts", "anchors": ["oa/plugins/mime_eval.py:MIMEEval.check_for_ascii_text_illegal", "oa/plugins/mime_eval.py:MIMEEval._update_mime_text_info"]}
{"id": "C129", "title": "The share of encoded Unicode characters", "statement": "check_abundant_unicode_ratio compares the number of encoded Unicode characters in the text/plain parts, divided by their length, with the two limits.", "quantifier": "all messages that can be loaded and all limits", "why_tests_cant": "all texts", "anchors": ["oa/plugins/mime_eval.py:MIMEEval.check_abundant_unicode_ratio"]}
{"id": "C130", "title": "The share of quoted-printable characters", "statement": "check_qp_ratio compares the number of quoted-printable escapes divided by the bytes of the quoted-printable parts with the two limits.", "quantifier": "all messages that can be loaded and all limits", "why_tests_cant": "all texts", "anchors": ["oa/plugins/mime_eval.py:MIMEEval.check_qp_ratio", "oa/plugins/mime_eval.py:MIMEEval._update_quopri_stats"]}
{"id": "C131", "title": "The length of base64 lines", "statement": "check_base64_length hits exactly when some base64 encoded line has a length within the limits.", "quantifier": "all messages that can be loaded and all limits", "why_tests_cant": "all texts and numbers of parts", "anchors": ["oa/plugins/mime_eval.py:MIMEEval.check_base64_length", "oa/plugins/mime_eval.py:MIMEEval._update_base64_information"]}
{"id": "C132", "title": "Alternatives that are not text", "statement": "check_ma_non_text hits exactly when a multipart/alternative part directly contains a part that is neither text nor rich text nor multipart/related.", "quantifier": "all messages that can be loaded", "why_tests_cant": "all part structures", "anchors": ["oa/plugins/mime_eval.py:MIMEEval.check_ma_non_text", "oa/plugins/mime_eval.py:MIMEEval._update_mime_ma_non_text"]}
{"id": "C133", "title": "Text hidden in base64", "statement": "mime_base64_encoded_text is true exactly when an ASCII text part that is not an attachment is base64 encoded.", "quantifier": "all messages that can be loaded", "why_tests_cant": "all headers of parts", "anchors": ["oa/plugins/mime_eval.py:MIMEEval._update_base64_text_stats"]}
{"id": "C134", "title": "Long quoted-printable lines", "statement": "mime_qp_long_line is true exactly when a quoted-printable part has a line of more than 79 characters.", "quantifier": "all messages that can be loaded", "why_tests_cant": "all texts", "anchors": ["oa/plugins/mime_eval.py:MIMEEval._update_quopri_stats"]}
{"id": "C135", "title": "Missing MIME boundaries", "statement": "mime_missing_boundary is true exactly for multipart messages whose boundary does not occur in the message.", "quantifier": "all messages that can be loaded", "why_tests_cant": "all texts", "anchors": ["oa/plugins/mime_eval.py:MIMEEval._update_mime_text_info"]}
{"id": "C136", "title": "The ratio of plain text to HTML", "statement": "check_mime_multipart_ratio compares the characters of all text/plain parts divided by those of all HTML parts with the limits (lower inclusive, upper exclusive); the ratio is 1 when one kind has no characters.", "quantifier": "all messages that can be loaded and all limits", "why_tests_cant": "all part lists and texts", "anchors": ["oa/plugins/mime_eval.py:MIMEEval.check_mime_multipart_ratio", "oa/plugins/mime_eval.py:MIMEEval.parsed_metadata"]}
{"id": "C137", "title": "The share of capital letters in the text", "statement": "check_for_uppercase hits exactly when the paragraphs of more than one word have at least 200 characters together and the share of capitals among their letters and digits lies above the lower and not above the upper percentage.", "quantifier": "all texts, all percentages, any capitalisation function", "why_tests_cant": "all texts", "anchors": ["oa/plugins/mime_eval.py:MIMEEval.check_for_uppercase"]}
{"id": "C138", "title": "Flags about the form of a message", "statement": "missing_mime_head_body_separator is set exactly when the header lines are followed by a line that is neither empty nor a header; truncated_headers hits exactly when a header name has over 256 or a header value over 8192 characters.", "quantifier": "all raw messages and header lists", "why_tests_cant": "all texts", "anchors": ["oa/plugins/mime_eval.py:MIMEEval.check_msg_parse_flags", "oa/message.py:Message._parse_message"]}
{"id": "C139", "title": "The MIME rules do not depend on the order of the parts", "statement": "Two messages with the same parts in another order get the same answers from all MIME rules.", "quantifier": "all permutations of all lists of parts", "why_tests_cant": "all permutations", "anchors": ["oa/plugins/mime_eval.py:MIMEEval.extract_metadata", "oa/plugins/mime_eval.py:MIMEEval.parsed_metadata"]}
{"id": "C140", "title": "Picture count rules", "statement": "image_count(type, min, max) matches exactly when the number of picture attachments of the type (of any type for \"all\") lies between the limits.", "quantifier": "all messages, types and limits", "why_tests_cant": "all lists of attachments", "anchors": ["oa/plugins/image_info.py:ImageInfoPlugin.image_count", "oa/plugins/image_info.py:ImageInfoPlugin._update_counts"]}
{"id": "C141", "title": "Pixel coverage rules", "statement": "pixel_coverage(type, min, max) matches exactly when the pixels of all readable pictures of the type add up to a number between the limits.", "quantifier": "all messages, types and limits", "why_tests_cant": "all lists of attachments", "anchors": ["oa/plugins/image_info.py:ImageInfoPlugin.pixel_coverage", "oa/plugins/image_info.py:ImageInfoPlugin._save_stats"]}
{"id": "C142", "title": "Picture size rules", "statement": "image_size_exact and image_size_range match exactly when some readable picture of the type has the given height and width, or lies within the given limits.", "quantifier": "all messages, types, sizes and limits", "why_tests_cant": "all lists of attachments, including copies of the same picture", "anchors": ["oa/plugins/image_info.py:ImageInfoPlugin.image_size_exact", "oa/plugins/image_info.py:ImageInfoPlugin.image_size_range"]}
{"id": "C143", "title": "Picture name rule", "statement": "image_named(name) matches exactly when some picture attachment carries exactly that name.", "quantifier": "all messages and names", "why_tests_cant": "all lists of attachments", "anchors": ["oa/plugins/image_info.py:ImageInfoPlugin.image_named"]}
{"id": "C144", "title": "Text to picture ratio", "statement": "image_to_text_ratio(type, min, max) matches exactly when the message has pictures of the type and the number of characters divided by their pixels lies between the limits.", "quantifier": "all messages, types and limits", "why_tests_cant": "all texts and lists of attachments", "anchors": ["oa/plugins/image_info.py:ImageInfoPlugin.image_to_text_ratio"]}
{"id": "C145", "title": "An unreadable picture does not stop the check", "statement": "A message with a picture attachment that cannot be opened is still checked.", "quantifier": "all messages and all answers of the picture library", "why_tests_cant": "all failures of the library at every position", "anchors": ["oa/plugins/image_info.py:ImageInfoPlugin._get_image_sizes", "oa/message.py:Message._parse_message"]}
{"id": "C146", "title": "PDF count rule", "statement": "pdf_count(min, max) matches exactly when the number of application/pdf parts lies between the limits.", "quantifier": "all messages and limits", "why_tests_cant": "all lists of attachments", "anchors": ["oa/plugins/pdf_info.py:PDFInfoPlugin.pdf_count"]}
{"id": "C147", "title": "Pictures inside PDF files", "statement": "pdf_image_count and pdf_pixel_coverage compare the number and the total area of the pictures in the pages of the PDF files, each file counted once.", "quantifier": "all messages, documents and limits", "why_tests_cant": "all documents and lists of attachments", "anchors": ["oa/plugins/pdf_info.py:PDFInfoPlugin._save_stats", "oa/plugins/pdf_info.py:PDFInfoPlugin.pdf_image_count", "oa/plugins/pdf_info.py:PDFInfoPlugin.pdf_pixel_coverage"]}
{"id": "C148", "title": "PDF names and digests", "statement": "pdf_named, pdf_name_regex and pdf_match_md5 match exactly when some PDF file has the name, a name that the expression is found in, or the digest.", "quantifier": "all messages, names, expressions and orders of the set of names", "why_tests_cant": "the order in which a set is gone through is not fixed", "anchors": ["oa/plugins/pdf_info.py:PDFInfoPlugin.pdf_named", "oa/plugins/pdf_info.py:PDFInfoPlugin.pdf_name_regex", "oa/plugins/pdf_info.py:PDFInfoPlugin.pdf_match_md5"]}
{"id": "C149", "title": "PDF document properties", "statement": "pdf_match_details(detail, regex) matches exactly when that property of some PDF file matches the expression.", "quantifier": "all messages, properties and expressions", "why_tests_cant": "all documents", "anchors": ["oa/plugins/pdf_info.py:PDFInfoPlugin.pdf_match_details"]}
{"id": "C150", "title": "Encrypted PDF files", "statement": "pdf_is_encrypted matches exactly when at least one PDF file is encrypted.", "quantifier": "all messages", "why_tests_cant": "all lists of attachments", "anchors": ["oa/plugins/pdf_info.py:PDFInfoPlugin.pdf_is_encrypted"]}
{"id": "C151", "title": "Nearly empty PDF files", "statement": "pdf_is_empty_body(n) matches exactly when the message has PDF files and they have at most n bytes together.", "quantifier": "all messages and limits", "why_tests_cant": "all lists of attachments", "anchors": ["oa/plugins/pdf_info.py:PDFInfoPlugin.pdf_is_empty_body"]}
{"id": "C152", "title": "An unreadable PDF file does not stop the check", "statement": "A message with a damaged PDF attachment is still checked.", "quantifier": "all messages and all answers of the PDF library", "why_tests_cant": "all failures of the library at every position", "anchors": ["oa/plugins/pdf_info.py:PDFInfoPlugin._save_stats", "oa/message.py:Message._parse_message"]}
{"id": "C153", "title": "Database settings name the database they state", "statement": "A DBI setting (mysql, Pg or SQLite, in any case) makes the plugin connect to exactly the database, host, port and credentials that the setting and the user name and password options state; missing PostgreSQL keys get their defaults and the last value of a repeated key counts.", "quantifier": "all DSN texts in DBI format, user names and passwords, with and without SQLAlchemy", "why_tests_cant": "the set of DSNs and credentials is unbounded and characters that are separators in one of the two formats matter", "anchors": ["oa/plugins/base.py:dbi_to_mysql", "oa/plugins/base.py:dbi_to_alchemy", "oa/plugins/base.py:BasePlugin.finish_parsing_end"]}
{"id": "C154", "title": "Database settings that are not understood", "statement": "A setting in another format than DBI is used as it is; one with an unknown driver or with missing parts is reported and does not stop the other plugins from loading.", "quantifier": "all DSN texts", "why_tests_cant": "it is about every malformed text", "anchors": ["oa/plugins/base.py:dbi_to_alchemy", "oa/plugins/base.py:BasePlugin.finish_parsing_end"]}
{"id": "C155", "title": "Relay countries", "statement": "The RELAYCOUNTRY tag and the X-Relay-Countries header list, in order, one word for every relay: ** for a private address, the country code of the database of its IP version, XX if there is none; a sender cannot influence what rules see under X-Relay-Countries, and no message fails to load.", "quantifier": "all Received chains, all databases and all headers of the message", "why_tests_cant": "messages, databases and header sets are unbounded", "anchors": ["oa/plugins/relay_country.py:RelayCountryPlugin.get_country", "oa/plugins/relay_country.py:RelayCountryPlugin.parsed_metadata", "oa/message.py:Message.get_decoded_header"]}
{"id": "C156", "title": "Unwanted languages", "statement": "check_language holds exactly when one of the languages found with more than the configured probability is not in ok_languages (and ok_languages does not say all), at most textcat_max_languages being found; the LANGUAGES tag lists them.", "quantifier": "all results of the detector and all settings", "why_tests_cant": "result lists, probabilities and settings are unbounded", "anchors": ["oa/plugins/textcat.py:TextCatPlugin.check_language", "oa/plugins/textcat.py:TextCatPlugin.set_list_option"]}
{"id": "C157", "title": "Identifiers of messages", "statement": "A message that has a Message-ID keeps it, without brackets; otherwise an identifier is computed that does not depend on the kind of line breaks and is different for different messages.", "quantifier": "all messages, all pairs of messages", "why_tests_cant": "uniqueness ranges over all pairs of messages", "anchors": ["oa/message.py:Message.msgid", "oa/message.py:Message.translate_line_breaks"]}
{"id": "C158", "title": "The date of receipt", "statement": "The date of receipt is the one stated after the last semicolon of the first Received header that states one, and the current time if none does; it never raises.", "quantifier": "all lists of Received headers", "why_tests_cant": "header lists are unbounded and some contain texts that are not dates", "anchors": ["oa/message.py:Message.receive_date"]}
{"id": "C159", "title": "The command line tool handles every message once", "statement": "For any files and directories given, every message in them is handled once and in order, by exactly the action that the options select, and the number printed after reporting or revoking is the number of messages.", "quantifier": "all lists of arguments and all option combinations", "why_tests_cant": "argument lists and directories are unbounded", "anchors": ["scripts/match.py:main", "scripts/match.py:MessageList"]}
{"id": "C160", "title": "Relay fields are words of the header they come from", "statement": "Every field of a relay that is read from a Received header (reverse name, server, HELO name, ident, id, envelope sender) contains no blanks and is copied from that header, and its address contains no blanks; headers are read independently, in order, each giving at most one relay.", "quantifier": "all lists of header texts", "why_tests_cant": "header texts are written by strangers and unbounded; some forty expressions may apply", "anchors": ["oa/received_parser.py:ReceivedParser", "oa/received_parser.py:ReceivedParser.parse_received"]}
{"id": "C161", "title": "Folding and dates do not change what a Received header says", "statement": "Two Received headers that differ only in the amount and kind of their blanks, or in what follows the first semicolon, give the same relay.", "quantifier": "all headers and all ways of folding them", "why_tests_cant": "a header can be folded at any of its blanks", "anchors": ["oa/received_parser.py:ReceivedParser.__init__"]}
{"id": "C162", "title": "Postfix hand-overs are read as meant", "statement": "A header of the form 'from HELO (NAME [ADDRESS]) by SERVER REST; DATE' is listed as one relay with that HELO name, reverse name, address and server, whatever REST and DATE are.", "quantifier": "all HELO words, names, addresses, servers and remainders", "why_tests_cant": "all of these are chosen by the other side or are free text", "anchors": ["oa/received_parser.py:ReceivedParser.get_helo", "oa/received_parser.py:ReceivedParser.get_rdns", "oa/received_parser.py:ReceivedParser.get_ip", "oa/received_parser.py:ReceivedParser.get_by", "oa/received_parser.py:ReceivedParser.check_for_skip"]}
{"id": "C163", "title": "Exim hand-overs are read as meant", "statement": "A header of the form 'from NAME ([ADDRESS] helo=HELO) by SERVER REST; DATE' is listed as one relay with that HELO name, reverse name, address and server, whatever REST and DATE are.", "quantifier": "all HELO names, reverse names, addresses, servers and remainders", "why_tests_cant": "all of these are chosen by the other side or are free text", "anchors": ["oa/received_parser.py:HELO_RE3", "oa/received_parser.py:RDNS_RE", "oa/received_parser.py:ReceivedParser.get_ip"]}
{"id": "C164", "title": "Hand-overs without a reverse name are read as meant", "statement": "A header of the form 'from HELO ([ADDRESS]) by SERVER REST; DATE' is listed as one relay with that HELO name, address and server and without a reverse name (with HELO as its reverse name if the header mentions Exim).", "quantifier": "all HELO names, addresses, servers and remainders", "why_tests_cant": "all of these are chosen by the other side or are free text", "anchors": ["oa/received_parser.py:HELO_RE4", "oa/received_parser.py:ReceivedParser.get_rdns"]}
{"id": "C165", "title": "The last public address before the server's name counts", "statement": "The address reported for a header is the last bracketed IPv4 address before ' by ', whatever is written before it, unless it is in 10/8, 127/8, 169.254/16, 192.168/16 or 100.64/10; such an address is reported if no other one is written.", "quantifier": "all headers and all IPv4 addresses", "why_tests_cant": "2^32 addresses and arbitrary texts around them", "anchors": ["oa/received_parser.py:ReceivedParser.get_ip", "oa/received_parser.py:IP_ADDRESS", "oa/received_parser.py:IP_PRIVATE"]}
{"id": "C166", "title": "The queue id is the word after the last 'id '", "statement": "The id reported for a Received header is the word that follows the last occurrence of 'id ' in it, without the angle brackets around it.", "quantifier": "all header texts without semicolon, all ids", "why_tests_cant": "the text around the id is free, and the expression backtracks over all of it", "anchors": ["oa/received_parser.py:ReceivedParser.get_id", "oa/received_parser.py:ID_RE"]}
{"id": "C167", "title": "Authentication is read from the header text", "statement": "A header that says 'with METHOD', METHOD being one of the protocols of authenticated submission, reports the first such METHOD; a header that contains none of the listed texts reports no authentication.", "quantifier": "all header texts", "why_tests_cant": "absence of a report must hold for every text a peer can cause", "anchors": ["oa/received_parser.py:ReceivedParser.get_auth", "oa/received_parser.py:AUTH_RE"]}
{"id": "C168", "title": "An outside host ends the trust, from the header text on", "statement": "When a host outside the trusted networks hands a message over to one's own server without authentication, the trusted and internal relays are those of the headers above, whatever Received headers the message already had and whatever the host calls itself.", "quantifier": "all headers above without submission agent, all header texts below, all HELO names, reverse names, addresses, servers, remainders and network settings", "why_tests_cant": "everything below the hand-over, and the HELO word in it, is chosen by the sender", "anchors": ["oa/received_parser.py:ReceivedParser", "oa/message.py:Message._parse_relays"]}
{"id": "C169", "title": "The envelope sender is read from the header", "statement": "A Received header that states an envelope sender in angle brackets after 'envelope-from', 'envelope-sender' or 'return-path' reports exactly this address, whatever else the header says.", "quantifier": "all header texts, all sender addresses", "why_tests_cant": "the address and the text around it are free, and the expression backtracks over them", "anchors": ["oa/received_parser.py:ReceivedParser.get_envfrom", "oa/received_parser.py:ENVFROM_RE"]}
{"id": "C170", "title": "Fake AOL relays", "statement": "The rule about fake AOL relays answers yes exactly if some Received header names a relay like rly-xx00 and shows neither the version nor the queue of AOL's software.", "quantifier": "all lists of Received headers, all texts, all Unicode digit tables", "why_tests_cant": "the headers are chosen by the sender, and expressions with backtracking decide over texts of any length", "anchors": ["oa/plugins/header_eval.py:HeaderEval.check_for_fake_aol_relay_in_rcvd"]}
{"id": "C171", "title": "Forged and missing Hotmail headers", "statement": "The two Hotmail rules never both answer yes. The first answers yes only if the first Received header says hello as Hotmail, the second only if it does not and the From header mentions hotmail.com; neither does for mail from Hotmail's pickup service, through Hotmail's own servers with the sender's address stated, or through software that removes Received headers.", "quantifier": "all messages: header texts and addresses", "why_tests_cant": "the headers are chosen by the sender, and expressions with backtracking decide over texts of any length", "anchors": ["oa/plugins/header_eval.py:HeaderEval._check_for_forged_hotmail_received_headers", "oa/plugins/header_eval.py:HeaderEval.check_for_forged_hotmail_received_headers", "oa/plugins/header_eval.py:HeaderEval.check_for_no_hotmail_received_headers", "oa/plugins/header_eval.py:HeaderEval.gated_through_received_hdr_remover"]}
{"id": "C172", "title": "The Hotmail rules always answer", "statement": "The Hotmail rules answer for every message. (False: they raise if the To header names an MSN group after something else, such as a display name.)", "quantifier": "all messages", "why_tests_cant": "the headers are chosen by the sender, and expressions with backtracking decide over texts of any length", "anchors": ["oa/plugins/header_eval.py:HeaderEval.check_for_msn_groups_headers", "oa/plugins/header_eval.py:HeaderEval._check_for_forged_hotmail_received_headers"]}
{"id": "C173", "title": "Forged Eudoramail headers", "statement": "Mail from eudoramail.com counts as forged unless WhoWhere delivered it and it states the address of its sender; other mail never does.", "quantifier": "all messages", "why_tests_cant": "the headers are chosen by the sender, and expressions with backtracking decide over texts of any length", "anchors": ["oa/plugins/header_eval.py:HeaderEval.check_for_forged_eudoramail_received_headers"]}
{"id": "C174", "title": "Forged Yahoo headers", "statement": "Mail from yahoo.com counts as forged exactly if no relay has a name of Yahoo, no software removed Received headers, and the text about the hops has none of the forms of Yahoo's servers.", "quantifier": "all messages, relays and hop texts", "why_tests_cant": "the headers are chosen by the sender, and expressions with backtracking decide over texts of any length", "anchors": ["oa/plugins/header_eval.py:HeaderEval.check_for_forged_yahoo_received_headers"]}
{"id": "C175", "title": "Forged Juno headers", "statement": "Mail from juno.com that Juno's servers delivered and that shows Juno's program does not count as forged; mail without trace of Juno's servers does. (The first half is false without an X-Originating-IP header.)", "quantifier": "all messages", "why_tests_cant": "the headers are chosen by the sender, and expressions with backtracking decide over texts of any length", "anchors": ["oa/plugins/header_eval.py:HeaderEval.check_for_forged_juno_received_headers"]}
{"id": "C176", "title": "Envelope sender and From header", "statement": "The rule about matching senders answers yes exactly if the first envelope sender that a relay reports (nothing if none does) occurs in the joined addresses of the From header. (That this means that a relay's sender is an address of the From header is false.)", "quantifier": "all relay lists and From addresses", "why_tests_cant": "the headers are chosen by the sender, and expressions with backtracking decide over texts of any length", "anchors": ["oa/plugins/header_eval.py:HeaderEval.check_for_matching_env_and_hdr_from"]}
{"id": "C177", "title": "Hops of the gw05 software", "statement": "The gw05 rule answers yes exactly if a Received header begins with a hop of the form 'from NAME by SERVER with ESMTP; DATE' where the server is not a mere full stop.", "quantifier": "all lists of Received headers", "why_tests_cant": "the headers are chosen by the sender, and expressions with backtracking decide over texts of any length", "anchors": ["oa/plugins/header_eval.py:HeaderEval.check_for_forged_gw05_received_headers"]}
{"id": "C178", "title": "Unresolved templates", "statement": "The rule about unresolved templates answers yes exactly if some line of the message has a placeholder like %AB and does not begin with one of the fields in which placeholders are allowed.", "quantifier": "all message texts", "why_tests_cant": "the headers are chosen by the sender, and expressions with backtracking decide over texts of any length", "anchors": ["oa/plugins/header_eval.py:HeaderEval.check_unresolved_template"]}
{"id": "C179", "title": "Unusable message identifiers", "statement": "The message identifier is not usable exactly if the message has the unsubscribe address of a mailing list, went through software that removes Received headers, or its first Received header names one of two servers that replace identifiers; the rule raises only without Received header.", "quantifier": "all messages", "why_tests_cant": "the headers are chosen by the sender, and expressions with backtracking decide over texts of any length", "anchors": ["oa/plugins/header_eval.py:HeaderEval.check_messageid_not_usable"]}
{"id": "C180", "title": "The recipient in the subject", "statement": "With 'address', the rule answers yes exactly if a recipient's address occurs in the subject, in capitals or small letters; with 'user', exactly if the subject greets the user name of the address in one of the listed forms.", "quantifier": "all subjects, all lists of recipient addresses", "why_tests_cant": "the headers are chosen by the sender, and expressions with backtracking decide over texts of any length", "anchors": ["oa/plugins/header_eval.py:HeaderEval.check_for_to_in_subject"]}
{"id": "C181", "title": "Times in Outlook identifiers", "statement": "An identifier of Outlook's form whose time is that of the Date header is not flagged; otherwise it is flagged exactly if its time is not that of the first date in the first Received header; other identifiers are never flagged. (That the rule answers for every message is false: without Received header it raises.)", "quantifier": "all identifiers, dates, Received headers and date parsers", "why_tests_cant": "the headers are chosen by the sender, and expressions with backtracking decide over texts of any length", "anchors": ["oa/plugins/header_eval.py:HeaderEval.check_outlook_message_id"]}
{"id": "C182", "title": "A greeting inside a remark is the HELO name", "statement": "A Received header 'from NAME (TEXT HELO WORD) REST', without square brackets and with no other HELO, EHLO or 'helo=', is reported with WORD as its HELO name, in whatever case HELO is written.", "quantifier": "all names, remarks, greetings and remainders", "why_tests_cant": "all parts are free text, and nine other expressions are tried before the one that applies", "anchors": ["oa/received_parser.py:ReceivedParser.get_helo", "oa/received_parser.py:HELO_RE10"]}
{"id": "C183", "title": "The identification of the sender is read from its place", "statement": "A Received header that states 'ident=USER)' once, at the end of a word, reports USER as its ident; without 'ident=' and with one text '(USER@' it reports USER.", "quantifier": "all header texts and users", "why_tests_cant": "the expressions are greedy and backtrack over the whole of a free text", "anchors": ["oa/received_parser.py:ReceivedParser.get_ident", "oa/received_parser.py:IDENT_RE", "oa/received_parser.py:IDENT_RE2"]}
{"id": "C184", "title": "Each mark of authentication is reported as its kind", "statement": "A Received header that names no protocol of authenticated submission reports, in this order: Postfix for '(Authenticated sender: USER) by SERVER (Postfix) with'; GMail with the transport and cipher it states for ' by mx.google.com with ESMTPS id '; SquirrelMail, CriticalPath ('(authenticated as USER)') or Sendmail for a text that contains 'authenticated'; GMX with its protocol and server; Communigate; and nothing for a header with none of these.", "quantifier": "all header texts of these forms", "why_tests_cant": "the report decides whether the relay is trusted; the forms overlap, and the order of the tests decides", "anchors": ["oa/received_parser.py:ReceivedParser.get_auth", "oa/received_parser.py:AUTH_VC_RE", "oa/received_parser.py:AUTH_RE2", "oa/received_parser.py:AUTH_RE3", "oa/received_parser.py:AUTH_RE4", "oa/received_parser.py:AUTH_RE5"]}
{"id": "C185", "title": "A server without a name in the DNS is reported without one", "statement": "A Received header 'from HELO (unknown [ADDRESS])REST' is reported with an empty reverse name, whatever HELO and REST are.", "quantifier": "all HELO words, IPv4 addresses and remainders", "why_tests_cant": "the HELO word is chosen by the other side, and rules about missing reverse names depend on the report", "anchors": ["oa/received_parser.py:ReceivedParser.get_rdns", "oa/received_parser.py:UNKNOWN_RE_RDNS", "oa/received_parser.py:HELO_RE7"]}
{"id": "C186", "title": "Headers that name no sender change nothing", "statement": "A Received header that begins neither with 'from' nor with 'X-ORIGINATING-IP' lists no relay and does not affect those of the other headers, wherever it stands.", "quantifier": "all header lists and all such headers", "why_tests_cant": "quantifies over arbitrary header texts and positions", "anchors": ["oa/received_parser.py:ReceivedParser.__init__", "oa/received_parser.py:ReceivedParser.parse_received"]}
{"id": "C187", "title": "Mail of MSN groups is recognised by server, identifier and bounce address", "statement": "For mail whose To header begins with <NAME@groups.msn.com> and whose NAME has no characters special in patterns, the group check answers yes exactly if some Received header names a pNN.groups.msn.com pickup server, the Message-Id begins with <NAME-...@groups.msn.com> (full stops of NAME standing for any character) and the envelope sender is NAME-bounce@groups.msn.com; for the notifications address the Message-Id must name the server instead. Such mail never makes the Hotmail rules raise. The full claim, for every NAME, is false: NAME is inserted into a pattern unescaped and a bracket in it raises.", "quantifier": "every message, group name, list of Received headers and envelope sender", "why_tests_cant": "The group name comes from the message and is inserted into a regular expression; only a proof over all names shows for which of them the answer is right.", "anchors": ["oa/plugins/header_eval.py:check_for_msn_groups_headers", "oa/plugins/header_eval.py:_check_for_forged_hotmail_received_headers"]}
{"id": "C188", "title": "The ratware rule compares the identifier's address with the quoted From address", "statement": "For mail whose Message-Id contains <28 capitals.ADDRESS> with an ADDRESS free of characters special in patterns, the rule answers yes exactly if the From header has a quoted name followed by <ADDRESS>, full stops of ADDRESS standing for any character. Without such an identifier it answers no. It raises if there is a From header but no Message-Id, or such a Message-Id but no From header. For other addresses it may raise as well.", "quantifier": "every message", "why_tests_cant": "The address comes from the message and becomes part of a pattern; all addresses have to be covered.", "anchors": ["oa/plugins/header_eval.py:check_ratware_name_id"]}
{"id": "C189", "title": "The recipient's address inside the envelope sender", "statement": "For a To header USER@DOMAIN without characters special in patterns the rule answers yes exactly if there is an envelope sender that does not begin with SRSn=, DOMAIN is below a listed domain, and the sender contains DOMAIN, any character, USER and @ at the edge of a word. A To header that ends in > is never found, whatever the sender. Addresses with brackets may make the rule raise.", "quantifier": "every message, envelope sender and list of domains", "why_tests_cant": "The recipient's address becomes part of a pattern; all addresses and senders have to be covered.", "anchors": ["oa/plugins/header_eval.py:check_ratware_envelope_from", "oa/plugins/header_eval.py:is_domain_valid"]}
{"id": "C190", "title": "Which subjects end in an identifier", "statement": "The rule about unique identifiers in the subject answers yes only if the subject ends in one of twelve forms of identifier, answers no if it ends in none, and if no five digits follow each other in the subject answers yes exactly for these forms. For identifiers with five digits it inserts the identifier into a pattern unescaped and raises for some subjects.", "quantifier": "every subject", "why_tests_cant": "The subject is arbitrary text and the rule runs eleven patterns with backtracking over it.", "anchors": ["oa/plugins/header_eval.py:check_for_unique_subject_id"]}
{"id": "C191", "title": "The exit status of the command line tool", "statement": "match.py ends with status 0 exactly if configuration files are found, they can be parsed and every message given can be read and loaded; then each message, in order, is checked, reported or revoked as the options say, with the rules of these files. Without rules nothing is done with any message and the status is 1.", "quantifier": "every configuration, list of arguments and combination of options", "why_tests_cant": "Scripts around the tool rely on its status; files, directories and failures combine without bound.", "anchors": ["scripts/match.py:main", "scripts/match.py:MessageList"]}
{"id": "C192", "title": "One unreadable message does not stop the others", "statement": "A message file that cannot be read or loaded does not keep match.py from handling the other messages. (False: those before it are handled exactly as without it, those after it are not.)", "quantifier": "every list of files, every position of the broken one", "why_tests_cant": "The broken file may be anywhere in any list.", "anchors": ["scripts/match.py:main"]}
{"id": "C193", "title": "The same message from a file and from standard input", "statement": "A message is analysed in the same way whether it is named as a file or piped in; on standard input bytes that cannot begin a character are left out and the rest is kept.", "quantifier": "every sequence of bytes", "why_tests_cant": "Decoding has to be covered for all byte sequences. (Files with bytes that are not UTF-8 end the run.)", "anchors": ["scripts/match.py:main", "scripts/match.py:get_binary_stdin", "oa/message.py:Message.translate_line_breaks"]}
{"id": "C194", "title": "Compiled rule sets", "statement": "A rule set stored by compile.py gives match.py -se the results of the configuration it was compiled from; setting up short circuits a second time changes no result; where compiling is unsupported -se changes nothing; a failed compilation leaves the stored file alone. (A stored set older than the configuration is used silently; a rule set that cannot be pickled destroys the file.)", "quantifier": "every configuration, stored file and message", "why_tests_cant": "The two programs run at different times on states that tests do not enumerate.", "anchors": ["scripts/compile.py:main", "scripts/compile.py:serialize", "scripts/match.py:call_post_parsing", "oa/plugins/short_circuit.py"]}
{"id": "C195", "title": "Where compiling is supported", "statement": "Compiling is offered exactly on CPython from 2.7.11 and from 3.5 on. (False for Python 2 versions whose last part is not a number, for which the check raises, and for 4.0-4.4.)", "quantifier": "every implementation name and version", "why_tests_cant": "A test sees the one interpreter it runs on.", "anchors": ["oa/common.py:can_compile"]}
{"id": "C196", "title": "The pid file", "statement": "The pid file exists exactly while a daemon serves and holds its number. (False after a failed start, after a foreground server ends and after a second start.)", "quantifier": "every history of starts, ends and kills", "why_tests_cant": "The state depends on all earlier starts and stops.", "anchors": ["scripts/oad.py:run_daemon"]}
{"id": "C197", "title": "Options of the daemon", "statement": "Two servers are started the same way exactly if address, port, number of processes, directories and parser flags are the same. (False for --allow-tell: it has no effect, learning is always allowed.)", "quantifier": "every pair of options", "why_tests_cant": "Each pair of option sets has to be compared.", "anchors": ["scripts/oad.py:main", "scripts/oad.py:run_daemon"]}
{"id": "C198", "title": "Which messages reach which log", "statement": "Without debugging only critical messages reach the screen and the log file gets those from its level on; with debugging both get everything from DEBUG on; Sentry gets those from its level on. (False for Sentry levels below that of the file; setting up twice writes everything twice.)", "quantifier": "every level, path and combination of options", "why_tests_cant": "Levels of logger and handlers interact.", "anchors": ["oa/config.py:setup_logging"]}
{"id": "C199", "title": "Plugins under their SpamAssassin names", "statement": "After loadplugin with the SpamAssassin name of a plugin, an ifplugin block for the same name is read; different names stand for different plugins. (The PDF plugin is missing in the table: the line is ignored.)", "quantifier": "every plugin of the table, every configuration around the two lines", "why_tests_cant": "The lines after them are arbitrary.", "anchors": ["oa/rules/parser.py:PADParser", "oa/plugins/__init__.py:REIMPLEMENTED_PLUGINS", "oa/context.py:GlobalContext.load_plugin"]}
{"id": "C200", "title": "DNS servers of the configuration", "statement": "DNS queries go to the addresses of the dns_server lines, in order, at the first port stated or else 53. Lines that name no server and lines that state another port are left out. Without any line the servers and port of the system are used.", "quantifier": "every list of lines each of which is an address (with or without brackets and port) or nothing of the kind", "why_tests_cant": "Any number of lines, with and without brackets and ports, valid or not.", "anchors": ["oa/context.py:GlobalContext._configure_dns", "oa/context.py:DSN_SERVER_RE"]}
{"id": "C201", "title": "DNS options take effect", "statement": "dns_options, default_dns_lifetime, default_dns_timeout and dns_test_interval change what the resolver does. (False for all four, whatever their values. The attributes behind them work when set directly.)", "quantifier": "every value of these options", "why_tests_cant": "The claim is about all values; each has no effect.", "anchors": ["oa/rules/ruleset.py:RuleSet.post_parsing", "oa/rules/ruleset.py:_DNS_OPTIONS_RE", "oa/context.py:GlobalContext._configure_dns", "oa/dns_interface.py:DNSInterface"]}
{"id": "C202", "title": "DNS settings of a stored rule set", "statement": "A rule set stored by compile.py asks the same servers in the same way as one read from the configuration. (The same servers, ports and times; but EDNS is not switched on again.)", "quantifier": "every configuration", "why_tests_cant": "Two runs of two programs with any configuration.", "anchors": ["oa/dns_interface.py:DNSInterface.__setstate__", "scripts/match.py:call_post_parsing", "oa/context.py:GlobalContext._configure_dns"]}
{"id": "C203", "title": "Token counts of a message", "statement": "The header tags about Bayes tokens count the tokens of the message: the numbers of new, hammy, neutral and spammy tokens are not negative and add up to the number of tokens; hammy and spammy are the known tokens whose probability is at least 0.346 below or above one half, neutral the other known ones.", "quantifier": "every message, every content of the token database and every corpus size", "why_tests_cant": "The counts come from a selection among arbitrarily many tokens with arbitrary counts; tests look at messages with a handful of tokens.", "anchors": ["oa/plugins/bayes.py: BayesPlugin.scan", "oa/plugins/bayes.py: BayesPlugin.check_end"]}
{"id": "C204", "title": "How many messages would change a token's mind", "statement": "The declassification distance reported for a hammy token is the smallest number of additional spam messages in which it would have had to appear to be hammy no longer; for a spammy token, the same with ham messages; for a neutral token it is 0.", "quantifier": "every corpus size and every pair of token counts", "why_tests_cant": "The number is the root of a quadratic equation in four unbounded counts; tests can compare single values only.", "anchors": ["oa/plugins/bayes.py: BayesPlugin._compute_declassification_distance"]}
{"id": "C205", "title": "Lists of hammy and spammy tokens", "statement": "The token lists in the headers have one entry for each token used, with its probability, distance and word, at most as many as the limit says, in each of the documented formats, and they can be made for every checked message, whatever the database does.", "quantifier": "every list of tokens, every iteration order of sets, every format, every outcome of the database update", "why_tests_cant": "Set iteration order and database failures cannot be enumerated by tests, nor can lists of tokens.", "anchors": ["oa/plugins/bayes.py: BayesPlugin.bayes_report_make_list", "oa/plugins/bayes.py: BayesPlugin.check_end", "oa/rules/ruleset.py: RuleSet.match"]}
{"id": "C206", "title": "Addresses Bayes ignores", "statement": "A message is ignored by the Bayes rules exactly if one of its senders is listed with bayes_ignore_from or one of its recipients with bayes_ignore_to, where * stands for any text and other characters for themselves, and the whole address has to match.", "quantifier": "every list of entries and every list of addresses", "why_tests_cant": "The entries are used as expressions on arbitrary addresses; tests try a few entries.", "anchors": ["oa/plugins/bayes.py: BayesPlugin.ignore_message", "oa/plugins/bayes.py: BayesPlugin.check_address_in_list", "oa/plugins/bayes.py: BayesPlugin.parse_list"]}
{"id": "C207", "title": "Web addresses that uri rules see", "statement": "The addresses uri rules look at are exactly the web addresses in the text parts of the message: every one they see stands there as a whole, with its protocol or beginning with www. or ftp., each is seen once, and every such address in any text part is seen.", "quantifier": "every message that can be loaded, every text part and every address at any place of it", "why_tests_cant": "Addresses stand in arbitrary texts next to arbitrary characters; a test tries a few sentences.", "anchors": ["oa/message.py: URL_RE", "oa/message.py: Message._parse_message", "oa/rules/uri.py: URIRule"]}
{"id": "C208", "title": "Texts for body and rawbody rules", "statement": "The text body rules look at consists of the decoded subjects followed by the visible text of every text part in the order of the message, on one line with a blank in between; the text of rawbody rules consists of the decoded text parts as they are, each starting on a line of its own. Parts that are not text take no part.", "quantifier": "every message that can be loaded, with any number and nesting of parts", "why_tests_cant": "It is about every structure of parts.", "anchors": ["oa/message.py: Message._parse_message", "oa/message.py: Message.normalize_html_part", "oa/message.py: _ParseHTML"]}
{"id": "C209", "title": "Every message can be loaded", "statement": "A message is loaded whatever charsets it declares and whatever bytes its parts have: bytes that cannot be decoded are left out, and without a known charset the ASCII characters are kept.", "quantifier": "every message, every set of codecs, every HTML parser", "why_tests_cant": "Declared charsets and contents are arbitrary and chosen by the sender.", "anchors": ["oa/message.py: Message._iter_parts", "oa/message.py: Message._parse_message", "oa/message.py: Message.normalize_html_part"]}
{"id": "C210", "title": "Unencoded text is seen as written", "statement": "The text of a part with transfer encoding 7bit, 8bit or none reaches body rules with the characters the message has.", "quantifier": "every text of a part", "why_tests_cant": "It ranges over every text; samples in ASCII miss the failures.", "anchors": ["oa/message.py: Message._iter_parts", "oa/message.py: Message.__init__"]}
{"id": "C211", "title": "Headers are decoded word by word", "statement": "The decoded value of a header is made of its words in their order, each decoded with its own charset; words whose charset is not known are left out, and no header makes decoding fail.", "quantifier": "every header, every splitting into words, every set of codecs", "why_tests_cant": "Charset names and bytes of encoded words are arbitrary.", "anchors": ["oa/message.py: Message._decode_header", "oa/message.py: Message.get_decoded_header"]}
{"id": "C212", "title": "MIME header rules look at all parts", "statement": "A rule on a MIME header looks at every field of that name, whatever its letter case, of the message itself and of every part, in the order of the message.", "quantifier": "every message that can be loaded and every name of a header", "why_tests_cant": "It is about every structure of parts and every set of fields.", "anchors": ["oa/message.py: Message._parse_message", "oa/message.py: Message.get_raw_mime_header", "oa/message.py: Message.get_decoded_mime_header", "oa/rules/header.py: MimeHeaderRule"]}
{"id": "C213", "title": "Encoded text parts are seen as written", "statement": "A UTF-8 text sent in quoted-printable or base64 reaches body rules as its author wrote it, whatever way the sender has encoded and broken it.", "quantifier": "every text and each of its encodings", "why_tests_cant": "Each text has unboundedly many encodings.", "anchors": ["oa/message.py: Message._iter_parts"]}
{"id": "C214", "title": "Body rules see only text of the HTML part", "statement": "What body rules get to see of an HTML part are pieces of the part's own text, none of them empty, in the order in which they stand there and without overlapping, separated by blanks: nothing is invented, repeated or moved.", "quantifier": "every HTML text, well formed or not", "why_tests_cant": "HTML in spam is malformed in unboundedly many ways; tests try a few documents.", "anchors": ["oa/message.py: _ParseHTML", "oa/message.py: Message.normalize_html_part", "oa/message.py: Message._parse_message"]}
{"id": "C215", "title": "Text between tags is seen, markup is not", "statement": "In a well-formed document of texts, tags with quoted attributes, end tags, comments, character references, scripts and styles, body rules see each text between the markup (and the text of scripts and styles), in order, and nothing of tags, attribute values, comments and references.", "quantifier": "every document of that grammar, with any number of parts and attributes", "why_tests_cant": "It ranges over all documents of a grammar.", "anchors": ["oa/message.py: _ParseHTML.handle_data", "oa/message.py: Message.normalize_html_part"]}
{"id": "C216", "title": "Words are seen as readers see them", "statement": "A word that a reader of the HTML part sees as one word is seen by body rules as that word, even if there are tags, comments or character references inside it; text that no reader sees, as that of styles, is not seen.", "quantifier": "every word and every markup inside it", "why_tests_cant": "Any markup can stand at any place of any word.", "anchors": ["oa/message.py: _ParseHTML.handle_data", "oa/message.py: Message._parse_message"]}
{"id": "C217", "title": "Unfinished markup hides no text", "statement": "Markup that does not come to an end (a comment, a tag, a script, an ampersand) does not keep body rules from seeing the text after it.", "quantifier": "every document, every place of the unfinished markup and every text after it", "why_tests_cant": "The sender chooses where markup is left open and what comes after it.", "anchors": ["oa/message.py: Message.normalize_html_part"]}
{"id": "C218", "title": "No HTML part makes loading fail", "statement": "A message whose HTML part cannot be parsed is loaded nevertheless, as the comment in the code says, with what could be read of the part.", "quantifier": "every HTML text", "why_tests_cant": "The failing texts have to be found among all texts.", "anchors": ["oa/message.py: Message.normalize_html_part", "oa/message.py: Message._parse_message"]}
{"id": "C219", "title": "The links of a page are recorded with their texts", "statement": "For a message whose text is HTML written by the usual rules (tags with quoted or empty attributes, comments, declarations, scripts and styles, no link tag with a broken address), every address that an a or link tag leads to is recorded under the kind of the tag with its scheme, its unquoted form, its host, and exactly the texts that stand in such links, in order; addresses of the text that no tag leads to are recorded without texts; nothing else is recorded.", "quantifier": "every message whose text is such a page, of any length and nesting; every result of loading; every behaviour of urlparse, unquote and unescape", "why_tests_cant": "All documents.", "anchors": ["oa/html_parser.py:HTMLParser", "oa/html_parser.py:parsed_metadata", "oa/plugins/uri_detail.py:URIDetailPlugin.extract_metadata"]}
{"id": "C220", "title": "Nothing recorded about links is made up", "statement": "Whatever the text of a message is, an address recorded for a link tag is a piece of the text, unescaped; its scheme, unquoted form and host are those of that address; the texts recorded with it stand in the message, in that order; everything else recorded is one of the addresses found in the text.", "quantifier": "every text at all, however broken its markup", "why_tests_cant": "All texts.", "anchors": ["oa/html_parser.py:HTMLParser", "oa/html_parser.py:parsed_metadata"]}
{"id": "C221", "title": "No link makes loading fail", "statement": "With the URIDetail plugin loaded, a message that can be loaded without it is loaded, whatever links and markup its text contains.", "quantifier": "every message text", "why_tests_cant": "The failing texts have to be found among all texts.", "anchors": ["oa/html_parser.py:HTMLParser.handle_starttag", "oa/html_parser.py:HTMLParser.parse_link", "oa/message.py:Message.__init__"]}
{"id": "C222", "title": "No markup hides the links after it", "statement": "Every link tag of a text is recorded, also after markup that is not finished.", "quantifier": "every text", "why_tests_cant": "All texts before and after.", "anchors": ["oa/html_parser.py:HTMLParser", "oa/html_parser.py:parsed_metadata"]}
{"id": "C223", "title": "Disguised addresses are found in every page", "statement": "check_https_ip_mismatch answers yes for a page exactly if it has an anchor that leads to a numeric address and shows the https address of a named host.", "quantifier": "every page, with any links before and after", "why_tests_cant": "All documents.", "anchors": ["oa/plugins/uri_eval.py:URIEvalPlugin.check_https_ip_mismatch", "oa/html_parser.py:parsed_metadata"]}
{"id": "C224", "title": "Truncated addresses are found in every page", "statement": "check_uri_truncated answers yes for a page exactly if one of its a or link tags leads to an address of more than 8192 characters.", "quantifier": "every page and every length of the addresses", "why_tests_cant": "All documents and lengths.", "anchors": ["oa/plugins/uri_eval.py:URIEvalPlugin.check_uri_truncated", "oa/html_parser.py:parsed_metadata"]}
{"id": "C225", "title": "Rules see the parts of a mail as they were composed", "statement": "If a mail is composed from heads, texts, nested messages and multiparts with proper boundaries, loading it gives exactly these parts: each with its header fields, its type and charset and, for a text, its decoded bytes, in the order in which they were composed. Raw body rules see the texts joined by newlines, body rules the subjects and the visible text of each; preambles and epilogues change nothing.", "quantifier": "every composed mail of any depth of nesting (digests and delivery reports, which have a format of their own, aside), all fields, types, parameters and texts, every codec", "why_tests_cant": "All nestings of multiparts and messages and all texts, including texts with rows that look almost like a separator.", "anchors": ["oa/message.py:Message._parse_message", "oa/message.py:Message._iter_parts", "oa/message.py:Message.__init__"]}
{"id": "C226", "title": "The style of line breaks does not matter", "statement": "A message whose rows end with a carriage return and line feed, or with a carriage return only, is loaded like the same message with line feeds.", "quantifier": "every list of rows", "why_tests_cant": "All messages.", "anchors": ["oa/message.py:Message.translate_line_breaks", "oa/message.py:Message.__init__"]}
{"id": "C227", "title": "Every message can be loaded", "statement": "Loading a message never raises, whatever its text is.", "quantifier": "every text with any kind of line break", "why_tests_cant": "All texts, with all malformed headers, boundaries and nestings.", "anchors": ["oa/message.py:Message._parse_message", "oa/message.py:Message._iter_parts"]}
{"id": "C228", "title": "Texts of the parts are taken from the message", "statement": "The rows of the texts of the parts are rows of the message, each used at most once and in the same order.", "quantifier": "every text that can be split, well formed or not", "why_tests_cant": "All texts, also malformed ones; one test shows one nesting.", "anchors": ["oa/message.py:Message.__init__", "oa/message.py:Message._iter_parts"]}
{"id": "C229", "title": "All text of a message is seen by rules", "statement": "Text in the body of a message that a mail reader shows is seen by body and raw body rules.", "quantifier": "every message", "why_tests_cant": "All messages, also those whose head and body do not fit together.", "anchors": ["oa/message.py:Message._iter_parts", "oa/message.py:Message._parse_message"]}
{"id": "C230", "title": "Missing MIME headers are flagged", "statement": "The flag for missing MIME headers is set exactly if the mail or one of its parts has no header field at all.", "quantifier": "every composed mail of any depth", "why_tests_cant": "All nestings.", "anchors": ["oa/message.py:Message._parse_message", "oa/plugins/mime_eval.py:MIMEEval.check_msg_parse_flags"]}
{"id": "C231", "title": "Address headers give the addresses people wrote", "statement": "From a header that lists mailboxes (plain, with a remark, or with a name and the address in angle brackets) and groups, the message hands out exactly these addresses in order, the first address of each value and the first name of each value; a rule on the address or the name of the header hits exactly when its pattern matches one of these. Earlier lookups do not matter.", "quantifier": "every list of mailboxes and groups of any length with any quoted or unquoted names, any header name, any earlier lookups, both parsers of the library", "why_tests_cant": "Unboundedly many combinations of names, quotes, remarks and groups.", "anchors": ["oa/message.py:Message.get_all_addr_header", "oa/message.py:Message.get_addr_header", "oa/message.py:Message.get_name_header", "oa/rules/header.py:HeaderRule"]}
{"id": "C232", "title": "Reading addresses never fails", "statement": "Whatever a header contains, the addresses and names in it are read without an exception.", "quantifier": "every header text", "why_tests_cant": "All texts.", "anchors": ["oa/message.py:Message.get_all_addr_header", "oa/message.py:Message.get_addr_header"]}
{"id": "C233", "title": "No address is made up", "statement": "The addresses found in a header, one after the other, stand in its text in this order (apart from quotes, backslashes and square brackets).", "quantifier": "every header text", "why_tests_cant": "All texts.", "anchors": ["oa/message.py:Message.get_all_addr_header"]}
{"id": "C234", "title": "The address of a mailbox is the one in angle brackets", "statement": "For a header with a name and an address in angle brackets, rules, lists and the score history use the address in the brackets, whatever stands in the place of the name.", "quantifier": "all names and addresses", "why_tests_cant": "All names.", "anchors": ["oa/message.py:Message.get_addr_header", "oa/plugins/awl.py:AutoWhiteListPlugin._get_from", "oa/plugins/wlbl_eval.py:WLBLEvalPlugin.check_address_in_list"]}
{"id": "C235", "title": "Senders and recipients come from the named headers", "statement": "The senders of a message are those of Resent-From if there are any, else those of From, Envelope-Sender, X-Envelope-From and EnvelopeFrom; the recipients those of Resent-To and Resent-Cc if there are any, else those of the fourteen recipient headers, in order; all senders include the envelope sender in place of EnvelopeFrom; the score history uses the first address of From.", "quantifier": "every message whose headers list addresses the way people write them", "why_tests_cant": "All combinations of headers.", "anchors": ["oa/message.py:Message.get_all_from_headers_addr", "oa/message.py:Message.get_from_addresses", "oa/message.py:Message.get_to_addresses", "oa/plugins/awl.py:AutoWhiteListPlugin._get_from"]}
{"id": "C236", "title": "A header that cannot be decoded has no address", "statement": "A header whose value cannot be decoded contributes no address.", "quantifier": "every message and header", "why_tests_cant": "All values and decoders.", "anchors": ["oa/message.py:Message.get_decoded_header", "oa/message.py:Message.get_addr_header"]}
{"id": "C237", "title": "The words of the body reach the tokeniser", "statement": "Breaking the body into lines loses, joins, splits and reorders no word, so each ordinary word of the body becomes a token; a paragraph is one line.", "quantifier": "every text", "why_tests_cant": "All texts, blanks and line ends.", "anchors": ["oa/plugins/bayes.py:BayesPlugin.get_body_text_array_common", "oa/plugins/bayes.py:BayesPlugin.split_into_array_of_short_lines"]}
{"id": "C238", "title": "Message ids are reduced to their host and stable parts", "statement": "Of a Message-ID as Outlook Express writes it three parts and the host become words, of one by Exim or Sendmail only the host; of any other all words are kept; nothing but letters, digits and underscores is left between blanks.", "quantifier": "every Message-ID, In-Reply-To and References value", "why_tests_cant": "All ids and hosts.", "anchors": ["oa/plugins/bayes.py:BayesPlugin._pre_chew_message_id"]}
{"id": "C239", "title": "Received headers are freed of words that say nothing", "statement": "None of with, from, for, SMTP and ESMTP is left as a word of a Received header; the number of the message in the queue is dropped; a value without these, without id and without a month is unchanged.", "quantifier": "every Received value", "why_tests_cant": "All values; the replacements act on each other's results.", "anchors": ["oa/plugins/bayes.py:BayesPlugin._pre_chew_received"]}
{"id": "C240", "title": "The shape of the boundary becomes part of the Content-Type", "statement": "Neither text nor charset is left as a word of a Content-Type header; a value without boundary is otherwise unchanged; with a quoted boundary its shape is added, hexadecimal digits made H and separators kept apart by blanks.", "quantifier": "every Content-Type value", "why_tests_cant": "All values and boundaries.", "anchors": ["oa/plugins/bayes.py:BayesPlugin._pre_chew_content_type"]}
{"id": "C241", "title": "From configuration and mail to score", "statement": "A configuration of body, rawbody, full and header rules for words, of meta rules over them and over each other (up to eleven layers), scores and descriptions is loaded, whatever its layout and over however many files, includes (up to ten deep) and blocks for plugins it is spread and whatever unusable lines stand between, and a mail of plain texts gets the sum of the last scores given (1 if none, nothing for names with two leading underscores) of the rules that hit, as last defined: the word occurs in a text the rule looks at (for header rules: the value of any field of the name), or the meta expression is not zero when hits count 1 and misses 0.", "quantifier": "every such configuration, every mail composed of any number of nested plain parts", "why_tests_cant": "The property joins reading files, building rules, splitting and loading a mail and matching; each step has unboundedly many inputs and errors could compensate each other only in composition.", "anchors": ["oa/rules/parser.py:PADParser", "oa/rules/parser.py:parse_pad_rules", "oa/message.py:Message._parse_message", "oa/rules/body.py:BodyRule", "oa/rules/header.py:HeaderRule", "oa/rules/ruleset.py:RuleSet.match", "oa/rules/meta.py:MetaRule", "oa/rules/ruleset.py:RuleSet.post_parsing"]}
{"id": "C242", "title": "The daemon's verdict is the configuration's", "statement": "After loading such a configuration the daemon answers a CHECK request for such a mail with True exactly if that sum reaches the required score, however the bytes arrive and whatever was asked before.", "quantifier": "every such configuration and mail, every transport, every history of requests", "why_tests_cant": "Transports and histories cannot be enumerated.", "anchors": ["oa/rules/parser.py:PADParser", "oa/rules/parser.py:parse_pad_rules", "oa/message.py:Message._parse_message", "oa/rules/body.py:BodyRule", "oa/rules/ruleset.py:RuleSet.match", "oa/server.py:Server", "oa/protocol/check.py:CheckCommand"]}
{"id": "C243", "title": "The daemon's symbols are the configuration's", "statement": "Asked with SYMBOLS, the daemon lists, each once, exactly the rules of the configuration that hit the mail and are not worth zero, and announces the length of the list.", "quantifier": "every such configuration and mail, every transport, every history of requests", "why_tests_cant": "Transports and histories cannot be enumerated.", "anchors": ["oa/rules/parser.py:PADParser", "oa/rules/parser.py:parse_pad_rules", "oa/message.py:Message._parse_message", "oa/rules/body.py:BodyRule", "oa/rules/ruleset.py:RuleSet.match", "oa/server.py:Server", "oa/protocol/check.py:SymbolsCommand"]}
{"id": "C244", "title": "Short-circuited rules inside meta rules", "statement": "With meta rules present, the check of a message ends at the first short-circuited rule whose result is needed (as a checked rule or, working from left to right and only as far as needed, inside a meta rule) and that is true of the message: the checked rules before the one it was needed for count as without short-circuiting, that rule and the later ones are not recorded, and the short-circuited rule is recorded with its own score, the bonus of its type and the SCRULE and SCTYPE tags. If there is no such rule, short-circuiting changes nothing.", "quantifier": "every rule set with meta rules that loads, every shortcircuit setting, every message, every iteration order of the names in meta rules; the other rules only look at the message", "why_tests_cant": "Ranges over all expressions, nestings, rule orders and truth patterns.", "anchors": ["oa/plugins/short_circuit.py:ShortCircuitRule.__call__", "oa/plugins/short_circuit.py:ShortCircuit.finish_parsing_end", "oa/rules/meta.py:MetaRule.postparsing", "oa/rules/parser.py:PADParser.get_ruleset"]}
{"id": "C245", "title": "Address lists from configuration to answer", "statement": "In a new process with one context, the rules on the plain address lists (check_from_in_blacklist, check_to_in_whitelist, check_to_in_blacklist, check_to_in_all_spam, check_to_in_more_spam, check_from_in_list, check_to_in_list) hit exactly when some sender or recipient shown by the headers reads in part like an entry of some line of the option, whatever rules were asked before; a rule that names a list that does not exist answers no.", "quantifier": "every list of option lines, every mail whose address headers are well written, every sequence of rules asked before", "why_tests_cant": "All configurations, headers and orders of rules.", "anchors": ["oa/plugins/wlbl_eval.py:WLBLEvalPlugin.check_start", "oa/plugins/wlbl_eval.py:WLBLEvalPlugin.check_from_in_list", "oa/plugins/wlbl_eval.py:WLBLEvalPlugin.check_to_in_list", "oa/plugins/wlbl_eval.py:WLBLEvalPlugin.check_from_in_blacklist"]}
{"id": "C246", "title": "Every whitelist line with relays counts", "statement": "check_from_in_whitelist and check_from_in_default_whitelist hit exactly when some sender is on whitelist_from or comes over a relay that some line of whitelist_from_rcvd (or def_whitelist_from_rcvd) names for it; every line of these options counts.", "quantifier": "every list of option lines, every mail whose address headers are well written, all relays, every sequence of rules asked before", "why_tests_cant": "All configurations, headers and relays.", "anchors": ["oa/plugins/wlbl_eval.py:WLBLEvalPlugin.options", "oa/plugins/wlbl_eval.py:WLBLEvalPlugin.check_from_in_whitelist", "oa/conf.py:Conf.set_list_option"]}
{"id": "C247", "title": "Every host list line counts and none stops the filter", "statement": "check_uri_host_listed, check_uri_host_in_whitelist and check_uri_host_in_blacklist go by all lines of the four host list options, and no such line makes the check of a mail fail.", "quantifier": "every list of option lines, every mail", "why_tests_cant": "All configurations.", "anchors": ["oa/plugins/wlbl_eval.py:WLBLEvalPlugin.check_start", "oa/plugins/wlbl_eval.py:WLBLEvalPlugin.parse_list_uri", "oa/plugins/wlbl_eval.py:WLBLEvalPlugin.check_uri_host_listed"]}
{"id": "C248", "title": "No address is cut at a second at sign", "statement": "A header that shows an address followed by one more at sign and domain never gives the address before the second at sign; with the strict parser of the library a closing bracket after an address leaves no address.", "quantifier": "every address and domain, every history of lookups, both parsers", "why_tests_cant": "All addresses.", "anchors": ["oa/message.py:Message.get_all_addr_header", "oa/message.py:Message.get_addr_header"]}
{"id": "C249", "title": "The main options are as documented", "statement": "Each main option takes the documented kind of value, a new context starts from the documented values, each clear option empties exactly the documented lists of its own context, and no other option is known without plugins.", "quantifier": "every set of loaded plugins, every history of contexts, loads and option lines, every text", "why_tests_cant": "All histories, all texts and all loaded classes.", "anchors": ["oa/conf.py:PADConf.options", "oa/conf.py:Conf.parse_config", "oa/conf.py:Conf.set_clear_option"]}
{"id": "C250", "title": "Stock market words are counted right", "statement": "check_stock_info hits exactly when the text asked for (or its raw form) holds at least as many stock market words as the rule asks, no two of which overlap; hidden spellings with one more word character between letters count, dates count at the beginning of a line only.", "quantifier": "every text, every number, every table of word characters", "why_tests_cant": "All texts.", "anchors": ["oa/plugins/body_eval.py:STOCK_RE", "oa/plugins/body_eval.py:BodyEval.check_stock_info"]}
{"id": "C251", "title": "Expressions compiled on use", "statement": "An expression that is compiled when it is used gives at each use, in lazy mode or not and by whichever method, the answer of the expression freshly compiled; outside lazy mode it is compiled only once.", "quantifier": "all expressions, all compilers, all sequences of uses with any mode at each use", "why_tests_cant": "The answer must not depend on the history of earlier uses or on the mode in which they were made.", "anchors": ["oa/regex.py:Regex", "oa/config.py:LAZY_MODE"]}
{"id": "C252", "title": "Dump of headers", "statement": "The dump of a message's metadata lists every header of the message exactly once with its decoded value, grouped by name, whatever was looked up before; the rules that dump the texts hit.", "quantifier": "all messages, all decoders, all histories of header lookups", "why_tests_cant": "Repeated names, undecodable values and cached lookups combine without bound.", "anchors": ["oa/message.py:iter_decoded_headers", "oa/plugins/dump_text.py:dump_meta_data", "oa/plugins/dump_text.py:dump_text", "oa/plugins/dump_text.py:dump_raw_text"]}
{"id": "C253", "title": "Reports to Razor", "statement": "A message reported as spam or revoked as ham is sent whole and once to the Razor program for that, with the configured file, and nothing the program does makes the report fail or leaves its timer running; with Razor switched off nothing is sent.", "quantifier": "all messages, configurations and behaviours of the program", "why_tests_cant": "The program may not start, break off, be killed or end with any code, for any text of a message.", "anchors": ["oa/plugins/razor2.py:launch_subprocess", "oa/plugins/razor2.py:plugin_report", "oa/plugins/razor2.py:plugin_revoke"]}
{"id": "C254", "title": "Reading the Bayes stores", "statement": "Looking tokens up changes nothing in the store and answers, for each token in order, with what is stored under it or nothing, the same with both stores; touching tokens changes the access times of exactly these tokens and no counts.", "quantifier": "all contents of the store, all lists of tokens, both stores", "why_tests_cant": "It must hold for every content of the tables and every list of tokens, with repetitions and unknown ones.", "anchors": ["oa/db/bayes/sqlalchemy.py:tok_get_all", "oa/db/bayes/mysql.py:tok_get_all", "oa/db/bayes/sqlalchemy.py:tok_touch_all", "oa/db/bayes/mysql.py:tok_touch_all"]}
{"id": "C255", "title": "Too deeply nested includes are shown as a list of places", "statement": "When includes are nested too deep, match.py shows the way of includes that led there: eleven places, innermost first, starting from one of the configuration files, each with the file, the number and the text of the line holding the include. (The number and text are right; but the file named beside them is the one that is included, not the one that holds the line.)", "quantifier": "all sets of configuration files, all include graphs, all contents, all plugins and options", "why_tests_cant": "include graphs have any shape; tests use one file including itself, where the two files are the same", "anchors": ["oa/rules/parser.py: PADParser.parse_file, PADParser._handle_include", "oa/errors.py: MaxRecursionDepthExceeded", "scripts/match.py: main"]}
{"id": "C256", "title": "Errors about configuration lines name the right place", "statement": "Every error about a missing argument names a configuration file or a file included from one, and the number (from one) and text of an incomplete line of that file; every rule line without name or text in a block that is in force is reported; with -P the first one ends the parsing, without it parsing goes on with the next line; naming the places changes nothing of the outcome.", "quantifier": "all configuration files, include graphs, plugins and options, both modes", "why_tests_cant": "the place of an error depends on all lines and includes before it", "anchors": ["oa/rules/parser.py: PADParser.parse_file, PADParser._handle_line, PADParser._paranoid", "oa/errors.py: InvalidSyntax"]}
{"id": "C257", "title": "Reports show the verdict, score and rules of the mail", "statement": "A report made from any template about a plain mail checked under a configuration of plain rules shows, wherever the template names them, the verdict (Yes exactly if the sum of what the hitting rules are worth reaches the required score), that sum, the required score and the rules that made the score, each once and in the summary with what it is worth; all else is copied and unknown tags are marked.", "quantifier": "every configuration of word and meta rules, scores and descriptions over any files, every report template without percent signs, every plain mail", "why_tests_cant": "It joins configuration reading, rule building, message loading, matching and rendering; all configurations, templates and mails.", "anchors": ["oa/rules/ruleset.py:RuleSet.get_report", "oa/rules/ruleset.py:RuleSet._interpolate", "oa/rules/ruleset.py:RuleSet.match", "oa/rules/parser.py:parse_pad_rules", "oa/message.py:Message._parse_message"]}
{"id": "C258", "title": "Changed mails carry the verdict on that mail", "statement": "Under a configuration of plain rules the changed version of a plain mail can always be made: its own fields (or those of the message that wraps it), then the fields configured for all mails and for its kind, filled in with the verdict, score and rules of that mail, without the fields to be removed; it counts as spam exactly if the sum of what its hitting rules are worth reaches the required score; the content is its own, or its full text attached.", "quantifier": "every configuration of word and meta rules, scores and descriptions over any files, all templates and header settings without percent signs, every report_safe value, every plain mail", "why_tests_cant": "It joins configuration reading, rule building, message loading, matching, rendering and header edits; all configurations, templates and mails.", "anchors": ["oa/rules/ruleset.py:RuleSet.get_adjusted_message", "oa/rules/ruleset.py:RuleSet._adjust_headers", "oa/rules/ruleset.py:RuleSet._interpolate", "oa/rules/ruleset.py:RuleSet.match"]}
