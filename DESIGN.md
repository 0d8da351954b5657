# A Rocq model of OrangeAssassin

The source modelled is `/repo` (Python, pinned commit, unchanged).  The model
is read from the source text; nothing of the project is executed.

## Layout (all under `rocq/theories`)

* `PyStr.v`, `PyDict.v` - Python `str` (list of code points) and ordered `dict`
  operations used everywhere, with their characterising lemmas.
* `Model_*.v` - Gallina transcription of the Python code, function by function.
  Every definition cites the file and lines it models and says what is
  simplified.  No proofs.
* `Spec_*.v` - the small, independent vocabulary in which a property is stated
  (written from the English property, not from the model's helpers).
* `Proofs_*.v` - lemmas.
* `Props_*.v` - only the property theorems (`C<nn>_...`), each closed by
  `exact lemma`, followed by `Print Assumptions`, with an `Example` showing a
  concrete non-trivial case that meets the hypotheses.

Naming: `C12_..._partial` = a weaker statement than the English property (the
missing part is stated in the comment above it and in MANIFEST.json);
`C12_..._refuted` = the English property is false of the code, with a concrete
witness run through the model.

## Conventions

* Scores are exact rationals (`Q`).  Float rounding is not modelled.  Where the
  order of additions matters for floats the statements keep the order
  (`fold_left`).
* Exceptions are values of a result type.  `StopProcessing`,
  `InhibitCallbacks`, `InvalidRule`, ... are distinct constructors whenever the
  code treats them differently.
* Third-party and run-time behaviour (regular expression engine, DNS answers,
  MIME parsing, file system contents, clock, databases' SQL engine) is a
  universally quantified function or an input of the modelled function; the
  theorems hold for all of them.
* Python loops become structural recursion or folds; loops without a
  structural argument become fuelled recursion with an explicit out-of-fuel
  result that the theorems exclude or show unreachable.

## Plan per property

| id | model | how it is proved |
|----|-------|------------------|
| C01 | `RuleSet.match` loop over (rule, outcome) lists | induction on the rule list; spec = filter the hits and fold their scores |
| C02 | same; outcome `Raises` | replacing every raising outcome by a miss gives the same final message |
| C03 | comparison operators + stable merge/insertion sort of `sorted` | Permutation, StronglySorted, stability (filter per priority) |
| C04 | `rules_checked` dict, `SYMBOLS`, `_TESTS_` | induction; NoDup of names |
| C05 | the four threshold tests | case analysis over `Q` |
| C06 | `BaseRule.__init__`, `preprocess` | case analysis; refuted for a zero first score |
| C07 | `__init__`, `should_check`, `add_rule`, `match` | invariants of `add_rule` + C01; refuted with short-circuited sub-rules |
| C08 | `preprocess`, `should_check` | case analysis over flags |
| C09 | `ShortCircuitRule.__call__`, `finish_parsing_end`, `match` | induction on the rule list; refuted with meta rules, see C244 |
| C10 | tokenizer-level expression AST, `MetaRule.match` | structural induction, fuel = nesting rank |
| C11 | `postparsing` depth-first search with the depth limit, `call_postparsing` | invariant "processed rules are closed under references and ranked" |
| C12 | same | depth bounded graphs are kept; refuted by a chain of 12 |
| C13 | `HeaderRule.get_rule`, `match` | case analysis, `existsb` |
| C14 | `add_rule`, `get_rule` | induction over the definition list |
| C15 | `_handle_line` on tokenised lines, `results` | fold over lines, spec = last assignment |
| C16 | `_handle_line` on raw strings | inert line lemma for every state |
| C17 | `_ignore` flag machine | refinement for flat blocks; refuted for nested ones |
| C18 | `parse_file` with depth over an abstract file system | structural recursion on remaining depth; in-place expansion spec |
| C19 | `parse_file` error handling, `get_ruleset` | line-removal lemma; refuted for bad option values |
| C20 | `Conf.set_*_option` | per-type lemmas plus frame condition |
| C21 | heap model of class-level defaults | refuted with a two-context history; scalar options isolated |
| C22 | `set_clear_option` | fold over option lines |
| C23 | `get_config_files` | order statement over any listing |
| C24 | `get_userprefs_path`, `os.path.join` | refuted by a traversal string; proved for names without `/` |
| C25-C28 | `networks.py`, IPv4/IPv6 networks as (version, base, prefix length) | list induction, arithmetic on `N` |
| C29-C30 | `_parse_relays` | fold invariants |
| C31-C36 | `server.py`, `protocol/*` over byte lists | induction over streams / histories |
| C37-C38 | `context.py` registry as dicts, hooks as fold with early exit | induction over load/unload histories; refuted for restoration |
| C39-C40 | `awl.py` record update over `Q` | fold over message history, convexity in `Q` |
| C41 | `auto_learn_threshold.py` | case analysis; ham side refuted |
| C42 | `bayes.py` learn/forget over an abstract store | history induction; SQL store refuted (update without insert) |
| C43 | `_compute_prob_for_all_tokens` over `Q` | field arithmetic |
| C44 | `Chi.combine`, `chi2Q` over `R` | real analysis with stdlib reals (axioms listed) |
| C45 | `wlbl_eval.py` globs | refuted for anchoring; soundness the other way |
| C46 | plugin state across messages | refuted for SPF, relay, DKIM, Razor; proved for per-message state |
| C47 | `is_query_restricted` | termination by length, nearest-ancestor spec |
| C48 | `dns_eval.py` | list induction, bit masks |
| C49 | `replace_tags` | induction over split pieces |
| C50 | redirector loop | the remaining URI is strictly shorter |
| C51-C52 | `_Headers`, `translate_line_breaks` | induction |
| C53 | `_adjust_headers` | fold over edits |
| C54 | `perl2re`, with the three rewrites of Perl constructs as a relation (`Spec_Perl.v`) | string lemmas; each rewrite satisfies the relation, which is functional |
| C55 | `get_matched_report` over the result of `match` | refuted after a short circuit; proved without one |
| C56-C57 | header caches, header decoding, `_parse_message` | cache invariant over any sequence of lookups; refuted for undecodable subjects |
| C58-C60 | construction of rules, `get_ruleset` | case analysis per rule class; composition of C01, C06, C14 with the parser |
| C61-C64, C74 | `received_parser.py`, `_parse_sender`, `_parse_relays` | string lemmas, fold invariants over the relays |
| C65-C66 | user rule sets, request handling | histories of requests over the server state |
| C67-C69 | `_convert_tags`, `_interpolate`, the summary | string induction; refuted for `%` |
| C70-C72 | `hook_report`, plugin data, `__getstate__` | registry invariants; heap model of the live context |
| C73 | AWL keys | parsing lemmas on addresses |
| C75-C76 | choice of Bayes tokens, range rules | sorting lemmas, order on `Q` |
| C77-C81 | `wlbl_eval.py` | regular expressions from `PyRe.v`, string lemmas, caches per check |
| C82-C84 | `dns_interface.py`, `dns_eval.py` | state machine over test answers and clock |
| C85-C88 | `html_parser.py`, `uri_eval.py`, `uri_detail.py` | fold over parser events; refinement to well nested documents |
| C89-C90 | `spf.py` | matching relation of the header expressions, state over messages |
| C91-C94 | `relay_eval.py` | string lemmas, arithmetic on addresses |
| C95-C96 | `body_eval.py` | part tree induction; counting lemmas |
| C97-C102 | `dkim.py` | state over rules and messages, verification as a quantified oracle |
| C103-C106 | `razor2.py`, `pyzor.py`, `spam_cop.py`, `whitelist_subject.py` | servers as quantified functions; case analysis |
| C107-C110 | `free_mail.py` | glob semantics, set of addresses, limits |
| C111-C117 | `header_eval.py` (numeric rules), `locales.py` | header state over sequences of rules; sorting; `Z` arithmetic |
| C118-C124 | the tokeniser of `bayes.py` | fuel = length; exact token relation; permutation of headers |
| C125-C139 | `mime_eval.py`, `_parse_message` | fold over parts with additive counters; paragraph splitting |
| C140-C152 | `image_info.py`, `pdf_info.py` | picture and PDF libraries and MD5 as quantified functions; invariant over the parts read so far |
| C153-C159 | `plugins/base.py`, `relay_country.py`, `textcat.py`, `msgid`, `receive_date`, `scripts/match.py` | string lemmas (splitting and reading URLs), SHA-1, databases and detectors as quantified functions |
| C160-C165 | `received_parser.py`, all expressions | `Regexp.v`: a model of Python's `re` (compiler for the pattern texts, backtracking matcher as ordered lists of ways); matching patterns by following the first way, failing ones by an over-approximating matcher on shapes (`Proofs_RegexpFail.v`) |
| C166-C169 | `received_parser.py` (`get_id`, `get_auth`, `get_envfrom`), `_parse_relays` | last match of a greedy expression; backtracking to the last word boundary; absence of the literal texts an expression needs; composition of C162 and C30 |
| C170-C181 | `plugins/header_eval.py`, the rules about providers' headers | every expression is compiled by `Regexp.v`, given a denotation (`Spec_Regexp.v`: which texts it reads, between which neighbours; `Proofs_RegexpLang.v`: the backtracking matcher finds exactly these), and shown equal to a readable form (`Spec_Template.v`); the rules follow by cases |
| C182-C186 | `received_parser.py` (`get_helo`, `get_ident`, `get_auth`, `get_rdns`, the filter of headers) | the groups of a successful match are read off from the denotation of the expression around them; the uniqueness of the mark in the header then fixes what they are; expressions tried before fail for want of a literal |
| C187-C190 | `header_eval.py`: the rules that insert a text of the message into a pattern (`check_for_msn_groups_headers`, `check_ratware_name_id`, `check_ratware_envelope_from`, `check_for_unique_subject_id`) | the parser of expressions is proved to turn a text without special characters into a sequence of literals, by induction on the text (more fuel never changes a parse); the forms of the whole expression follow, and the text itself from the groups of the match before it |
| C191-C194 | `scripts/match.py` (whole run), `scripts/compile.py` | reading files and parsing as quantified functions; induction over arguments and messages; UTF-8 lemmas of `PyUtf8`; setting up short circuits twice by induction over the rules |
| C195-C198 | `oa/common.py`, `scripts/oad.py`, `setup_logging` | decimal numerals are read back by `int`; invariant over histories of the machine; levels by cases |
| C199 | `REIMPLEMENTED_PLUGINS`, `loadplugin`, `ifplugin` | the lines are parsed for every entry of the table, whatever follows |
| C200-C202 | `_configure_dns`, `dns_options`, the setters of `dns_interface.py` | first ways of the expression for servers, alternatives that lead nowhere excluded by counting colons; fold over the lines |
| C203-C206 | `bayes.py`: the values `scan` keeps, `check_end`, `_compute_declassification_distance`, `bayes_report_make_list`, `ignore_message` | counting in the sorted and cut list; sign of a quadratic with one positive root (stdlib reals, axioms listed); languages of the entries |
| C207-C213 | `message.py`: `URL_RE`, `_decode_header`, `_iter_parts`, `normalize_html_part`, `_parse_message` | the `email` package splits the message, codecs and the HTML parser are quantified functions; language and first match of the regular expression; induction over the parts; transfer encodings of `PyMime` inverted |
| C214-C218 | `message.py`: `_ParseHTML` with `html.parser` of CPython 3.11 (`PyHtml`) | invariant of the parser's loop: what it hands over stands in the text in order, it always goes forward; first ways of its expressions on a grammar of documents, induction over the document; unfinished markup by cases |
| C219-C224 | `html_parser.py` fed with the text of a message, by the parser of `PyHtml`; `uri_eval.py` on the result (`Model_Links`) | on pages: induction over the document, with the state of the handlers described by the markup before it; on all texts: invariant of the loop of the parser, carried over to the handlers |
| C225-C230 | `message.py`: from the text of a message to its parts; `email.feedparser` and the header parsing of `email.message` of CPython 3.11 (`PyEmail`, `Model_Message`) | a grammar of mails (`Spec_Message`): induction over the mail, rows read one by one; for any text: potential of the unread rows bounds the recursion, what is read is a subsequence of the rows |
| C231-C236 | `message.py`: addresses and names of headers, senders and recipients; `email.utils.getaddresses` with `AddrlistClass` of CPython 3.11 (`PyAddr`, `Model_Address`) | a grammar of address headers (`Spec_Address`): induction over entries and groups, reading functions on what follows them; for any text: what is read is a subsequence of it, opening brackets bound the nesting |
| C237-C240 | `bayes.py`: lines of the body, Message-ID, Received, Content-Type before their words are taken (`RegexpSub` for `re.sub`, `Model_BayesChew`) | `re.sub` with a class is a map; matches of the patterns characterised by where a word stands alone; the last replacement leaves no match behind |
| C241-C243 | the program as a whole (`Model_Program`): files, rules, mail and daemon joined from the models above | a word compiles to a literal pattern that finds it; the table after the lines holds the last settings; each entry is built into a rule that only reads; post-parsing keeps all meta rules (C12) and their value is the value of the expression (C10), by induction on the layers; the splitting theorem of C225 and C66 are composed |
| C244 | meta rules calling short-circuited rules (`Model_ShortMeta`): evaluation that threads the message | the rules needed for a meta rule form one list (well-founded induction); a run of the expression is the search for the first one in it that ends the check |
| C245 | options of the address lists, `check_start`, the rules on lists (`Model_Lists`), from option lines and header fields | the option world after any lines (induction, C20 and C22), then C45, C78 and C235 |
| C246 | whitelists with relays from option lines | as C245 with C77; lines of type "list" replace each other: refuted and exact part |
| C247 | host lists from option lines | as C246 with C81; a blank piece makes `check_start` raise |
| C248 | the address parser (`PyAddr`) on an at sign or a closing bracket too many | the parser run on such texts, as for C234 |
| C249 | the table of main options (`Model_Conf.pad_options`) with the histories of C20-C22 | the table is compared with one written out in `Spec_MainOptions`; the rest from C20 and C22 |
| C250 | `STOCK_RE` compiled and run by the matcher of `Regexp`, `check_stock_info` | the expression stands for finitely many templates, compared with the written-out words; counting by induction on the text |
| C251 | `Regex` of `oa/regex.py`: the object with its compiled expression, any uses in any mode (`Model_Lazy.v`) | invariant: it holds nothing or its own expression |
| C252 | `iter_decoded_headers` and the rules of `dump_text.py` (`Model_Dump.v`) | keys of the header dict are the different names in order; grouping is a permutation |
| C253 | `launch_subprocess`, `plugin_report`, `plugin_revoke` of `razor2.py`; the program is any function from arguments to a behaviour (`Model_Razor.v`) | case analysis |
| C254 | `tok_get`, `tok_get_all`, `tok_touch_all` of both stores on the tables of C42 (`Model_BayesRead.v`) | induction on the tokens asked |
| C255 | the exceptions of the parser with the places they carry, line numbers and the log of errors (`Model_Where.v`), beside the parser of C15-C19 | induction on depth and lines; refuted for the named file |
| C256 | as C255; same outcome as `Model_Parser.v` by forgetting the places | induction on depth and lines; lemma on the number of fields of a line |
| C257 | the composition of C241 with the templates of C67 (`Model_Program.v`, `Model_Report.v`) | the theorem on the whole program, which also gives that no tags are set, then C67 and case analysis of the tag |
| C258 | the composition of C241 with the header edits of C53 and the templates of C67 | as C257, then C53 and C67 for each configured field |

## Trusted base

* The kernel of Coq 8.16.1 (`coqc`; the compiled files are also re-checked with
  `coqchk`), its parser and its printing of statements.
* `Print Assumptions` follows every property theorem.  It prints `Closed under
  the global context` for all of them except the theorems of C44
  (`Props_BayesChi.v`, real numbers) and of C203 to C205 (`Props_BayesReport.v`,
  the real numbers of the declassification distance), which rest on four axioms of the standard
  library: `ClassicalDedekindReals.sig_not_dec`,
  `ClassicalDedekindReals.sig_forall_dec`,
  `FunctionalExtensionality.functional_extensionality_dep` and
  `Classical_Prop.classic`.
* No axiom, parameter, admitted proof, functor or module type of our own; no
  kernel check is switched off.  Other constants that a library listing shows
  (`Rdefinitions.RbaseSymbolsImpl.*`, `RinvImpl.*`, `ssrunder.Under_rel.*`) are
  opaque constants with a module type in the standard library, loaded with
  `Reals` and `ssreflect`; only the standard library is used.
* That the Gallina definitions say what the Python text says.  Each definition
  cites the lines it transcribes, and what it leaves out.  `seeded/LOG.jsonl`
  lists the edits of the model the theorems were tried against.

## What is modelled, and what is not

Modelled (file: model file):

| source | model | left out |
|--------|-------|----------|
| `oa/rules/base.py`, `ruleset.py`, `plugins/short_circuit.py` | `Model_Rules`, `Model_Report` | logging; the e-mail library's re-serialisation of an edited message |
| `oa/rules/{body,full,uri,header,meta,eval_}.py` | `Model_Build`, `Model_Headers`, `Model_Meta` | the regular expression engine (quantified), Python's `tokenize` below token level |
| `oa/rules/parser.py`, `oa/config.py` | `Model_Parser`, `Model_Files` | argument parsing, logging set-up, file encodings |
| `oa/conf.py`, `oa/context.py` | `Model_Conf`, `Model_Context` | import machinery (a plugin is a record), pickling format |
| `oa/regex.py` | `Model_Headers` | the engine itself; `PyRe.v` gives the meaning of the expressions the plugins build |
| `oa/message.py`, `oa/received_parser.py` | `Model_Headers`, `Model_Relays`, `Model_MimeEval`, `Model_BodyEval`, `Regexp`, `Model_Received`, `Model_Load`, `PyMime`, `Model_Message` | C207-C213 take the MIME parts as inputs, C225-C230 split the text; codecs other than UTF-8, uuencode, repairs of broken base64; C61-C74 take the parsed Received fields as inputs, C160-C169 and C182-C186 parse them with the real expressions |
| Python's `re` (for the patterns of `received_parser.py`) | `Regexp` | Unicode case folding beyond ASCII; which characters outside ASCII are digits or word characters is quantified |
| `oa/networks.py` | `Model_Net` | |
| `oa/server.py`, `oa/protocol/*` | `Model_Server` | sockets, threads and processes below the level of complete requests |
| `oa/dns_interface.py` | `Model_Dns`, `Model_DnsConf` | the resolver (quantified) |
| `oa/html_parser.py` | `Model_Uri` (handlers), `Model_Links` (with the parser, `PyHtml`) | `urlparse`, `unquote` and `html.unescape` are inputs |
| `html.parser` and `_markupbase` of CPython 3.11, without `convert_charrefs` | `PyHtml` | what is handed to other methods than `handle_data`; `close` (never called) |
| `email.message_from_string` of CPython 3.11: `feedparser`, `_policybase.Compat32`, `get_param`, `get_boundary`, `get_content_type`, `get_content_charset`, `walk` | `PyEmail` | defects; the recursion limit; codecs of extended parameters (quantified) |
| `email.utils.getaddresses` and `email._parseaddr.AddrlistClass` of CPython 3.11.10, strict and not | `PyAddr`, `Model_Address` | dates; Python counts stack frames, the model levels of brackets and groups |
| `oa/locales.py` | `Model_HeaderEval` | |
| `oa/db/bayes/*`, `plugins/bayes.py` | `Model_BayesStore`, `Model_BayesScan`, `Model_BayesChi`, `Model_BayesTok`, `Model_BayesChew`, `Model_BayesReport` | the SQL engine beyond insert/update/delete, token hashes |
| `plugins/awl.py`, `auto_learn_threshold.py`, `wlbl_eval.py`, `dns_eval.py`, `replace_tags.py`, `uri_eval.py`, `uri_detail.py`, `spf.py`, `relay_eval.py`, `body_eval.py`, `dkim.py`, `razor2.py`, `pyzor.py`, `spam_cop.py`, `whitelist_subject.py`, `free_mail.py`, `header_eval.py`, `mime_eval.py`, `image_info.py`, `pdf_info.py` | the model file of that name (`Model_Feedback` for Razor, Pyzor, SpamCop and subject lists, `Model_Attach` for pictures and PDF files) | see the head of each file |
| `plugins/base.py`, `relay_country.py`, `textcat.py`, `oa/message.py:549-595`, `scripts/match.py` (its loop) | `Model_Tools` | the database, language and country libraries (quantified), argument parsing |
| `scripts/match.py`, `compile.py`, `oad.py`, `oa/common.py`, `setup_logging`, `oa/plugins/__init__.py` | `Model_Scripts`, `Model_PluginNames` | `argparse`; detaching and signals of the daemon library; the pickling format |
| `plugins/header_eval.py`, rules with expressions | `Model_Provider` | the third alternative of the Juno rule (its branches agree); time zones and `mktime` (quantified) |
| `plugins/dump_text.py`, `oa/errors.py` | `Model_Dump`, `Model_Where` | the wording of the messages; errors other than missing arguments and the depth of includes |

Not modelled: `docs/`.
Everywhere: float rounding, Unicode case tables (quantified functions),
recursion and memory limits, concurrency between processes except for the
database updates of C40 and C42.

## Findings

The properties below are false of the code.  Each has a `_refuted` theorem with
a witness; the `_partial` theorem beside it says what does hold.

* Rules: producing a report after a short circuit raises (C55); a rule whose
  first of four scores is zero is dropped (C06); meta rules: operators have
  Python's precedence, a syntax error aborts loading (C10), a chain of 12 metas
  is rejected (C12); a short-circuited sub-rule inside a meta stops the run.
* Configuration: a bad option value, a bad score, a header rule without
  operator and an empty expression abort loading (C19, C54); an invalid
  redefinition drops the earlier rule (C14); nested `ifplugin` blocks and blocks
  that leak into other files (C17); the same directory with and without a
  trailing slash is read twice (C23); a user name can leave the preference
  directory (C24); lists are shared between contexts and doubled on reload
  (C21); network lists are class-level (C27); `eval:` argument parsing (C59);
  `mimeheader` priority is ignored (C58).
* Headers: polarity of `!~`, `exists:` and `=~` inside a pattern (C13); an
  undecodable Subject stops loading (C57).
* Relays: a HELO name containing "authenticated" is trusted, everything after a
  submission agent is trusted (C30); relays without address break
  `get_untrusted_ips` (C63); a leading zero octet stops loading (C64); the
  LASTEXTERNAL tags name the farthest relay (C74).
* Server: malformed request lines get no reply, a `KeyError` is reported as a
  bad header after the OK line (C31); a multi-byte character across chunks is
  rejected and compression never works (C33); Content-length counts characters
  (C34); TELL targets with blanks are skipped but echoed (C35); changed
  preferences are not seen until reload (C36); user rule sets lose options of the
  site (C65).
* Reports: `%` in templates (C67), TESTSSCORES prints 1 (C68), `hook_report`
  ignores what it is told (C70); unloading a plugin removes rules of others
  (C37); `__getstate__` changes the live context (C72).
* AWL: the MySQL path updates without WHERE, lost updates, a zero mean never
  adjusts (C39, C40); the signing domain is taken from an unverified header.
* Learning: auto-learning looks at all rules instead of the hits (C41); Bayes
  training loses first records (C42); the 150 weakest tokens are used, scores are
  attributed to wrong tokens (C43, C75); no evidence gives the ham share (C44);
  the tokeniser does not end on "e.g", fails on "a@b" and reads the message
  loaded last (C118, C119, C124).
* Lists: entries are searched inside addresses, `?` is optional (C45); senders
  are marked forged (C77); suffixes without dot (C80, C81); SPF and DKIM lists
  compare the beginning only (C90, C100, C101); free mail limits and wildcards
  (C107-C110); subject lists shared by contexts (C106).
* Network rules: DNS restrictions (C47), private addresses and masks (C48), test
  intervals (C82), zones (C83), suppressed queries (C84); results of the first
  message stay for later ones in SPF, relay rules and DKIM (C46); failed
  verification counts as valid (C98, C99); Razor's second answer is inverted
  (C103); Pyzor (C104); SpamCop options (C105).
* Content rules: HTML link texts (C85), https/IP mismatch (C86), `uri_detail`
  text key (C88), private networks (C94), blank lines (C96), faraway charsets
  (C111, C127), illegal characters (C112, C113, C128), recipients (C114), dates
  (C115, C116), header counts and domains (C117), and most MIME rules
  (C125, C128-C135, C137, C138).
* Attachments: type image/all (C140), zero limits (C140, C146), copies (C142,
  C147), no pictures (C144), damaged files end the check (C145, C152), quoted
  limits (C146), unnamed files (C148), PDF properties (C149).
* Small tools: passwords with slashes (C153), malformed settings abort loading
  (C154), relays without address and forged X-Relay-Countries headers (C155),
  shared identifiers (C157), invalid dates (C158), the number of messages (C159).
* Received headers: the peer's HELO word hides its relay (Unknown/Local,
  X-ORIGINATING-IP; C162), drops or replaces its address (Exim format, C163; a
  public address in HELO beside a private peer address, C162); names containing
  `unknown` are dropped (C162); 172.16/12 is not private (C165), while
  X::ffff:A.B.C.D becomes another address (C165); the GMail cipher text is taken
  as authentication method with its blanks (C160). The HELO
  word `authenticated` makes any outside host trusted, from header to relay list
  (C168); a queue id ending in `id` makes the next word the id (C166).
  Envelope senders are cut at the last equals sign, so that bounce and list
  senders (VERP, SRS) lose their local part (C169).
* Rules about providers: the Hotmail rules raise for MSN groups with a display
  name (C172); mail from Juno without X-Originating-IP always counts as forged
  (C175); a piece of a From address counts as matching envelope sender, and so
  does no sender (C176); the Outlook rule raises without Received header (C181).
* Rules that insert a text of the message into a pattern do so unescaped: group
  names, message ids, addresses and subjects with brackets raise (C187-C190).
* Programs: an unreadable message file ends the run before the later ones
  (C192), and so does a file that is not UTF-8 (C193); stored rule sets older
  than the configuration are used (C194); the version check raises for Python
  2.7.15+ (C195); failed starts and foreground servers corrupt the pid file
  (C196); `--allow-tell` has no effect (C197); Sentry misses messages (C198);
  the PDF plugin cannot be loaded under its name (C199).
* Resolver: `dns_options` is matched against one class of characters and never
  has an effect; time limits and test intervals are set on attributes nobody
  reads (C201); a stored rule set does not switch EDNS on (C202).
* Bayes reports: beyond 150 known tokens strong ones are counted as neutral
  (C203); the distance of spammy tokens uses the mirrored prior (C204); the limit
  of token lists is ignored, the long formats raise, and a failed update of access
  times makes the whole check fail after the rules have run (C205); entries of
  `bayes_ignore_from` are never converted: a leading star raises, parts of
  addresses match (C206).
* Loading: a NUL in the name of a charset, of a part or of a word of the subject,
  makes loading raise, and so does an HTML part the parser does not take, because
  the exception named in the handler no longer exists (C209, C211); text sent
  unencoded in UTF-8 is seen with escapes in place of its letters or without them
  (C210); addresses in capitals are not seen by uri rules, addresses with accented
  letters are cut (C207).
* HTML parts: a word with markup or a character reference in it is seen in two
  pieces, text of styles and scripts is seen (C216); an open comment, tag, script or
  reference hides all the text after it, because the parser is never closed (C217);
  an unknown marked section makes loading raise (C218).
* Links: with the URIDetail plugin, `<a href>` without a value, an address
  `urlparse` rejects (`http://[`) and an unknown marked section make loading raise,
  in parts of plain text as well (C221); unfinished markup hides all links after it
  (C222); a first anchor to a named host switches the check for disguised addresses
  off (C223); a link tag without address inside an open link of the other kind may
  raise (excluded from pages in C219).
* Splitting: a charset or boundary given once as a whole and once in sections
  (`charset*=x; charset*0=y`) makes loading raise (C227); the text of a message that
  says it is a multipart but lacks the separator is seen by no rule, nor are
  preambles and epilogues (C229).
* Addresses: an address in the place of the name (`good@x <evil@y>`) hides the real
  one: rules, score history and white lists see the first, or, with the newer parser
  of the library, there is no address at all and no black list entry matches (C234);
  brackets inside one another make all address lookups raise (C232); a header that
  cannot be decoded has the address None (C236).
* Bayes texts: each row of a paragraph is a line of its own (C237); a date can leave
  the number of the queue behind (C239); runs of separators of a boundary all become
  the character 1, and its shape is joined to the random boundary, which stays (C240).
* Short-circuiting: rules are wrapped before meta rules are bound to them, so a meta
  rule that asks for a short-circuited rule ends the check before it is recorded
  itself, out of turn, even under `!`; a short-circuited sub-rule is listed as a hit
  and brings the bonus (C07, C09, C244).
* Lists: each line of `whitelist_from_rcvd`, `def_whitelist_from_rcvd` and the four
  `*_uri_host` options replaces the line before and is split at commas (C246, C247);
  a comma at the end of the `enlist_uri_host` line makes the loading of every mail
  raise (C247); a rule that names an unknown list raises (C245).
* Seen while modelling, without a theorem of their own: with the newer parser a
  comma in a remark, a comma at the end or an address with a domain in square
  brackets leaves a header without addresses; a quoted name alone is taken as an
  address; the result for the originating headers is stored among the Received
  headers; an attachment type is misspelt `rfc882`.
