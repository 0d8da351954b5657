(** Theorems C191-C199: the command line programs. *)
From Coq Require Import ZArith QArith Lia.
From Verif Require Import PyStr PyDict PyUtf8 Model_Rules Spec_Rules Model_Tools Model_Scripts Spec_Scripts Proofs_Scripts.
From Verif Require Import Model_Net Model_Parser Spec_Parser Model_PluginNames Spec_PluginNames Proofs_PluginNames.
From Verif Require Model_Headers.
Open Scope nat_scope.

(** C191: the command line tool ends with status 0 exactly if there are configuration files,
    they can be parsed, and every message can be read and loaded; then every message has been
    handled as the options say, in order, with the rules of these files. *)
Theorem C191_success : forall (R : Type) parse (post : R -> option R) files compiles store paranoid show_unknown loads
    revoke report report_only test_mode args used ev e,
  match_main R parse post files false compiles store paranoid show_unknown loads (mode_of revoke report report_only test_mode) args = (used, ev, e) ->
  (status e = 0 <-> exists fs rs tss, files = Some fs /\ fs <> [] /\ parse fs paranoid (negb show_unknown) = Parsed rs /\
     Forall2 (Forall2 (arg_ok (loads rs))) args tss /\ used = Some rs /\
     ev = flat_map (expected revoke report report_only test_mode) (concat tss) ++ summary revoke report (length args)).
Proof. intros R. exact main_direct. Qed.
Print Assumptions C191_success.
(** Without rules nothing is done with any message, and the status is 1. *)
Theorem C191_no_rules : forall (R : Type) parse (post : R -> option R) files compiles store serialize paranoid show_unknown loads o args used ev e,
  match_main R parse post files serialize compiles store paranoid show_unknown loads o args = (used, ev, e) -> used = None -> ev = [] /\ status e = 1.
Proof. intros R. exact main_no_rules. Qed.
Print Assumptions C191_no_rules.
Example C191_case :
  let parse (fs : list str) (p i : bool) := Parsed (length fs) in
  match_main nat parse Some (Some [$"a.cf"; $"b.cf"]) false (Some true) Missing false false (fun _ _ => true) (mode_of false false true false)
    [[Some ($"m1")]; [Some ($"m2"); Some ($"m3")]] =
  (Some 2, [Matched ($"m1"); PrintReport ($"m1"); Matched ($"m2"); PrintReport ($"m2"); Matched ($"m3"); PrintReport ($"m3")], Ended).
Proof. reflexivity. Qed.

(** C192: a message that cannot be read does not keep the others from being handled.  This
    holds for the messages before it only: the rest is not handled. *)
Theorem C192_before_partial : forall (R : Type) parse (post : R -> option R) files serialize compiles store paranoid show_unknown loads
    revoke report report_only test_mode args rs before ts bad after,
  load_ruleset R parse post files serialize compiles store paranoid show_unknown = inl rs ->
  concat args = before ++ bad :: after -> Forall2 (arg_ok (loads rs)) before ts -> broken (loads rs) bad ->
  match_main R parse post files serialize compiles store paranoid show_unknown loads (mode_of revoke report report_only test_mode) args =
  (Some rs, flat_map (expected revoke report report_only test_mode) ts, Traceback).
Proof. intros R. exact main_broken. Qed.
Print Assumptions C192_before_partial.
(** A file with a byte that is not UTF-8, before a good one *)
Theorem C192_refuted : exists content paths m,
  let args := arguments (fun _ => false) (fun _ => None) content [] paths in
  In (Some m) (concat args) /\
  forall R parse (post : R -> option R) files compiles store paranoid show_unknown loads o used ev e,
    match_main R parse post files false compiles store paranoid show_unknown loads o args = (used, ev, e) -> ev = [].
Proof.
  exists (fun p => if streqb p ($"bad") then Some [72; 233]%N else Some ($"good")), [$"bad"; $"fine"], ($"good"). cbv zeta. split; [right; left; reflexivity|].
  intros R parse post files compiles store pa su loads o used ev e. unfold match_main.
  destruct (load_ruleset _ _ _ _ _ _ _ _ _); [|intros [= _ <- _]; reflexivity]. vm_compute. intros [= _ <- _]. reflexivity.
Qed.
Print Assumptions C192_refuted.
Example C192_case :
  concat [[Some ($"a"); None]; [Some ($"b")]] = [Some ($"a")] ++ None :: [Some ($"b")] /\
  Forall2 (arg_ok (fun _ => true)) [Some ($"a")] [$"a"] /\ broken (fun _ => true) None /\
  all_arguments (fun _ => true) (mode_of false true false false) 0 [[Some ($"a"); None]; [Some ($"b")]] = ([Reported ($"a")], false).
Proof. split; [reflexivity|]. split; [repeat constructor|]. split; [exact I|reflexivity]. Qed.

(** Which messages there are: without arguments the one on standard input; for a directory those
    of its files, in order; for - the one on standard input; else that of the file.  [None]: one
    that cannot be read. *)
Theorem C192_messages : forall isdir listdir content stdin paths,
  (paths = [] -> arguments isdir listdir content stdin paths = [[Some (decode_ignore stdin)]]) /\
  (paths <> [] -> Forall2 (fun p texts =>
     if isdir p then match listdir p with None => texts = [None] | Some fs => Forall2 (read_from content stdin) fs texts end
     else exists t, texts = [t] /\ read_from content stdin p t) paths (arguments isdir listdir content stdin paths)).
Proof. exact arguments_are. Qed.
Print Assumptions C192_messages.
Example C192_messages_case :
  concat (arguments (fun p => streqb p ($"d")) (fun _ => Some [$"d/1"; $"d/2"]) (fun p => if streqb p ($"d/2") then None else Some p) ($"in") [$"d"; $"-"; $"f"]) =
  [Some ($"d/1"); None; Some ($"in"); Some ($"f")].
Proof. vm_compute. reflexivity. Qed.

(** C193: a message is analysed in the same way whether it is read from a file or from standard
    input.  This holds if it is valid UTF-8, whatever its line breaks are. *)
Theorem C193_file_or_input_partial : forall bytes text, decode bytes = Some text ->
  option_map Model_Headers.translate_line_breaks (read_text bytes) = Some (Model_Headers.translate_line_breaks (decode_ignore bytes)).
Proof. exact same_message. Qed.
Print Assumptions C193_file_or_input_partial.
(** On standard input, bytes that begin no character are left out and everything else is kept. *)
Theorem C193_input : forall pieces bytes, Forall (fun p => Forall no_start (fst p)) pieces -> spoilt pieces = Some bytes ->
  decode_ignore bytes = flat_map snd pieces.
Proof. exact ignore_spoilt. Qed.
Print Assumptions C193_input.
Theorem C193_refuted : exists bytes, read_text bytes = None /\ decode_ignore bytes = $"Subject: caf".
Proof. exists ($"Subject: caf" ++ [233]%N). split; vm_compute; reflexivity. Qed.
Print Assumptions C193_refuted.
Example C193_case :
  decode ([97; 13; 10; 195; 169; 13; 98]%N) = Some [97; 13; 10; 233; 13; 98]%N /\ read_text [97; 13; 10; 195; 169; 13; 98]%N = Some [97; 10; 233; 10; 98]%N.
Proof. repeat split; vm_compute; reflexivity. Qed.
Example C193_input_case : Forall (fun p => Forall no_start (fst p)) [([], $"a"); ([255; 128]%N, [8364; 98]%N)] /\
  spoilt [([], $"a"); ([255; 128]%N, [8364; 98]%N)] = Some [97; 255; 128; 226; 130; 172; 98]%N /\ decode_ignore [97; 255; 128; 226; 130; 172; 98]%N = [97; 8364; 98]%N.
Proof.
  split; [|split; vm_compute; reflexivity]. repeat constructor; cbn [fst]; unfold no_start; lia.
Qed.

(** C194: a compiled rule set gives the results of the configuration it was compiled from.
    What [match.py -se] uses is the rule set stored by the last successful [compile.py], after
    the steps that follow parsing are run on it again. *)
Theorem C194_stored_partial : forall (R : Type) parse (post : R -> option R) files1 files2 compiles paranoid show_unknown writable pickles before store e
    paranoid2 show_unknown2 loads o args f fs,
  compile_main R parse files1 compiles paranoid show_unknown writable pickles before = (store, e) -> status e = 0 -> files2 = Some (f :: fs) ->
  exists fs1 r, files1 = Some fs1 /\ parse fs1 paranoid (negb show_unknown) = Parsed r /\
    fst (fst (match_main R parse post files2 true (Some true) store paranoid2 show_unknown2 loads o args)) = post r.
Proof. intros R. exact stored_used. Qed.
Print Assumptions C194_stored_partial.
(** The short circuits, which are put around the rules after parsing, are put around them a
    second time; the result of matching is the same. *)
Theorem C194_short_circuit : forall (X : Type) spam_score ham_score configs (rs : ruleset X) m, well_keyed (rs_checked rs) ->
  match_loop (rs_checked (sc_finish spam_score ham_score configs (sc_finish spam_score ham_score configs rs))) m =
  match_loop (rs_checked (sc_finish spam_score ham_score configs rs)) m.
Proof. intros X. exact sc_again. Qed.
Print Assumptions C194_short_circuit.
(** Where compiling is not supported, [-se] changes nothing. *)
Theorem C194_fall_back : forall (R : Type) parse (post : R -> option R) files store paranoid show_unknown loads o args,
  match_main R parse post files true (Some false) store paranoid show_unknown loads o args =
  match_main R parse post files false (Some false) store paranoid show_unknown loads o args.
Proof. intros R. exact fall_back. Qed.
Print Assumptions C194_fall_back.
(** Without a usable rule set in the file nothing is done with any message, and the status is 1. *)
Theorem C194_unusable : forall (R : Type) parse (post : R -> option R) files store paranoid show_unknown loads o args,
  (forall r, store <> Holds r) ->
  exists e, match_main R parse post files true (Some true) store paranoid show_unknown loads o args = (None, [], e) /\ status e = 1.
Proof.
  intros R parse post files store pa su loads o args H. unfold match_main, load_ruleset.
  destruct files as [[|f fs]|]; [eexists; split; reflexivity| |eexists; split; reflexivity].
  destruct store as [| | |r]; [eexists; split; reflexivity..|]. destruct (H r eq_refl).
Qed.
Print Assumptions C194_unusable.
(** A compilation that fails leaves the file as it was, or unusable if the rule set cannot be
    written out. *)
Theorem C194_failed_partial : forall (R : Type) parse files compiles paranoid show_unknown writable pickles before (store : stored R) e,
  compile_main R parse files compiles paranoid show_unknown writable pickles before = (store, e) -> status e <> 0 ->
  store = before \/ store = Corrupt /\ exists fs r, files = Some fs /\ parse fs paranoid (negb show_unknown) = Parsed r /\ pickles r = false.
Proof. intros R parse files c pa su w pk before store e H. exact (proj2 (compile_ok parse files c pa su w pk before store e H)). Qed.
Print Assumptions C194_failed_partial.
(** The configuration has changed since: the old rules are used, without a word. *)
Theorem C194_stale_refuted : exists (parse : list str -> bool -> bool -> parsed str) store,
  compile_main str parse (Some [$"old.cf"]) (Some true) false false true (fun _ => true) Missing = (store, Ended) /\
  match_main str parse Some (Some [$"new.cf"]) true (Some true) store false false (fun _ _ => true) (mode_of false false false false) [] =
    (Some ($"old.cf"), [], Ended) /\
  match_main str parse Some (Some [$"new.cf"]) false (Some true) store false false (fun _ _ => true) (mode_of false false false false) [] =
    (Some ($"new.cf"), [], Ended).
Proof.
  exists (fun fs _ _ => match fs with f :: _ => Parsed f | [] => OtherError end), (Holds ($"old.cf")). repeat split.
Qed.
Print Assumptions C194_stale_refuted.
Example C194_case :
  let rs := mkRS [($"A", mkRule ($"A") [] [] 1%Q [] 0%Z [] None (fun m : msg unit => (m, Returns (VBool true))));
                  ($"B", mkRule ($"B") [] [] 5%Q [] 0%Z [] None (fun m : msg unit => (m, Returns (VBool true))))] [] in
  well_keyed (rs_checked rs) /\
  let r := match_loop (rs_checked (sc_finish 100%Q (-100)%Q [$"A spam"] rs)) (fresh_msg tt) in
  snd r = true /\ (m_score (fst r) == 101)%Q.
Proof.
  cbv zeta. split; [|split; vm_compute; reflexivity]. split.
  - repeat constructor; cbn; intuition discriminate.
  - repeat constructor.
Qed.

(** C195: compiling is offered exactly on CPython from 2.7.11 on and from 3.5 on. *)
Theorem C195_exactly_partial : forall impl M m p, contains ($"pypy") (lower impl) = false -> (M = 3 \/ M = 2 /\ m <= 7)%N ->
  exists b, can_compile impl (dec M) (dec m) (dec p) = Some b /\
    (b = true <-> at_least (M, m, p) (2, 7, 11)%N /\ ~ (at_least (M, m, p) (3, 0, 0)%N /\ ~ at_least (M, m, p) (3, 5, 0)%N)).
Proof. exact compile_exactly. Qed.
Print Assumptions C195_exactly_partial.
(** For Python 3 the last part of the version may be any text, such as 0rc1. *)
Theorem C195_three : forall impl m patch, contains ($"pypy") (lower impl) = false ->
  can_compile impl ($"3") (dec m) patch = Some (N.leb 5 m).
Proof. exact compile3. Qed.
Print Assumptions C195_three.
(** For Python 2 it must not: the check itself fails for the version of a distribution.  And
    a later major version is refused. *)
Theorem C195_refuted : can_compile ($"CPython") ($"2") ($"7") ($"15+") = None /\
  can_compile ($"CPython") ($"4") ($"0") ($"0") = Some false.
Proof. split; vm_compute; reflexivity. Qed.
Print Assumptions C195_refuted.
Example C195_case : contains ($"pypy") (lower ($"CPython")) = false /\ can_compile ($"PyPy") ($"3") ($"9") ($"1") = Some false /\
  can_compile ($"CPython") ($"2") ($"7") ($"11") = Some true /\ can_compile ($"CPython") ($"2") ($"7") ($"10") = Some false.
Proof. repeat split; vm_compute; reflexivity. Qed.

(** C196: the pid file names the process that serves, and is there exactly while one does.
    This holds for histories in which daemons are started one at a time, start without an
    error and are not killed. *)
Theorem C196_orderly_partial : forall hs, orderly None hs ->
  let m := history hs (mkM None []) in serving m = match pid_file m with Some p => [p] | None => [] end.
Proof. intros hs H. exact (orderly_inv hs None H). Qed.
Print Assumptions C196_orderly_partial.
(** A daemon that cannot start (the address is in use) leaves a pid file behind; a server in
    the foreground removes the pid file of the daemon when it ends; a second daemon takes the
    pid file of the first. *)
Theorem C196_refuted : forall p q, p <> q ->
  (let m := history [Launch p true false] (mkM None []) in pid_file m = Some p /\ serving m = []) /\
  (let m := history [Launch p true true; Launch q false true; Leaves q] (mkM None []) in pid_file m = None /\ serving m = [p]) /\
  (let m := history [Launch p true true; Launch q true false] (mkM None []) in pid_file m = Some q /\ serving m = [p]).
Proof.
  intros p q H. split; [split; reflexivity|]. split; [|split; reflexivity].
  unfold history. cbn [fold_left happens serving existsb]. rewrite N.eqb_refl. cbn [orb]. unfold without. cbn [filter pid_file serving]. rewrite N.eqb_refl.
  destruct (N.eqb_spec p q); [congruence|]. split; reflexivity.
Qed.
Print Assumptions C196_refuted.
(** A daemon that is killed leaves its number in the pid file. *)
Theorem C196_killed_refuted : forall p, history [Launch p true true; Killed p] (mkM None []) = mkM (Some p) [].
Proof. intros p. cbn. rewrite N.eqb_refl. reflexivity. Qed.
Print Assumptions C196_killed_refuted.
(** Starting a server in the foreground does not change the pid file. *)
Theorem C196_foreground : forall m p ok, pid_file (happens m (Launch p false ok)) = pid_file m /\
  (ok = true -> In p (serving (happens m (Launch p false ok)))).
Proof. intros m p ok. split; [reflexivity|intros ->; left; reflexivity]. Qed.
Print Assumptions C196_foreground.
Example C196_case : orderly None [Launch 10 true true; Leaves 11; Leaves 10; Launch 12 true true] /\
  history [Launch 10 true true; Leaves 11; Leaves 10; Launch 12 true true] (mkM None []) = mkM (Some 12%N) [12%N].
Proof. split; [cbn; repeat split|reflexivity]. Qed.

(** C197: every option of the daemon that concerns the service has an effect on it: two servers
    are the same exactly if address, port, processes, directories and parser flags are. *)
Theorem C197_options_partial : forall o1 o2, server_of o1 = server_of o2 <->
  o_listen o1 = o_listen o2 /\ o_port o1 = o_port o2 /\ o_prefork o1 = o_prefork o2 /\ o_sitepath o1 = o_sitepath o2 /\
  o_configpath o1 = o_configpath o2 /\ o_paranoid o1 = o_paranoid o2 /\ o_show_unknown o1 = o_show_unknown o2.
Proof. exact same_server. Qed.
Print Assumptions C197_options_partial.
(** And each has its own: the server listens there, reads these directories, and ignores lines it
    does not know exactly if they are not to be shown. *)
Theorem C197_server : forall o, v_address (server_of o) = (o_listen o, o_port o) /\ v_prefork (server_of o) = o_prefork o /\
  v_configpath (server_of o) = o_configpath o /\ v_sitepath (server_of o) = o_sitepath o /\ v_paranoid (server_of o) = o_paranoid o /\
  (v_ignore_unknown (server_of o) = true <-> o_show_unknown o = false).
Proof. intros o. repeat (split; [reflexivity|]). cbn. destruct (o_show_unknown o); cbn; split; congruence. Qed.
Print Assumptions C197_server.
(** But not the permission to learn: it is always given. *)
Theorem C197_tell_refuted : forall o b, server_of (with_tell b o) = server_of o.
Proof. intros o b. destruct o. reflexivity. Qed.
Print Assumptions C197_tell_refuted.
Example C197_case : let o := mkO false false false false true None ($"0.0.0.0") 783 ($"/c") ($"/s") ($"/var/run/oad.pid") ($"/l") false in
  with_tell true o <> o /\ server_of (with_tell true o) = mkSrv None ($"0.0.0.0", 783%N) ($"/s") ($"/c") false true.
Proof. split; [intros H; discriminate H|reflexivity]. Qed.

(** C198: without debugging only critical messages reach the screen, and the log file gets those
    from its level on; with debugging everything from DEBUG on reaches both. *)
Theorem C198_screen : forall debug filepath dsn file_lvl sentry_lvl raven level, (file_lvl <= 50)%N ->
  (In Stream (emitted (setup_logging debug filepath dsn file_lvl sentry_lvl raven []) level) <-> (if debug then 10 <= level else 50 <= level)%N).
Proof. exact log_stream. Qed.
Print Assumptions C198_screen.
Theorem C198_file : forall debug filepath dsn file_lvl sentry_lvl raven level path,
  In (File path) (emitted (setup_logging debug filepath dsn file_lvl sentry_lvl raven []) level) <->
  filepath = Some path /\ path <> [] /\ (if debug then 10 <= level else file_lvl <= level)%N.
Proof. exact log_file. Qed.
Print Assumptions C198_file.
(** Sentry gets the messages from its own level on, but only those the log file would get. *)
Theorem C198_sentry_partial : forall debug filepath dsn file_lvl sentry_lvl level d,
  In (Sentry d) (emitted (setup_logging debug filepath dsn file_lvl sentry_lvl true []) level) <->
  dsn = Some d /\ d <> [] /\ (sentry_lvl <= level)%N /\ (if debug then 10 <= level else file_lvl <= level)%N.
Proof. exact log_sentry. Qed.
Print Assumptions C198_sentry_partial.
Theorem C198_sentry_refuted : exists file_lvl sentry_lvl level d, (sentry_lvl <= level)%N /\
  emitted (setup_logging false None (Some d) file_lvl sentry_lvl true []) level = [].
Proof. exists 40%N, 30%N, 30%N, ($"https://key@host/1"). split; [lia|reflexivity]. Qed.
Print Assumptions C198_sentry_refuted.
(** Set up twice (two servers in one process), every message is written twice. *)
Theorem C198_twice_refuted : forall level, (50 <= level)%N ->
  let l := setup_logging false (Some ($"log")) None 20 30 false [] in
  emitted (setup_logging false (Some ($"log")) None 20 30 false (l_handlers l)) level = [Stream; File ($"log"); Stream; File ($"log")].
Proof.
  intros level H. assert (A : N.leb 20 level = true) by (apply N.leb_le; lia). assert (B : N.leb 50 level = true) by (apply N.leb_le; lia).
  unfold emitted, setup_logging. change ($"log") with [108; 111; 103]%N. cbn -[N.leb]. rewrite A, ?B. cbn -[N.leb]. rewrite ?A, ?B. cbn -[N.leb]. rewrite ?A, ?B. cbn -[N.leb]. rewrite ?A, ?B. reflexivity.
Qed.
Print Assumptions C198_twice_refuted.
Example C198_case : emitted (setup_logging false (Some ($"log")) None 20 30 false []) 30 = [File ($"log")].
Proof. reflexivity. Qed.

(** C199: a plugin loaded under the name it has in SpamAssassin is known to [ifplugin] under this
    name: the block for it is read. *)
Theorem C199_ifplugin : forall (X : Type) (E : penv X), usual E -> forall inc f perl path x body lend rest st,
  In (perl, path) reimplemented_plugins -> p_ignore st = false ->
  e_load E (p_ctx st) path None = LLoaded x -> Forall (fun l => ~ directive l) body -> endif_line lend ->
  run_lines E inc f (($"loadplugin " ++ perl) :: ($"ifplugin " ++ perl) :: body ++ lend :: rest) st =
  run_lines E inc f (body ++ rest) (mkP (p_results st) false x).
Proof. intros X E U. exact (load_then_if E U). Qed.
Print Assumptions C199_ifplugin.
(** Different names stand for different plugins. *)
Theorem C199_distinct : forall a b p q c, In (a, p) reimplemented_plugins -> In (b, q) reimplemented_plugins -> class_of p c -> class_of q c -> a = b.
Proof. exact classes_distinct. Qed.
Print Assumptions C199_distinct.
(** The plugin for PDF files exists, but not under its name: the line is ignored. *)
Theorem C199_pdf_refuted : forall (X : Type) (E : penv X) inc f st, usual E ->
  handle_line E inc f ($"loadplugin Mail::SpamAssassin::Plugin::PDFInfo") st = PDone st.
Proof. intros X. exact pdf_not_available. Qed.
Print Assumptions C199_pdf_refuted.
Example C199_case : In ($"Mail::SpamAssassin::Plugin::AWL", $"oa.plugins.awl.AutoWhiteListPlugin") reimplemented_plugins /\
  class_of ($"oa.plugins.awl.AutoWhiteListPlugin") ($"AutoWhiteListPlugin") /\
  usual (mkEnv false (fun x : list str => x) (fun _ => []) (fun x _ _ => CUnknown x)
           (fun x path _ => match rsplit1 46%N path with Some (_, c) => LLoaded (c :: x) | None => LFails x end)
           (fun n => dget n reimplemented_plugins) None (fun _ => None)).
Proof.
  split; [do 7 right; left; reflexivity|]. split; [exists ($"oa.plugins.awl"); split; [reflexivity|vm_compute; intuition discriminate]|].
  split; [reflexivity|]. cbn. intros x path p x' c H (m & E & Hc). rewrite (proj2 (rsplit1_Some 46%N path m c)) in H by auto. injection H as <-. left. reflexivity.
Qed.

(** Every plugin of the documentation is in the table under its SpamAssassin name but one. *)
Theorem C199_documented_partial : forall n, In n documented -> n <> $"PDFInfo" -> exists path, In ($"Mail::SpamAssassin::Plugin::" ++ n, path) reimplemented_plugins.
Proof.
  intros n H K. assert (D : dget ($"Mail::SpamAssassin::Plugin::" ++ n) reimplemented_plugins <> None).
  { revert n H K. apply (proj1 (Forall_forall (fun n => n <> $"PDFInfo" -> dget ($"Mail::SpamAssassin::Plugin::" ++ n) reimplemented_plugins <> None) documented)).
    repeat (apply Forall_cons || apply Forall_nil); intros K; try (vm_compute; discriminate). destruct K. reflexivity. }
  destruct (dget _ _) as [path|] eqn:E; [|congruence]. exists path. exact (dget_In _ _ _ E).
Qed.
Print Assumptions C199_documented_partial.
Theorem C199_documented_refuted : In ($"PDFInfo") documented /\ forall path, ~ In ($"Mail::SpamAssassin::Plugin::PDFInfo", path) reimplemented_plugins.
Proof.
  split; [apply mem_str_In; vm_compute; reflexivity|]. intros path H. apply (in_map fst) in H. cbn [fst] in H. apply mem_str_In in H. vm_compute in H. discriminate.
Qed.
Print Assumptions C199_documented_refuted.
