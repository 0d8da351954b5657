(** Property theorems about the server and its protocol: C31-C36, C65, C66. *)
From Verif Require Import PyStr PyDict PyUtf8 Model_Rules Model_Net Model_Conf Model_Server Spec_Server Proofs_Server.

(** An engine for the examples: a rule set is its threshold and its word, every
    occurrence of which scores; preference files are thresholds. *)
Definition ex_rs := (Q * str)%type.
Definition ex_engine : engine ex_rs str Q unit Q :=
  mkEngine ($"1.0") (fun _ t => Ok t) (fun r m => Ok (if contains (snd r) m then 6 else 1)%Q) (fun a => a) fst (fun _ => $"5.0")
    (fun q => if Qle_bool 6 q then $"6.0" else $"1.0") (fun a => if Qle_bool 6 a then [$"WORD"] else [])
    (fun _ _ => Ok ($"report")) (fun _ _ _ => Ok ($"adjusted")) (fun _ _ _ _ _ => Ok tt) (fun _ _ _ _ _ => Ok tt)
    (fun r => contains ($"e") (snd r)) (fun r _ _ f => Ok (f, snd r)).
Definition ex_server : server := mkServer (5%Q, $"eggs") tt [].
Definition lf : N := 10%N.
Definition cr : str := [13%N].

(** ** C31 *)
Theorem C31_unknown_command : forall R M A P F (E : engine R M A P F) give prefs l t rest sv cmd version,
  line_of l t -> words (strip t) = [cmd; version] -> ~ In (upper cmd) known_commands ->
  handle E give prefs (l ++ 10%N :: rest) sv =
  (sv, mkReply [$"SPAMD/" ++ e_version E ++ $" 76 Bad header line: " ++ strip t ++ crlf] [] (Ok tt)).
Proof. intros R M A P F E. exact (unknown_command E). Qed.
Print Assumptions C31_unknown_command.

(** The letter case of a known command does not matter (but an error line quotes
    the request line as it was written). *)
Theorem C31_letter_case : forall R M A P F (E : engine R M A P F) give prefs l1 t1 c1 v1 l2 t2 c2 v2 rest sv,
  line_of l1 t1 -> words (strip t1) = [c1; v1] -> line_of l2 t2 -> words (strip t2) = [c2; v2] ->
  lower c1 = lower c2 -> In (upper c1) known_commands ->
  let r1 := handle E give prefs (l1 ++ 10%N :: rest) sv in
  let r2 := handle E give prefs (l2 ++ 10%N :: rest) sv in
  fst r1 = fst r2 /\ rp_events (snd r1) = rp_events (snd r2) /\ rp_end (snd r1) = rp_end (snd r2) /\
  (rp_text (snd r1) = rp_text (snd r2) \/
   exists said, rp_text (snd r1) = said ++ [$"SPAMD/" ++ e_version E ++ $" 76 Bad header line: " ++ strip t1 ++ crlf] /\
                rp_text (snd r2) = said ++ [$"SPAMD/" ++ e_version E ++ $" 76 Bad header line: " ++ strip t2 ++ crlf]).
Proof. intros R M A P F E. exact (letter_case E). Qed.
Print Assumptions C31_letter_case.

(** PING and SKIP. *)
Theorem C31_ping_skip : forall R M A P F (E : engine R M A P F) give prefs l t rest sv cmd version,
  line_of l t -> words (strip t) = [cmd; version] ->
  (upper cmd = $"PING" ->
   handle E give prefs (l ++ 10%N :: rest) sv = (sv, mkReply [$"SPAMD/" ++ e_version E ++ $" 0 PONG" ++ crlf] [] (Ok tt))) /\
  (upper cmd = $"SKIP" -> handle E give prefs (l ++ 10%N :: rest) sv = (sv, mkReply [] [] (Ok tt))).
Proof.
  intros R M A P F E give prefs l t rest sv cmd version Hl Hw. rewrite (handle_line E _ _ _ _ _ _ _ _ Hl Hw).
  split; intros ->; vm_compute (dget _ commands); reflexivity.
Qed.
Print Assumptions C31_ping_skip.

(** A request line that is not two words gets no reply at all: the handler
    raises. *)
Theorem C31_other_lines_raise : forall R M A P F (E : engine R M A P F) give prefs l t rest sv,
  line_of l t -> (forall a b, words (strip t) <> [a; b]) ->
  handle E give prefs (l ++ 10%N :: rest) sv = (sv, mkReply [] [] (Err EValue)).
Proof. intros R M A P F E. exact (malformed_line E). Qed.
Print Assumptions C31_other_lines_raise.

(** A request of a known command (other than PING and SKIP) with a header line that
    has no colon is answered by that error alone and has no effect. *)
Theorem C31_bad_option_reply : forall R M A P F (E : engine R M A P F) give prefs l t cmd version lines texts bl b rest sv,
  line_of l t -> words (strip t) = [cmd; version] -> In (upper cmd) known_commands ->
  upper cmd <> $"PING" -> upper cmd <> $"SKIP" ->
  Forall2 line_of lines texts -> Forall (fun t => strip t <> []) texts -> line_of bl b -> strip b = [] ->
  (exists t, In t texts /\ ~ In 58%N (strip t)) ->
  handle E give prefs (l ++ 10%N :: with_ends lines ++ bl ++ 10%N :: rest) sv =
  (sv, mkReply [$"SPAMD/" ++ e_version E ++ $" 76 Bad header line: (header not in 'Name: value' format)" ++ crlf] [] (Ok tt)).
Proof.
  intros R M A P F E give prefs l t cmd version lines texts bl b rest sv Hl Hw Hk Hp Hs Hf Hn Hb Hbs Hbad.
  rewrite (handle_line E _ _ _ _ _ _ _ _ Hl Hw).
  pose proof (proj2 (options_exact lines texts bl b rest Hf Hn Hb Hbs) Hbad) as Ho. cbv zeta in Ho.
  rewrite <- commands_keys in Hk.
  destruct (dget (upper cmd) commands) as [c|] eqn:Ed; [|exfalso; exact (proj1 (dget_None _ _) Ed Hk)].
  assert (Hc : has_options c = true /\ c <> CSkip).
  { apply dget_In in Ed. unfold commands in Ed. cbn [In] in Ed.
    repeat (destruct Ed as [Ed | Ed]; [injection Ed as E1 E2; first [exfalso; congruence | subst c; split; [reflexivity|discriminate]]|]). destruct Ed. }
  destruct Hc as [Ho1 Hns]. unfold get_and_handle, receive. rewrite Ho1, Ho.
  destruct c; first [exfalso; apply Hns; reflexivity |
    unfold error_line, say, silent; cbn [rp_end rp_text rp_events]; rewrite <- ?app_assoc; reflexivity].
Qed.
Print Assumptions C31_bad_option_reply.

(** A known command whose processing raises a [KeyError] is answered "0 EX_OK" and
    then "76 Bad header line", although the header line is good. *)
Theorem C31_status_refuted : exists (E : engine ex_rs str Q unit Q) sv,
  rp_text (snd (handle E buffered (fun _ => None) ($"CHECK SPAMC/1.2" ++ [lf; lf]) sv)) =
  [$"SPAMD/1.0 0 EX_OK" ++ crlf; $"SPAMD/1.0 76 Bad header line: CHECK SPAMC/1.2" ++ crlf].
Proof.
  exists (mkEngine ($"1.0") (fun _ t => Ok t) (fun _ _ => Err EKey) (fun a => a) fst (fun _ => []) (fun _ => []) (fun _ => [])
    (fun _ _ => Ok []) (fun _ _ _ => Ok []) (fun _ _ _ _ _ => Ok tt) (fun _ _ _ _ _ => Ok tt) (fun _ => false) (fun r _ _ _ => Ok r)), ex_server.
  vm_compute. reflexivity.
Qed.
Print Assumptions C31_status_refuted.

Example C31_example :
  line_of ($"Check SPAMC/1.2" ++ cr) ($"Check SPAMC/1.2" ++ cr) /\
  words (strip ($"Check SPAMC/1.2" ++ cr)) = [$"Check"; $"SPAMC/1.2"] /\ In (upper ($"Check")) known_commands /\
  lower ($"Check") = lower ($"cHECK") /\ ~ In (upper ($"Chek")) known_commands /\ words ($"PING") = [$"PING"].
Proof.
  split; [split; [vm_compute; intuition discriminate|reflexivity]|]. split; [reflexivity|]. split; [vm_compute; tauto|].
  split; [reflexivity|]. split; [|reflexivity]. rewrite <- mem_str_In. vm_compute. discriminate.
Qed.

(** ** C32 *)
Theorem C32_options_exact : forall lines texts bl b rest,
  Forall2 line_of lines texts -> Forall (fun t => strip t <> []) texts -> line_of bl b -> strip b = [] ->
  let s := with_ends lines ++ bl ++ 10%N :: rest in
  ((forall t, In t texts -> In 58%N (strip t)) -> exists o, get_options (S (length s)) s [] = Ok (o, rest) /\
     forall k v, dget k o = Some v <-> last_option texts k v) /\
  ((exists t, In t texts /\ ~ In 58%N (strip t)) -> get_options (S (length s)) s [] = Err (EInvalid ($"header not in 'Name: value' format"))).
Proof. exact options_exact. Qed.
Print Assumptions C32_options_exact.

(** On every other stream too the reading ends, with a part of the stream taken,
    a rejected line, or a line that is not UTF-8. *)
Theorem C32_always_decided : forall s,
  (exists o head rest, get_options (S (length s)) s [] = Ok (o, rest) /\ s = head ++ rest) \/
  get_options (S (length s)) s [] = Err (EInvalid ($"header not in 'Name: value' format")) \/ get_options (S (length s)) s [] = Err EUnicode.
Proof. intros s. apply get_options_decided. lia. Qed.
Print Assumptions C32_always_decided.

Example C32_example :
  get_options 99 ($"User: joe" ++ cr ++ [lf] ++ $"uSER :x" ++ [lf] ++ $"USER:ann " ++ [lf] ++ cr ++ [lf] ++ $"body") [] =
    Ok ([($"user", $"ann"); ($"user ", $"x")], $"body") /\
  last_option [$"User: joe" ++ cr; $"uSER :x"; $"USER:ann "] ($"user") ($"ann") /\
  get_options 99 ($"User joe" ++ [lf; lf]) [] = Err (EInvalid ($"header not in 'Name: value' format")).
Proof.
  split; [reflexivity|]. split; [|reflexivity].
  exists [$"User: joe" ++ cr; $"uSER :x"], ($"USER:ann "), [], ($"USER"), ($"ann"). split; [reflexivity|].
  split; [split; [reflexivity|vm_compute; intuition discriminate]|]. split; [reflexivity|]. split; [reflexivity|]. intros ? ? ? [].
Qed.

(** ** C33 *)
(** Whatever the transport: if the message is accepted, it is the text whose
    encoding is exactly the bytes meant. *)
Theorem C33_message_is_what_was_sent : forall give options s t announced,
  transport give -> content_length options = Ok announced -> get_message give options s = Ok t ->
  encode t = Some (message_bytes announced s).
Proof. exact message_sound. Qed.
Print Assumptions C33_message_is_what_was_sent.
Theorem C33_fragmentation : forall give give' options s t t',
  transport give -> transport give' -> get_message give options s = Ok t -> get_message give' options s = Ok t' -> t = t'.
Proof.
  intros give give' options s t t' Hg Hg' H H'. destruct (content_length options) as [w|e] eqn:Ec.
  - pose proof (message_sound _ _ _ _ _ Hg Ec H) as H1. pose proof (message_sound _ _ _ _ _ Hg' Ec H') as H2.
    apply decode_encode in H1, H2. congruence.
  - unfold get_message in H. rewrite Ec in H. discriminate.
Qed.
Print Assumptions C33_fragmentation.
(** The announced length is the number in the option; a negative number or other
    text is refused. *)
Theorem C33_announced_length : forall options,
  (dget ($"content-length") options = None -> content_length options = Ok None) /\
  (forall v n, dget ($"content-length") options = Some v -> py_int v = Some (Z.of_N n) -> content_length options = Ok (Some n)) /\
  (forall v, dget ($"content-length") options = Some v -> (forall n, py_int v <> Some (Z.of_N n)) ->
     content_length options = Err (EInvalid ($"Content-Length contains non-numeric bytes"))).
Proof.
  intros o. unfold content_length. split; [intros ->; reflexivity|]. split.
  - intros v n -> ->. destruct (Z.ltb_spec (Z.of_N n) 0); [lia|]. rewrite N2Z.id. reflexivity.
  - intros v -> H. destruct (py_int v) as [z|]; [|reflexivity]. destruct (Z.ltb_spec z 0); [reflexivity|].
    exfalso. apply (H (Z.to_N z)). rewrite Z2N.id by lia. reflexivity.
Qed.
Print Assumptions C33_announced_length.
(** ASCII messages are always accepted, and so is any UTF-8 message that is read
    in one piece.  Missing for the full property: longer messages with other
    characters, and compressed ones - see the refutations. *)
Theorem C33_accepted_partial : forall options s announced,
  content_length options = Ok announced -> dget ($"compress") options <> Some ($"zlib") ->
  (forall give, transport give -> Forall (fun c => (c < 128)%N) (message_bytes announced s) ->
     get_message give options s = Ok (message_bytes announced s)) /\
  (forall n t, announced = Some n -> (n <= 8192)%N -> N.to_nat n <= length s -> encode t = Some (firstn (N.to_nat n) s) ->
     get_message buffered options s = Ok t).
Proof.
  intros options s announced Hc Hz. split; [intros give Hg; apply message_ascii; assumption|].
  intros n t -> Hn Hl He. apply (message_small options s n t); assumption.
Qed.
Print Assumptions C33_accepted_partial.
Example C33_example : content_length [($"content-length", $"5")] = Ok (Some 5%N) /\ transport buffered /\
  get_message buffered [($"content-length", $"5")] ($"hello world") = Ok ($"hello").
Proof.
  split; [reflexivity|]. split; [|vm_compute; reflexivity]. intros n s Hn Hs. unfold buffered.
  destruct s; [contradiction|]. cbn [length]. lia.
Qed.
(** A character that crosses the 8192nd byte: the message is refused although it
    is valid UTF-8. *)
Theorem C33_long_message_refuted : exists s t,
  encode t = Some s /\ get_message buffered [] s = Err EUnicode.
Proof.
  exists (repeat 97%N (N.to_nat 8191) ++ [195; 169]%N), (repeat 97%N (N.to_nat 8191) ++ [233%N]).
  split; vm_compute; reflexivity.
Qed.
Print Assumptions C33_long_message_refuted.
(** With a transport that returns what has arrived, it depends on the timing
    whether a message is accepted. *)
Theorem C33_timing_refuted : exists give s t,
  transport give /\ get_message buffered [] s = Ok t /\ get_message give [] s = Err EUnicode.
Proof.
  exists (fun _ _ => 1%N), [195; 169]%N, [233%N]. split; [|split; vm_compute; reflexivity].
  intros n s Hn Hs. destruct s; [contradiction|]. cbn [length]. lia.
Qed.
Print Assumptions C33_timing_refuted.
(** Compressed messages are never accepted. *)
Theorem C33_compressed_refuted : forall give options s,
  dget ($"compress") options = Some ($"zlib") -> exists e, get_message give options s = Err e.
Proof.
  intros give options s H. unfold get_message. destruct (content_length options) as [w|e]; [|eauto].
  destruct (read_loop give (S (length s)) w s []) as [cs|e]; [|eauto]. rewrite H. exists EType. reflexivity.
Qed.
Print Assumptions C33_compressed_refuted.

(** ** C34 *)
(** The reply of a checking command; the number announced is the number of bytes
    that follow exactly when the body is ASCII. *)
Theorem C34_content_length_partial : forall R M A P F (E : engine R M A P F) c r m a body b,
  e_match E r m = Ok a -> extra_details E c r a = Ok body -> encode body = Some b ->
  exists announced,
    rp_text (check_handle E c r m) = [spam_line E r a; $"Content-length: " ++ dec announced ++ crlf ++ crlf; body] /\
    (announced = N.of_nat (length b) <-> Forall (fun x => (x < 128)%N) body).
Proof. intros R M A P F E. exact (framing_ascii E). Qed.
Print Assumptions C34_content_length_partial.
Theorem C34_numbers_differ : forall n m, dec n = dec m -> n = m.
Proof. exact dec_inj. Qed.
Print Assumptions C34_numbers_differ.
Theorem C34_content_length_refuted : exists (E : engine ex_rs str Q unit Q) r m body b announced,
  rp_text (check_handle E CReport r m) =
    [spam_line E r 6%Q; $"Content-length: " ++ announced ++ crlf ++ crlf; body] /\
  encode body = Some b /\ announced = $"1" /\ length b = 2.
Proof.
  exists (mkEngine [] (fun _ t => Ok t) (fun _ _ => Ok 6%Q) (fun a => a) fst (fun _ => []) (fun _ => []) (fun _ => [])
    (fun _ _ => Ok [233%N]) (fun _ _ _ => Ok []) (fun _ _ _ _ _ => Ok tt) (fun _ _ _ _ _ => Ok tt) (fun _ => false) (fun r _ _ _ => Ok r)).
  exists (5%Q, []), [], [233%N], [195; 169]%N, ($"1"). repeat split.
Qed.
Print Assumptions C34_content_length_refuted.
Example C34_example : rp_text (check_handle ex_engine CSymbols (5%Q, $"eggs") ($"ham and eggs")) =
  [$"Spam: True ; 6.0 / 5.0" ++ crlf; $"Content-length: 4" ++ crlf ++ crlf; $"WORD"].
Proof. vm_compute. reflexivity. Qed.

(** ** C35 *)
(** [set] and [remove]: lists of databases, written with commas and no blanks.
    Exactly the hooks asked for run, in this order, with the class asked for
    (spam unless another is named), and exactly these actions are echoed.  Missing:
    lists with blanks - see the refutation. *)
Theorem C35_tell_partial : forall R M A P F (E : engine R M A P F) options r m set remove,
  (forall r m a b c, e_hook_report E r m a b c = Ok tt) -> (forall r m a b c, e_hook_revoke E r m a b c = Ok tt) ->
  (match set with Some ts => ts <> [] /\ Forall (fun t => ~ In 44%N t) ts | None => True end) ->
  (match remove with Some ts => ts <> [] /\ Forall (fun t => ~ In 44%N t) ts | None => True end) ->
  dget ($"set") options = option_map (join ($",")) set -> dget ($"remove") options = option_map (join ($",")) remove ->
  let spam := match dget ($"message-class") options with Some c => streqb (lower c) ($"spam") | None => true end in
  let asked ts d := mem_str d ts in
  let rp := tell_handle E options r m in
  rp_end rp = Ok tt /\
  rp_events rp =
    (match set with Some ts => [Reported r m spam (asked ts ($"local")) (asked ts ($"remote"))] | None => [] end) ++
    (match remove with Some ts => [Revoked r m spam (asked ts ($"local")) (asked ts ($"remote"))] | None => [] end) /\
  rp_text rp =
    (match set with Some ts => [$"DidSet: " ++ join ($",") ts ++ crlf] | None => [] end) ++
    (match remove with Some ts => [$"DidRemove: " ++ join ($",") ts ++ crlf] | None => [] end).
Proof.
  intros R M A P F E options r m set remove Hr Hv Hs Hm Es Em. cbv zeta.
  destruct (tell_actions E options r m Hr Hv) as (H1 & H2 & H3). rewrite H1, H2, H3, Es, Em.
  destruct set as [s|], remove as [v|]; cbn [option_map];
    repeat match goal with H : _ /\ _ |- _ => destruct H end;
    change ($",") with [44%N]; rewrite ?split_char_join by assumption; repeat split.
Qed.
Print Assumptions C35_tell_partial.
Theorem C35_blanks_refuted : forall R M A P F (E : engine R M A P F) r m,
  (forall r m a b c, e_hook_report E r m a b c = Ok tt) -> (forall r m a b c, e_hook_revoke E r m a b c = Ok tt) ->
  let rp := tell_handle E [($"set", $"local, remote")] r m in
  rp_events rp = [Reported r m true true false] /\ rp_text rp = [$"DidSet: local, remote" ++ crlf].
Proof.
  intros R M A P F E r m Hr Hv. cbv zeta. destruct (tell_actions E [($"set", $"local, remote")] r m Hr Hv) as (_ & H2 & H3).
  rewrite H2, H3. split; reflexivity.
Qed.
Print Assumptions C35_blanks_refuted.
Example C35_example : rp_events (tell_handle ex_engine [($"message-class", $"Ham"); ($"remove", $"remote,local")] (5%Q, []) ($"m"))
  = [Revoked (5%Q, []) ($"m") false true true].
Proof. reflexivity. Qed.

(** ** C36 *)
(** After any history that contains a load of the site configuration, followed by
    any requests of any users: the rule set used for a user follows from the site
    configuration and the user's preference file alone, provided that the file
    did not change since the load.  Missing: a rule set is given here by what it is
    built from; options that live in shared lists leak between rule sets, see
    C21. *)
Theorem C36_user_ruleset_partial : forall R M A P F (E : engine R M A P F) site results history requests prefs u sv0,
  (forall e, In e requests -> exists give prefs' s, e = Request give prefs' s /\ prefs' u = prefs u) ->
  let sv := sv_run E (history ++ Reload site results :: requests) sv0 in
  snd (get_user_ruleset E prefs (Some u) sv) =
    (if e_allow E site then match prefs u with Some f => e_build_user E site results u f | None => Ok site end else Ok site) /\
  snd (get_user_ruleset E prefs None sv) = Ok site.
Proof. intros R M A P F E. exact (user_isolated E). Qed.
Print Assumptions C36_user_ruleset_partial.
(** A changed file has no effect until the next load. *)
Theorem C36_cached_until_reload : forall R M A P F (E : engine R M A P F) prefs prefs' u sv x,
  snd (get_user_ruleset E prefs (Some u) sv) = Ok x -> prefs u <> None -> e_allow E (sv_ruleset sv) = true ->
  snd (get_user_ruleset E prefs' (Some u) (fst (get_user_ruleset E prefs (Some u) sv))) = Ok x.
Proof. intros R M A P F E. exact (user_cached E). Qed.
Print Assumptions C36_cached_until_reload.
Definition ex_prefs (u : str) : option Q := if streqb u ($"joe") then Some 7%Q else None.
Definition ex_request (u : str) : list N := $"CHECK SPAMC/1.2" ++ [lf] ++ $"User: " ++ u ++ [lf; lf] ++ $"ham and eggs".
Example C36_example :
  let sv := sv_run ex_engine (Reload (5%Q, $"eggs") tt :: [Request buffered ex_prefs (ex_request ($"joe"));
              Request buffered ex_prefs (ex_request ($"ann"))]) ex_server in
  map fst (sv_users sv) = [$"joe"] /\
  rp_text (snd (handle ex_engine buffered ex_prefs (ex_request ($"joe")) sv)) =
    [$"SPAMD/1.0 0 EX_OK" ++ crlf; $"Spam: False ; 6.0 / 5.0" ++ crlf; $"Content-length: 0" ++ crlf ++ crlf; []] /\
  snd (get_user_ruleset ex_engine ex_prefs (Some ($"ann")) sv) = Ok (5%Q, $"eggs").
Proof. vm_compute. repeat split. Qed.

(** ** C65 *)
(** A user's rule set should be the site configuration with the preferences on
    top.  It is built in a context of its own, in which the options of the site
    are not set: whatever the site configured before, the required score starts
    at the default. *)
Theorem C65_site_options_for_users_refuted : forall py_float w,
  let user := length (w_ctxs w) in
  view (cstep [(main, pad_options)] py_float w Create) user main ($"required_score") = Some (SFloat 5).
Proof.
  intros f w. cbv zeta. unfold view. cbn [cstep w_ctxs]. rewrite nth_error_app2, Nat.sub_diag by lia. reflexivity.
Qed.
Print Assumptions C65_site_options_for_users_refuted.
Example C65_example :
  let w := crun [(main, pad_options)] (fun _ => Some 3%Q) (mkW pad_heap []) [Create; Set_ 0 ($"required_score") ($"3")] in
  view w 0 main ($"required_score") = Some (SFloat 3).
Proof. reflexivity. Qed.

(** ** C66 *)
(** A well-formed checking request (any letter case, any order of options, any
    transport; the message is ASCII) is answered from its own message with the rule
    set of its user: the status line, the verdict, the length and the body. *)
Theorem C66_checking_request : forall R M A P F (E : engine R M A P F) give prefs sv l t cmd version c lines texts bl b body tail r sv' m a details,
  line_of l t -> words (strip t) = [cmd; version] -> dget (upper cmd) commands = Some c ->
  c <> CTell -> c <> CPing -> c <> CSkip ->
  Forall2 line_of lines texts -> Forall (fun t => strip t <> [] /\ In 58%N (strip t)) texts ->
  line_of bl b -> strip b = [] ->
  (exists v, last_option texts ($"content-length") v /\ py_int v = Some (Z.of_nat (length body))) \/
    ((forall v, ~ last_option texts ($"content-length") v) /\ tail = []) ->
  (forall v, last_option texts ($"compress") v -> v <> $"zlib") ->
  transport give -> Forall (fun x => (x < 128)%N) body ->
  (exists user, (forall v, user = Some v <-> last_option texts ($"user") v) /\
     get_user_ruleset E prefs user sv = (sv', Ok r)) ->
  e_load E r body = Ok m -> e_match E r m = Ok a -> extra_details E c r a = Ok details ->
  handle E give prefs (l ++ 10%N :: with_ends lines ++ bl ++ 10%N :: body ++ tail) sv =
  (sv', mkReply [$"SPAMD/" ++ e_version E ++ $" 0 EX_OK" ++ crlf;
                 $"Spam: " ++ (if Qle_bool (e_required E r) (e_score E a) then $"True" else $"False") ++ $" ; " ++
                   e_fmt1 E (e_score E a) ++ $" / " ++ e_show E r ++ crlf;
                 $"Content-length: " ++ dec (N.of_nat (length details)) ++ crlf ++ crlf; details]
          [Matched r m] (Ok tt)).
Proof.
  intros R M A P F E give prefs sv l t cmd version c lines texts bl b body tail r sv' m a details.
  intros H1 H2 H3 H4 H5 H6 H7 H8 H9 H10 H11 H12 H13 H14 H15 H16 H17 H18.
  rewrite (check_request E give prefs sv l t cmd version c lines texts bl b body tail r sv' m a details
    H1 H2 H3 H4 H5 H6 H7 H8 H9 H10 H11 H12 H13 H14 H15 H16 H17 H18).
  destruct c; try contradiction; reflexivity.
Qed.
Print Assumptions C66_checking_request.
(** What the body is, per command. *)
Theorem C66_bodies : forall R M A P F (E : engine R M A P F) r a,
  dget ($"CHECK") commands = Some CCheck /\ extra_details E CCheck r a = Ok [] /\
  dget ($"SYMBOLS") commands = Some CSymbols /\ extra_details E CSymbols r a = Ok (join ($",") (e_hits E a)) /\
  dget ($"REPORT") commands = Some CReport /\ extra_details E CReport r a = e_report E r a /\
  dget ($"REPORT_IFSPAM") commands = Some CReportIfSpam /\
    ((e_required E r <= e_score E a)%Q -> extra_details E CReportIfSpam r a = e_report E r a) /\
    (~ (e_required E r <= e_score E a)%Q -> extra_details E CReportIfSpam r a = Ok []) /\
  dget ($"PROCESS") commands = Some CProcess /\ extra_details E CProcess r a = e_adjusted E r a false /\
  dget ($"HEADERS") commands = Some CHeaders /\ extra_details E CHeaders r a = e_adjusted E r a true.
Proof.
  intros R M A P F E r a. repeat (split; [reflexivity|]). split.
  - intros H. cbn [extra_details]. unfold score_lt. rewrite (proj2 (Qle_bool_iff _ _) H). reflexivity.
  - split; [|repeat (split; [reflexivity|]); reflexivity]. intros H. cbn [extra_details]. unfold score_lt.
    destruct (Qle_bool (e_required E r) (e_score E a)) eqn:Eq; [|reflexivity]. apply Qle_bool_iff in Eq. contradiction.
Qed.
Print Assumptions C66_bodies.
Example C66_example :
  snd (handle ex_engine buffered ex_prefs
    ($"symbols SPAMC/1.2" ++ cr ++ [lf] ++ $"Content-length: 4" ++ cr ++ [lf] ++ cr ++ [lf] ++ $"eggs and more") ex_server) =
  mkReply [$"SPAMD/1.0 0 EX_OK" ++ crlf; $"Spam: True ; 6.0 / 5.0" ++ crlf; $"Content-length: 4" ++ crlf ++ crlf; $"WORD"]
    [Matched (5%Q, $"eggs") ($"eggs")] (Ok tt).
Proof. vm_compute. reflexivity. Qed.
