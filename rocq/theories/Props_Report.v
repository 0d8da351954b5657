(** Property theorems about templates, tags, reports and header edits: C05, C53,
    C67-C69. *)
From Verif Require Import PyStr PyDict Model_Rules Model_Net Model_Report Spec_Rules Spec_Report Proofs_Rules Proofs_Report.
From Verif Require Model_Server.

(** A configuration and a message for the examples: two rules, one of them hit. *)
Definition rep_rule (name : str) (score : Q) : str * rule str :=
  (name, mkRule name ($"header ") [score] score ($"a rule") 0 [] None (fun m => (m, Returns (VBool (contains name (m_ext m)))))).
Definition rep_rs : ruleset str := mkRS [rep_rule ($"BUY") (5 # 2); rep_rule ($"NOW") 3] [].
Definition rep_rc : rconf (X := str) :=
  mkRC (5 # 2) ($"me@example.com") ($"mx") ($"2016") ($"1.0") (fun q => if Qeq_bool q (5 # 2) then $"2.5" else $"3.0")
    (fun q => if Qeq_bool q (5 # 2) then $"2.5" else $"3.0") (fun q => if Qeq_bool q 3 then Some ($"3") else None) (fun x => x).
Definition rep_msg : msg str := match_msg (rs_checked rep_rs) [] [] (fresh_msg ($"BUY this")).

(** ** C05 *)
(** CHECK and its variants, REPORT_IFSPAM, the two tags and the choice of header
    edits in PROCESS agree: spam means a score not below the threshold.  (A plugin
    may publish tags of its own; it has not published these two.) *)
Theorem C05_surfaces_agree : forall X R M A P F (E : Model_Server.engine R M A P F) r a
    (rc : rconf (X := X)) rs m t safe ho received now h body raw d,
  Model_Server.e_score E a = m_score m -> Model_Server.e_required E r = rc_required rc ->
  tag_data rc rs (t_tags t) m = Some d -> NoDup (dkeys (m_tags m)) ->
  ~ In ($"YESNO") (dkeys (m_tags m)) -> ~ In ($"YESNOCAPS") (dkeys (m_tags m)) ->
  let spam := (rc_required rc <= m_score m)%Q in
  let edits spam_list ham_list := mkEdits spam_list ham_list (ed_all (t_edits t)) (ed_tags (t_edits t)) in
  let with_edits e := mkT (t_report t) (t_unsafe t) e (t_tags t) in
  let adjusted t' := get_adjusted rc rs t' safe ho received now h body raw m in
  (spam ->
     startswith ($"Spam: True ;") (Model_Server.spam_line E r a) = true /\
     Model_Server.extra_details E Model_Server.CReportIfSpam r a = Model_Server.extra_details E Model_Server.CReport r a /\
     dget ($"YESNO") d = Some ($"Yes") /\ dget ($"YESNOCAPS") d = Some ($"YES") /\
     (forall other, adjusted (with_edits (edits (ed_spam (t_edits t)) other)) = adjusted t)) /\
  (~ spam ->
     startswith ($"Spam: False ;") (Model_Server.spam_line E r a) = true /\
     Model_Server.extra_details E Model_Server.CReportIfSpam r a = Model_Server.Ok [] /\
     dget ($"YESNO") d = Some ($"No") /\ dget ($"YESNOCAPS") d = Some ($"NO") /\
     (forall other, adjusted (with_edits (edits other (ed_ham (t_edits t)))) = adjusted t)).
Proof.
  intros X R M A P F E r a rc rs m t safe ho received now h body raw d Es Er Ed Hnd H1 H2 spam edits with_edits adjusted.
  apply dget_None in H1, H2.
  pose proof (tag_data_yesno rc rs (t_tags t) m d ($"YESNO") Hnd Ed (or_introl eq_refl) H1) as Y1.
  pose proof (tag_data_yesno rc rs (t_tags t) m d ($"YESNOCAPS") Hnd Ed (or_intror (or_introl eq_refl)) H2) as Y2.
  cbn in Y1, Y2. unfold adjusted, get_adjusted, is_spam. cbv zeta.
  unfold Model_Server.spam_line, Model_Server.extra_details, Model_Server.is_spam, Model_Server.score_lt.
  rewrite Es, Er. destruct (Qle_bool (rc_required rc) (m_score m)) eqn:Eq.
  - split; [|intros Hn; exfalso; apply Hn, Qle_bool_iff, Eq]. intros _.
    split; [reflexivity|]. split; [reflexivity|]. split; [exact Y1|]. split; [exact Y2|]. intros other. reflexivity.
  - split; [intros Hs; exfalso; apply Qle_bool_iff in Hs; congruence|]. intros _.
    split; [reflexivity|]. split; [reflexivity|]. split; [exact Y1|]. split; [exact Y2|]. intros other. reflexivity.
Qed.
Print Assumptions C05_surfaces_agree.
(** A message exactly at the threshold. *)
Definition rep_t : templates :=
  match load_templates [$"This is _YESNO_: _SCORE_/_REQD_."; $"Hits: _TESTS_"] [] [$"all Verdict _YESNO_, _HITS_"; $"spam Flag YES"; $"ham Flag NO"]
          [$"ALL verdict"; $"spam Nothing"] with
  | Some t => t
  | None => mkT [] [] no_edits []
  end.
Example C05_example :
  Qeq (m_score rep_msg) (rc_required rep_rc) /\
  (exists d, tag_data rep_rc rep_rs (t_tags rep_t) rep_msg = Some d /\ dget ($"YESNO") d = Some ($"Yes")) /\
  ~ In ($"YESNO") (dkeys (m_tags rep_msg)).
Proof. split; [reflexivity|]. split; [eexists; split; reflexivity|]. intros []. Qed.

(** ** C53 *)
(** The headers of the answer.  It starts from the original message - or, for spam
    with report_safe on and the full message asked for, from the message that wraps
    the original - and, with report_safe off, a report header.  Then the additions
    for all messages, the removals for all messages, the additions for this kind of
    message, the removals for this kind, each group in configuration order.  The
    content is untouched or, wrapped, is the original text after the reports. *)
Theorem C53_header_edits : forall X (rc : rconf (X := X)) rs report unsafe adds removes t safe ho received now h body raw m h' c,
  load_templates report unsafe adds removes = Some t ->
  get_adjusted rc rs t safe ho received now h body raw m = Some (h', c) ->
  exists start a_all a_kind,
    (if (Qle_bool (rc_required rc) (m_score m) && negb ho && negb (Z.eqb safe 0))%bool
     then start = bounce_headers received now h /\
          exists r u, get_report rc rs t m = FText r /\ get_unsafe_report rc rs t m = FText u /\
                      c = Wrapped (r ++ u) raw (if Z.eqb safe 2 then $"text/plain" else $"message/rfc882")
     else c = Same body /\
          (if Z.eqb safe 0 then exists x, get_matched_report (rc_fmt rc) rs m = Some x /\ start = h ++ [($"X-Spam-Report", x)]
           else start = h)) /\
    Forall2 (fun e x => fst x = fst e /\ interpolate rc rs (t_tags t) m (fst (convert_tags (snd e))) = FText (snd x))
      (additions ($"all") adds) a_all /\
    Forall2 (fun e x => fst x = fst e /\ interpolate rc rs (t_tags t) m (fst (convert_tags (snd e))) = FText (snd x))
      (additions (kind_of rc m) adds) a_kind /\
    h' = without (removals (kind_of rc m) removes)
           (without (removals ($"all") removes) (start ++ a_all) ++ a_kind).
Proof. intros X. exact adjusted_exact. Qed.
Print Assumptions C53_header_edits.
(** So what the edits do not name is untouched: an answer that does not wrap the
    original begins with the original's headers, in order, without the removed ones. *)
Theorem C53_original_headers_kept : forall X (rc : rconf (X := X)) rs report unsafe adds removes t safe ho received now h body raw m h' c,
  load_templates report unsafe adds removes = Some t ->
  get_adjusted rc rs t safe ho received now h body raw m = Some (h', c) -> c = Same body ->
  exists added, h' = without (removals ($"all") removes ++ removals (kind_of rc m) removes) h ++ added.
Proof.
  intros X rc rs report unsafe adds removes t safe ho received now h body raw m h' c Hl H Hc.
  destruct (adjusted_exact rc rs report unsafe adds removes t safe ho received now h body raw m h' c Hl H)
    as [start [a1 [a2 [S [_ [_ ->]]]]]].
  assert (Hs : exists r, start = h ++ r).
  { destruct (_ && _ && _)%bool; [destruct S as [_ [r [u [_ [_ Ec]]]]]; congruence|]. destruct S as [_ S].
    destruct (Z.eqb safe 0); [destruct S as [x [_ ->]]; eauto|]. exists []. rewrite app_nil_r. exact S. }
  destruct Hs as [r ->]. rewrite !without_plus, without_app, <- !app_assoc. eexists. reflexivity.
Qed.
Print Assumptions C53_original_headers_kept.
(** An answer can always be made if no template has a "%" and the tags it uses can
    be (see C67, C69, C55). *)
Theorem C53_always_made : forall X (rc : rconf (X := X)) rs report unsafe adds removes t safe ho received now h body raw m,
  load_templates report unsafe adds removes = Some t ->
  Forall (fun line => ~ In 37%N line) (report ++ unsafe ++ adds) -> NoDup (dkeys (m_tags m)) ->
  tag_data rc rs (t_tags t) m <> None -> (safe = 0%Z -> get_matched_report (rc_fmt rc) rs m <> None) ->
  get_adjusted rc rs t safe ho received now h body raw m <> None.
Proof. intros X. exact adjusted_total. Qed.
Print Assumptions C53_always_made.
Definition rep_h : headers := [($"Subject", $"Hi"); ($"x-SPAM-nothing", $"forged"); ($"From", $"a@b.c"); ($"X-Spam-Flag", $"NO")].
Example C53_example :
  load_templates [$"This is _YESNO_: _SCORE_/_REQD_."; $"Hits: _TESTS_"] [] [$"all Verdict _YESNO_, _HITS_"; $"spam Flag YES"; $"ham Flag NO"]
          [$"ALL verdict"; $"spam Nothing"] = Some rep_t /\
  get_adjusted rep_rc rep_rs rep_t 1 true ($"r") ($"n") rep_h ($"body") ($"raw") rep_msg =
    Some ([($"Subject", $"Hi"); ($"From", $"a@b.c"); ($"X-Spam-Flag", $"NO"); ($"X-Spam-Flag", $"YES")], Same ($"body")) /\
  get_adjusted rep_rc rep_rs rep_t 1 false ($"r") ($"n") rep_h ($"body") ($"raw") rep_msg =
    Some ([($"Content-Type", $"multipart/mixed"); ($"MIME-Version", $"1.0"); ($"Received", $"r");
           ($"To", $"a@b.c"); ($"Subject", $"Hi"); ($"Date", $"n"); ($"X-Spam-Flag", $"YES")],
          Wrapped ($"This is Yes: 2.5/2.5." ++ [10%N] ++ $"Hits: BUY" ++ [10%N] ++ no_template) ($"raw") ($"message/rfc882")).
Proof. split; [reflexivity|]. split; vm_compute; reflexivity. Qed.

(** ** C67 *)
(** A header template without "%": every tag is replaced by its value and the rest
    appears as written.  (Quote characters around the template are dropped.)
    Missing: templates with a "%". *)
Theorem C67_header_template_partial : forall X (rc : rconf (X := X)) rs tags m text,
  ~ In 37%N text -> NoDup (dkeys (m_tags m)) ->
  (forall t, In t (snd (convert_tags text)) -> In t tags) -> tag_data rc rs tags m <> None ->
  exists ps vs, reads (strip_chars [39%N; 34%N] text) ps /\ Forall2 (piece_value rc rs m) ps vs /\
    interpolate rc rs tags m (fst (convert_tags text)) = FText (concat vs).
Proof.
  intros X rc rs tags m text H37 Hnd Hin Hd. destruct (reads_total (strip_chars quotes text)) as [ps Hps].
  rewrite (convert_tags_tags _ _ Hps) in Hin.
  destruct (interpolate_template rc rs tags m text ps Hps H37 Hnd Hin Hd) as [vs [F E]]. exists ps, vs. auto.
Qed.
Print Assumptions C67_header_template_partial.
(** The preview: the first three lines of the text with blanks between them, cut after two hundred characters, and a mark. *)
Theorem C67_preview : forall X (rc : rconf (X := X)) rs m lines v,
  rc_raw_text rc (m_ext m) = join [10%N] lines -> lines <> [] -> Forall (fun l => ~ In 10%N l) lines ->
  dget ($"PREVIEW") (m_tags m) = None ->
  (tag_value rc rs m ($"PREVIEW") v <-> v = firstn 200 (join ($" ") (firstn 3 lines)) ++ $"[...]").
Proof.
  intros X rc rs m lines v E N F Hd. unfold tag_value. rewrite Hd.
  replace (dget ($"PREVIEW") (own_tags rc rs m)) with (Some (Some (preview (rc_raw_text rc (m_ext m))))) by reflexivity.
  rewrite E. unfold preview. rewrite first_lines_join by assumption.
  split; [intros K; injection K as <-; reflexivity | intros ->; reflexivity].
Qed.
Print Assumptions C67_preview.
Example C67_preview_case : Forall (fun l : str => ~ In 10%N l) [$"one"; $""; $"two"; $"three"].
Proof. repeat constructor; vm_compute; intuition discriminate. Qed.
(** How a template is read is unambiguous. *)
Theorem C67_one_reading : forall s p1 p2, reads s p1 -> reads s p2 -> p1 = p2.
Proof. intros s p1 p2 H1. exact (reads_unique s p1 H1 p2). Qed.
Print Assumptions C67_one_reading.
(** The report: the values of the configured lines, in order, one per line. *)
Theorem C67_report_partial : forall X (rc : rconf (X := X)) rs report unsafe adds removes t m,
  load_templates report unsafe adds removes = Some t ->
  Forall (fun line => ~ In 37%N line) report -> NoDup (dkeys (m_tags m)) ->
  tag_data rc rs (t_tags t) m <> None ->
  (exists pss vss, Forall2 (fun line ps => reads (strip_chars [39%N; 34%N] line) ps) report pss /\
     Forall2 (Forall2 (piece_value rc rs m)) pss vss /\
     get_report rc rs t m = FText (join [10%N] (map (@concat _) vss) ++ [10%N])) \/
  (fst (convert_lines report) = [] /\ get_report rc rs t m = FText ([10%N] ++ $"(no report template found)" ++ [10%N])).
Proof.
  intros X rc rs report unsafe adds removes t m Hl H37 Hnd Hd.
  unfold load_templates in Hl. destruct (convert_lines report) as [r0 rt] eqn:Er. destruct (convert_lines unsafe) as [u0 ut] eqn:Eu.
  destruct (load_edits adds removes) as [ed|] eqn:Ee; [|discriminate]. injection Hl as <-.
  unfold get_report, render_report. cbn [t_report t_tags] in *.
  destruct r0 as [|c r0]; [right; split; reflexivity|]. left.
  destruct (reads_lines report) as [pss F]. pose proof (convert_lines_tags _ _ F) as Et. rewrite Er in Et. cbn [snd] in Et.
  destruct (interpolate_lines rc rs (rt ++ ut ++ ed_tags ed) m report pss F H37 Hnd) as [vss [G Ei]]; [|exact Hd|].
  { intros x Hx. apply in_or_app. left. rewrite Et. exact Hx. }
  rewrite Er in Ei. cbn [fst] in Ei. exists pss, vss. rewrite Ei. auto.
Qed.
Print Assumptions C67_report_partial.
(** Templates with a "%" are not copied: it is lost, or no text can be made. *)
Theorem C67_percent_refuted : exists (rc : rconf (X := str)) rs m,
  NoDup (dkeys (m_tags m)) /\
  interpolate rc rs [] m (fst (convert_tags ($"100%% off"))) = FText ($"100% off") /\
  interpolate rc rs [] m (fst (convert_tags ($"score in %"))) = FValueError.
Proof. exists rep_rc, rep_rs, rep_msg. split; [constructor|]. split; vm_compute; reflexivity. Qed.
Print Assumptions C67_percent_refuted.
Example C67_example :
  reads ($"_A_B_C_ __x_YESNO_") [Tag ($"A"); Chr 66%N; Tag ($"C"); Chr 32%N; Tag []; Chr 120%N; Tag ($"YESNO")] /\
  interpolate rep_rc rep_rs [$"A"; $"C"; []; $"YESNO"] rep_msg (fst (convert_tags ($"_A_B_C_ __x_YESNO_"))) = FText ($"@@A@@B@@C@@ @@@@xYes").
Proof.
  split; [|vm_compute; reflexivity].
  apply (R_tag ($"A") ($"B_C_ __x_YESNO_")); [repeat constructor; discriminate|].
  apply (R_chr 66%N ($"_C_ __x_YESNO_")); [intros [t [r [_ E]]]; discriminate|].
  apply (R_tag ($"C") ($" __x_YESNO_")); [repeat constructor; discriminate|].
  apply (R_chr 32%N ($"__x_YESNO_")); [intros [t [r [_ E]]]; discriminate|].
  apply (R_tag [] ($"x_YESNO_")); [constructor|].
  apply (R_chr 120%N ($"_YESNO_")); [intros [t [r [_ E]]]; discriminate|].
  apply (R_tag ($"YESNO") []); [repeat constructor; discriminate|]. constructor.
Qed.

(** ** C68 *)
(** The TESTSSCORES tag names the hit rules in order.  Missing: the scores. *)
Theorem C68_tests_scores_partial : forall X (m : msg X) text,
  tests_scores_tag m = Some text ->
  (hit_names m = [] -> text = $"none") /\
  (hit_names m <> [] -> exists l, text = join ($",") l /\ Forall2 (fun n x => exists z, x = n ++ $"=" ++ show_z z) (hit_names m) l).
Proof.
  intros X m text H. unfold tests_scores_tag in H. destruct (scores_list (m_checked m)) as [l|] eqn:E; [|discriminate].
  apply scores_list_spec in E. change (map fst (filter (fun e => truthy (snd e)) (m_checked m))) with (hit_names m) in E.
  split; intros Hn.
  - rewrite Hn in E. inversion E; subst. injection H as <-. reflexivity.
  - destruct l as [|x l]; [inversion E; congruence|]. injection H as <-. exists (x :: l). split; [reflexivity|exact E].
Qed.
Print Assumptions C68_tests_scores_partial.
(** Each number is the answer of the rule without its fraction. *)
Theorem C68_tests_scores_numbers : forall X (m : msg X) text,
  tests_scores_tag m = Some text -> hit_names m <> [] ->
  exists l, text = join ($",") l /\
    Forall2 (fun e x => exists t, x = fst e ++ $"=" ++ t /\ shown (snd e) t) (filter (fun e => truthy (snd e)) (m_checked m)) l.
Proof.
  intros X m text H Hn. unfold tests_scores_tag in H. destruct (scores_list (m_checked m)) as [l|] eqn:E; [|discriminate].
  apply scores_list_shown in E. destruct l as [|x l].
  - exfalso. apply Hn. unfold hit_names. inversion E as [E'|]. reflexivity.
  - injection H as <-. exists (x :: l). split; [reflexivity | exact E].
Qed.
Print Assumptions C68_tests_scores_numbers.
(** The numbers are not the scores: a hit rule that scores 2.5 is listed with 1. *)
Theorem C68_tests_scores_refuted : exists (rs : ruleset str) m r,
  m = match_msg (rs_checked rs) [] [] (fresh_msg ($"BUY")) /\ hit_names m = [$"BUY"] /\
  get_rule rs ($"BUY") false = Some r /\ Qeq (r_score r) (5 # 2) /\ tests_scores_tag m = Some ($"BUY=1").
Proof. exists rep_rs. eexists. eexists. split; [reflexivity|]. repeat (split; [vm_compute; reflexivity|]). vm_compute. reflexivity. Qed.
Print Assumptions C68_tests_scores_refuted.
Example C68_example : tests_scores_tag rep_msg = Some ($"BUY=1") /\ hit_names rep_msg <> [].
Proof. split; [reflexivity|discriminate]. Qed.

(** ** C69 *)
(** The SUMMARY tag has one line for every hit rule, in order, with its score, name
    and description; it can always be made after matching (rules that leave the
    bookkeeping to the engine). *)
Theorem C69_summary_lines : forall X (rc : rconf (X := X)) rs m text,
  get_summary_report rc rs m = Some text ->
  exists lines, text = join [13%N; 10%N] lines /\ Forall2 (line_of_hit rc rs) (hit_names m) lines.
Proof.
  intros X rc rs m text H. unfold get_summary_report in H. destruct (summary_lines rc rs (m_checked m)) as [l|] eqn:E; [|discriminate].
  injection H as <-. exists l. split; [reflexivity|]. apply summary_lines_spec. exact E.
Qed.
Print Assumptions C69_summary_lines.
(** Scores are right-aligned in four columns, names left-aligned in twenty-two. *)
Theorem C69_summary_columns : forall n s,
  (exists blanks, pad_left n s = blanks ++ s /\ Forall (eq 32%N) blanks) /\
  (exists blanks, pad_right n s = s ++ blanks /\ Forall (eq 32%N) blanks) /\
  length (pad_left n s) = Nat.max n (length s) /\ length (pad_right n s) = Nat.max n (length s).
Proof.
  intros n s.
  assert (B : Forall (eq 32%N) (repeat 32%N (n - length s))) by (apply Forall_forall; intros x Hx; apply repeat_spec in Hx; congruence).
  split; [eexists; split; [reflexivity|exact B]|]. split; [eexists; split; [reflexivity|exact B]|].
  unfold pad_left, pad_right. rewrite !app_length, !repeat_length. lia.
Qed.
Print Assumptions C69_summary_columns.
Theorem C69_summary_always_made : forall X (rc : rconf (X := X)) rs m,
  Forall (fun e => observer (snd e)) (rs_checked rs) -> m_checked m = [] ->
  exists text, get_summary_report rc rs (fst (match_loop (rs_checked rs) m)) = Some text.
Proof.
  intros X rc rs m Hobs Hc. unfold get_summary_report.
  destruct (summary_lines_ok rc rs (m_checked (fst (match_loop (rs_checked rs) m)))) as [ls ->]; [|eexists; reflexivity].
  intros n v Hi _. apply (hits_are_rules rs m Hobs Hc). unfold dkeys. apply in_map_iff. exists (n, v). auto.
Qed.
Print Assumptions C69_summary_always_made.
Example C69_example :
  get_summary_report rep_rc rep_rs (fst (match_loop (rs_checked rep_rs) (fresh_msg ($"BUY NOW")))) =
    Some ($" 2.5 BUY                    a rule" ++ crlf ++ $"   3 NOW                    a rule").
Proof. vm_compute. reflexivity. Qed.

(** The values of the tags can be made unless one that fails is used. *)
Theorem C69_tags_always_made : forall X (rc : rconf (X := X)) rs tags m,
  (In ($"REPORT") tags -> get_matched_report (rc_fmt rc) rs m <> None) ->
  (In ($"SUMMARY") tags -> get_summary_report rc rs m <> None) ->
  (In ($"TESTSSCORES") tags -> tests_scores_tag m <> None) ->
  tag_data rc rs tags m <> None.
Proof. intros X. exact tag_data_total. Qed.
Print Assumptions C69_tags_always_made.
