(** Properties of the MIME rules (C125-C139). *)
From Coq Require Import QArith Lia Permutation.
From Verif Require Import PyStr PyDict.
From Verif Require Import Model_MimeEval Spec_MimeEval Proofs_MimeEval.
Open Scope nat_scope.

(** ** Examples *)
Definition plain (t : str) : part := mkPart ($"text") ($"plain") (Text t) t t [] [] [] [] false.
Definition html (t : str) : part := mkPart ($"text") ($"html") (Text t) t t [] [] [] [] false.
Definition alternative_of (l : list str) : part := mkPart ($"multipart") ($"alternative") (Parts l) [] [] [] [] [] [] false.
Definition with_cte (c : str) (p : part) : part :=
  mkPart (p_main p) (p_sub p) (p_raw p) (p_bytes p) (p_text p) c (p_disposition p) (p_charset p) (p_lines p) (p_noheaders p).
Definition with_disposition (c : str) (p : part) : part :=
  mkPart (p_main p) (p_sub p) (p_raw p) (p_bytes p) (p_text p) (p_cte p) c (p_charset p) (p_lines p) (p_noheaders p).
Definition with_charset (c : str) (p : part) : part :=
  mkPart (p_main p) (p_sub p) (p_raw p) (p_bytes p) (p_text p) (p_cte p) (p_disposition p) c (p_lines p) (p_noheaders p).
Definition with_lines (l : list str) (p : part) : part :=
  mkPart (p_main p) (p_sub p) (p_raw p) (p_bytes p) (p_text p) (p_cte p) (p_disposition p) (p_charset p) l (p_noheaders p).
Definition typed (m s : str) (p : part) : part :=
  mkPart m s (p_raw p) (p_bytes p) (p_text p) (p_cte p) (p_disposition p) (p_charset p) (p_lines p) (p_noheaders p).

(** ** C125: loading a message with this plugin *)
(** Loading fails exactly for the messages with one of the four kinds of parts: "html" that
    is not text, multipart/alternative without parts, and multiparts declared base64 or
    quoted-printable.  The property -- every message can be loaded -- does not hold. *)
Theorem C125_loading_partial : forall loc raw l,
  load loc raw l = None <-> exists before p after, l = before ++ p :: after /\ unreadable before p.
Proof. exact load_none. Qed.
Print Assumptions C125_loading_partial.
(** A message whose boundary is missing or never used has its text as payload. *)
Theorem C125_loading_refuted : forall loc raw t, t <> [] ->
  load loc raw [mkPart ($"multipart") ($"alternative") (Text t) t [] [] [] [] [] false] = None.
Proof.
  intros loc raw t Ht. apply load_none. eexists [], _, []. split; [reflexivity|]. right; left. repeat split.
  - exists t. now split.
  - intros p' [].
Qed.
Print Assumptions C125_loading_refuted.
Example C125_ex : load [] [] [alternative_of [$"text"; $"text"]; plain ($"Hi"); html ($"<p>Hi")] <> None /\
  load [] [] [typed ($"application") ($"html") (plain ($"x"))] = None /\
  load [] [] [with_cte ($"Base64") (alternative_of [$"text"])] = None.
Proof. repeat split; try reflexivity. intros H. vm_compute in H. discriminate. Qed.

(** ** C126: which parts a message has *)
Theorem C126_html : forall loc raw l s, load loc raw l = Some s ->
  (check_for_mime_html s = true <-> exists p, In p l /\ p_main p = $"text" /\ p_sub p = $"html").
Proof. exact html_rule. Qed.
Print Assumptions C126_html.
Theorem C126_html_only : forall loc raw l s, load loc raw l = Some s ->
  (check_for_mime_html_only s = true <->
   (exists p, In p l /\ p_main p = $"text" /\ p_sub p = $"html") /\ forall p, In p l -> ~ plain_part p).
Proof. exact html_only_rule. Qed.
Print Assumptions C126_html_only.
Theorem C126_counts : forall loc raw l s, load loc raw l = Some s ->
  (check_for_mime ($"mime_base64_count") s = true <-> exists p, In p l /\ encoded ($"base64") p) /\
  (check_for_mime ($"mime_qp_count") s = true <-> exists p, In p l /\ encoded ($"quoted-printable") p) /\
  (check_for_mime ($"mime_body_html_count") s = true <-> exists p, In p l /\ p_main p = $"text" /\ p_sub p = $"html") /\
  (check_for_mime ($"mime_body_text_count") s = true <-> exists p, In p l /\ plain_part p) /\
  (check_for_mime ($"mime_multipart_alternative") s = true <-> exists p, In p l /\ alternative_part p).
Proof. exact count_flags. Qed.
Print Assumptions C126_counts.
Theorem C126_unknown_name : forall test s, ~ In test check_names -> check_for_mime test s = false.
Proof. exact unknown_name. Qed.
Print Assumptions C126_unknown_name.
Example C126_ex : exists s, load [] [] [alternative_of [$"text"; $"text"]; with_cte ($"Quoted-Printable") (plain ($"Hi")); html ($"<p>Hi")] = Some s /\
  check_for_mime_html s = true /\ check_for_mime_html_only s = false /\ check_for_mime ($"mime_qp_count") s = true /\
  check_for_mime ($"mime_base64_count") s = false /\ check_for_mime ($"mime_qp_counts") s = false.
Proof. eexists. split; [vm_compute; reflexivity|repeat split]. Qed.

(** ** C127: faraway charsets *)
(** The rule hits when some part has at least two bytes, one of them above 127, and some
    part -- not always the same -- names a charset that is not allowed.  Missing: "more
    non-ASCII than ASCII characters", and that it is that part. *)
Theorem C127_faraway_partial : forall loc raw l s, load loc raw l = Some s ->
  (check_for_faraway_charset s = true <-> (exists p, In p l /\ high_bytes p) /\ exists p, In p l /\ foreign_charset loc p).
Proof. exact faraway_rule. Qed.
Print Assumptions C127_faraway_partial.
(** Any amount of ASCII text with one other byte is enough. *)
Theorem C127_mostly_ascii_refuted : forall t, exists s,
  load ($"en") [] [with_charset ($"koi8-r") (plain (t ++ [97; 233]%N))] = Some s /\ check_for_faraway_charset s = true.
Proof.
  intros t. remember (with_charset ($"koi8-r") (plain (t ++ [97; 233]%N))) as p. exists (next ($"en") [] check_start p). 
  assert (H : load ($"en") [] [p] = Some (next ($"en") [] check_start p)).
  { unfold load. cbn [extract_all]. rewrite step_eq. subst p. reflexivity. }
  split; [exact H|]. apply (faraway_rule _ _ _ _ H). subst p. split; eexists; (split; [now left|]).
  - split; [cbn; rewrite app_length; cbn; lia|]. exists 233%N. split; [cbn; apply in_or_app; right; cbn; tauto|lia].
  - split; [vm_compute; intros [|[]]; discriminate|]. split; [|reflexivity]. exists 107%N. eexists. split; [reflexivity | right; lia].
Qed.
Print Assumptions C127_mostly_ascii_refuted.
(** Without "ok_locales" every unusual charset is faraway (the header rule is off then). *)
Theorem C127_no_locales_refuted : exists p s, load [] [] [p] = Some s /\ check_for_faraway_charset s = true /\
  Model_HeaderEval.faraway [] (fun _ => Some [p_charset p]) [$"x"] [] = false.
Proof. exists (with_charset ($"koi8-r") (plain [233; 234]%N)). eexists. split; [vm_compute; reflexivity|split; reflexivity]. Qed.
Print Assumptions C127_no_locales_refuted.
(** "all" switches the rule off. *)
Theorem C127_all : forall loc raw l s, In ($"all") (words loc) -> load loc raw l = Some s -> check_for_faraway_charset s = false.
Proof.
  intros loc raw l s Ha H. destruct (check_for_faraway_charset s) eqn:E; [|reflexivity].
  apply (faraway_rule _ _ _ _ H) in E as [_ (p & _ & K & _)]. now elim K.
Qed.
Print Assumptions C127_all.
Example C127_ex : exists s, load ($"en ru") [] [with_charset ($"koi8-r") (plain [233; 234]%N)] = Some s /\ check_for_faraway_charset s = false.
Proof. eexists. split; vm_compute; reflexivity. Qed.

(** ** C128: illegal text in an ASCII part *)
(** Some text/plain part has a character above 127 in its undecoded text. *)
Theorem C128_illegal_partial : forall loc raw l s, load loc raw l = Some s ->
  (check_for_ascii_text_illegal s = true <-> exists p, In p l /\ plain_part p /\ non_ascii_text p).
Proof. intros loc raw l s H. unfold check_for_ascii_text_illegal. rewrite (l_ill _ _ _ _ H). apply exists_iff, ill_iff. Qed.
Print Assumptions C128_illegal_partial.
(** The charset and encoding the part declares do not matter. *)
Theorem C128_declared_refuted : exists p s, load [] [] [p] = Some s /\ check_for_ascii_text_illegal s = true /\
  p_charset p = $"utf-8" /\ p_cte p = $"8bit".
Proof. exists (with_cte ($"8bit") (with_charset ($"utf-8") (plain [99; 97; 102; 233]%N))). eexists. split; [vm_compute; reflexivity|repeat split]. Qed.
Print Assumptions C128_declared_refuted.
(** Control characters are never illegal. *)
Theorem C128_controls_refuted : forall loc raw p s, load loc raw [p] = Some s -> p_raw p = Text (map N.of_nat (seq 0 128)) ->
  check_for_ascii_text_illegal s = false.
Proof.
  intros loc raw p s H Hr. unfold check_for_ascii_text_illegal. rewrite (l_ill _ _ _ _ H). cbn [existsb]. unfold d_ill. rewrite Hr.
  vm_compute (forallb _ _). destruct (d_plain p); reflexivity.
Qed.
Print Assumptions C128_controls_refuted.
Example C128_ex : exists s, load [] [] [with_cte ($"7bit") (plain [233]%N)] = Some s /\ check_for_ascii_text_illegal s = true.
Proof. eexists. split; vm_compute; reflexivity. Qed.

(** ** C129: the share of encoded Unicode characters *)
(** It is the number of text/plain parts with at least one such entity, divided by the
    number of characters.  Missing: the other entities of a part. *)
Theorem C129_unicode_partial : forall loc raw l s minr maxr, load loc raw l = Some s ->
  (check_abundant_unicode_ratio minr maxr s = true <->
   exists n r, having (fun p => plain_part p /\ with_entity (p_text p)) l n /\ (minr <= r)%Q /\ at_most r maxr /\
     (total plain_size l = 0 /\ r = 0%Q \/
      0 < total plain_size l /\ r = (rat n / rat (total plain_size l))%Q)).
Proof. exact unicode_rule. Qed.
Print Assumptions C129_unicode_partial.
(** Two entities in sixteen characters count as one in sixteen. *)
Theorem C129_entities_refuted : exists s : state, (load [] [] [plain ($"&#x20AC;&#x20AC;")] : option state) = Some s /\ (unicode_ratio s == 1 # 16)%Q /\ check_abundant_unicode_ratio (1 # 10) None s = false.
Proof. eexists. split; [vm_compute; reflexivity|]. split; reflexivity. Qed.
Print Assumptions C129_entities_refuted.

(** ** C130: the share of quoted-printable characters *)
(** It is always 0, so the rule hits or misses for all messages alike. *)
Theorem C130_ratio_refuted : forall loc raw l s minr maxr, load loc raw l = Some s ->
  (check_qp_ratio minr maxr s = true <-> (minr <= 0)%Q /\ at_most 0 maxr).
Proof. exact qp_rule. Qed.
Print Assumptions C130_ratio_refuted.
Example C130_ex : exists s, load [] [] [with_cte ($"quoted-printable") (plain ($"=41=42=43"))] = Some s /\ check_qp_ratio (1 # 100) None s = false.
Proof. eexists. split; vm_compute; reflexivity. Qed.

(** ** C131: the length of base64 lines *)
(** The longest lines of all base64 parts are added. *)
Theorem C131_length_partial : forall loc raw l s minl maxl, load loc raw l = Some s ->
  (check_base64_length minl maxl s = true <->
   exists ns, base64_lines l ns /\ (minl <= rat (sum_of ns))%Q /\ at_most (rat (sum_of ns)) maxl).
Proof. exact length_rule. Qed.
Print Assumptions C131_length_partial.
(** No line of the two parts has more than four characters, but the rule finds eight. *)
Theorem C131_sum_refuted : exists s, load [] [] [with_cte ($"base64") (plain ($"QUJD")); with_cte ($"base64") (plain ($"QUJD"))] = Some s /\
  check_base64_length 8 None s = true.
Proof. eexists. split; vm_compute; reflexivity. Qed.
Print Assumptions C131_sum_refuted.
Example C131_ex : base64_lines [with_cte ($"BASE64") (plain ($"QUJD" ++ 10%N :: $"QQ==")); plain ($"x")] [4].
Proof.
  eapply bl_text; [exists [], []; reflexivity|reflexivity|apply longest_iff; reflexivity|].
  apply bl_skip; [|constructor]. intros (a & b & E). destruct a; discriminate.
Qed.

(** ** C132: alternatives that are not text *)
(** Missing: that rich text and multipart/related are accepted. *)
Theorem C132_non_text_partial : forall loc raw l s, load loc raw l = Some s ->
  (check_ma_non_text s = true <-> exists p, In p l /\ alternative_part p /\ non_text_inside p).
Proof. intros loc raw l s H. unfold check_ma_non_text. rewrite (l_ma _ _ _ _ H). apply exists_iff, ma_iff. Qed.
Print Assumptions C132_non_text_partial.
(** application/rtf is named as acceptable but only the main type is looked at. *)
Theorem C132_rtf_refuted : forall loc raw s, load loc raw [alternative_of [$"text"; $"application"]; plain ($"Hi"); typed ($"application") ($"rtf") (plain ($"x"))] = Some s ->
  check_ma_non_text s = true.
Proof.
  intros loc raw s H. unfold check_ma_non_text. rewrite (l_ma _ _ _ _ H). reflexivity.
Qed.
Print Assumptions C132_rtf_refuted.
Example C132_ex : load [] [] [alternative_of [$"text"; $"application"]; plain ($"Hi"); typed ($"application") ($"rtf") (plain ($"x"))] <> None.
Proof. intros H. vm_compute in H. discriminate. Qed.

(** ** C133: text hidden in base64 *)
(** Missing: that only text parts count. *)
Theorem C133_base64_text_partial : forall loc raw l s, load loc raw l = Some s ->
  (check_for_mime ($"mime_base64_encoded_text") s = true <-> exists p, In p l /\ base64_text_part p).
Proof.
  intros loc raw l s H. change (check_for_mime ($"mime_base64_encoded_text") s) with (base64_text s).
  rewrite (l_b64t _ _ _ _ H). apply exists_iff, b64t_iff.
Qed.
Print Assumptions C133_base64_text_partial.
(** A picture attached with a file name is "base64 encoded text". *)
Theorem C133_picture_refuted : exists s, load [] [] [with_disposition ($"attachment; filename=a.png") (with_cte ($"base64") (typed ($"image") ($"png") (plain ($"QUJD"))))] = Some s /\
  check_for_mime ($"mime_base64_encoded_text") s = true.
Proof. eexists. split; vm_compute; reflexivity. Qed.
Print Assumptions C133_picture_refuted.
(** Text declared "Base64" is not, though it is counted as base64. *)
Theorem C133_case_refuted : exists s, load [] [] [with_cte ($"Base64") (plain ($"QUJD"))] = Some s /\
  check_for_mime ($"mime_base64_encoded_text") s = false /\ check_for_mime ($"mime_base64_count") s = true.
Proof. eexists. split; [vm_compute; reflexivity|split; reflexivity]. Qed.
Print Assumptions C133_case_refuted.

(** ** C134: long quoted-printable lines *)
(** Only what comes after the first colon of a line is measured. *)
Theorem C134_long_line_partial : forall loc raw l s, load loc raw l = Some s ->
  (check_for_mime ($"mime_qp_long_line") s = true <->
   exists p x, In p l /\ encoded ($"quoted-printable") p /\ In x (p_lines p) /\ long_after_colon x).
Proof.
  intros loc raw l s H. change (check_for_mime ($"mime_qp_long_line") s) with (qp_long s).
  rewrite (l_long _ _ _ _ H), (exists_iff d_long _ l dlong_iff). split.
  - intros (p & Hp & E & x & Hx & K). exists p, x. tauto.
  - intros (p & x & Hp & E & Hx & K). exists p. repeat split; [assumption|assumption|]. exists x. tauto.
Qed.
Print Assumptions C134_long_line_partial.
(** Lines without a colon are never long. *)
Theorem C134_no_colon_refuted : forall loc raw p s, (forall x, In x (p_lines p) -> ~ In 58%N x) -> load loc raw [p] = Some s ->
  check_for_mime ($"mime_qp_long_line") s = false.
Proof.
  intros loc raw p s Hp H. destruct (check_for_mime _ s) eqn:E; [|reflexivity].
  apply (C134_long_line_partial _ _ _ _ H) in E as (p' & x & [<-|[]] & _ & Hx & _ & name & rest & -> & _).
  elim (Hp _ Hx). apply in_or_app. right. now left.
Qed.
Print Assumptions C134_no_colon_refuted.
Example C134_ex : exists s, load [] [] [with_lines [repeat 97%N 500] (with_cte ($"quoted-printable") (plain ($"x")))] = Some s /\
  check_for_mime ($"mime_qp_long_line") s = false /\
  exists s, load [] [] [with_lines [58%N :: repeat 97%N 80] (with_cte ($"quoted-printable") (plain ($"x")))] = Some s /\
  check_for_mime ($"mime_qp_long_line") s = true.
Proof. eexists. split; [vm_compute; reflexivity|]. split; [reflexivity|]. eexists. split; vm_compute; reflexivity. Qed.

(** ** C135: missing boundaries *)
Theorem C135_boundary_partial : forall loc raw l s, load loc raw l = Some s ->
  (check_for_mime ($"mime_missing_boundary") s = true <-> (exists p, In p l /\ plain_part p) /\ ~ times 4 ($"--") raw).
Proof.
  intros loc raw l s H. change (check_for_mime ($"mime_missing_boundary") s) with (no_boundary s).
  rewrite (l_nb _ _ _ _ H), (exists_iff (d_nb raw) _ l (nb_iff raw)). split.
  - intros (p & Hp & K & T). split; [eauto|assumption].
  - intros [(p & Hp & K) T]. exists p. tauto.
Qed.
Print Assumptions C135_boundary_partial.
(** Every ordinary message of one text part "misses its boundary". *)
Theorem C135_single_part_refuted : forall loc raw t s, ~ In 45%N raw -> load loc raw [plain t] = Some s ->
  check_for_mime ($"mime_missing_boundary") s = true.
Proof.
  intros loc raw t s Hr H. apply (C135_boundary_partial _ _ _ _ H). split.
  - exists (plain t). split; [now left|split; reflexivity].
  - intros (a & b & -> & _). apply Hr. apply in_or_app. right. now left.
Qed.
Print Assumptions C135_single_part_refuted.
Example C135_ex : load [] ($"Subject: x") [plain ($"Hi")] <> None /\ times 4 ($"--") ($"--b--b--b--").
Proof.
  split; [intros H; vm_compute in H; discriminate|].
  exists [], ($"b--b--b--"). split; [reflexivity|]. exists ($"b"), ($"b--b--"). split; [reflexivity|].
  exists ($"b"), ($"b--"). split; [reflexivity|]. exists ($"b"), []. split; [reflexivity|exact I].
Qed.

(** ** C136: the ratio of plain text to HTML *)
(** Characters of the text/plain parts over characters of the HTML parts; 1 when there are
    none of one kind. *)
Theorem C136_ratio : forall loc raw l s minr maxr, load loc raw l = Some s ->
  (check_mime_multipart_ratio minr maxr s = true <->
   exists r, (minr <= r)%Q /\ (r < maxr)%Q /\
     ((total plain_size l = 0 \/ total html_size l = 0) /\ r = 1%Q \/
      0 < total plain_size l /\ 0 < total html_size l /\ r = (rat (total plain_size l) / rat (total html_size l))%Q)).
Proof. exact ratio_rule. Qed.
Print Assumptions C136_ratio.
Example C136_ex : exists s, load [] [] [alternative_of [$"text"; $"text"]; plain ($"Hi"); html ($"<p>Hi")] = Some s /\
  check_mime_multipart_ratio (4 # 10) (5 # 10) s = true /\ check_mime_multipart_ratio (3 # 10) (4 # 10) s = false.
Proof. eexists. split; [vm_compute; reflexivity|split; reflexivity]. Qed.

(** ** C137: the share of capitals *)
(** Taken over the paragraphs of several words, if they have 200 characters together.
    Letters without case count as capitals.  For texts in which every letter has a capital
    form of one letter; missing: the others. *)
Theorem C137_capitals_partial : forall up is_word is_dig, is_word 32%N = false -> is_word 10%N = false ->
  forall minp maxp raw, (forall c, In c raw -> exists d, up c = [d]) ->
  check_for_uppercase up is_word is_dig minp maxp raw = true <->
  exists ps qs, paragraphs raw ps /\ kept ps qs /\ 200 <= length (concat qs) /\ 0 < length (filter is_word (concat qs)) /\
    let r := (rat (length (filter (capital up is_word is_dig) (concat qs))) / rat (length (filter is_word (concat qs))) * 100)%Q in
    (minp < r)%Q /\ (r <= maxp)%Q.
Proof. exact uppercase_rule. Qed.
Print Assumptions C137_capitals_partial.
(** Letters that have no case make a text all capitals. *)
Theorem C137_caseless_refuted : exists up is_word is_dig raw, (forall c, up c = [c]) /\ is_word 32%N = false /\ is_word 10%N = false /\
  check_for_uppercase up is_word is_dig 99 100 raw = true.
Proof.
  exists (fun c => [c]), (fun c => negb (is_space c)), is_digit, (repeat 20013%N 100 ++ 32%N :: repeat 25991%N 100).
  repeat split. 
Qed.
Print Assumptions C137_caseless_refuted.
Example C137_ex : exists raw, check_for_uppercase (fun c => [upper_char c]) (fun c => negb (is_space c)) is_digit 40 60 raw = true /\
  check_for_uppercase (fun c => [upper_char c]) (fun c => negb (is_space c)) is_digit 60 100 raw = false.
Proof. exists (repeat 65%N 100 ++ 32%N :: repeat 97%N 100). split; vm_compute; reflexivity. Qed.

(** ** C138: flags of the message *)
(** The header is left without an empty line. *)
Theorem C138_separator : forall raw, missing_separator raw = true <->
  exists before x after, lines raw (before ++ x :: after) /\ (forall h, In h before -> header_like h) /\
    ~ header_like x /\ ~ blank_line x.
Proof. exact separator_iff. Qed.
Print Assumptions C138_separator.
(** Headers are missing if some part has none. *)
Theorem C138_no_headers : forall l, missing_headers l = true <-> exists p, In p l /\ p_noheaders p = true.
Proof. exact no_headers_iff. Qed.
Print Assumptions C138_no_headers.
(** Missing: long values. *)
Theorem C138_truncated_partial : forall h, truncated_headers h = true <->
  exists name values, In (name, values) h /\ ((256 < N.of_nat (length name))%N \/ (8192 < N.of_nat (length values))%N).
Proof. exact truncated_iff. Qed.
Print Assumptions C138_truncated_partial.
(** A header value may have any length: it is the number of headers of that name that is
    compared. *)
Theorem C138_truncated_refuted : forall v, truncated_headers [($"Subject", [v])] = false.
Proof. reflexivity. Qed.
Print Assumptions C138_truncated_refuted.
Example C138_ex : missing_separator ($"Subject: x" ++ 10%N :: $"Hello") = true /\
  missing_separator ($"Subject: x" ++ 10%N :: 10%N :: $"Hello") = false.
Proof. split; reflexivity. Qed.

(** ** C139: the order of the parts *)
(** When both orders can be loaded the results are the same. *)
Theorem C139_order_partial : forall loc raw l l' s s', Permutation l l' -> load loc raw l = Some s -> load loc raw l' = Some s' -> s = s'.
Proof. exact order_state. Qed.
Print Assumptions C139_order_partial.
(** The order decides whether a message can be loaded. *)
Theorem C139_order_refuted : exists l l', Permutation l l' /\ load [] [] l <> None /\ load [] [] l' = None.
Proof.
  exists [alternative_of [$"image"]; mkPart ($"multipart") ($"alternative") (Text ($"x")) [] [] [] [] [] [] false].
  eexists. split; [apply perm_swap|]. split; [intros H; vm_compute in H; discriminate|reflexivity].
Qed.
Print Assumptions C139_order_refuted.
