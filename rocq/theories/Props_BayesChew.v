(** What the tokeniser reads of bodies and headers: theorems for C237 to C240.  In each statement [udigit] and [uword] say
    which characters above 127 are digits and word characters; they are arbitrary. *)
From Coq Require Import Lia.
From Verif Require Import PyStr PyDict Regexp Model_BayesChew Model_BayesTok Spec_BayesTok Spec_BayesChew Proofs_BayesChew Proofs_BayesStop Proofs_BayesId Proofs_BayesType Proofs_BayesBody Proofs_BayesTok.
Open Scope nat_scope.
Definition none (c : char) : bool := false.

(** ** C237: the words of the body *)
(** Breaking a text into lines neither loses nor joins nor splits nor reorders its words. *)
Theorem C237_words : forall udigit uword text, flat_map words (body_lines udigit uword text) = words text.
Proof. exact body_words. Qed.
Print Assumptions C237_words.
(** So each word of an ordinary text of the message loaded last is a token. *)
Theorem C237_tokens : forall udigit uword i rc ct fa ign fuel loaded m order l w,
  tokenise_after (body_lines udigit uword) i rc ct fa ign fuel loaded m order = Tokens l -> ordinary (join [10%N] (rendered loaded)) ->
  In w (words (join [10%N] (rendered loaded))) -> Forall (fun c => letter c = true) w -> 3 <= length w <= 15 -> ~ In w unused_words -> In w l.
Proof. exact body_tokens. Qed.
Print Assumptions C237_tokens.
(** A paragraph is not made one line: each of its rows is a line of its own. *)
Theorem C237_paragraphs_refuted : forall udigit uword rows, Forall row rows -> body_lines udigit uword (join [10%N] rows) = rows.
Proof. exact body_rows. Qed.
Print Assumptions C237_paragraphs_refuted.
Definition letter_mail : mail := {| m_subject := Some ($"Offer"); m_parts := [Plain ($"cheap" ++ [10%N] ++ $"watches" ++ [10; 10]%N ++ $"today")]; m_headers := [] |}.
Example C237_case : body_lines none none (join [10%N] (rendered letter_mail)) = [$"Offer"; $"cheap"; $"watches"; $"today"] /\
  words (join [10%N] (rendered letter_mail)) = [$"Offer"; $"cheap"; $"watches"; $"today"] /\
  exists l, tokenise_after (body_lines none none) (chew_id none none) (chew_received none none) (chew_content_type none none) (find_addr none none) [] 9 letter_mail letter_mail [] = Tokens l /\ In ($"watches") l.
Proof. split; [vm_compute; reflexivity|]. split; [vm_compute; reflexivity|]. eexists. split; [vm_compute; reflexivity|]. vm_compute. tauto. Qed.
Example C237_rows_case : Forall row [$"cheap watches"; $"today"].
Proof. constructor; [|constructor; [|constructor]]; (split; [eexists; split; [left; reflexivity|reflexivity]|]); intros c C K; vm_compute in C, K; intuition (subst; discriminate). Qed.

(** ** C238: message ids *)
(** Nothing but letters, digits and underscores is left between the blanks. *)
Theorem C238_alphabet : forall udigit uword v, Forall (fun c => c = 32%N \/ id_char c = true) (chew_id udigit uword v).
Proof. intros. unfold chew_id. rewrite blank_all. apply blanked_alphabet. Qed.
Print Assumptions C238_alphabet.
(** A value without a "<" keeps all its words. *)
Theorem C238_plain : forall udigit uword v, ~ In 60%N v -> chew_id udigit uword v = blanked v.
Proof. exact chew_plain. Qed.
Print Assumptions C238_plain.
(** Of an id by Outlook Express three parts and the host are left. *)
Theorem C238_outlook : forall udigit uword a x y b z c host,
  all low_hex 4 a -> all low_hex 4 x -> all low_hex 4 y -> all low_hex 4 b -> all low_hex 4 z -> all low_hex 8 c -> host_name host ->
  chew_id udigit uword (outlook_id a x y b z c host) = ($" OEA") ++ a ++ ($" OEB") ++ b ++ ($" OEC") ++ c ++ ($" ") ++ blanked host ++ ($" ").
Proof. exact outlook_chew. Qed.
Print Assumptions C238_outlook.
(** Of one by Exim or Sendmail only the host is. *)
Theorem C238_exim : forall udigit uword x y c host, all alphanumeric 7 x -> all alphanumeric 6 y -> alphanumeric c = true -> host_name host ->
  chew_id udigit uword (exim_id x y c host) = blanked host ++ ($" ").
Proof. exact exim_chew. Qed.
Print Assumptions C238_exim.
Theorem C238_sendmail : forall udigit uword year month day hour minute second number host,
  two_digits ($"0123456789") year -> two_digits ($"01") month -> two_digits ($"0123") day -> two_digits ($"012") hour -> two_digits ($"012345") minute -> two_digits ($"012345") second ->
  10 <= length number <= 12 -> Forall (fun c => high_hex c = true) number -> host_name host ->
  chew_id udigit uword (sendmail_id year month day hour minute second number host) = blanked host ++ ($" ").
Proof. exact sendmail_chew. Qed.
Print Assumptions C238_sendmail.
Example C238_case : outlook_id ($"000a") ($"01bf") ($"1234") ($"abcd") ($"1111") ($"deadbeef") ($"pc.example") = $"<000a01bf1234$abcd1111$deadbeef@pc.example>" /\
  chew_id none none ($"<000a01bf1234$abcd1111$deadbeef@pc.example>") = $" OEA000a OEBabcd OECdeadbeef pc example " /\
  exim_id ($"1A2b3C4") ($"0000Xy") 65%N ($"mx-1.example") = $"<1A2b3C4-0000Xy-0A@mx-1.example>" /\
  chew_id none none ($"<1A2b3C4-0000Xy-0A@mx-1.example>") = $"mx 1 example " /\
  chew_id none none ($"<20040112101112.A1B2C3D4E5F@mx.example>") = $"mx example " /\
  host_name ($"mx-1.example") /\ all low_hex 4 ($"01bf") /\ two_digits ($"01") ($"12").
Proof.
  do 5 (split; [vm_compute; reflexivity|]). split; [split; [discriminate|]; repeat (constructor; [vm_compute; tauto|]); constructor|]. split; [split; [reflexivity|repeat constructor]|].
  exists 49%N, 50%N. split; [reflexivity|]. split; [vm_compute; tauto|reflexivity].
Qed.

(** ** C239: Received headers *)
(** Whatever the value, none of the five words is left as a word. *)
Theorem C239_stop_words : forall udigit uword v w, In w relay_words -> ~ stands_alone (is_w uword) w (chew_received udigit uword v).
Proof. exact received_no_stop. Qed.
Print Assumptions C239_stop_words.
(** A value without these words, without "id" and without a month is left as it is. *)
Theorem C239_kept : forall udigit uword v, blanks_apart uword -> quiet (is_w uword) v -> chew_received udigit uword v = v.
Proof. intros udigit uword v B. apply received_quiet. exact B. Qed.
Print Assumptions C239_kept.
(** The number in the queue of a relay disappears, the text around it does not. *)
Theorem C239_queue_id : forall udigit uword p q r, blanks_apart uword -> quiet (is_w uword) p -> quiet (is_w uword) r -> Forall (fun c => alphanumeric c = true) q -> 7 <= length q <= 20 ->
  chew_received udigit uword (p ++ ($" id ") ++ q ++ ($" ") ++ r) = p ++ ($"   ") ++ r.
Proof. intros udigit uword p q r B. apply received_queue. exact B. Qed.
Print Assumptions C239_queue_id.
(** But not every number does: a date that is removed can leave one behind. *)
Theorem C239_queue_id_refuted : exists v, chew_received none none v = $"by mx id ab12cd34" /\ v = $"by mx id Mon, 12 Jan 2004 10:11:12 ab12cd34".
Proof. eexists. split; [|reflexivity]. vm_compute. reflexivity. Qed.
Print Assumptions C239_queue_id_refuted.
Example C239_case : chew_received none none ($"by mx.example id m0NAvcx12345 hub") = $"by mx.example   hub" ++ [] /\ blanks_apart none /\
  chew_received none none ($"from a.example by b.example with ESMTP id 0123456789AB ; Mon, 12 Jan 2004 10:11:12 +0000") = $"  a.example by b.example ; " /\
  chew_received none none ($"by b.example with esmtp id 0123456789AB ok") = $"by b.example   esmtp   ok".
Proof. split; [vm_compute; reflexivity|]. split; [intros c _; reflexivity|]. split; vm_compute; reflexivity. Qed.

(** ** C240: Content-Type *)
(** Whatever the value, neither "text" nor "charset" is left as a word. *)
Theorem C240_stop_words : forall udigit uword v w, In w type_words -> ~ stands_alone (is_w uword) w (chew_content_type udigit uword v).
Proof. exact type_no_stop. Qed.
Print Assumptions C240_stop_words.
(** Without a boundary, and without these words, the value is left as it is. *)
Theorem C240_without_boundary : forall udigit uword v, ~ occurs ($"boundary=") (lower v) -> (forall w, In w type_words -> ~ stands_alone (is_w uword) w v) ->
  chew_content_type udigit uword v = v.
Proof. exact type_absent. Qed.
Print Assumptions C240_without_boundary.
(** The shape of a quoted boundary is added: hexadecimal digits are "H", each run of separators is the character 1 between blanks. *)
Theorem C240_shape_partial : forall udigit uword p n q w q' t, lower n = $"boundary=" -> quote q -> quote q' ->
  ~ In 10%N w -> ~ In 34%N w -> ~ In 39%N w -> ~ occurs ($"boundary=") (lower p ++ ($"boundary")) ->
  let v := p ++ n ++ q :: w ++ q' :: t in
  (forall x, In x type_words -> ~ stands_alone (is_w uword) x (v ++ shape [32; 1; 32]%N false w)) ->
  chew_content_type udigit uword v = v ++ shape [32; 1; 32]%N false w.
Proof. exact type_found. Qed.
Print Assumptions C240_shape_partial.
(** The separators are not kept, and the random boundary itself is: with the shape joined to it. *)
Theorem C240_separators_refuted :
  chew_content_type none none ($"x; boundary=""-_0a1f""") = ($"x; boundary=""-_0a1f""") ++ [32; 1; 32]%N ++ ($"HHHH") /\
  chew_content_type none none ($"x; boundary=""=.0a1f""") = ($"x; boundary=""=.0a1f""") ++ [32; 1; 32]%N ++ ($"HHHH") /\
  chew_content_type none none ($"x; boundary=""cafe""") = $"x; boundary=""cafe""HHHH".
Proof. repeat split; vm_compute; reflexivity. Qed.
Print Assumptions C240_separators_refuted.
Example C240_case : lower ($"Boundary=") = $"boundary=" /\ quote 34%N /\ ~ occurs ($"boundary=") (lower ($"multipart/mixed; ") ++ ($"boundary")) /\
  shape [32; 1; 32]%N false ($"-NextPart.0a1f") = [32; 1; 32]%N ++ $"NHxtPHrt" ++ [32; 1; 32]%N ++ $"HHHH" /\
  chew_content_type none none ($"text/plain; charset=utf-8") = $"/plain; =utf-8".
Proof.
  split; [reflexivity|]. split; [left; reflexivity|]. split; [|split; vm_compute; reflexivity].
  intros (a & b & E). assert (K : contains ($"boundary=") (lower ($"multipart/mixed; ") ++ ($"boundary")) = true) by (rewrite E; apply contains_app; eauto). vm_compute in K. discriminate.
Qed.

(** ** C120 and C122 for the functions of the code *)
(** What is read of a header by the functions above. *)
Theorem C120_code_header_values : forall udigit uword ign order hdrs n, NoDup order -> (forall m, In m order -> lower m = m) ->
  In n order -> compress n = n -> ~ In n ign ->
  exists vals us, values_used hdrs n vals /\
    Forall2 (fun v u => shown (chew_id udigit uword) (chew_received udigit uword) (chew_content_type udigit uword) n (rstrip_p is_space v) u) vals us /\
    dget n (parse_headers (chew_id udigit uword) (chew_received udigit uword) (chew_content_type udigit uword) (find_addr udigit uword) ign order hdrs) =
      match vals with [] => None | _ => Some (join ($" ") us) end.
Proof. intros. apply header_read; try assumption. apply addr_group. Qed.
Print Assumptions C120_code_header_values.
(** Two messages that differ in the addresses of senders and recipients have the same tokens. *)
Theorem C122_code_addresses_refuted : forall udigit uword ign fuel order text inviz uris hdrs hdrs',
  (forall n, In n order -> lower n = n) -> same_but_addresses hdrs hdrs' ->
  let tokens := tokenise (chew_id udigit uword) (chew_received udigit uword) (chew_content_type udigit uword) (find_addr udigit uword) ign fuel order (body_lines udigit uword text) inviz uris in
  tokens hdrs = tokens hdrs'.
Proof. intros. apply addr_free; try assumption. apply addr_group. Qed.
Print Assumptions C122_code_addresses_refuted.
Example C122_code_case : same_but_addresses [($"From", $"Joe joe@example.org"); ($"Comments", $"cheap")] [($"From", $"Ann ann@bad.example"); ($"Comments", $"cheap")] /\
  find_addr none none ($"Joe joe@example") = Some ($"joe@exampl") /\
  tokenise (chew_id none none) (chew_received none none) (chew_content_type none none) (find_addr none none) [] 9 [$"from"; $"comments"] (body_lines none none ($"hello")) [] []
    [($"From", $"Joe joe@example.org"); ($"Comments", $"cheap")] = Tokens [$"hello"; $"Hcomments:cheap"].
Proof. split; [|split; vm_compute; reflexivity]. constructor; [split; [reflexivity | right; vm_compute; tauto]|]. constructor; [split; [reflexivity | left; reflexivity] | constructor]. Qed.
