(** Theorems about the rules that insert a text of the message into a pattern: C187-C190. *)
From Coq Require Import Lia.
From Verif Require Import PyStr Regexp Model_Received Spec_Template Proofs_Template Model_Provider Spec_Provider Proofs_Provider Spec_Dynamic Proofs_DynamicRules Proofs_UniqueId Proofs_UniqueNumber.
Open Scope nat_scope.

(** Messages for the examples: their headers and the envelope sender *)
Definition letter_of (l : list (str * str)) (sender : str) : mail :=
  let values name := map snd (filter (fun h => streqb (fst h) name) l) in
  mkMail values (fun n => hd_error (values n)) (fun _ => []) sender [] [] [].
Definition none : char -> bool := fun _ => false.

Section Dynamic.
Variable udigit uword : char -> bool.
Notation has := (has uword).
Notation starts := (starts uword).
Notation names_server := (names_server uword udigit).

(** C187: mail to a group of MSN passes the group check exactly if a Received header names a server
    of the groups, the message identifier begins with the group's name and the envelope sender is
    the group's bounce address.  The name must have no characters that mean something in a
    pattern: the program inserts it without escaping, so that full stops stand for anything. *)
Theorem C187_group m name : names_group name (texts m ($"to")) -> tame name -> name <> $"notifications" ->
  exists b, check_for_msn_groups_headers udigit uword m = Some b /\
    (b = true <-> (exists h w, In h (decoded m ($"received")) /\ names_server w h) /\ starts [group_id name] (texts m ($"message-id")) /\
      sender m = name ++ $"-bounce@groups.msn.com").
Proof. exact (msn_group udigit uword m name). Qed.
(** The address for notifications: the identifier has to name the server instead. *)
Theorem C187_notifications m : names_group ($"notifications") (texts m ($"to")) ->
  exists b, check_for_msn_groups_headers udigit uword m = Some b /\
    (b = true -> exists h w, In h (decoded m ($"received")) /\ names_server w h /\ starts [server_id w] (texts m ($"message-id"))) /\
    (forall h w, In h (decoded m ($"received")) -> names_server w h -> (forall h' w', In h' (decoded m ($"received")) -> names_server w' h' -> w' = w) ->
      starts [server_id w] (texts m ($"message-id")) -> b = true).
Proof. exact (msn_notifications udigit uword m). Qed.
(** Such mail never makes the Hotmail rules raise, and what passes the check is never forged. *)
Theorem C187_hotmail m name : names_group name (texts m ($"to")) -> tame name ->
  exists f n, check_for_forged_hotmail_received_headers udigit uword m = Some f /\ check_for_no_hotmail_received_headers udigit uword m = Some n /\
    (name <> $"notifications" -> (exists h w, In h (decoded m ($"received")) /\ names_server w h) -> starts [group_id name] (texts m ($"message-id")) ->
      sender m = name ++ $"-bounce@groups.msn.com" -> f = false /\ n = false).
Proof. exact (hotmail_group udigit uword m name). Qed.

(** C188: a message identifier of 28 capitals, a full stop and an address, and a From header with a
    quoted name and this address.  As above full stops of the address stand for anything. *)
Theorem C188_name_id m mid from id : first_of m ($"message-id") = Some mid -> first_of m ($"from") = Some from -> ratware_id id mid -> tame id ->
  exists b, check_ratware_name_id udigit uword m = Some b /\ (b = true <-> has (quoted_name id) from).
Proof. exact (ratware_name_id udigit uword m mid from id). Qed.
Theorem C188_other_id m mid : first_of m ($"message-id") = Some mid -> ~ has any_ratware_id mid -> check_ratware_name_id udigit uword m = Some false.
Proof. exact (ratware_no_id udigit uword m mid). Qed.
(** The rule raises for mail with one of the two headers only. *)
Theorem C188_raises m : (first_of m ($"message-id") = None /\ (exists f, first_of m ($"from") = Some f /\ f <> [])) \/
  (first_of m ($"from") = None /\ exists mid id, first_of m ($"message-id") = Some mid /\ ratware_id id mid) ->
  check_ratware_name_id udigit uword m = None.
Proof. exact (ratware_raises udigit uword m). Qed.

(** It answers no for mail without both (or with empty ones). *)
Theorem C188_neither m : (first_of m ($"message-id") = None \/ first_of m ($"message-id") = Some []) -> (first_of m ($"from") = None \/ first_of m ($"from") = Some []) ->
  check_ratware_name_id udigit uword m = Some false.
Proof. intros [H|H] [K|K]; unfold check_ratware_name_id; rewrite H, K; reflexivity. Qed.

(** C189: the recipient's address inside the envelope sender: for a To header that is a bare
    address, with a domain below a listed one, unless the sender's address was rewritten. *)
Theorem C189_exactly tlds m u d : first_of m ($"to") = Some (u ++ $"@" ++ d) -> u <> [] -> ~ In 64%N u -> d <> [] -> ~ In 10%N d -> tame u -> tame d ->
  exists b, check_ratware_envelope_from udigit uword tlds m = Some b /\
    (b = true <-> sender m <> [] /\ ~ has (rewritten udigit) (sender m) /\ listed tlds d /\ has (recipient_inside u d) (sender m)).
Proof. exact (ratware_envelope udigit uword tlds m u d). Qed.
(** An address in angle brackets at the end of the To header is never found. *)
Theorem C189_bracketed tlds m x : first_of m ($"to") = Some (x ++ $">") -> (forall t, In t tlds -> ~ In 62%N t) ->
  check_ratware_envelope_from udigit uword tlds m = Some false.
Proof. exact (bracketed udigit uword tlds m x). Qed.

(** C190: the rule about identifiers in the subject answers yes only if the subject ends in one of
    the forms; if no five digits follow each other in the subject, exactly then. *)
Theorem C190_only m : check_for_unique_subject_id udigit uword m = Some true -> ends_in_id udigit uword (texts m ($"subject")).
Proof. exact (unique_yes udigit uword m). Qed.
Theorem C190_none m : ~ ends_in_id udigit uword (texts m ($"subject")) -> check_for_unique_subject_id udigit uword m = Some false.
Proof. exact (unique_none udigit uword m). Qed.
Theorem C190_exactly_partial m : ~ has (five_digits udigit) (texts m ($"subject")) ->
  exists b, check_for_unique_subject_id udigit uword m = Some b /\ (b = true <-> ends_in_id udigit uword (texts m ($"subject"))).
Proof. exact (unique_exactly udigit uword m). Qed.
(** A number of seven digits or more at the end of the subject is an identifier exactly if it is not
    announced by a word like order or invoice, at most six characters before it. *)
Theorem C190_number m p ds : texts m ($"subject") = p ++ ds -> 7 <= length ds -> (forall c, In c ds -> plain_digit c) ->
  (forall q c, p = q ++ [c] -> ~ wordc uword c /\ ~ digit udigit c) -> no_gaps (p ++ ds) ->
  exists b, check_for_unique_subject_id udigit uword m = Some b /\ (b = false <-> announced p).
Proof. exact (unique_number udigit uword m p ds). Qed.
End Dynamic.

(** ** The full claims are false: names and addresses with brackets make the rules raise *)
Notation D := none.
Definition group_mail (name : str) : mail :=
  letter_of [($"received", $"from mail pickup service by p01.groups.msn.com with Microsoft SMTPSVC"); ($"to", $"<" ++ name ++ $"@groups.msn.com>");
             ($"message-id", $"<" ++ name ++ $"-1x@groups.msn.com>")] (name ++ $"-bounce@groups.msn.com").
Lemma group_mail_named name : name <> [] -> (forall c, In c name -> nonblank c) -> ~ In 62%N name -> names_group name (texts (group_mail name) ($"to")).
Proof. intros A B C. exists []. split; [change (texts (group_mail name) ($"to")) with (($"<" ++ name ++ $"@groups.msn.com>") ++ []); rewrite !app_nil_r; reflexivity|]. auto. Qed.
Theorem C187_refuted : ~ forall m name, names_group name (texts m ($"to")) -> check_for_msn_groups_headers D D m <> None.
Proof.
  intros H. apply (H (group_mail ($"a(b")) ($"a(b")); [|vm_compute; reflexivity]. apply group_mail_named; [discriminate| |].
  - intros c K. vm_compute in K. unfold nonblank. repeat (destruct K as [<-|K]; [reflexivity|]). destruct K.
  - intros K. vm_compute in K. repeat (destruct K as [K|K]; [discriminate K|]). destruct K.
Qed.

Definition ratware_mail (id from : str) : mail := letter_of [($"message-id", $"<ABCDEFGHIJKLMNOPQRSTUVWXYZAB." ++ id ++ $">"); ($"from", from)] [].
Lemma ratware_mail_id id : id <> [] -> ~ In 62%N id -> ratware_id id ($"<ABCDEFGHIJKLMNOPQRSTUVWXYZAB." ++ id ++ $">").
Proof.
  intros A B. exists [], ($"ABCDEFGHIJKLMNOPQRSTUVWXYZAB"), []. split; [rewrite app_nil_r; reflexivity|]. split; [reflexivity|].
  split; [intros c K; vm_compute in K; unfold capital; repeat (destruct K as [<-|K]; [lia|]); destruct K|]. split; [intros []|]. auto.
Qed.
Ltac not_in := intros K; vm_compute in K; repeat (destruct K as [K|K]; [discriminate K|]); destruct K.
Ltac each := intros c K; vm_compute in K; unfold nonblank; repeat (destruct K as [<-|K]; [reflexivity|]); destruct K.
Theorem C188_refuted : ~ forall m mid id from, first_of m ($"message-id") = Some mid -> first_of m ($"from") = Some from -> ratware_id id mid -> check_ratware_name_id D D m <> None.
Proof.
  intros H. apply (H (ratware_mail ($"a(b@c.example") ($"A <a@b.example>")) ($"<ABCDEFGHIJKLMNOPQRSTUVWXYZAB." ++ $"a(b@c.example" ++ $">") ($"a(b@c.example") ($"A <a@b.example>"));
    [reflexivity|reflexivity|apply ratware_mail_id; [discriminate|not_in]|vm_compute; reflexivity].
Qed.
Definition sent_to (to sender : str) : mail := letter_of [($"to", to)] sender.
Theorem C189_refuted : ~ forall m, check_ratware_envelope_from D D [$"com"] m <> None.
Proof. intros H. apply (H (sent_to ($"a(b@example.com") ($"x@y.example"))). vm_compute. reflexivity. Qed.
Definition subject_mail (s : str) : mail := letter_of [($"subject", s)] [].
Theorem C190_refuted : ~ forall m, check_for_unique_subject_id D D m <> None.
Proof. intros H. apply (H (subject_mail ($"Free   ((12345)"))). vm_compute. reflexivity. Qed.

(** ** Cases that meet the hypotheses *)
Lemma tame_text w : forallb (fun c => negb (mem_char c ($"\^$[(*+?{|)"))) w = true -> tame w.
Proof. intros H c K L. rewrite forallb_forall in H. specialize (H c K). apply negb_true_iff in H. apply mem_char_In in L. congruence. Qed.
Lemma server_case : names_server D D ($"p01.groups.msn.com") ($"from mail pickup service by p01.groups.msn.com with Microsoft SMTPSVC").
Proof. destruct (server_found D D ($"from mail pickup service by p01.groups.msn.com with Microsoft SMTPSVC")) as (w & E & H); [vm_compute; reflexivity|]. vm_compute in E. injection E as <-. exact H. Qed.
Example C187_case : let m := group_mail ($"book.club") in
  names_group ($"book.club") (texts m ($"to")) /\ tame ($"book.club") /\ (exists h w, In h (decoded m ($"received")) /\ names_server D D w h) /\
  starts D [group_id ($"book.club")] (texts m ($"message-id")) /\ sender m = $"book.club-bounce@groups.msn.com" /\
  check_for_msn_groups_headers D D m = Some true /\ check_for_msn_groups_headers D D (group_mail ($"notifications")) = Some false /\
  names_group ($"notifications") (texts (group_mail ($"notifications")) ($"to")).
Proof.
  cbv zeta. split; [apply group_mail_named; [discriminate|each|not_in]|]. split; [apply tame_text; reflexivity|].
  split; [eexists _, _; split; [left; reflexivity|exact server_case]|]. split; [apply (s_msn D D); vm_compute; reflexivity|]. split; [reflexivity|]. split; [vm_compute; reflexivity|].
  split; [vm_compute; reflexivity|]. apply group_mail_named; [discriminate|each|not_in].
Qed.
Example C187_notifications_case : let m := letter_of [($"received", $"from mail pickup service by p01.groups.msn.com with Microsoft SMTPSVC");
    ($"to", $"<notifications@groups.msn.com>"); ($"message-id", $"<1x@p01.groups.msn.com>")] [] in
  starts D [server_id ($"p01.groups.msn.com")] (texts m ($"message-id")) /\ check_for_msn_groups_headers D D m = Some true /\
  (forall h' w', In h' (decoded m ($"received")) -> names_server D D w' h' -> w' = $"p01.groups.msn.com").
Proof.
  cbv zeta. split; [apply (s_server D D ($"p01.groups.msn.co")); vm_compute; reflexivity|]. split; [vm_compute; reflexivity|].
  intros h' w' [<-|[]] H. exact (server_only D D w' H).
Qed.
Example C188_case :
  first_of (ratware_mail ($"ann@x.example") ($"""Ann"" <ann@x.example>")) ($"message-id") = Some ($"<ABCDEFGHIJKLMNOPQRSTUVWXYZAB." ++ $"ann@x.example" ++ $">") /\
  ratware_id ($"ann@x.example") ($"<ABCDEFGHIJKLMNOPQRSTUVWXYZAB." ++ $"ann@x.example" ++ $">") /\ tame ($"ann@x.example") /\
  check_ratware_name_id D D (ratware_mail ($"ann@x.example") ($"""Ann"" <ann@x.example>")) = Some true /\
  check_ratware_name_id D D (ratware_mail ($"ann@x.example") ($"Ann <ann@x.example>")) = Some false /\
  ~ has D any_ratware_id ($"<1@x.example>").
Proof.
  split; [reflexivity|]. split; [apply ratware_mail_id; [discriminate|not_in]|]. split; [apply tame_text; reflexivity|]. split; [vm_compute; reflexivity|]. split; [vm_compute; reflexivity|].
  rewrite <- (s_ratware_id D D). vm_compute. discriminate.
Qed.
Example C189_case : tame ($"me") /\ tame ($"example.com") /\ listed [$"com"] ($"example.com") /\
  check_ratware_envelope_from D D [$"com"] (sent_to ($"me@example.com") ($"a-example.com.me@spam.example")) = Some true /\
  check_ratware_envelope_from D D [$"com"] (sent_to ($"me@example.com") ($"SRS0=example.com.me@spam.example")) = Some false /\
  check_ratware_envelope_from D D [$"com"] (sent_to ($"me@example.com") ($"a.example@spam.example")) = Some false.
Proof.
  split; [apply tame_text; reflexivity|]. split; [apply tame_text; reflexivity|]. split; [apply domain_listed; vm_compute; reflexivity|].
  split; [vm_compute; reflexivity|]. split; vm_compute; reflexivity.
Qed.
Example C190_case :
  check_for_unique_subject_id D D (subject_mail ($"Free offer          ab12")) = Some true /\ ~ has D (five_digits D) ($"Free offer          ab12") /\
  check_for_unique_subject_id D D (subject_mail ($"Act now! abc-def-9")) = Some true /\
  check_for_unique_subject_id D D (subject_mail ($"Your order number: 1234567")) = Some false /\ ~ ends_in_id D D ($"Minutes of the meeting").
Proof.
  split; [vm_compute; reflexivity|]. split; [rewrite <- (s_five D D); vm_compute; discriminate|]. split; [vm_compute; reflexivity|]. split; [vm_compute; reflexivity|].
  rewrite <- (all_ids D D). vm_compute. discriminate.
Qed.
Definition gapb (c : char) : bool := mem_char c ($"-._") || is_space c.
Fixpoint calm (s : str) : bool :=
  match s with
  | a :: r => negb (gapb a && match r with b :: c :: _ => gapb b && gapb c | _ => false end) && calm r
  | [] => true
  end.
Lemma calm_gaps s : calm s = true -> no_gaps s.
Proof.
  intros H (x & u & y & E & L & K). subst s. revert H. induction x as [|a x IH]; cbn [app calm].
  - destruct u as [|a [|b [|c u]]]; cbn [length] in L; [lia..|]. cbn [app calm]. intros H. apply andb_true_iff in H as [H _]. apply negb_true_iff in H.
    assert (G : forall d, In d (a :: b :: c :: u) -> gapb d = true).
    { intros d I. unfold gapb. apply orb_true_iff. destruct (K d I) as [M|[B|[M|M]]]; try subst d; [left; reflexivity|right; exact B|left; reflexivity..]. }
    rewrite (G a), (G b), (G c) in H by (cbn; auto). discriminate.
  - intros H. apply andb_true_iff in H as [_ H]. exact (IH H).
Qed.
Example C190_number_case :
  let p := $"Your order number: " in let ds := $"1234567" in
  texts (subject_mail (p ++ ds)) ($"subject") = p ++ ds /\ (forall q c, p = q ++ [c] -> ~ wordc D c /\ ~ digit D c) /\ no_gaps (p ++ ds) /\ announced p /\
  check_for_unique_subject_id D D (subject_mail ($"Just for you: 1234567")) = Some true.
Proof.
  cbv zeta. split; [vm_compute; reflexivity|]. split.
  - intros q c E. change ($"Your order number: ") with ($"Your order number:" ++ [32%N]) in E. apply app_inj_tail in E as [_ <-]. split; intros K; unfold wordc, digit in K; lia.
  - split; [apply calm_gaps; vm_compute; reflexivity|]. split; [|vm_compute; reflexivity].
    exists ($"Your order "), ($"number"), ($": "). split; [reflexivity|]. split; [apply mem_str_In; vm_compute; reflexivity|]. split; [change (length _) with 2; lia|].
    intros c [K|[K|[]]]; subst c; vm_compute; discriminate.
Qed.
Print Assumptions C187_group.
Print Assumptions C187_notifications.
Print Assumptions C187_hotmail.
Print Assumptions C188_name_id.
Print Assumptions C188_other_id.
Print Assumptions C188_raises.
Print Assumptions C188_neither.
Print Assumptions C189_exactly.
Print Assumptions C189_bracketed.
Print Assumptions C190_only.
Print Assumptions C190_none.
Print Assumptions C190_exactly_partial.
Print Assumptions C190_number.
Print Assumptions C187_refuted.
Print Assumptions C188_refuted.
Print Assumptions C189_refuted.
Print Assumptions C190_refuted.
