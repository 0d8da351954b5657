(** Theorems about the Razor, Pyzor and SpamCop plugins and the subject lists. *)
From Verif Require Import PyStr PyDict Model_Feedback Spec_Feedback Proofs_Feedback.

(** C103 *)
(** The first rule that asks Razor about a message hits exactly if it is listed; if the
    program fails or is switched off, no rule hits. *)
Theorem C103_first_partial r : fst (check_razor2 true r None) = true <-> listed_by r.
Proof. exact (razor_first r). Qed.
Print Assumptions C103_first_partial.
Theorem C103_failed r n : r <> Ended 0 -> r <> Ended 1 -> razor_answers true r n None = repeat false n.
Proof. exact (razor_failed r n). Qed.
Print Assumptions C103_failed.
Theorem C103_off r n s : razor_answers false r n s = repeat false n.
Proof. exact (razor_off r n s). Qed.
Print Assumptions C103_off.
(** All others about the same message get the opposite answer. *)
Theorem C103_repeated_refuted n :
  razor_answers true (Ended 0) (S n) None = true :: repeat false n /\
  razor_answers true (Ended 1) (S n) None = false :: repeat true n.
Proof. split; [exact (razor_listed n) | exact (razor_unlisted n)]. Qed.
Print Assumptions C103_repeated_refuted.
Example C103_example : razor_answers true (Ended 1) 3 None = [false; true; true] /\ razor_answers true (Ended (-9)) 3 None = [false; false; false].
Proof. split; reflexivity. Qed.

(** C104 *)
(** Pyzor: the rule hits exactly if some server accuses the message and all before it in
    the list answer. *)
Theorem C104_pyzor_partial max servers reply digest p :
  fst (check_pyzor true max servers reply digest p) = true <->
  exists s, reached (reply digest) servers s /\ accuses max (reply digest) s.
Proof. exact (pyzor_iff max servers reply digest p). Qed.
Print Assumptions C104_pyzor_partial.
(** So a message that one server has cleared is still spam if the next accuses it, *)
Theorem C104_cleared_refuted : exists max servers reply s, In s servers /\ reply ($"d") s = Some (9%Z, 7%Z) /\
  fst (check_pyzor true max servers reply ($"d") {| pz_digest := None; pz_tags := None; pz_asked := [] |}) = true.
Proof.
  exists 5%Z, [$"a"; $"b"], (fun _ s => if streqb s ($"a") then Some (9%Z, 7%Z) else Some (9%Z, 0%Z)), ($"a").
  split; [left; reflexivity|]. split; reflexivity.
Qed.
Print Assumptions C104_cleared_refuted.
(** and a server that does not answer keeps the others from being asked. *)
Theorem C104_silent_refuted max servers reply digest p s0 : reply digest s0 = None ->
  fst (check_pyzor true max (s0 :: servers) reply digest p) = false.
Proof.
  intros H. destruct (fst (check_pyzor true max (s0 :: servers) reply digest p)) eqn:E; [|reflexivity]. exfalso.
  apply (pyzor_iff max (s0 :: servers) reply digest p) in E as (s & (l1 & l2 & E2 & R) & (c & w & A & _)).
  destruct l1 as [|x l1]; injection E2 as -> ->; [congruence|]. exact (R x (or_introl eq_refl) H).
Qed.
Print Assumptions C104_silent_refuted.
(** If no server accuses it, all are asked, in order, and the tags show the last answer. *)
Theorem C104_tags max servers reply digest p :
  servers <> [] -> (forall s, In s servers -> reply digest s <> None /\ ~ accuses max (reply digest) s) ->
  check_pyzor true max servers reply digest p =
  (false, {| pz_digest := Some digest; pz_tags := reply digest (last servers []); pz_asked := pz_asked p ++ servers |}).
Proof. intros NE H. unfold check_pyzor. cbn [negb]. rewrite (ask_servers_seen max (reply digest) servers _ _ H NE). reflexivity. Qed.
Print Assumptions C104_tags.
(** What is reported is the digest that was checked, to every server. *)
Theorem C104_report max servers reply digest p send : (forall s, In s servers -> send s = true) ->
  pyzor_report true servers send digest (snd (check_pyzor true max servers reply digest p)) = map (fun s => (s, digest)) servers.
Proof. exact (report_same true servers reply max digest p send eq_refl). Qed.
Print Assumptions C104_report.
Definition two_servers (_ : str) (s : str) : answer := if streqb s ($"a") then Some (2%Z, 0%Z) else Some (12%Z, 0%Z).
Example C104_example :
  accuses 5 (two_servers ($"d")) ($"b") /\ ~ accuses 5 (two_servers ($"d")) ($"a") /\
  fst (check_pyzor true 5 [$"a"; $"b"] two_servers ($"d") {| pz_digest := None; pz_tags := None; pz_asked := [] |}) = true /\
  fst (check_pyzor true 5 [$"a"] two_servers ($"d") {| pz_digest := None; pz_tags := None; pz_asked := [] |}) = false.
Proof.
  split; [exists 12%Z, 0%Z; repeat split; vm_compute; discriminate|].
  split; [intros (c & w & E & L & _); injection E as <- <-; vm_compute in L; apply L; reflexivity|]. split; reflexivity.
Qed.

(** C105 *)
(** SpamCop: a message whose first Received header ends with a date is reported exactly if
    the address is one and the date is no more than two days ago. *)
Theorem C105_reported dont to max parse now h l raw d : header_date parse h d -> d <> 0%Z ->
  (spamcop_report dont to max parse now (h :: l) raw = Sent (excerpt max raw) /\ addressed to /\ (now - 2 * 86400 <= d)%Z) \/
  (spamcop_report dont to max parse now (h :: l) raw = NotSent /\ (~ addressed to \/ (d < now - 2 * 86400)%Z)).
Proof. exact (spamcop_iff dont to max parse now h l raw d). Qed.
Print Assumptions C105_reported.
(** The report has the whole message if it is not too long, and its beginning and a notice
    if it is. *)
Theorem C105_whole max raw : length raw <= max * 1024 -> excerpt max raw = raw.
Proof. exact (excerpt_short max raw). Qed.
Print Assumptions C105_whole.
Theorem C105_truncated max raw : max * 1024 < length raw ->
  exists a b, raw = a ++ b /\ length a = max * 1024 /\ excerpt max raw = a ++ [10%N] ++ $"[truncated by OrangeAssassin]" ++ [10%N].
Proof. exact (excerpt_long max raw). Qed.
Print Assumptions C105_truncated.
(** The option not to report is not looked at, *)
Theorem C105_option_refuted to max parse now h l raw d :
  header_date parse h d -> d <> 0%Z -> addressed to -> (now - 2 * 86400 <= d)%Z ->
  spamcop_report true to max parse now (h :: l) raw = Sent (excerpt max raw).
Proof.
  intros H D A L. destruct (spamcop_iff true to max parse now h l raw d H D) as [(E & _) | (_ & [N | N])]; [exact E | contradiction|].
  exfalso. apply (Z.lt_irrefl d). exact (Z.lt_le_trans _ _ _ N L).
Qed.
Print Assumptions C105_option_refuted.
(** and a message without a Received header raises an exception. *)
Theorem C105_no_header_refuted dont to max parse now raw : addressed to -> spamcop_report dont to max parse now [] raw = Crash.
Proof. intros A. apply addressed_iff in A. unfold spamcop_report. rewrite A. reflexivity. Qed.
Print Assumptions C105_no_header_refuted.
Example C105_example : addressed ($"spam@spamcop.net") /\
  header_date (fun _ => Some 1000000%Z) ($"from a by b; Mon, 1 Jan 2018 10:00:00 +0000") 1000000 /\
  spamcop_report false ($"spam@spamcop.net") 50 (fun _ => Some 1000000%Z) 1100000 [$"from a by b; Mon, 1 Jan 2018 10:00:00 +0000"] ($"hello") = Sent ($"hello") /\
  spamcop_report false ($"spam@spamcop.net") 50 (fun _ => Some 1000000%Z) 1200000 [$"from a by b; Mon, 1 Jan 2018 10:00:00 +0000"] ($"hello") = NotSent.
Proof.
  split; [apply addressed_iff; reflexivity|]. split.
  - exists ($"from a by b"), ($" Mon, 1 Jan 2018 10:00:00 +0000"). repeat split; vm_compute; intuition discriminate.
  - split; vm_compute; reflexivity.
Qed.

(** C106 *)
(** A subject list's rule hits exactly if the message has a Subject that matches an
    expression of the list, given in a line of any context of the process. *)
Theorem C106_subject_partial valid matches lines key subject : subject_key key ->
  (check_subject matches key (subject_configs valid lines empty_lists) subject = true <->
   exists s i, subject = Some s /\ given lines key i /\ valid (strip i) = true /\ matches i s = true).
Proof. exact (check_subject_iff valid matches lines key subject). Qed.
Print Assumptions C106_subject_partial.
(** So what one context's configuration lists, holds in all: the lines of one user, in any
    place among the others', are enough. *)
Theorem C106_shared_refuted valid matches mine others key i s :
  subject_key key -> In (key, i) others -> valid (strip i) = true -> matches i s = true ->
  check_subject matches key (subject_configs valid (others ++ mine) empty_lists) (Some s) = true.
Proof.
  intros K H V M. apply (check_subject_iff valid matches _ key _ K). exists s, i. split; [reflexivity|]. split; [|auto].
  apply in_or_app. left. exact H.
Qed.
Print Assumptions C106_shared_refuted.
Example C106_example : 
  check_subject startswith ($"whitelist_subject") (subject_configs (fun _ => true) [($"whitelist_subject", $"[ticket"); ($"blacklist_subject", $"buy")] empty_lists) (Some ($"[ticket 7]")) = true /\
  check_subject startswith ($"whitelist_subject") (subject_configs (fun _ => true) [($"whitelist_subject", $"[ticket"); ($"blacklist_subject", $"buy")] empty_lists) (Some ($"buy now")) = false.
Proof. split; reflexivity. Qed.
