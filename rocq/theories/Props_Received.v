(** Theorems C160-C169: what is read from Received headers, and the trust that follows. *)
From Coq Require Import Lia.
From Verif Require Import PyStr Regexp Model_Received Spec_Received Proofs_Regexp Proofs_Received Proofs_ReceivedIp Proofs_Handover Proofs_ReceivedFields Proofs_ReceivedSender.
From Verif Require Model_Relays Spec_Relays Spec_Net Props_Relays.
Open Scope nat_scope.

(** [udigit] and [uword] say which characters outside ASCII are digits and letters for the
    regular expressions. *)
Definition ascii_digit (c : char) : bool := false.
Definition ascii_word (c : char) : bool := false.

(** C160: the fields of a relay are words that are copied from its header. *)
Theorem C160_fields : forall udigit uword raw r,
  (forall c, udigit c = true -> is_space c = false) ->
  In r (parse_received udigit uword [raw]) ->
  no_blank (Model_Relays.rl_ip r) /\
  forall f, In f (copied r) -> no_blank f /\ (from_header raw -> piece f raw).
Proof. intros ud uw raw r Hd H. destruct (c160 ud uw [raw] r Hd H) as (A & raw' & [<-|[]] & B). auto. Qed.
Print Assumptions C160_fields.
(** Each header is read on its own, and lists at most one relay. *)
Theorem C160_apart : forall udigit uword headers,
  parse_received udigit uword headers = flat_map (fun raw => parse_received udigit uword [raw]) headers /\
  forall raw, length (parse_received udigit uword [raw]) <= 1.
Proof.
  intros ud uw headers. split; [|apply parse_single]. induction headers as [|h l IH]; [reflexivity|].
  cbn [flat_map]. rewrite <- IH. exact (parse_app ud uw [h] l).
Qed.
Print Assumptions C160_apart.
(** The authentication method is no word: this one is copied from a header of GMail. *)
Theorem C160_auth_refuted : exists raw r, parse_received ascii_digit ascii_word [raw] = [r] /\ ~ no_blank (Model_Relays.rl_auth r).
Proof.
  exists ($"from [192.0.2.1] ([192.0.2.1]) by mx.google.com with ESMTPS id x (version=TLS1 cipher=any text at all)").
  eexists. split; [vm_compute; reflexivity|]. cbn [Model_Relays.rl_auth]. intros H. specialize (H 32%N). vm_compute in H.
  assert (K : true = false) by (apply H; tauto). discriminate.
Qed.
Print Assumptions C160_auth_refuted.

(** C161: folding a header, or writing it with other blanks, changes nothing; neither does what
    follows the first semicolon. *)
Theorem C161_folding : forall udigit uword headers headers',
  Forall2 (fun x y => x = y \/ (refolded x y /\ exists t, x = $"from" ++ t)) headers headers' ->
  parse_received udigit uword headers = parse_received udigit uword headers'.
Proof. exact c161_fold. Qed.
Print Assumptions C161_folding.
Theorem C161_date : forall udigit uword raw date, from_header raw ->
  parse_received udigit uword [raw ++ $";" ++ date] = parse_received udigit uword [raw].
Proof. exact c161_date. Qed.
Print Assumptions C161_date.
(** Headers of the form X-ORIGINATING-IP are not unfolded: the address must be on the first line
    of a value that is not searched for " by " otherwise. *)
Theorem C161_originating_refuted : exists x y, refolded x y /\
  parse_received ascii_digit ascii_word [x] <> parse_received ascii_digit ascii_word [y].
Proof.
  exists ($"X-ORIGINATING-IP by" ++ [10%N] ++ $"[192.0.2.1]"), ($"X-ORIGINATING-IP by" ++ $" " ++ $"[192.0.2.1]"). split.
  - assert (R : forall w x y, forallb (fun c => negb (is_space c)) w = true -> refolded x y -> refolded (w ++ x) (w ++ y)).
    { induction w as [|c w IH]; intros x y H K; [exact K|]. cbn [forallb] in H. apply andb_true_iff in H as [H1 H2].
      cbn [app]. apply refolded_char; [apply negb_true_iff, H1|apply IH; assumption]. }
    change ($"X-ORIGINATING-IP by") with ($"X-ORIGINATING-IP" ++ $" " ++ $"by"). rewrite <- !app_assoc.
    apply R; [reflexivity|]. apply refolded_blank; try discriminate; try reflexivity. apply R; [reflexivity|].
    apply refolded_blank; try discriminate; try reflexivity.
    pose proof (R ($"[192.0.2.1]") [] [] eq_refl refolded_nil) as K. rewrite app_nil_r in K. exact K.
  - vm_compute. discriminate.
Qed.
Print Assumptions C161_originating_refuted.

(** C162: what Postfix writes when it takes over a message is read as it is meant. *)
Theorem C162_postfix_partial : forall udigit uword helo name a b c d server rest date,
  let h := handover helo name (quad a b c d) server rest in
  word helo -> host_name name -> bytes a b c d -> word server -> is_date date -> tidy h -> ~ In 59%N h ->
  helo <> $"Unknown/Local" -> (forall z, helo <> $"X-ORIGINATING-IP" ++ z) -> without skip_marks h ->
  exists r, parse_received udigit uword [received_header h date] = [r] /\
    Model_Relays.rl_by r = server /\
    (without ($"helo=" :: helo_marks) h -> Model_Relays.rl_helo r = helo) /\
    (contains ($"unknown") name = false -> name <> $"softdnserr" -> name <> $"UnknownHost" -> Model_Relays.rl_rdns r = name) /\
    (~ taken_private a b -> Model_Relays.rl_ip r = quad a b c d) /\
    ((forall x, In x (helo ++ name) -> x <> 58%N /\ is_d udigit x = false) -> Model_Relays.rl_ip r = quad a b c d).
Proof. exact c162. Qed.
Print Assumptions C162_postfix_partial.
Definition postfix_text : str :=
  handover ($"mail.example.org") ($"mx1.example.net") (quad 192 0 2 1) ($"mx.example.com") ($"(Postfix) with ESMTP id 4F2A for <u@example.com>").
Lemma tidy_check h : (fix f (b : bool) (s : str) := match s with [] => true | c :: r => if is_space c then N.eqb c 32 && negb b && f true r else f false r end) false h = true -> tidy h.
Proof.
  set (f := fix f (b : bool) (s : str) := match s with [] => true | c :: r => if is_space c then N.eqb c 32 && negb b && f true r else f false r end).
  assert (K : forall s b, f b s = true -> (forall c, In c s -> is_space c = true -> c = 32%N) /\
    (forall x c d y, (if b then 32%N :: s else s) = x ++ c :: d :: y -> is_space c = true -> is_space d = false)).
  { induction s as [|e s IH]; intros b Hf; [split; [intros c []|]; intros x c d y E; destruct b; destruct x as [|? [|]]; discriminate|].
    cbn [f] in Hf. destruct (is_space e) eqn:Ee.
    - apply andb_true_iff in Hf as [Hf H2]. apply andb_true_iff in Hf as [H0 H1]. apply N.eqb_eq in H0. subst e. destruct b; [discriminate|].
      destruct (IH true H2) as [A B]. split; [intros c [<-|Hc] Hs; [reflexivity|apply A; assumption]|exact B].
    - destruct (IH false Hf) as [A B]. split; [intros c [<-|Hc] Hs; [congruence|apply A; assumption]|].
      intros x c d y E Hs. destruct b.
      + destruct x as [|x0 x]; cbn [app] in E.
        * injection E as <- <- _. exact Ee.
        * injection E as <- E. destruct x as [|x1 x]; cbn [app] in E; [injection E as <- _; congruence|]. injection E as <- E. exact (B x c d y E Hs).
      + destruct x as [|x1 x]; cbn [app] in E; [injection E as <- _; congruence|]. injection E as <- E. exact (B x c d y E Hs). }
  intros H. exact (K h false H).
Qed.
Lemma without_check marks h : existsb (fun m => contains m (lower h)) marks = false -> without marks h.
Proof.
  intros H m x y Hm E. assert (K : existsb (fun m => contains m (lower h)) marks = true); [|congruence].
  apply existsb_exists. exists m. split; [exact Hm|]. apply contains_app. exists x, y. exact E.
Qed.
Lemma host_check s : s <> [] -> forallb (fun c => (N.leb 48 c && N.leb c 57) || (N.leb 65 c && N.leb c 90) || (N.leb 97 c && N.leb c 122) || N.eqb c 45 || N.eqb c 46 || N.eqb c 95) s = true -> host_name s.
Proof.
  intros Hne H. split; [exact Hne|]. rewrite forallb_forall in H. intros c Hc. specialize (H c Hc). unfold host_char.
  rewrite !orb_true_iff, !andb_true_iff, !N.leb_le, !N.eqb_eq in H. tauto.
Qed.
Lemma word_check s : s <> [] -> forallb (fun c => negb (is_space c)) s = true -> word s.
Proof. intros Hne H. split; [exact Hne|]. rewrite forallb_forall in H. intros c Hc. apply negb_true_iff, H, Hc. Qed.
Lemma no_char_check c s : mem_char c s = false -> ~ In c s.
Proof. intros H I. apply mem_char_In in I. congruence. Qed.
Example C162_case : exists r, parse_received ascii_digit ascii_word [received_header postfix_text ($"; Tue, 3 Mar 2020 10:00:00 +0000")] = [r] /\
  Model_Relays.rl_by r = $"mx.example.com" /\ Model_Relays.rl_helo r = $"mail.example.org" /\
  Model_Relays.rl_rdns r = $"mx1.example.net" /\ Model_Relays.rl_ip r = $"192.0.2.1".
Proof.
  destruct (C162_postfix_partial ascii_digit ascii_word ($"mail.example.org") ($"mx1.example.net") 192 0 2 1 ($"mx.example.com")
    ($"(Postfix) with ESMTP id 4F2A for <u@example.com>") ($"; Tue, 3 Mar 2020 10:00:00 +0000")) as (r & E & B & H & N & P & _).
  - apply word_check; [discriminate|reflexivity].
  - apply host_check; [discriminate|reflexivity].
  - unfold bytes. lia.
  - apply word_check; [discriminate|reflexivity].
  - right. eexists. reflexivity.
  - apply tidy_check. reflexivity.
  - apply no_char_check. reflexivity.
  - discriminate.
  - discriminate.
  - apply without_check. reflexivity.
  - exists r. split; [exact E|]. split; [exact B|]. split; [apply H, without_check; reflexivity|].
    split; [apply N; [reflexivity|discriminate|discriminate]|]. rewrite P; [reflexivity|]. unfold taken_private. lia.
Qed.
(** The sender chooses HELO, and with it whether its server is listed at all. *)
Theorem C162_hidden_refuted : exists helo name a b c d server rest,
  let h := handover helo name (quad a b c d) server rest in
  word helo /\ host_name name /\ bytes a b c d /\ word server /\ tidy h /\ ~ In 59%N h /\ without skip_marks h /\
  parse_received ascii_digit ascii_word [received_header h []] = [].
Proof.
  exists ($"Unknown/Local"), ($"mx1.example.net"), 192%N, 0%N, 2%N, 1%N, ($"mx.example.com"), ($"with SMTP").
  cbv zeta. split; [apply word_check; [discriminate|reflexivity]|]. split; [apply host_check; [discriminate|reflexivity]|].
  split; [unfold bytes; lia|]. split; [apply word_check; [discriminate|reflexivity]|]. split; [apply tidy_check; reflexivity|].
  split; [apply no_char_check; reflexivity|]. split; [apply without_check; reflexivity|]. vm_compute. reflexivity.
Qed.
Print Assumptions C162_hidden_refuted.
(** A reverse name that contains "unknown" is dropped. *)
Theorem C162_name_refuted : exists helo name a b c d server rest r,
  let h := handover helo name (quad a b c d) server rest in
  word helo /\ host_name name /\ bytes a b c d /\ word server /\ tidy h /\ ~ In 59%N h /\ without skip_marks h /\
  parse_received ascii_digit ascii_word [received_header h []] = [r] /\ name = $"unknown-soldier.example.net" /\ Model_Relays.rl_rdns r = [].
Proof.
  exists ($"mail.example.org"), ($"unknown-soldier.example.net"), 192%N, 0%N, 2%N, 1%N, ($"mx.example.com"), ($"with SMTP"). eexists.
  cbv zeta. split; [apply word_check; [discriminate|reflexivity]|]. split; [apply host_check; [discriminate|reflexivity]|].
  split; [unfold bytes; lia|]. split; [apply word_check; [discriminate|reflexivity]|]. split; [apply tidy_check; reflexivity|].
  split; [apply no_char_check; reflexivity|]. split; [apply without_check; reflexivity|]. split; [vm_compute; reflexivity|].
  split; reflexivity.
Qed.
Print Assumptions C162_name_refuted.
(** A public address in HELO takes the place of a private address of the server. *)
Theorem C162_private_refuted : exists helo name a b c d server rest r,
  let h := handover helo name (quad a b c d) server rest in
  word helo /\ host_name name /\ bytes a b c d /\ word server /\ tidy h /\ ~ In 59%N h /\ without skip_marks h /\
  parse_received ascii_digit ascii_word [received_header h []] = [r] /\ Model_Relays.rl_ip r <> quad a b c d.
Proof.
  exists ($"[192.0.2.9]"), ($"mx1.example.net"), 10%N, 0%N, 0%N, 1%N, ($"mx.example.com"), ($"with SMTP"). eexists.
  cbv zeta. split; [apply word_check; [discriminate|reflexivity]|]. split; [apply host_check; [discriminate|reflexivity]|].
  split; [unfold bytes; lia|]. split; [apply word_check; [discriminate|reflexivity]|]. split; [apply tidy_check; reflexivity|].
  split; [apply no_char_check; reflexivity|]. split; [apply without_check; reflexivity|]. split; [vm_compute; reflexivity|]. discriminate.
Qed.
Print Assumptions C162_private_refuted.

(** C163: what Exim writes is read as it is meant, except for the address if HELO can be taken
    for one. *)
Theorem C163_exim_partial : forall udigit uword helo name a b c d server rest date,
  let h := handover_exim helo name (quad a b c d) server rest in
  host_name helo -> host_name name -> bytes a b c d -> word server -> is_date date -> tidy h -> ~ In 59%N h ->
  (forall z, name <> $"X-ORIGINATING-IP" ++ z) -> without skip_marks h ->
  exists r, parse_received udigit uword [received_header h date] = [r] /\
    Model_Relays.rl_by r = server /\
    (without [$"(helo "; $"(ehlo "] h -> Model_Relays.rl_helo r = helo) /\
    (contains ($"unknown") name = false -> name <> $"UnknownHost" -> Model_Relays.rl_rdns r = name) /\
    (~ In 46%N helo \/ (forall x, In x helo -> is_d udigit x = false) ->
      (~ taken_private a b -> Model_Relays.rl_ip r = quad a b c d) /\
      ((forall x, In x name -> is_d udigit x = false) -> Model_Relays.rl_ip r = quad a b c d)).
Proof. exact c163. Qed.
Print Assumptions C163_exim_partial.
Example C163_case : exists r,
  parse_received ascii_digit ascii_word [received_header (handover_exim ($"mail.example.org") ($"mx1.example.net") (quad 192 0 2 1) ($"mx.example.com") ($"with esmtp (Exim 4.92) id 1abc")) []] = [r] /\
  Model_Relays.rl_by r = $"mx.example.com" /\ Model_Relays.rl_helo r = $"mail.example.org" /\
  Model_Relays.rl_rdns r = $"mx1.example.net" /\ Model_Relays.rl_ip r = $"192.0.2.1".
Proof.
  destruct (C163_exim_partial ascii_digit ascii_word ($"mail.example.org") ($"mx1.example.net") 192 0 2 1 ($"mx.example.com")
    ($"with esmtp (Exim 4.92) id 1abc") []) as (r & E & B & H & N & P).
  - apply host_check; [discriminate|reflexivity].
  - apply host_check; [discriminate|reflexivity].
  - unfold bytes. lia.
  - apply word_check; [discriminate|reflexivity].
  - left. reflexivity.
  - apply tidy_check. reflexivity.
  - apply no_char_check. reflexivity.
  - discriminate.
  - apply without_check. reflexivity.
  - exists r. split; [exact E|]. split; [exact B|]. split; [apply H, without_check; reflexivity|].
    split; [apply N; [reflexivity|discriminate]|]. destruct P as [P _].
    + right. intros x Hx. vm_compute in Hx. repeat (destruct Hx as [<-|Hx]; [reflexivity|]). destruct Hx.
    + rewrite P; [reflexivity|]. unfold taken_private. lia.
Qed.
(** An address as HELO takes the place of the address of the server. *)
Theorem C163_address_refuted : exists helo name a b c d server rest r,
  let h := handover_exim helo name (quad a b c d) server rest in
  host_name helo /\ host_name name /\ bytes a b c d /\ word server /\ tidy h /\ ~ In 59%N h /\ without skip_marks h /\
  ~ taken_private a b /\
  parse_received ascii_digit ascii_word [received_header h []] = [r] /\ Model_Relays.rl_ip r = helo /\ helo <> quad a b c d.
Proof.
  exists ($"198.51.100.7"), ($"mx1.example.net"), 192%N, 0%N, 2%N, 1%N, ($"mx.example.com"), ($"with SMTP"). eexists.
  cbv zeta. split; [apply host_check; [discriminate|reflexivity]|]. split; [apply host_check; [discriminate|reflexivity]|].
  split; [unfold bytes; lia|]. split; [apply word_check; [discriminate|reflexivity]|]. split; [apply tidy_check; reflexivity|].
  split; [apply no_char_check; reflexivity|]. split; [apply without_check; reflexivity|]. split; [unfold taken_private; lia|].
  split; [vm_compute; reflexivity|]. split; [reflexivity|discriminate].
Qed.
Print Assumptions C163_address_refuted.

(** C164: a hand-over that states HELO and the address only.  The word before the address is the
    reverse name as well if the header mentions Exim. *)
Theorem C164_bare_partial : forall udigit uword helo a b c d server rest date,
  let h := handover_bare helo (quad a b c d) server rest in
  host_name helo -> bytes a b c d -> word server -> is_date date -> tidy h -> ~ In 59%N h ->
  (forall z, helo <> $"X-ORIGINATING-IP" ++ z) -> without ($"(content" :: skip_marks) h ->
  exists r, parse_received udigit uword [received_header h date] = [r] /\
    Model_Relays.rl_by r = server /\
    (without [$"helo="; $"(helo "; $"(ehlo "] h -> Model_Relays.rl_helo r = helo) /\
    (contains ($"Exim") h = false -> Model_Relays.rl_rdns r = []) /\
    (contains ($"Exim") h = true -> contains ($"unknown") helo = false -> helo <> $"UnknownHost" -> Model_Relays.rl_rdns r = helo) /\
    (~ taken_private a b -> Model_Relays.rl_ip r = quad a b c d) /\
    ((forall x, In x helo -> is_d udigit x = false) -> Model_Relays.rl_ip r = quad a b c d).
Proof. exact c164. Qed.
Print Assumptions C164_bare_partial.
Example C164_case : exists r,
  parse_received ascii_digit ascii_word [received_header (handover_bare ($"mail.example.org") (quad 10 0 2 1) ($"mx.example.com") ($"with ESMTP id 1abc")) []] = [r] /\
  Model_Relays.rl_by r = $"mx.example.com" /\ Model_Relays.rl_helo r = $"mail.example.org" /\
  Model_Relays.rl_rdns r = [] /\ Model_Relays.rl_ip r = $"10.0.2.1".
Proof.
  destruct (C164_bare_partial ascii_digit ascii_word ($"mail.example.org") 10 0 2 1 ($"mx.example.com")
    ($"with ESMTP id 1abc") []) as (r & E & B & H & N & _ & _ & P).
  - apply host_check; [discriminate|reflexivity].
  - unfold bytes. lia.
  - apply word_check; [discriminate|reflexivity].
  - left. reflexivity.
  - apply tidy_check. reflexivity.
  - apply no_char_check. reflexivity.
  - discriminate.
  - apply without_check. reflexivity.
  - exists r. split; [exact E|]. split; [exact B|]. split; [apply H, without_check; reflexivity|].
    split; [apply N; reflexivity|]. rewrite P; [reflexivity|].
    intros x Hx. vm_compute in Hx. repeat (destruct Hx as [<-|Hx]; [reflexivity|]). destruct Hx.
Qed.

(** C165: of the bracketed addresses before " by " the last one is reported if it is in none of
    five networks, whatever is written before it. *)
Theorem C165_last_address : forall udigit uword header pre post a b c d, bytes a b c d ->
  (~ In 46%N post /\ ~ In 58%N post) \/ (forall x, In x post -> x <> 58%N /\ is_d udigit x = false) ->
  Spec_Relays.before_by header (pre ++ $"[" ++ quad a b c d ++ $"]" ++ post) ->
  ~ taken_private a b -> get_ip udigit uword header = quad a b c d.
Proof.
  intros ud uw header pre post a b c d Hb Hp Hf Hn. eapply address_last; eauto.
  destruct Hp as [[P1 P2]|P]; [apply quiet_marks; assumption|apply quiet_signs, P].
Qed.
Print Assumptions C165_last_address.
(** An address in these networks is reported if there is no other one. *)
Theorem C165_only_address : forall udigit uword header pre post a b c d, bytes a b c d ->
  (forall x, In x pre -> x <> 58%N /\ is_d udigit x = false) ->
  (~ In 46%N post /\ ~ In 58%N post) \/ (forall x, In x post -> x <> 58%N /\ is_d udigit x = false) ->
  Spec_Relays.before_by header (pre ++ $"[" ++ quad a b c d ++ $"]" ++ post) ->
  get_ip udigit uword header = quad a b c d.
Proof.
  intros ud uw header pre post a b c d Hb Hpre Hp Hf. eapply address_alone; eauto.
  destruct Hp as [[P1 P2]|P]; [apply quiet_marks; assumption|apply quiet_signs, P].
Qed.
Print Assumptions C165_only_address.
(** Which addresses are set aside. *)
Theorem C165_set_aside : forall udigit uword a b c d, bytes a b c d ->
  (matched (re_search udigit uword IP_PRIVATE (quad a b c d)) = true <-> taken_private a b).
Proof. intros. apply private_iff. assumption. Qed.
Print Assumptions C165_set_aside.
(** So 172.16/12 is not among them. *)
Theorem C165_private_refuted : exists a b c d, bytes a b c d /\ a = 172%N /\ (16 <= b <= 31)%N /\
  matched (re_search ascii_digit ascii_word IP_PRIVATE (quad a b c d)) = false.
Proof. exists 172%N, 16%N, 0%N, 1%N. split; [unfold bytes; lia|]. split; [reflexivity|]. split; [lia|]. vm_compute. reflexivity. Qed.
Print Assumptions C165_private_refuted.
Example C165_case : get_ip ascii_digit ascii_word ($"relay (10.0.0.3 [192.0.2.1] via gate) by mx.example.com with SMTP") = $"192.0.2.1".
Proof.
  apply (C165_last_address ascii_digit ascii_word _ ($"relay (10.0.0.3 ") ($" via gate)") 192 0 2 1).
  - unfold bytes. lia.
  - left. split; apply no_char_check; reflexivity.
  - right. exists ($"mx.example.com with SMTP"). split; [reflexivity|]. intros x y E.
    assert (K : forall n, n < 37 -> startswith ($" by ") (skipn n ($"relay (10.0.0.3 [192.0.2.1] via gate) by mx.example.com with SMTP")) = false).
    { intros n Hn. do 37 (destruct n as [|n]; [reflexivity|]). lia. }
    destruct (Nat.le_gt_cases (length ($"relay (10.0.0.3 " ++ $"[" ++ quad 192 0 2 1 ++ $"]" ++ $" via gate)")) (length x)) as [Q|Q]; [exact Q|].
    exfalso. assert (Hl : length x < 37) by (eapply Nat.lt_le_trans; [exact Q|vm_compute; lia]).
    specialize (K (length x) Hl). rewrite E in K. rewrite skipn_app, skipn_all, Nat.sub_diag in K. cbn [app skipn] in K.
    rewrite (proj2 (startswith_app _ _)) in K; [discriminate|]. exists y. reflexivity.
  - unfold taken_private. lia.
Qed.
(** An address of the form X::ffff:A.B.C.D is reported as another address, or as none. *)
Example C165_mapped :
  get_ip ascii_digit ascii_word ($"relay ([6::ffff:1.2.3.4]) by mx") = $"61.2.3.4" /\
  get_ip ascii_digit ascii_word ($"relay ([64::ffff:1.2.3.4]) by mx") = $"641.2.3.4".
Proof. vm_compute. split; reflexivity. Qed.

(** C166: the id is the word after the last "id ", without angle brackets around it. *)
Theorem C166_id : forall udigit uword h date r w, tidy h -> ~ In 59%N h -> (exists c t, h = c :: t /\ is_space c = false) -> is_date date ->
  (forall z, h <> $"X-ORIGINATING-IP" ++ z) -> parse_received udigit uword [received_header h date] = [r] ->
  (last_word ($"id ") w h -> ~ In 60%N w -> ~ In 62%N w -> Model_Relays.rl_id r = w) /\
  (last_word ($"id ") ($"<" ++ w ++ $">") h -> ~ In 60%N w -> ~ In 62%N w -> Model_Relays.rl_id r = w).
Proof.
  intros ud uw h date r w Ht H59 (c0 & t0 & Hh & Hc0) Hd Hx H.
  assert (F : r = _) by (apply (parse_fields ud uw h date r Ht H59); [subst h; exact Hc0|exact Hd|exact Hx|exact H]).
  rewrite F. cbn [Model_Relays.rl_id].
  assert (N : ~ In 60%N w -> ~ In 62%N w -> strip_chars ($"<>") w = w).
  { intros N1 N2. apply strip_p_none. intros c Hc. destruct (mem_char c ($"<>")) eqn:E; [|reflexivity]. exfalso. apply mem_char_In in E.
    vm_compute in E. destruct E as [<-|[<-|[]]]; contradiction. }
  split; intros L N1 N2; rewrite (id_last ud uw _ h Ht L).
  - apply N; assumption.
  - rewrite <- (N N1 N2) at 2. unfold strip_chars, strip_p. unfold lstrip_p, rstrip_p.
    change ($"<" ++ w ++ $">") with (60%N :: w ++ [62%N]). cbn [drop_while]. change (mem_char 60 ($"<>")) with true. cbv iota.
    destruct w as [|x w']; [reflexivity|]. cbn [app drop_while].
    assert (Mx : mem_char x ($"<>") = false).
    { destruct (mem_char x ($"<>")) eqn:E; [|reflexivity]. exfalso. apply mem_char_In in E. vm_compute in E.
      destruct E as [<-|[<-|[]]]; [apply N1|apply N2]; left; reflexivity. }
    rewrite Mx. change (x :: w' ++ [62%N]) with ((x :: w') ++ [62%N]). rewrite rev_app_distr. cbn [rev app drop_while]. change (mem_char 62 ($"<>")) with true. cbv iota. reflexivity.
Qed.
Print Assumptions C166_id.
(** Any word that ends in "id" counts. *)
Theorem C166_refuted : exists h r, tidy h /\ parse_received ascii_digit ascii_word [received_header h []] = [r] /\
  h = $"a.example (a.example [192.0.2.1]) by mx.example with ESMTP id Qd6id for <u@example>" /\ Model_Relays.rl_id r = $"for".
Proof. eexists. eexists. split; [|split; [|split; [reflexivity|]]]; [apply tidy_check; reflexivity|vm_compute; reflexivity|reflexivity]. Qed.
Print Assumptions C166_refuted.

(** C167: the protocol of an authenticated submission is reported; without any of the listed texts
    a header does not count as authenticated. *)
Theorem C167_protocol : forall udigit uword h pre m post, tidy h -> h = pre ++ $" with " ++ m ++ post -> In m auth_methods ->
  post = [] \/ (exists t, post = $" " ++ t) -> contains ($" by ") h = true ->
  (forall x m' y, lower h = x ++ $" with " ++ lower m' ++ y -> In m' auth_methods -> length pre <= length x) ->
  get_auth udigit uword h = m.
Proof. exact authenticated_with. Qed.
Print Assumptions C167_protocol.
Theorem C167_none : forall udigit uword h, tidy h -> without auth_marks h -> get_auth udigit uword h = [].
Proof. exact unauthenticated. Qed.
Print Assumptions C167_none.

(** C168: from the header to the trust.  A host outside the trusted networks that hands a message
    to one's own server ends the trust, whatever it claims to have received before. *)
Theorem C168_outside_partial : forall udigit uword ip_address is_private nw own later helo name a b c d server rest date x st0 st,
  let relays := fun l => Model_Relays.parse_relays ip_address is_private nw (parse_received udigit uword l) in
  let h := handover helo name (quad a b c d) server rest in
  word helo -> host_name name -> bytes a b c d -> word server -> is_date date -> tidy h -> ~ In 59%N h ->
  helo <> $"Unknown/Local" -> (forall z, helo <> $"X-ORIGINATING-IP" ++ z) -> without skip_marks h -> without auth_marks h ->
  ~ taken_private a b -> ip_address (quad a b c d) = Some x -> Spec_Relays.outside is_private nw x ->
  relays own = Some st0 -> (forall p, In p (parse_received udigit uword own) -> ~ Spec_Relays.is_msa ip_address nw p) ->
  relays (own ++ received_header h date :: later) = Some st ->
  Model_Relays.trusted_relays st = Model_Relays.trusted_relays st0 /\ Model_Relays.internal_relays st = Model_Relays.internal_relays st0.
Proof. exact c168_outside. Qed.
Print Assumptions C168_outside_partial.
(** But it becomes trusted, from any address, by announcing itself with a word that contains
    "authenticated". *)
Theorem C168_announced_refuted : forall udigit uword ip_address is_private nw helo name a b c d server rest date x st,
  let h := handover helo name (quad a b c d) server rest in
  word helo -> host_name name -> bytes a b c d -> word server -> is_date date -> tidy h -> ~ In 59%N h ->
  helo <> $"Unknown/Local" -> (forall z, helo <> $"X-ORIGINATING-IP" ++ z) -> without skip_marks h ->
  piece ($"authenticated") helo -> contains ($" by mx.google.com with ESMTPS id ") h = false ->
  ~ taken_private a b -> ip_address (quad a b c d) = Some x -> Spec_Relays.outside is_private nw x ->
  Model_Relays.parse_relays ip_address is_private nw (parse_received udigit uword [received_header h date]) = Some st ->
  map Model_Relays.rl_ip (Model_Relays.trusted_relays st) = [quad a b c d].
Proof. exact c168_announced. Qed.
Print Assumptions C168_announced_refuted.

(** The outside host 66.1.2.3 hands over to mx.example.com; the hops it claims are not believed. *)
Definition outside_text : str := handover ($"mail.example.org") ($"mx1.example.net") (quad 66 1 2 3) ($"mx.example.com") ($"with ESMTP id 4F2A").
Definition own_text : str := handover ($"mx.example.com") ($"mx.example.com") (quad 20 1 1 7) ($"store.example.com") ($"with ESMTP id 4F2B").
Definition claimed_text : str := handover ($"pc.example.com") ($"pc.example.com") (quad 20 1 1 8) ($"mail.example.org") ($"with ESMTPSA id 1").
Example C166_case : Model_Relays.rl_id (hd (Props_Relays.rel [] [] []) (parse_received ascii_digit ascii_word [received_header outside_text []])) = $"4F2A" /\
  last_word ($"id ") ($"4F2A") outside_text.
Proof.
  split; [vm_compute; reflexivity|]. exists (firstn (length outside_text - 7) outside_text), [].
  split; [vm_compute; reflexivity|]. split; [apply word_check; [discriminate|reflexivity]|]. split; [left; reflexivity|].
  intros x c y E Hc. assert (L : length outside_text = length x + 3 + S (length y)) by (rewrite E, !app_length; cbn [length]; change (length ($"id ")) with 3; lia).
  rewrite firstn_length. assert (length outside_text = 82) by (vm_compute; reflexivity).
  destruct (le_lt_dec (length x) 75) as [G|G]; [lia|]. exfalso.
  assert (X : skipn (length x) outside_text = $"id " ++ c :: y) by (rewrite E, skipn_app, Nat.sub_diag, skipn_all; reflexivity).
  assert (G2 : length x = 76 \/ length x = 77 \/ length x = 78) by lia.
  destruct G2 as [G2|[G2|G2]]; rewrite G2 in X; vm_compute in X; discriminate X.
Qed.
Example C167_case : get_auth ascii_digit ascii_word claimed_text = $"ESMTPSA" /\ get_auth ascii_digit ascii_word outside_text = [] /\ without auth_marks outside_text.
Proof. split; [vm_compute; reflexivity|]. split; [vm_compute; reflexivity|]. apply without_check. reflexivity. Qed.
Example C168_case :
  Spec_Relays.outside Props_Relays.ex_private Props_Relays.ex_nw (Spec_Net.ip4 66 1 2 3) /\
  tidy outside_text /\ without skip_marks outside_text /\ without auth_marks outside_text /\
  exists st, Model_Relays.parse_relays Props_Relays.ex_ip Props_Relays.ex_private Props_Relays.ex_nw
    (parse_received ascii_digit ascii_word [received_header own_text []; received_header outside_text []; received_header claimed_text []]) = Some st /\
  map Model_Relays.rl_ip (Model_Relays.trusted_relays st) = [$"20.1.1.7"] /\
  map Model_Relays.rl_ip (Model_Relays.untrusted_relays st) = [$"66.1.2.3"; $"20.1.1.8"].
Proof.
  split; [reflexivity|]. split; [apply tidy_check; reflexivity|]. split; [apply without_check; reflexivity|]. split; [apply without_check; reflexivity|].
  eexists. split; [vm_compute; reflexivity|]. split; reflexivity.
Qed.

(** C169: the envelope sender. *)
Theorem C169_sender_partial : forall udigit uword a h, tidy h -> states_sender a h -> ~ In 61%N a -> get_envfrom udigit uword h = a.
Proof. exact sender_plain. Qed.
Print Assumptions C169_sender_partial.
(** The senders of mailing lists and bounces contain the recipient after an equals sign: all
    before the last one is cut off. *)
Theorem C169_equals_refuted : forall udigit uword x y h, tidy h -> states_sender (x ++ $"=" ++ y) h -> ~ In 61%N y -> get_envfrom udigit uword h = y.
Proof. exact sender_cut. Qed.
Print Assumptions C169_equals_refuted.
Lemma first_check (pre h m x y : str) : contains m (firstn (length pre + length m - 1) h) = false -> h = x ++ m ++ y -> length pre <= length x.
Proof.
  intros H E. destruct (le_lt_dec (length pre) (length x)) as [L|L]; [exact L|]. exfalso.
  assert (K : contains m (firstn (length pre + length m - 1) h) = true); [|congruence]. apply contains_app.
  exists x, (firstn (length pre - 1 - length x) y). rewrite E. replace (length pre + length m - 1) with (length x + (length m + (length pre - 1 - length x))) by lia.
  rewrite firstn_app_2, firstn_app_2. reflexivity.
Qed.
Definition sender_text (a : str) : str := $"mail.example.org ([66.1.2.3]) by mx.example.com (envelope-from <" ++ a ++ $">) id 1".
Example C169_case : tidy (sender_text ($"ann@example.org")) /\ states_sender ($"ann@example.org") (sender_text ($"ann@example.org")) /\
  get_envfrom ascii_digit ascii_word (sender_text ($"ann@example.org")) = $"ann@example.org" /\
  get_envfrom ascii_digit ascii_word (sender_text ($"list-return-ann=example.com@example.org")) = $"example.com@example.org".
Proof.
  split; [apply tidy_check; reflexivity|]. split; [|split; vm_compute; reflexivity].
  exists ($"mail.example.org ([66.1.2.3]) by mx.example.com ("), ($"envelope-from "), ($")"), ($" id 1").
  split; [reflexivity|]. split; [unfold sender_marks; do 4 right; left; reflexivity|]. split; [intros c [<-|[]]; left; reflexivity|].
  split; [right; eexists; reflexivity|]. split; [apply (word_check ($"ann@example.org")); [discriminate|reflexivity]|].
  split; [exists ($"ann@example.or"), 103%N; split; [reflexivity|right; right; lia]|].
  split. { intros c Hc. apply no_char_check. vm_compute in Hc. repeat (destruct Hc as [<-|Hc]; [reflexivity|]). destruct Hc. }
  intros m x y Hm E. refine (first_check ($"mail.example.org ([66.1.2.3]) by mx.example.com (") _ m x y _ E). repeat (destruct Hm as [<-|Hm]; [vm_compute; reflexivity|]). destruct Hm.
Qed.
