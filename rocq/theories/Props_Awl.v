(** The auto-whitelist: theorems for C39, C40 and C73. *)
From Verif Require Import PyStr PyDict Model_Rules Model_Net Model_Awl Spec_Awl Proofs_Awl.
From Coq Require Import Lqa.

(** ** C39 *)
(** After every sequence of messages, from any senders and addresses, the record of
    a sender at an address counts exactly the messages that count for it (those from
    that address, and those of unknown origin up to its first message), and holds
    the sum of their scores before adjustment; there is no record if there are
    none.  (One process; exact arithmetic.) *)
Theorem C39_history : forall factor h k ip,
  match record_of k ip (mails factor h) with
  | Some r => filed h k ip <> [] /\ w_count r = Z.of_nat (length (filed h k ip)) /\ (w_tot r == total (filed h k ip))%Q
  | None => filed h k ip = []
  end.
Proof. exact table_exact. Qed.
Print Assumptions C39_history.

(** A message changes no record of another sender, in any table. *)
Theorem C39_other_senders : forall factor t m k ip,
  same_sender k m = false -> record_of k ip (mail_step factor t m) = record_of k ip t.
Proof. exact other_sender. Qed.
Print Assumptions C39_other_senders.

Definition ex_mail (who ip : str) (score : Q) : mail := mkMail ($"bob") who [] ip score.
Definition ex_mails : list mail :=
  [ex_mail ($"a@x") ($"none") 1; ex_mail ($"b@x") ($"10.1") 7; ex_mail ($"a@x") ($"10.1") 2; ex_mail ($"a@x") ($"none") 4; ex_mail ($"a@x") ($"10.1") 3].
(** The first message of unknown origin counts for 10.1, the second not yet. *)
Example C39_example :
  map l_score (filed ex_mails (ex_mail ($"a@x") [] 0) ($"10.1")) = [1; 2; 3]%Q /\
  map l_score (filed ex_mails (ex_mail ($"a@x") [] 0) ($"none")) = [4]%Q /\
  option_map w_count (record_of (ex_mail ($"a@x") [] 0) ($"10.1") (mails (1#2) ex_mails)) = Some 3%Z.
Proof. repeat split; reflexivity. Qed.

(** With the other database library the records of all senders are one: the
    first message of a sender is adjusted with the mean of somebody else, and both
    records change. *)
Theorem C39_mysql_refuted :
  let t1 := fst (check_mysql ($"bob") ($"a@x") [] ($"10.1") (1#2) [] 8) in
  let (t2, s) := check_mysql ($"bob") ($"b@x") [] ($"10.2") (1#2) t1 0 in
  (s == 4)%Q /\ option_map w_count (first_row ($"bob") ($"a@x") [] ($"10.1") t2) = Some 2%Z.
Proof. vm_compute. split; reflexivity. Qed.
Print Assumptions C39_mysql_refuted.
(** Two processes that check messages of one sender at the same time: both read the
    record before either writes it, and one message is not counted. *)
Theorem C39_two_processes_refuted : forall s1 s2 s3,
  let t := mails (1#2) [ex_mail ($"a@x") ($"10.1") s1] in
  let (e1, was1) := get_entry ($"bob") ($"a@x") [] ($"10.1") t in
  let (e2, was2) := get_entry ($"bob") ($"a@x") [] ($"10.1") t in
  let t' := merge (counted s3 e2) was2 (merge (counted s2 e1) was1 t) in
  option_map w_count (first_row ($"bob") ($"a@x") [] ($"10.1") t') = Some 2%Z.
Proof. intros s1 s2 s3. reflexivity. Qed.
Print Assumptions C39_two_processes_refuted.

(** ** C40 *)
(** The last message of any history: with [earlier] the other messages that count
    for its sender and address, the score is not changed if there are none, and
    moved by the factor towards their mean otherwise.  Missing: a mean of zero -
    see the refutation. *)
Theorem C40_adjustment_partial : forall factor h m,
  let s := snd (check (l_user m) (l_email m) (l_signed m) (l_ip m) factor (mails factor h) (l_score m)) in
  exists earlier, filed (h ++ [m]) m (l_ip m) = earlier ++ [m] /\
    (earlier = [] -> s = l_score m) /\
    (earlier <> [] -> ~ (mean earlier == 0)%Q -> (s == l_score m + (mean earlier - l_score m) * factor)%Q).
Proof.
  intros factor h m. destruct (check_score factor h m) as (e & H1 & H2 & H3). exists e. split; [exact H1|]. split; [|exact H3]. auto.
Qed.
Print Assumptions C40_adjustment_partial.
(** With a factor between 0 and 1 the new score is between the old one and the
    mean. *)
Theorem C40_between : forall factor h m,
  (0 <= factor)%Q -> (factor <= 1)%Q ->
  let s := snd (check (l_user m) (l_email m) (l_signed m) (l_ip m) factor (mails factor h) (l_score m)) in
  exists earlier, filed (h ++ [m]) m (l_ip m) = earlier ++ [m] /\
    (earlier = [] -> s = l_score m) /\
    (l_score m <= mean earlier -> earlier <> [] -> l_score m <= s <= mean earlier)%Q /\
    (mean earlier <= l_score m -> earlier <> [] -> mean earlier <= s <= l_score m)%Q.
Proof.
  intros factor h m F0 F1. cbv zeta. destruct (check_score factor h m) as (e & H1 & H2 & H3). exists e. split; [exact H1|].
  split; [auto|].
  destruct (Qeq_dec (mean e) 0) as [Z0|NZ].
  - rewrite (H2 (or_intror Z0)). split; intros H _; split; lra.
  - destruct (between (l_score m) (mean e) factor F0 F1) as [B1 B2].
    split; intros H Hn; rewrite (H3 Hn NZ); [apply B1|apply B2]; exact H.
Qed.
Print Assumptions C40_between.
(** A sender whose mean is exactly zero: a high score is not moved towards it. *)
Theorem C40_zero_mean_refuted : exists h m,
  (forall x, In x h -> same_sender m x = true /\ l_ip x = l_ip m) /\ h <> [] /\ (mean h == 0)%Q /\
  snd (check (l_user m) (l_email m) (l_signed m) (l_ip m) (1#2) (mails (1#2) h) (l_score m)) = 20%Q /\ l_score m = 20%Q.
Proof.
  exists [ex_mail ($"a@x") ($"10.1") 3; ex_mail ($"a@x") ($"10.1") (-3)], (ex_mail ($"a@x") ($"10.1") 20).
  split; [intros x [<- | [<- | []]]; split; reflexivity|]. split; [discriminate|]. repeat split; reflexivity.
Qed.
Print Assumptions C40_zero_mean_refuted.

(** As the last rule of a rule set: the final score is the one before, adjusted. *)
Theorem C40_as_last_rule : forall user factor name (r : rule (table * origin)) rules m m1 t o,
  r_match r = eval_match (awl_match user factor) ->
  match_loop rules m = (m1, false) -> m_ext m1 = (t, o) ->
  m_score (fst (match_loop (rules ++ [(name, r)]) m)) =
    snd (check user (o_email o) (o_signed o) (o_ip o) factor t (m_score m1)).
Proof.
  intros user factor name r rules. induction rules as [|[n q] rules IH]; intros m m1 t o Hr Hl Hx.
  - cbn [match_loop] in Hl. injection Hl as <-. cbn [app match_loop]. rewrite Hr. unfold eval_match, awl_match. rewrite Hx.
    destruct (check user (o_email o) (o_signed o) (o_ip o) factor t (m_score m)) as [t' s]. reflexivity.
  - cbn [app match_loop] in *. destruct (r_match q m) as [m2 [v| |]]; try (injection Hl as _ C; discriminate C);
      eapply IH; eassumption.
Qed.
Print Assumptions C40_as_last_rule.
Example C40_example :
  (snd (check ($"bob") ($"a@x") [] ($"10.1") (1#2) (mails (1#2) ex_mails) 10) == 6)%Q /\
  (mean (filed ex_mails (ex_mail ($"a@x") ($"10.1") 0) ($"10.1")) == 2)%Q.
Proof. split; reflexivity. Qed.

(** ** C73 *)
(** Two addresses have the same key exactly if they are in the same network of the
    configured length.  [show6]: how Python writes IPv6 addresses. *)
Theorem C73_keys : forall mask4 mask6 show6 a b,
  valid a -> valid b ->
  (forall v w, (v < 2 ^ 128)%N -> (w < 2 ^ 128)%N -> show6 v = show6 w -> v = w) ->
  (forall v, In 58%N (show6 v) /\ ~ In 46%N (show6 v)) ->
  ip_to_awl_key mask4 mask6 show6 a = ip_to_awl_key mask4 mask6 show6 b <-> same_network mask4 mask6 a b.
Proof. exact keys_exact. Qed.
Print Assumptions C73_keys.
Example C73_example :
  ip_to_awl_key 16 48 (fun _ => $"::") (mkA V4 167838211) = $"10.1" /\      (* 10.1.2.3 *)
  ip_to_awl_key 16 48 (fun _ => $"::") (mkA V4 167772161) = $"10" /\        (* 10.0.0.1 *)
  ip_to_awl_key 24 48 (fun _ => $"::") (mkA V4 167838211) = $"10.1.2".
Proof. repeat split; vm_compute; reflexivity. Qed.
(** The address used is the first public one seen from the sender's end. *)
Theorem C73_origin : forall ip_address is_private trusted untrusted a,
  origin_ip ip_address is_private trusted untrusted = Some (Some a) <->
  exists l1 s l2, trusted ++ untrusted = l1 ++ s :: l2 /\ ip_address s = Some a /\ is_private a = false /\
    Forall (fun x => exists b, ip_address x = Some b /\ is_private b = true) l2.
Proof.
  intros ip p trusted untrusted a. unfold origin_ip.
  assert (G : forall l, first_public ip p l = Some (Some a) <->
    exists l2 s l1, l = l2 ++ s :: l1 /\ ip s = Some a /\ p a = false /\ Forall (fun x => exists b, ip x = Some b /\ p b = true) l2).
  { induction l as [|s l IH]; cbn [first_public].
    - split; [discriminate|]. intros (l2 & s & l1 & E & _). destruct l2; discriminate.
    - destruct (ip s) as [b|] eqn:Es.
      + destruct (p b) eqn:Ep.
        * rewrite IH. split.
          -- intros (l2 & s' & l1 & -> & H1 & H2 & H3). exists (s :: l2), s', l1. repeat (split; [assumption || reflexivity|]). constructor; eauto.
          -- intros (l2 & s' & l1 & E & H1 & H2 & H3). destruct l2 as [|z l2].
             ++ injection E as -> ->. congruence.
             ++ injection E as -> ->. apply Forall_cons_iff in H3. destruct H3 as [_ H3]. eauto 8.
        * split.
          -- intros H. injection H as ->. exists [], s, l. auto.
          -- intros (l2 & s' & l1 & E & H1 & H2 & H3). destruct l2 as [|z l2]; [injection E as -> ->; congruence|].
             injection E as -> ->. apply Forall_cons_iff in H3. destruct H3 as [(b' & Hb & Hp) _]. congruence.
      + split; [discriminate|]. intros (l2 & s' & l1 & E & H1 & H2 & H3). destruct l2 as [|z l2]; [injection E as -> ->; congruence|].
        injection E as -> ->. apply Forall_cons_iff in H3. destruct H3 as [(b' & Hb & Hp) _]. congruence. }
  rewrite G. split.
  - intros (l2 & s & l1 & E & H1 & H2 & H3). exists (rev l1), s, (rev l2). split.
    + rewrite <- (rev_involutive (trusted ++ untrusted)), E, rev_app_distr. cbn [rev]. rewrite <- app_assoc. reflexivity.
    + repeat (split; [assumption|]). apply Forall_rev. exact H3.
  - intros (l1 & s & l2 & E & H1 & H2 & H3). exists (rev l2), s, (rev l1). split.
    + rewrite E, rev_app_distr. cbn [rev]. rewrite <- app_assoc. reflexivity.
    + repeat (split; [assumption|]). apply Forall_rev. exact H3.
Qed.
Print Assumptions C73_origin.
(** The signing domain is the value of the first parameter "d" of the signature, without the blanks and line breaks
    around it; a signature without one names none. *)
Theorem C73_signed : forall before blanks domain rest after,
  Forall another_parameter before -> Forall blank blanks -> domain_name domain -> Forall blank rest -> Forall (fun p => ~ In 59%N p) after ->
  signed_by (signature before blanks domain rest after) = domain.
Proof. exact signed_found. Qed.
Print Assumptions C73_signed.
Theorem C73_unsigned : forall parameters, Forall another_parameter parameters -> signed_by (join ($";") parameters) = [].
Proof. exact signed_none. Qed.
Print Assumptions C73_unsigned.
Example C73_signed_case : Forall another_parameter [$"v=1"; $" a=rsa-sha256"; $"nd=no"] /\ Forall blank ([13; 10]%N ++ $" ") /\ domain_name ($"bank.example") /\
  signed_by (signature [$"v=1"; $" a=rsa-sha256"; $"nd=no"] ([13; 10]%N ++ $" ") ($"bank.example") [13; 10]%N [$" d=other"]) = $"bank.example".
Proof.
  split; [repeat (constructor; [split; [intros K; vm_compute in K; repeat (destruct K as [K|K]; [discriminate|]); destruct K|reflexivity]|]); constructor|].
  split; [repeat (constructor; [vm_compute; tauto|]); constructor|]. split; [|vm_compute; reflexivity].
  split; [discriminate|]. intros c K. vm_compute in K. repeat (destruct K as [<-|K]; [split; [reflexivity|discriminate]|]). destruct K.
Qed.
(** The signing domain is taken from a header of the message, whether or not the
    signature is valid. *)
Example C73_example_signed : signed_by ($"v=1; a=rsa-sha256; d=bank.example; s=x") = $"bank.example".
Proof. reflexivity. Qed.
