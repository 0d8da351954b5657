(** Theorems about the relay evaluation rules (C46, C91-C94).  The IPv6 part of the
    private address test is any test that needs a colon. *)
From Verif Require Import PyStr PyRe Model_Net Spec_Net Model_Relays Spec_Relays Props_Relays Model_RelayEval Spec_RelayEval Proofs_RelayEval.

Definition rly (rdns ip by_ helo : str) : relay := mkRelay rdns ip by_ helo [] [] [] [] false None.
Definition no6 (s : str) : bool := false.

(** C94: an address is private to these rules exactly if it is in one of five ranges. *)
Theorem C94_private_partial : forall private6, needs_colon private6 -> forall a b c d, octets4 a b c d ->
  (ip_private private6 (ip4_text a b c d) = true <-> private_range' a b).
Proof. exact ip_private_text. Qed.
Print Assumptions C94_private_partial.
(** 172.16.0.0/12 is not among them. *)
Theorem C94_172_refuted : forall private6, needs_colon private6 -> forall b c d, octet b -> octet c -> octet d -> (16 <= b <= 31)%N ->
  private_range 172 b /\ ip_private private6 (ip4_text 172 b c d) = false.
Proof.
  intros p6 H b c d B C D R. split; [unfold private_range; intuition auto|].
  destruct (ip_private p6 (ip4_text 172 b c d)) eqn:E; [|reflexivity].
  apply (ip_private_text p6 H) in E; [|unfold octets4, octet; repeat split; auto; reflexivity]. unfold private_range' in E. exfalso.
  destruct E as [E|[E|[[E _]|[[E _]|[E _]]]]]; discriminate.
Qed.
Print Assumptions C94_172_refuted.
Example C94_case : needs_colon no6 /\ octets4 100 64 0 1 /\ ip_private no6 (ip4_text 100 64 0 1) = true /\
  ip_private no6 (ip4_text 100 128 0 1) = false /\ ip_private no6 (ip4_text 172 16 0 1) = false.
Proof. split; [intros s _; reflexivity|]. repeat split. Qed.

(** C91: the HELO rule hits exactly if an untrusted relay announced itself with a public
    address. *)
Theorem C91_numeric_helo : forall private6, needs_colon private6 -> forall rs,
  check_for_numeric_helo private6 rs = true <-> exists r a b c d, In r rs /\ numeric_helo r a b c d.
Proof. exact numeric_helo_iff. Qed.
Print Assumptions C91_numeric_helo.
(** The mismatch rule hits exactly if such an address is in another /24 than the one the
    relay has. *)
Theorem C91_helo_ip_mismatch : forall private6, needs_colon private6 -> forall rs, (forall r, In r rs -> ~ In 47%N (rl_ip r)) ->
  helo_ip_mismatch private6 rs = true <->
  exists r a b c d a' b' c' d', In r rs /\ numeric_helo r a b c d /\ octets4 a' b' c' d' /\ rl_ip r = ip4_text a' b' c' d' /\ ~ (a = a' /\ b = b' /\ c = c').
Proof. exact helo_mismatch_iff. Qed.
Print Assumptions C91_helo_ip_mismatch.
(** The provider rule hits exactly if the last untrusted relay with a public address and
    a HELO name has no reverse name and announced itself as one of the providers. *)
Theorem C91_provider_helo : forall private6 rs, (forall r, In r rs -> ~ In 10%N (rl_helo r)) ->
  check_for_no_rdns_dotcom_helo private6 rs = true <->
  exists l r l', rs = l ++ r :: l' /\ ~ passed_over (ip_private private6) r /\ provider (rl_helo r) /\ rl_rdns r = [] /\
    forall q, In q l' -> passed_over (ip_private private6) q.
Proof. exact dotcom_iff. Qed.
Print Assumptions C91_provider_helo.
(** No relays, or all trusted, after the analysis of the Received headers. *)
Theorem C91_no_relays_all_trusted : forall ip_address is_private nw l st, parse_relays ip_address is_private nw l = Some st ->
  (check_no_relays (trusted_relays st) (untrusted_relays st) = true <-> forall r, In r l -> rl_ip r = []) /\
  (check_all_trusted (trusted_relays st) (untrusted_relays st) = true <->
     (exists r, In r l /\ rl_ip r <> []) /\ untrusted_relays st = []).
Proof. exact all_trusted_iff. Qed.
Print Assumptions C91_no_relays_all_trusted.
(** The sender's domain: only considered if it is that of a From address; then "true" asks
    for a relay whose both names contain it, anything else for none. *)
Theorem C91_from_domain : forall froms trusted untrusted domain desired,
  check_for_from_domain_in_received_headers froms trusted untrusted domain desired = true <->
  (exists a, In a froms /\ address_domain a domain) /\
  (desired = $"true" <-> exists r, In r (trusted ++ untrusted) /\ contains domain (rl_rdns r) = true /\ contains domain (rl_by r) = true).
Proof. exact from_domain_iff. Qed.
Print Assumptions C91_from_domain.
Example C91_cases :
  let r := rly [] ($"66.1.2.3") ($"mx.a.com") ($"66.1.9.3") in let q := rly [] ($"66.1.2.3") ($"mx.a.com") ($"mail.yahoo.com") in
  numeric_helo r 66 1 9 3 /\ check_for_numeric_helo no6 [q; r] = true /\ helo_ip_mismatch no6 [q; r] = true /\
  provider ($"mail.yahoo.com") /\ check_for_no_rdns_dotcom_helo no6 [r; q] = true /\ check_for_no_rdns_dotcom_helo no6 [q; r] = false /\
  address_domain ($"joe@x@yahoo.com") ($"yahoo.com").
Proof.
  cbv zeta. split; [split; [repeat split|split; [reflexivity|intros [H|[H|[[H _]|[[H _]|[H _]]]]]; discriminate]]|].
  split; [reflexivity|]. split; [vm_compute; reflexivity|]. split; [exists ($"yahoo.com"); split; [cbn; tauto|right; exists ($"mail"); reflexivity]|].
  split; [vm_compute; reflexivity|]. split; [vm_compute; reflexivity|]. left. exists ($"joe@x"). split; [reflexivity|]. vm_compute. intuition discriminate.
Qed.
Example C91_relays_case : exists st, parse_relays ex_ip ex_private nets0 [rly [] ($"10.0.0.1") [] []; rly [] [] [] []] = Some st /\
  check_all_trusted (trusted_relays st) (untrusted_relays st) = true.
Proof. eexists. split; [vm_compute; reflexivity|reflexivity]. Qed.

(** C92: for the first message of a context, the trail rule hits exactly if two
    hand-overs between neighbouring relays do not fit; *)
Theorem C92_trail_partial : forall private6 rs, (forall r, In r rs -> one_lined r) ->
  (fst (check_for_forged_received_trail private6 rs fstate0) = true <-> two_broken rs).
Proof. exact trail_fresh. Qed.
Print Assumptions C92_trail_partial.
(** the address rule hits exactly if a relay with a usable own name reports a HELO that is
    a public address of another /16 than the address it saw. *)
Theorem C92_ip_helo_partial : forall private6, needs_colon private6 -> forall rs,
  (forall r, In r rs -> one_lined r /\ ~ In 47%N (rl_ip r) /\ ~ In 47%N (rl_helo r)) ->
  (fst (check_for_forged_received_ip_helo private6 rs fstate0) = true <->
   exists r d0 a b c d a' b' c' d', In r rs /\ reduced (rl_by r) d0 /\ plain_host d0 /\ numeric_helo r a b c d /\ octets4 a' b' c' d' /\
     rl_ip r = ip4_text a' b' c' d' /\ ~ (a = a' /\ b = b')).
Proof. exact ip_helo_fresh. Qed.
Print Assumptions C92_ip_helo_partial.
(** A trail in which every host that received the message is the one that sent it on
    counts as forged all the same: one of the names is shortened before comparing. *)
Definition honest : list relay :=
  [rly ($"mx.example.com") ($"66.1.2.3") ($"in.here.org") ($"mx.example.com");
   rly ($"out.example.net") ($"66.1.2.4") ($"mx.example.com") ($"out.example.net");
   rly ($"pc.example.net") ($"66.1.2.5") ($"out.example.net") ($"pc")].
Theorem C92_honest_trail_refuted : forall private6, fitting honest /\ (forall r, In r honest -> one_lined r) /\
  fst (check_for_forged_received_trail private6 honest fstate0) = true.
Proof.
  intros p6. split; [|split; [|vm_compute; reflexivity]].
  - intros [|[|[|i]]] p q H1 H2; cbn in H1, H2; try discriminate; try (injection H1 as <-; injection H2 as <-; reflexivity).
  - intros r [<-|[<-|[<-|[]]]]; split; vm_compute; intuition discriminate.
Qed.
Print Assumptions C92_honest_trail_refuted.
Example C92_ip_helo_case : let r := rly ($"a.b.com") ($"66.1.2.3") ($"mx.example.com") ($"80.1.2.3") in
  one_lined r /\ reduced (rl_by r) ($"example.com") /\ plain_host ($"example.com") /\ fst (check_for_forged_received_ip_helo no6 [r] fstate0) = true.
Proof.
  cbv zeta. split; [split; vm_compute; intuition discriminate|]. split; [apply reduced_iff; vm_compute; reflexivity|].
  split; [|vm_compute; reflexivity]. exists 101%N, ($"xample"), ($"com"). split; [reflexivity|]. unfold word_char. split; [right; right; left; split; discriminate|].
  split; [discriminate|]. split; [intros x H; left|split; [discriminate|intros x H]]; vm_compute in H; right; right; left; intuition (subst; discriminate).
Qed.

(** C46, relays: in a context the first message's verdicts are given to every later one. *)
Theorem C46_forged_kept : forall private6 k m l,
  forged_run private6 ((k, m) :: l) fstate0 = map (fun km => fst (forged_check private6 (fst km) m fstate0)) ((k, m) :: l).
Proof. exact forged_first. Qed.
Print Assumptions C46_forged_kept.
Theorem C46_forged_refuted : forall private6,
  forged_run private6 [(Trail, []); (Trail, honest)] fstate0 = [false; false] /\ forged_run private6 [(Trail, honest); (Trail, [])] fstate0 = [true; true].
Proof. intros p6. split; vm_compute; reflexivity. Qed.
Print Assumptions C46_forged_refuted.

(** C93: a sender without reverse name is never found, *)
Theorem C93_no_reverse_refuted : forall private6 rs r, rl_rdns r = [] -> check_for_sender_no_reverse private6 (rs ++ [r]) = false.
Proof.
  intros p6 rs r H. destruct (check_for_sender_no_reverse p6 (rs ++ [r])) eqn:E; [|reflexivity].
  apply no_reverse_iff in E. destruct E as (l & q & E & I & _). apply app_inj_tail in E. destruct E as [_ <-]. rewrite H in I. destruct I.
Qed.
Print Assumptions C93_no_reverse_refuted.
(** the rule hits exactly for senders with one (the opposite of what it is for); what holds
    is that it only looks at the last untrusted relay and never hits a private one. *)
Theorem C93_last_relay_partial : forall private6 rs, check_for_sender_no_reverse private6 rs = true <->
  exists l r, rs = l ++ [r] /\ In 46%N (rl_rdns r) /\ ip_private private6 (rl_ip r) = false.
Proof. exact no_reverse_iff. Qed.
Print Assumptions C93_last_relay_partial.
Example C93_case : check_for_sender_no_reverse no6 [rly ($"mx.example.com") ($"66.1.2.3") [] []] = true.
Proof. reflexivity. Qed.
