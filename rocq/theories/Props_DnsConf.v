(** Theorems C200-C202: the configuration of the resolver. *)
From Coq Require Import ZArith QArith Lia.
From Verif Require Import PyStr Model_Net Model_DnsConf Spec_DnsConf Proofs_DnsConf.
Open Scope nat_scope.

(** C200: DNS queries go to the addresses of the dns_server lines, in order, at the first port
    that is stated or else 53.  Lines that name no server and lines that state another port are
    left out.  Without any line the servers and the port of the system are used. *)
Theorem C200_servers : forall udigit uword lines es c fresh, c_servers c = lines -> Forall2 entry lines es ->
  exists i, configured udigit uword c fresh = Some i /\
    (chosen es = [] -> q_servers (i_resolver i) = q_servers fresh /\ q_port (i_resolver i) = q_port fresh) /\
    (chosen es <> [] -> q_servers (i_resolver i) = chosen es /\
       q_port (i_resolver i) = match stated es with Some p => Z.of_N p | None => 53%Z end).
Proof.
  intros ud uw lines es c fresh <- H. unfold configured.
  destruct (configure_ok ud uw _ _ (c_lifetime c) (c_timeout c) (new_interface fresh) H) as (i & -> & A & B & _).
  destruct (options_ignored ud uw (c_options c) i) as (i' & -> & _ & _ & S & P & _). exists i'. split; [reflexivity|]. rewrite S, P. split; [|exact B].
  intros E. rewrite (A E). split; reflexivity.
Qed.
Print Assumptions C200_servers.
Example C200_case :
  let lines := [$"127.0.0.1"; $"[::1]:5353"; $"10.0.0.1:53"; $"fe80::1"; $"dns.example.com"; $"[192.0.2.1]:5353"] in
  let es := [Some ($"127.0.0.1", None); Some ($"::1", Some 5353%N); Some ($"10.0.0.1", Some 53%N); Some ($"fe80::1", None); None; Some ($"192.0.2.1", Some 5353%N)] in
  Forall2 entry lines es /\ chosen es = [$"127.0.0.1"; $"::1"; $"fe80::1"; $"192.0.2.1"] /\ stated es = Some 5353%N.
Proof.
  assert (D : forall a, a <> [] -> forallb (fun c => N.leb 48 c && N.leb c 57 || N.eqb c 46) a = true -> dotted a).
  { intros a N H. split; [exact N|]. rewrite forallb_forall in H. apply Forall_forall. intros c Hc. specialize (H c Hc).
    apply orb_true_iff in H. rewrite andb_true_iff, !N.leb_le, N.eqb_eq in H. exact H. }
  assert (K : forall a, forallb (fun c => (N.leb 48 c && N.leb c 57) || (N.leb 97 c && N.leb c 102) || N.eqb c 58) a = true -> (2 <=? count_occ N.eq_dec a 58%N) = true -> colons a).
  { intros a H L. split; [|apply Nat.leb_le, L]. rewrite forallb_forall in H. apply Forall_forall. intros c Hc. specialize (H c Hc).
    rewrite !orb_true_iff, !andb_true_iff, !N.leb_le, N.eqb_eq in H. unfold hexadecimal. lia. }
  cbv zeta. split; [|split; vm_compute; reflexivity]. repeat (apply Forall2_cons || apply Forall2_nil).
  - apply (plain4 ($"127.0.0.1") None). apply D; [discriminate|vm_compute; reflexivity].
  - apply (brackets6 ($"::1") (Some 5353%N)). apply K; vm_compute; reflexivity.
  - apply (plain4 ($"10.0.0.1") (Some 53%N)). apply D; [discriminate|vm_compute; reflexivity].
  - apply plain6. apply K; vm_compute; reflexivity.
  - split; [|intros X; vm_compute in X; intuition discriminate].
    intros (o & a & cl & p & E & O & C & A & P). assert (X : In 110%N (o ++ a ++ cl ++ p)) by (rewrite <- E; vm_compute; tauto).
    apply in_app_or in X as [X|X]; [destruct O as [->| ->]; vm_compute in X; intuition discriminate|]. apply in_app_or in X as [X|X].
    + destruct A as [[_ A]|[_ A]]; rewrite Forall_forall in A; specialize (A _ X); unfold hexadecimal in A; lia.
    + apply in_app_or in X as [X|X]; [destruct C as [->| ->]; vm_compute in X; intuition discriminate|]. destruct P as [->|(d & -> & _ & Dd)]; [destruct X|].
      apply in_app_or in X as [X|X]; [vm_compute in X; intuition discriminate|]. rewrite Forall_forall in Dd. specialize (Dd _ X). lia.
  - apply (brackets4 ($"192.0.2.1") (Some 5353%N)). apply D; [discriminate|vm_compute; reflexivity].
Qed.

(** C201: the options dns_options, default_dns_lifetime, default_dns_timeout and
    dns_test_interval take effect.  False for all of them: whatever they are, answers of 4096
    bytes are announced, servers are not rotated, time limits stay those of the system and
    tests are 600 seconds apart.  The two time limits are only remembered. *)
Theorem C201_refuted : forall udigit uword c es fresh, Forall2 entry (c_servers c) es ->
  exists i, configured udigit uword c fresh = Some i /\
    q_edns (i_resolver i) = Some 0%N /\ q_payload (i_resolver i) = 4096%Z /\ q_rotate (i_resolver i) = false /\
    q_lifetime (i_resolver i) = q_lifetime fresh /\ q_timeout (i_resolver i) = q_timeout fresh /\ i_interval i = 600%Z /\
    i_lifetime i = Some (c_lifetime c) /\ i_timeout i = Some (c_timeout c).
Proof.
  intros ud uw c es fresh H. unfold configured.
  destruct (configure_ok ud uw _ _ (c_lifetime c) (c_timeout c) (new_interface fresh) H) as (i & -> & _ & _ & E & _ & R & L & T & I & LT & TM).
  destruct (options_ignored ud uw (c_options c) i) as (i' & -> & P' & R' & _ & _ & E' & L' & T' & I' & LT' & TM'). exists i'. split; [reflexivity|].
  rewrite E', R', L', T', I', LT', TM', E, R, L, T, I, LT, TM. repeat split. exact P'.
Qed.
Print Assumptions C201_refuted.
(** The attributes of the DNS interface behind these options do work when they are set. *)
Theorem C201_interval_partial : forall n c u i, unit_of_time c u ->
  (exists i', set_test_interval (dec n ++ [c]) i = Some i' /\ i_interval i' = (Z.of_N n * u)%Z /\ i_resolver i' = i_resolver i) /\
  (exists i', set_test_interval (dec n) i = Some i' /\ i_interval i' = Z.of_N n /\ i_resolver i' = i_resolver i).
Proof. intros n c u i H. split; [apply interval_ok, H|apply interval_plain]. Qed.
Print Assumptions C201_interval_partial.
Theorem C201_edns_partial : forall i,
  (forall n, option_map (fun i' => (q_payload (i_resolver i'), q_servers (i_resolver i'), q_port (i_resolver i'))) (set_edns ($"edns=" ++ dec n) i) =
             Some (Z.of_N n, q_servers (i_resolver i), q_port (i_resolver i))) /\
  option_map (fun i' => (q_payload (i_resolver i'), q_servers (i_resolver i'), q_port (i_resolver i'))) (set_edns ($"noedns") i) =
             Some (512%Z, q_servers (i_resolver i), q_port (i_resolver i)) /\
  (forall v, q_rotate (i_resolver (set_rotate_nameservers v i)) = true <-> v = $"rotate").
Proof.
  intros i. split; [|split].
  - intros n. unfold set_edns. replace (startswith ($"no") ($"edns=" ++ dec n)) with false by (symmetry; reflexivity).
    replace (split1 61%N ($"edns=" ++ dec n)) with (Some ($"edns", dec n)) by (symmetry; reflexivity). rewrite Proofs_Scripts.py_int_dec. reflexivity.
  - reflexivity.
  - intros v. cbn. destruct (streqb_spec v ($"rotate")); split; congruence.
Qed.
Print Assumptions C201_edns_partial.
Example C201_case : unit_of_time 104%N 3600 /\
  option_map i_interval (set_test_interval ($"2h") (new_interface (mkQ [] 53 None 0 false 30%Q 2%Q))) = Some 7200%Z /\
  set_test_interval ($"2 hours") (new_interface (mkQ [] 53 None 0 false 30%Q 2%Q)) = None.
Proof. split; [constructor|]. split; vm_compute; reflexivity. Qed.

(** C202: a stored rule set asks the same servers in the same way as one read from the
    configuration.  The same servers at the same port; but EDNS is not switched on again. *)
Theorem C202_stored_partial : forall udigit uword c es fresh i1, Forall2 entry (c_servers c) es -> configured udigit uword c fresh = Some i1 ->
  exists i2, restored udigit uword c i1 fresh = Some i2 /\ q_servers (i_resolver i2) = q_servers (i_resolver i1) /\
    q_port (i_resolver i2) = q_port (i_resolver i1) /\ q_lifetime (i_resolver i2) = q_lifetime (i_resolver i1) /\
    q_timeout (i_resolver i2) = q_timeout (i_resolver i1) /\ i_interval i2 = i_interval i1.
Proof.
  intros ud uw c es fresh i1 H C. destruct (C200_servers ud uw _ es c fresh eq_refl H) as (i & C' & A & B). rewrite C in C'. injection C' as <-.
  destruct (C201_refuted ud uw c es fresh H) as (i & C' & _ & _ & _ & L & T & _). rewrite C in C'. injection C' as <-.
  destruct (configure_ok ud uw _ _ (c_lifetime c) (c_timeout c) (set_resolver fresh i1) H) as (i2 & R & A2 & B2 & _ & _ & _ & L2 & T2 & I2 & _).
  exists i2. split; [exact R|]. rewrite L2, T2, I2, L, T. cbn [set_resolver i_resolver i_interval].
  destruct (chosen es) as [|s l] eqn:E.
  - rewrite (A2 eq_refl). destruct (A eq_refl) as [-> ->]. repeat split.
  - destruct B as [-> ->]; [discriminate|]. destruct B2 as [-> ->]; [discriminate|]. repeat split.
Qed.
Print Assumptions C202_stored_partial.
Theorem C202_refuted : forall udigit uword c es fresh i1 i2, Forall2 entry (c_servers c) es -> q_edns fresh = None ->
  configured udigit uword c fresh = Some i1 -> restored udigit uword c i1 fresh = Some i2 ->
  q_edns (i_resolver i1) = Some 0%N /\ q_edns (i_resolver i2) = None.
Proof.
  intros ud uw c es fresh i1 i2 H F C R. destruct (C201_refuted ud uw c es fresh H) as (i & C' & E & _). rewrite C in C'. injection C' as <-. split; [exact E|].
  destruct (configure_ok ud uw _ _ (c_lifetime c) (c_timeout c) (set_resolver fresh i1) H) as (i' & R' & _ & _ & E2 & _). unfold restored in R. rewrite R in R'. injection R' as <-.
  rewrite E2. exact F.
Qed.
Print Assumptions C202_refuted.
Example C202_case : let c := mkC 10%Q 2%Q [] ($"edns=1400, rotate") ($"5m") in let fresh := mkQ [$"192.0.2.53"] 53 None 0 false 30%Q 2%Q in
  Forall2 entry (c_servers c) [] /\
  option_map i_resolver (configured (fun _ => false) (fun _ => false) c fresh) = Some (mkQ [$"192.0.2.53"] 53 (Some 0%N) 4096 false 30%Q 2%Q).
Proof. split; [constructor|vm_compute; reflexivity]. Qed.
