(** Theorems about trusted, internal and MSA networks (C25-C28). *)
From Verif Require Import PyStr Model_Net Spec_Net Proofs_Net.

(** C25: membership is decided by the first entry that contains the address;
    without one the address is not in the list.  (Entries made from texts that
    are no network break the lookup when they are reached, and only then.) *)
Theorem C25_first_entry_decides : forall l a b,
  contains_addr l a = Some b <->
  first_containing l a b \/
  (b = false /\ forall m x, In (m, x) l -> exists n, m = Some n /\ in_net a n = false).
Proof. exact contains_first. Qed.
Print Assumptions C25_first_entry_decides.
Theorem C25_lookup_fails_only_on_bad_entry : forall l a,
  contains_addr l a = None <->
  exists before x after, l = before ++ (None, x) :: after /\
    forall m y, In (m, y) before -> exists n, m = Some n /\ in_net a n = false.
Proof. exact contains_fails. Qed.
Print Assumptions C25_lookup_fails_only_on_bad_entry.
(** A configuration line can put such an entry in the list, and from then on
    looking up other addresses raises. *)
Theorem C25_bad_line_breaks_lookup_refuted : exists parse6 s a,
  add_line parse6 (LTrusted ($"10.1.2.3/8")) nets0 = Some s /\ contains_addr (n_trusted s) a = None.
Proof. exists (fun _ => None), (mkNets (always_accepted ++ [(None, true)]) true (always_accepted ++ [(None, true)]) false []), (ip4 8 8 8 8).
  split; vm_compute; reflexivity. Qed.
Print Assumptions C25_bad_line_breaks_lookup_refuted.

(** An address is in a network when it is of the same version and agrees with the
    network address in all bits above the host part. *)
Theorem C25_address_in_network : forall a n,
  in_net a n = true <->
  a_ver a = n_ver n /\
  forall i, (bits (n_ver n) - n_len n <= i)%N -> N.testbit (a_val a) i = N.testbit (n_base n) i.
Proof. exact in_net_bits. Qed.
Print Assumptions C25_address_in_network.

Definition ex_nets : nets :=
  run_lines (fun _ => None) [LTrusted ($"!10.1."); LTrusted ($"10."); LMsa ($"192.168.1.1")] nets0.
Example C25_example :
  contains_addr (n_trusted ex_nets) (ip4 10 2 0 1) = Some true /\
  contains_addr (n_trusted ex_nets) (ip4 10 1 0 1) = Some false /\
  contains_addr (n_trusted ex_nets) (ip4 11 1 0 1) = Some false /\
  contains_addr (n_msa ex_nets) (ip4 192 168 1 1) = Some true.
Proof. vm_compute. repeat split. Qed.

(** C26: after every sequence of network lines, loopback addresses are trusted and
    internal. *)
Theorem C26_loopback : forall parse6 lines a, loopback a ->
  contains_addr (n_trusted (run_lines parse6 lines nets0)) a = Some true /\
  contains_addr (n_internal (run_lines parse6 lines nets0)) a = Some true.
Proof. exact c26. Qed.
Print Assumptions C26_loopback.
Example C26_example : loopback (ip4 127 0 0 1) /\
  contains_addr (n_trusted (run_lines (fun _ => None) [LTrusted ($"!127."); LInternal ($"10.")] nets0)) (ip4 127 0 0 1) = Some true.
Proof. split; [left; exists 0%N, 0%N, 1%N; repeat split|vm_compute; reflexivity]. Qed.

(** C27: internal implies trusted.  False: an exclusion from the trusted networks
    comes first in the trusted list. *)
Theorem C27_internal_is_trusted_refuted : exists parse6 trusted internal msa s a,
  add_networks parse6 trusted internal msa nets0 = Some s /\
  contains_addr (n_internal s) a = Some true /\ contains_addr (n_trusted s) a = Some false.
Proof.
  exists (fun _ => None), [$"!10.1."; $"10."], [$"10."], [].
  eexists. exists (ip4 10 1 0 1). split; [vm_compute; reflexivity|]. vm_compute. split; reflexivity.
Qed.
Print Assumptions C27_internal_is_trusted_refuted.
(** What holds: without exclusions and unreadable texts in the trusted lines,
    whatever the internal and MSA lines (exclusions too) and their order. *)
Theorem C27_internal_is_trusted_partial : forall parse6 lines a,
  Forall (accepting parse6) lines ->
  let s := run_lines parse6 lines nets0 in
  contains_addr (n_internal s) a = Some true -> contains_addr (n_trusted s) a = Some true.
Proof. exact c27. Qed.
Print Assumptions C27_internal_is_trusted_partial.
Definition ex27 : list nline := [LTrusted ($"10."); LInternal ($"!192.168.3."); LTrusted ($"172.16."); LInternal ($"192.168.")].
Example C27_example : Forall (accepting (fun _ => None)) ex27 /\
  contains_addr (n_internal (run_lines (fun _ => None) ex27 nets0)) (ip4 192 168 4 4) = Some true /\
  contains_addr (n_internal (run_lines (fun _ => None) ex27 nets0)) (ip4 192 168 3 4) = Some false /\
  contains_addr (n_internal (run_lines (fun _ => None) ex27 nets0)) (ip4 10 0 0 1) = Some false /\
  contains_addr (n_trusted (run_lines (fun _ => None) ex27 nets0)) (ip4 10 0 0 1) = Some true.
Proof.
  split; [|vm_compute; repeat split].
  unfold ex27. repeat first [apply Forall_nil | apply Forall_cons]; cbn [accepting]; try exact I; intros e n H; vm_compute in H; injection H as <- <-; split; congruence.
Qed.

(** Without lines for internal networks and submission agents the internal
    networks are the trusted ones. *)
Theorem C27_trusted_is_internal_by_default : forall parse6 trusted s,
  add_networks parse6 trusted [] [] nets0 = Some s -> n_internal s = n_trusted s.
Proof. exact default_internal. Qed.
Print Assumptions C27_trusted_is_internal_by_default.

(** C28: the shorthands; [mark] is the optional exclusion mark. *)
Theorem C28_shorthand : forall parse6 e a b c, octet a -> octet b -> octet c ->
  (exists n, extract_network parse6 (mark e ++ dec a ++ dot) = Some (e, Some n) /\
     forall w x y z, octet w -> octet x -> octet y -> octet z -> (in_net (ip4 w x y z) n = true <-> w = a)) /\
  (exists n, extract_network parse6 (mark e ++ dec a ++ dot ++ dec b ++ dot) = Some (e, Some n) /\
     forall w x y z, octet w -> octet x -> octet y -> octet z -> (in_net (ip4 w x y z) n = true <-> w = a /\ x = b)) /\
  (exists n, extract_network parse6 (mark e ++ dec a ++ dot ++ dec b ++ dot ++ dec c ++ dot) = Some (e, Some n) /\
     forall w x y z, octet w -> octet x -> octet y -> octet z -> (in_net (ip4 w x y z) n = true <-> w = a /\ x = b /\ y = c)) /\
  (exists n, extract_network parse6 (mark e ++ dec a ++ dot ++ dec b ++ dot ++ dec c) = Some (e, Some n) /\
     forall w x y z, octet w -> octet x -> octet y -> octet z -> (in_net (ip4 w x y z) n = true <-> w = a /\ x = b /\ y = c)).
Proof.
  intros parse6 e a b c Ha Hb Hc. split; [|split; [|split]].
  - eexists. split; [apply extract8; exact Ha|]. intros. apply in8; assumption.
  - eexists. split; [apply extract16; assumption|]. intros. apply in16; assumption.
  - eexists. split; [apply extract24; assumption|]. intros. apply in24; assumption.
  - eexists. split; [apply extract24'; assumption|]. intros. apply in24; assumption.
Qed.
Print Assumptions C28_shorthand.

(** A full address denotes itself; with a mask, the network given, provided no
    bit below the mask is set (otherwise the entry is unusable). *)
Theorem C28_full_and_mask : forall parse6 e a b c d, octet a -> octet b -> octet c -> octet d ->
  (exists n, extract_network parse6 (mark e ++ dec a ++ dot ++ dec b ++ dot ++ dec c ++ dot ++ dec d) = Some (e, Some n) /\
     forall w x y z, octet w -> octet x -> octet y -> octet z ->
       (in_net (ip4 w x y z) n = true <-> w = a /\ x = b /\ y = c /\ z = d)) /\
  (forall m, (m <= 32)%N ->
     extract_network parse6 (mark e ++ dec a ++ dot ++ dec b ++ dot ++ dec c ++ dot ++ dec d ++ $"/" ++ dec m) =
     Some (e, if N.eqb (a_val (ip4 a b c d) mod 2 ^ (32 - m)) 0 then Some (mkNet V4 (a_val (ip4 a b c d)) m) else None)).
Proof.
  intros parse6 e a b c d Ha Hb Hc Hd. split.
  - eexists. split; [apply extract32; assumption|]. intros. apply in32; assumption.
  - intros m Hm. rewrite extract_mask by assumption. reflexivity.
Qed.
Print Assumptions C28_full_and_mask.
Example C28_example :
  extract_network (fun _ => None) ($"!10.2.") = Some (true, Some (mkNet V4 (a_val (ip4 10 2 0 0)) 16)) /\
  extract_network (fun _ => None) ($"192.168.64.0/18") = Some (false, Some (mkNet V4 (a_val (ip4 192 168 64 0)) 18)) /\
  in_net (ip4 192 168 127 255) (mkNet V4 (a_val (ip4 192 168 64 0)) 18) = true /\
  in_net (ip4 192 168 128 0) (mkNet V4 (a_val (ip4 192 168 64 0)) 18) = false /\
  extract_network (fun _ => None) ($"10.1") = Some (false, None) /\
  extract_network (fun _ => None) ($"mail.example.com") = None.
Proof. vm_compute. repeat split. Qed.

(** The lists belong to the class: networks added for one context hold in every
    other (part of C21).  [run_lines] is the process's history whatever the
    contexts; the same lines added again leave an address excluded later still
    accepted. *)
Theorem C21_networks_refuted : exists parse6 lines1 lines2 a,
  contains_addr (n_trusted (run_lines parse6 lines2 nets0)) a = Some false /\
  contains_addr (n_trusted (run_lines parse6 (lines1 ++ lines2) nets0)) a = Some true.
Proof.
  exists (fun _ => None), [LTrusted ($"10.")], [LTrusted ($"!10.1."); LTrusted ($"10.")], (ip4 10 1 0 1).
  vm_compute. split; reflexivity.
Qed.
Print Assumptions C21_networks_refuted.
