(** Proofs about headers with an at sign or a closing bracket too many. *)
From Verif Require Import PyStr PyDict PyAddr Model_Rules Model_Headers Spec_Headers Proofs_Headers Model_Address Spec_Address Proofs_Address
  Proofs_AddressStrict Proofs_AddressMsg.

Definition double (a : address) (d : str) : str := address_text a ++ 64%N :: d.

Lemma spec_double lim cl a k : good_address a -> getaddrspec lim cl (address_text a ++ 64%N :: k) = Some ([], cl, 64%N :: k).
Proof.
  intros Ha. unfold getaddrspec, address_text. rewrite <- !app_assoc.
  change ($"@" ++ domain a ++ 64%N :: k) with (64%N :: domain a ++ 64%N :: k).
  rewrite gotonext_solid by (now apply local_solid).
  destruct (addrspec_local lim cl a (domain a ++ 64%N :: k) _ Ha (Nat.le_refl _)) as (l' & E1 & E2). rewrite E1.
  change (N.eqb 64 64) with true. cbv iota. destruct Ha as [_ Hdom]. rewrite gotonext_solid by (now apply good_domain_solid).
  unfold getdomain. rewrite (domain_atoms (length (domain a)) (domain a)) with (d := None) (cl' := cl) (rest := 64%N :: k); auto.
  - exact (proj2 Hdom).
  - vm_compute. tauto.
  - intros [|f'] Hf; [cbn in Hf; lia|]. reflexivity.
Qed.
Lemma spec_at lim cl d : good_atom d -> getaddrspec lim cl (64%N :: d) = Some (64%N :: d, cl, []).
Proof.
  intros Hd. unfold getaddrspec. rewrite gotonext_solid by (vm_compute; intuition discriminate).
  change (addrspec_loop (length (64%N :: d)) lim [] cl (64%N :: d)) with (Some (@nil str, cl, 64%N :: d)). cbv iota.
  change (N.eqb 64 64) with true. cbv iota. rewrite <- (app_nil_r d) at 1. rewrite gotonext_solid by (now apply good_domain_solid). rewrite app_nil_r.
  unfold getdomain. rewrite <- (app_nil_r d) at 2. rewrite (domain_atoms (length d) d) with (d := Some []) (cl' := cl) (rest := []); auto.
  - cbn [option_map]. rewrite app_nil_r. destruct d; [now destruct Hd|reflexivity].
  - exact (proj2 Hd).
  - exact Logic.I.
  - rewrite app_nil_r. lia.
  - intros [|f'] _; reflexivity.
Qed.
Lemma double_read lim a d : good_address a -> good_atom d -> getaddrlist lim (double a d) = Some [([], []); ([], 64%N :: d)].
Proof.
  intros Ha Hd. unfold getaddrlist.
  assert (G1 : getaddress lim (double a d) = Some ([([], [])], 64%N :: d)).
  { unfold double. rewrite getaddress_unfold.
    assert (E : address_text a ++ 64%N :: d = word_text (local a) ++ 64%N :: domain a ++ 64%N :: d).
    { unfold address_text. rewrite <- !app_assoc. reflexivity. }
    rewrite E, gotonext_solid by (now apply local_solid). rewrite phrase_local by exact Ha.
    rewrite gotonext_solid by (vm_compute; intuition discriminate). cbn zeta.
    change (N.eqb 64 46 || N.eqb 64 64) with true. cbv iota. rewrite <- E, spec_double by exact Ha.
    unfold after_address. rewrite gotonext_solid by (vm_compute; intuition discriminate). reflexivity. }
  assert (G2 : getaddress lim (64%N :: d) = Some ([([], 64%N :: d)], [])).
  { rewrite getaddress_unfold. rewrite gotonext_solid by (vm_compute; intuition discriminate).
    change (getphraselist lim [] (64%N :: d)) with (Some (@nil str, @nil str, 64%N :: d)). cbv iota.
    rewrite gotonext_solid by (vm_compute; intuition discriminate). cbn zeta. change (N.eqb 64 46 || N.eqb 64 64) with true. cbv iota.
    rewrite spec_at by exact Hd. reflexivity. }
  assert (Hne : exists c r, double a d = c :: r /\ length r >= 2).
  { unfold double. pose proof (address_nonempty a) as Hn. destruct (address_text a) as [|c t] eqn:E; [discriminate|].
    eexists c, _. split; [reflexivity|]. rewrite app_length. cbn. destruct d; [now destruct Hd|]. cbn. lia. }
  destruct Hne as (c & r & E & Hlen). rewrite E in *. cbn [length addrlist_loop]. rewrite G1.
  destruct (length r) as [|[|f]]; [lia|lia|]. cbn [addrlist_loop]. rewrite G2. destruct f; reflexivity.
Qed.
Lemma double_strips a d : good_address a -> good_atom d -> strips (double a d) 0.
Proof.
  intros Ha Hd. unfold double. change (64%N :: d) with ($"@" ++ d). change 0 with (0 + (0 + 0)).
  apply strips_app; [now apply strips_address|]. apply strips_app; [now apply strips_text|]. apply strips_atom. exact (proj2 Hd).
Qed.
Lemma double_addresses lim strict a d : good_address a -> good_atom d ->
  getaddresses lim strict (double a d) = Some (if strict then [([], [])] else [([], []); ([], 64%N :: d)]).
Proof.
  intros Ha Hd. unfold getaddresses. destruct strict; [|now apply double_read].
  destruct (double_strips a d Ha Hd) as (s' & S1 & S2 & S3).
  assert (Hsq : strip_quoted_realnames (double a d) = s').
  { unfold strip_quoted_realnames. rewrite <- (app_nil_r (double a d)), S1. cbn [strip_quoted]. apply app_nil_r. }
  assert (Hcp : check_parenthesis (double a d) = true).
  { unfold check_parenthesis. rewrite Hsq, <- (app_nil_r s'), S3. reflexivity. }
  unfold pre_validate. rewrite Hcp, double_read by auto. unfold post_validate. cbn [map length]. rewrite Hsq, S2. reflexivity.
Qed.
Lemma bracket_addresses lim a rest : 1 <= lim -> good_address a -> getaddresses lim true (address_text a ++ 41%N :: rest) = Some [([], [])].
Proof.
  intros Hl Ha. destruct lim as [|lim]; [lia|]. unfold getaddresses. destruct (strips_address a Ha) as (s' & S1 & S2 & S3).
  assert (Hcp : check_parenthesis (address_text a ++ 41%N :: rest) = false).
  { unfold check_parenthesis, strip_quoted_realnames. rewrite S1. cbn [strip_quoted]. rewrite S3. reflexivity. }
  unfold pre_validate. rewrite Hcp. reflexivity.
Qed.
