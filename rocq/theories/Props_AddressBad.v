(** C248: headers with an at sign or a closing bracket too many. *)
From Verif Require Import PyStr PyDict PyAddr Model_Rules Model_Headers Spec_Headers Proofs_Headers Model_Address Spec_Address Proofs_Address
  Proofs_AddressStrict Proofs_AddressMsg Proofs_AddressBad Props_Address.

(** An address followed by one more at sign and domain is not taken for the address before the second at sign, which would
    be the name of somebody else; neither as the first address nor among all.  With the older parser what follows stands
    for the address, with the newer there is none. *)
Theorem C248_two_at_signs :
  forall lim strict decode fields history n a d,
    good_address a -> good_atom d -> map decode (values_of n fields) = [Some (address_text a ++ $"@" ++ d)] ->
    let m := lookups decode history (fresh_h fields) in
    get_all_addr_header lim strict decode n m = Some (if strict then [] else [$"@" ++ d]) /\
    get_addr_header lim strict decode n m = Some (if strict then [] else [$"@" ++ d]) /\
    (forall l, get_all_addr_header lim strict decode n m = Some l -> ~ In (address_text a) l).
Proof.
  intros lim strict decode fields ks n a d Ha Hd E m. unfold get_all_addr_header, get_addr_header, addr_values, m. rewrite decoded_fresh, E.
  cbn [collect]. change (address_text a ++ $"@" ++ d) with (double a d). rewrite double_addresses by assumption. rewrite all_of_filter, first_of_firstn.
  destruct strict; (split; [reflexivity|split; [reflexivity|]]); intros l H; injection H as <-; [intros []|].
  cbn. intros [X|[]]. unfold address_text in X. destruct Ha as [Hw _]. destruct (local a) as [w|w]; cbn in X.
  - destruct Hw as [Hn Hf]. destruct w as [|c w]; [contradiction|]. cbn in X. injection X as <- _. inversion Hf as [|? ? [_ Hc] _]; subst. apply Hc. vm_compute. tauto.
  - discriminate.
Qed.
Print Assumptions C248_two_at_signs.
(** With the newer parser a closing bracket too many leaves no address, whatever follows it. *)
Theorem C248_closing_bracket :
  forall lim decode fields history n a rest,
    1 <= lim -> good_address a -> map decode (values_of n fields) = [Some (address_text a ++ $")" ++ rest)] ->
    get_all_addr_header lim true decode n (lookups decode history (fresh_h fields)) = Some [].
Proof.
  intros lim decode fields ks n a rest Hl Ha E. unfold get_all_addr_header. rewrite decoded_fresh, E. cbn [collect].
  change (address_text a ++ $")" ++ rest) with (address_text a ++ 41%N :: rest). rewrite bracket_addresses by assumption. reflexivity.
Qed.
Print Assumptions C248_closing_bracket.
Example C248_case : good_address tom /\ good_atom ($"evil.example") /\
  get_all_addr_header 9 false Some ($"From") (fresh_h [($"From", $"tom@example.com@evil.example")]) = Some [$"@evil.example"] /\
  get_all_addr_header 9 true Some ($"From") (fresh_h [($"From", $"tom@example.com) <bob.b@example.net>")]) = Some [].
Proof. split; [exact tom_good|]. split; [apply atom_good; reflexivity|]. split; vm_compute; reflexivity. Qed.
