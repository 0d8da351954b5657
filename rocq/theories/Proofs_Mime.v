(** Proofs about transfer encodings and charsets of message parts. *)
From Coq Require Import NArith ZArith Lia ZifyN ZifyNat ZifyBool.
From Verif Require Import PyStr PyMime PyUtf8 Model_Load Model_Scripts Spec_Load Proofs_Scripts Proofs_Load Regexp Spec_Headers.
Local Open Scope N_scope.

(** ** Escapes *)
Lemma digits_len k : forall n, length (hex_digits k n) = k.
Proof. induction k as [|k IH]; intros n; cbn [hex_digits]; [reflexivity|]. rewrite app_length, IH. cbn. lia. Qed.
Lemma hex_char_ok n : n < 16 -> hexdigit (hex_char n) /\ hexval (hex_char n) = n.
Proof.
  intros H. unfold hex_char, hexdigit, hexval. destruct (N.ltb_spec n 10) as [L|L].
  - destruct (N.leb_spec (48 + n) 57); lia.
  - destruct (N.leb_spec (87 + n) 57); lia.
Qed.
Lemma digits_ok k : forall n, Forall hexdigit (hex_digits k n).
Proof.
  induction k as [|k IH]; intros n; cbn [hex_digits]; [constructor|]. apply Forall_app. split; [apply IH|].
  constructor; [|constructor]. apply hex_char_ok, N.mod_lt. lia.
Qed.
Lemma digits_val k : forall n, n < 16 ^ N.of_nat k -> fold_left (fun n d => (n * 16 + hexval d)) (hex_digits k n) 0 = n.
Proof.
  induction k as [|k IH]; intros n H; cbn [hex_digits]; [cbn in H |- *; lia|].
  rewrite fold_left_app. cbn [fold_left]. rewrite Nat2N.inj_succ, N.pow_succ_r' in H.
  rewrite IH; [|apply N.div_lt_upper_bound; lia].
  rewrite (proj2 (hex_char_ok (n mod 16) ltac:(apply N.mod_lt; lia))). rewrite N.mul_comm. symmetry. apply N.div_mod. lia.
Qed.
Lemma escaped c : 256 <= c < 1114112 -> escape_of c (if c <? 65536 then 92 :: 117 :: hex_digits 4 c else 92 :: 85 :: hex_digits 8 c).
Proof.
  intros H. unfold escape_of. destruct (N.ltb_spec c 65536) as [L|L].
  - exists 117, (hex_digits 4 c). repeat split; auto using digits_ok, digits_len. apply digits_val. exact L.
  - exists 85, (hex_digits 8 c). repeat split; auto using digits_ok, digits_len. apply digits_val. change (16 ^ N.of_nat 8) with 4294967296. lia.
Qed.
Lemma raw_low s : Forall (fun c => c < 256) s -> raw_unicode_escape s = s.
Proof.
  unfold raw_unicode_escape. induction 1 as [|c s H _ IH]; cbn [flat_map]; [reflexivity|].
  rewrite (proj2 (N.ltb_lt _ _) H), IH. reflexivity.
Qed.
Lemma raw_words s : Forall (fun c => c < 1114112) s -> exists ws, raw_unicode_escape s = concat ws /\
  Forall2 (fun c w => c < 256 /\ w = [c] \/ 256 <= c /\ escape_of c w) s ws.
Proof.
  unfold raw_unicode_escape. induction 1 as [|c s H _ (ws & E & F)]; cbn [flat_map]; [exists []; split; [reflexivity|constructor]|].
  rewrite E. destruct (N.ltb_spec c 256) as [L|L].
  - exists ([c] :: ws). split; [reflexivity|]. constructor; [left; auto|exact F].
  - eexists (_ :: ws). split; [reflexivity|]. constructor; [right; split; [exact L|apply escaped; lia]|exact F].
Qed.
Lemma ascii_code s : Forall (fun c => c < 128) s -> encode s = Some s.
Proof.
  induction 1 as [|c s H _ IH]; cbn [encode]; [reflexivity|]. unfold encode_char. rewrite (proj2 (N.ltb_lt _ _) H), IH. reflexivity.
Qed.
Lemma ignore_ascii s : Forall (fun c => c < 128) s -> decode_ignore s = s.
Proof. intros H. rewrite <- (app_nil_r s) at 1. rewrite (ignore_text _ _ [] (ascii_code _ H)). cbn. apply app_nil_r. Qed.
Lemma words_ascii s ws : Forall2 (fun c w => c < 256 /\ w = [c] \/ 256 <= c /\ escape_of c w) s ws ->
  Forall (fun c => c < 128 \/ 256 <= c) s -> Forall (fun c => c < 128) (concat ws).
Proof.
  induction 1 as [|c w s ws H _ IH]; intros F; cbn [concat]; [constructor|]. inversion_clear F as [|? ? Hc F'].
  apply Forall_app. split; [|exact (IH F')]. destruct H as [[L ->]|[L (u & ds & -> & Hu & Hd & _)]]; [constructor; [lia|constructor]|].
  constructor; [lia|]. constructor; [destruct Hu as [[-> _]|[-> _]]; lia|].
  eapply Forall_impl; [|exact Hd]. unfold hexdigit. intros d D. cbn in D. lia.
Qed.

(** ** Quoted-printable *)
Lemma hex_value_of h x : hex_of h x -> hex_value h = Some x /\ h < 128 /\ h <> 10 /\ h <> 13 /\ h <> 61.
Proof.
  unfold hex_of, hex_value. intros [[H ->]|[[H ->]|[H ->]]].
  - destruct (N.leb_spec 48 h); [|lia]. destruct (N.leb_spec h 57); [|lia]. cbn. repeat split; lia.
  - destruct (N.leb_spec 48 h); [|lia]. destruct (N.leb_spec h 57); [lia|]. cbn.
    destruct (N.leb_spec 65 h); [|lia]. destruct (N.leb_spec h 70); [|lia]. cbn. repeat split; lia.
  - destruct (N.leb_spec 48 h); [|lia]. destruct (N.leb_spec h 57); [lia|]. cbn.
    destruct (N.leb_spec 65 h); [|lia]. destruct (N.leb_spec h 70); [lia|]. cbn.
    destruct (N.leb_spec 97 h); [|lia]. destruct (N.leb_spec h 102); [|lia]. cbn. repeat split; lia.
Qed.
Lemma qp_back bs t : in_quoted_printable bs t -> a2b_qp t = bs.
Proof.
  unfold a2b_qp. induction 1 as [|b bs t H N _ IH|x y h l bs t Hh Hl _ IH|bs t _ IH]; cbn [qp_from]; [reflexivity| | |].
  - rewrite (proj2 (N.eqb_neq _ _) N), IH. reflexivity.
  - destruct (hex_value_of _ _ Hh) as (Eh & _ & N1 & N2 & N3). destruct (hex_value_of _ _ Hl) as (El & _).
    cbn [N.eqb Pos.eqb]. rewrite (proj2 (N.eqb_neq _ _) N1), (proj2 (N.eqb_neq _ _) N2), (proj2 (N.eqb_neq _ _) N3), Eh, El, IH.
    f_equal. lia.
  - cbn [N.eqb Pos.eqb]. exact IH.
Qed.
Lemma qp_ascii bs t : in_quoted_printable bs t -> Forall (fun c => c < 128) t.
Proof.
  induction 1 as [|b bs t H N _ IH|x y h l bs t Hh Hl _ IH|bs t _ IH]; [constructor|constructor; assumption| |].
  - destruct (hex_value_of _ _ Hh) as (_ & Lh & _). destruct (hex_value_of _ _ Hl) as (_ & Ll & _).
    repeat (apply Forall_cons; [lia|]). exact IH.
  - repeat (apply Forall_cons; [lia|]). exact IH.
Qed.

(** ** Base 64 *)
Definition digit (v : N) : char := nth (N.to_nat v) b64_alphabet 61.
Lemma digits_table : forallb (fun n => match b64_value (digit (N.of_nat n)) with Some v => (v =? N.of_nat n) && (digit (N.of_nat n) <? 128) && negb (digit (N.of_nat n) =? 61)
    && negb (digit (N.of_nat n) =? 10) && negb (digit (N.of_nat n) =? 13) | None => false end) (seq 0 64) = true.
Proof. vm_compute. reflexivity. Qed.
Lemma digit_back v : v < 64 -> b64_value (digit v) = Some v /\ digit v < 128 /\ (digit v =? 61) = false /\ (digit v =? 13) = false.
Proof.
  intros H. assert (T := proj1 (forallb_forall _ _) digits_table (N.to_nat v) ltac:(apply in_seq; lia)). cbv beta in T.
  rewrite N2Nat.id in T. destruct (b64_value (digit v)) as [w|]; [|discriminate].
  apply andb_prop in T as [T T5]. apply andb_prop in T as [T T4]. apply andb_prop in T as [T T3]. apply andb_prop in T as [T1 T2].
  apply N.eqb_eq in T1. apply N.ltb_lt in T2. apply Bool.negb_true_iff in T3. apply Bool.negb_true_iff in T5. subst w. auto.
Qed.
Lemma digit_eq n place : b64_digit n place = digit (n / place mod 64).
Proof. reflexivity. Qed.
Lemma div_is a b q r : r < b -> a = b * q + r -> a / b = q.
Proof. intros H E. symmetry. exact (N.div_unique a b q r H E). Qed.
Lemma mod_is a b q r : r < b -> a = b * q + r -> a mod b = r.
Proof. intros H E. symmetry. exact (N.mod_unique a b q r H E). Qed.
Lemma split_by k a : k <> 0 -> exists q r, a = k * q + r /\ r < k /\ a / k = q /\ a mod k = r.
Proof. intros H. exists (a / k), (a mod k). repeat split; [apply N.div_mod; exact H|apply N.mod_lt; exact H]. Qed.
Lemma place_vals a b c : a < 256 -> b < 256 -> c < 256 -> exists x y z w, let n := 65536 * a + 256 * b + c in
  n / 262144 mod 64 = x /\ n / 4096 mod 64 = y /\ n / 64 mod 64 = z /\ n / 1 mod 64 = w /\
  (x < 64 /\ y < 64 /\ z < 64 /\ w < 64) /\
  x * 4 + y / 16 = a /\ (y mod 16) * 16 + z / 4 = b /\ (z mod 4) * 64 + w = c.
Proof.
  intros Ha Hb Hc. destruct (split_by 4 a ltac:(lia)) as (a1 & a0 & Ea & La & _).
  destruct (split_by 16 b ltac:(lia)) as (b1 & b0 & Eb & Lb & _). destruct (split_by 64 c ltac:(lia)) as (c1 & c0 & Ec & Lc & _).
  exists a1, (a0 * 16 + b1), (b0 * 4 + c1), c0. cbv zeta. rewrite N.div_1_r.
  rewrite (div_is _ 262144 a1 (65536 * a0 + 4096 * b1 + 256 * b0 + 64 * c1 + c0)) by lia.
  rewrite (div_is _ 4096 (64 * a1 + (a0 * 16 + b1)) (256 * b0 + 64 * c1 + c0)) by lia.
  rewrite (div_is _ 64 (64 * (64 * a1 + (a0 * 16 + b1)) - 63 * 0 + (b0 * 4 + c1)) c0) by lia.
  rewrite (mod_is a1 64 0 a1) by lia. rewrite (mod_is _ 64 a1 (a0 * 16 + b1)) by lia.
  rewrite (mod_is _ 64 (64 * a1 + (a0 * 16 + b1)) (b0 * 4 + c1)) by lia.
  rewrite (mod_is _ 64 (1024 * a + 4 * b + c1) c0) by lia.
  rewrite (div_is (a0 * 16 + b1) 16 a0 b1), (mod_is (a0 * 16 + b1) 16 a0 b1), (div_is (b0 * 4 + c1) 4 b0 c1), (mod_is (b0 * 4 + c1) 4 b0 c1) by lia.
  repeat split; lia.
Qed.
Lemma three_ind (P : list N -> Prop) : P [] -> (forall a, P [a]) -> (forall a b, P [a; b]) -> (forall a b c r, P r -> P (a :: b :: c :: r)) -> forall l, P l.
Proof.
  intros H0 H1 H2 H3 l. remember (length l) as n eqn:E. assert (L : (length l <= n)%nat) by lia. clear E. revert l L.
  induction n as [|n IH]; intros l L; [destruct l; [assumption|cbn in L; lia]|].
  destruct l as [|a [|b [|c r]]]; auto. apply H3, IH. cbn in L. lia.
Qed.
Lemma groups_back bs : Forall (fun b => b < 256) bs -> b64_groups (b64 bs) = Some bs.
Proof.
  induction bs as [|a|a b|a b c r IH] using three_ind; intros F; [reflexivity| | |].
  - inversion_clear F as [|? ? Ha _]. destruct (place_vals a 0 0 Ha ltac:(lia) ltac:(lia)) as (x & y & z & w & P1 & P2 & _ & _ & (Lx & Ly & _ & _) & Va & _).
    cbn [b64]. replace (65536 * a + 256 * 0 + 0) with (65536 * a) in P1, P2 by lia. rewrite !digit_eq, P1, P2.
    cbn [b64_groups]. rewrite (proj1 (digit_back x Lx)), (proj1 (digit_back y Ly)).
    cbn [N.eqb Pos.eqb andb]. rewrite Va. reflexivity.
  - inversion_clear F as [|? ? Ha F']. inversion_clear F' as [|? ? Hb _].
    destruct (place_vals a b 0 Ha Hb ltac:(lia)) as (x & y & z & w & P1 & P2 & P3 & _ & (Lx & Ly & Lz & _) & Va & Vb & _).
    cbn [b64]. replace (65536 * a + 256 * b + 0) with (65536 * a + 256 * b) in P1, P2, P3 by lia. rewrite !digit_eq, P1, P2, P3.
    cbn [b64_groups]. rewrite (proj1 (digit_back x Lx)), (proj1 (digit_back y Ly)).
    destruct (digit_back z Lz) as (E3 & _ & N3 & _). rewrite N3. cbn [andb]. rewrite E3.
    cbn [N.eqb Pos.eqb]. rewrite Va, Vb. reflexivity.
  - inversion_clear F as [|? ? Ha F']. inversion_clear F' as [|? ? Hb F'']. inversion_clear F'' as [|? ? Hc F3].
    destruct (place_vals a b c Ha Hb Hc) as (x & y & z & w & P1 & P2 & P3 & P4 & (Lx & Ly & Lz & Lw) & Va & Vb & Vc).
    cbn [b64]. rewrite !digit_eq, P1, P2, P3, P4.
    cbn [b64_groups]. rewrite (proj1 (digit_back x Lx)), (proj1 (digit_back y Ly)).
    destruct (digit_back z Lz) as (E3 & _ & N3 & _). rewrite N3. cbn [andb]. rewrite E3.
    destruct (digit_back w Lw) as (E4 & _ & N4 & _). rewrite N4, E4, (IH F3). cbn [app].
    rewrite Va, Vb, Vc. reflexivity.
Qed.
Lemma b64_len bs : (length (b64 bs) mod 4 = 0)%nat.
Proof.
  induction bs as [|a|a b|a b c r IH] using three_ind; [reflexivity..|]. cbn [b64 length].
  replace (S (S (S (S (length (b64 r)))))) with (length (b64 r) + 1 * 4)%nat by lia. rewrite Nat.mod_add by lia. exact IH.
Qed.
Lemma b64_chars bs : Forall (fun c => c < 128 /\ (c =? 13) = false) (b64 bs).
Proof.
  assert (D : forall n p, b64_digit n p < 128 /\ (b64_digit n p =? 13) = false).
  { intros n p. rewrite digit_eq. destruct (digit_back (n / p mod 64) ltac:(apply N.mod_lt; lia)) as (_ & L & _ & E). auto. }
  assert (Q : 61 < 128 /\ (61 =? 13) = false) by (split; [lia|reflexivity]).
  induction bs as [|a|a b|a b c r IH] using three_ind; cbn [b64]; repeat (apply Forall_cons; [first [apply D|exact Q]|]); [constructor..|exact IH].
Qed.
Lemma b64_signs bs : (length (filter (N.eqb 61) (b64 bs)) <= 2)%nat.
Proof.
  assert (D : forall n p, (61 =? b64_digit n p) = false).
  { intros n p. rewrite digit_eq. destruct (digit_back (n / p mod 64) ltac:(apply N.mod_lt; lia)) as (_ & _ & E & _). rewrite N.eqb_sym. exact E. }
  induction bs as [|a|a b|a b c r IH] using three_ind; cbn [b64 filter]; rewrite ?D; cbn; lia.
Qed.
Lemma b64_padded s pad bs : Forall (fun c => c = 61) pad -> s ++ pad = b64 bs -> s ++ match Nat.modulo (length s) 4 with O => [] | n => repeat 61 (4 - n)%nat end = b64 bs.
Proof.
  intros F E. assert (P : pad = repeat 61 (length pad)). { clear E. induction F as [|c pad -> _ IH]; [reflexivity|]. cbn [length repeat]. rewrite <- IH. reflexivity. }
  assert (L : (length pad <= 2)%nat).
  { assert (K := b64_signs bs). rewrite <- E, filter_app, app_length in K. assert (G : filter (N.eqb 61) pad = pad). { clear -F. induction F as [|c pad -> _ IH]; [reflexivity|]. cbn [filter N.eqb Pos.eqb]. rewrite IH. reflexivity. } rewrite G in K. lia. }
  assert (M := b64_len bs). rewrite <- E, app_length in M. assert (DM := Nat.div_mod (length s) 4 ltac:(lia)). assert (B := Nat.mod_upper_bound (length s) 4 ltac:(lia)). assert (DM2 := Nat.div_mod (length s + length pad) 4 ltac:(lia)).
  rewrite <- E. f_equal. rewrite P. destruct (Nat.modulo (length s) 4) as [|n] eqn:Q.
  - replace (length pad) with 0%nat by lia. reflexivity.
  - f_equal. lia.
Qed.
Lemma b64_back bs t : Forall (fun b => b < 256) bs -> in_base64 bs t -> Forall (fun c => c < 128) t /\
  decode_b (filter (fun c => negb ((c =? 10) || (c =? 13))) t) = Some bs.
Proof.
  unfold in_base64. intros F (pad & FP & E).
  assert (A : Forall (fun c => c = 10 \/ c < 128 /\ (c =? 13) = false) t).
  { apply Forall_forall. intros c Hc. destruct (N.eqb_spec c 10) as [->|N]; [left; reflexivity|right].
    apply (proj1 (Forall_forall _ _) (b64_chars bs)). rewrite <- E. apply in_or_app. left. apply filter_In. split; [exact Hc|]. rewrite (proj2 (N.eqb_neq _ _) N). reflexivity. }
  split; [eapply Forall_impl; [|exact A]; intros c; cbv beta; lia|].
  replace (filter (fun c => negb ((c =? 10) || (c =? 13))) t) with (filter (fun c => negb (c =? 10)) t).
  - unfold decode_b. cbv zeta. rewrite (b64_padded _ pad bs FP E). apply groups_back. exact F.
  - clear E. induction A as [|c t H _ IH]; cbn [filter]; [reflexivity|]. rewrite IH.
    destruct H as [->|[_ ->]]; [reflexivity|]. rewrite Bool.orb_false_r. reflexivity.
Qed.

(** ** get_payload *)
Section Payload.
Variable repair : list N -> list N.
Lemma get_plain cte t : cte <> $"quoted-printable" -> cte <> $"base64" -> get_payload repair cte t = raw_unicode_escape t.
Proof.
  intros N1 N2. unfold get_payload. destruct (streqb_spec cte ($"quoted-printable")) as [E|_]; [contradiction|].
  destruct (streqb_spec cte ($"base64")) as [E|_]; [contradiction|]. reflexivity.
Qed.
Lemma get_qp bs t : in_quoted_printable bs t -> get_payload repair ($"quoted-printable") t = bs.
Proof.
  intros Q. unfold get_payload. destruct (streqb_spec ($"quoted-printable") ($"quoted-printable")) as [_|N]; [|contradiction].
  rewrite raw_low; [apply qp_back; exact Q|]. eapply Forall_impl; [|apply (qp_ascii _ _ Q)]. cbv beta. lia.
Qed.
Lemma get_b64 bs t : Forall (fun b => b < 256) bs -> in_base64 bs t -> get_payload repair ($"base64") t = bs.
Proof.
  intros F Q. destruct (b64_back _ _ F Q) as [A D]. unfold get_payload.
  destruct (streqb_spec ($"base64") ($"quoted-printable")) as [E|_]; [vm_compute in E; discriminate|].
  destruct (streqb_spec ($"base64") ($"base64")) as [_|N]; [|contradiction].
  rewrite raw_low; [|eapply Forall_impl; [|exact A]; cbv beta; lia]. cbv zeta. rewrite D. reflexivity.
Qed.
End Payload.

(** ** Bytes of a text *)
Ltac take H := match type of H with Some ?x = Some ?y => let E := fresh in assert (E : y = x) by congruence; rewrite E; clear E H end.
Lemma char_bytes c a : encode_char c = Some a -> Forall (fun b => b < 256) a.
Proof.
  unfold encode_char. intros H.
  assert (M : forall n, 128 + n mod 64 < 256) by (intros n; assert (n mod 64 < 64) by (apply N.mod_lt; lia); lia).
  destruct (N.ltb_spec c 128) as [H1|H1]; [take H; constructor; [lia|constructor]|].
  destruct (N.ltb_spec c 2048) as [H2|H2].
  - take H. assert (c / 64 < 32) by (apply N.div_lt_upper_bound; lia). repeat (apply Forall_cons; [cbv beta; first [apply M|lia]|]). constructor.
  - destruct ((55296 <=? c) && (c <? 57344)); [discriminate|]. destruct (N.ltb_spec c 65536) as [H3|H3].
    + take H. assert (c / 4096 < 16) by (apply N.div_lt_upper_bound; lia). repeat (apply Forall_cons; [cbv beta; first [apply M|lia]|]). constructor.
    + destruct (N.ltb_spec c 1114112) as [H4|H4]; [|discriminate]. take H.
      assert (c / 262144 < 5) by (apply N.div_lt_upper_bound; lia). repeat (apply Forall_cons; [cbv beta; first [apply M|lia]|]). constructor.
Qed.
Lemma text_bytes s : forall bs, encode s = Some bs -> Forall (fun b => b < 256) bs.
Proof.
  induction s as [|c s IH]; cbn [encode]; intros bs H; [injection H as <-; constructor|].
  destruct (encode_char c) as [a|] eqn:E; [|discriminate]. destruct (encode s) as [b|]; [|discriminate]. injection H as <-.
  apply Forall_app. split; [exact (char_bytes _ _ E)|exact (IH b eq_refl)].
Qed.
Lemma ignore_encoded s bs : encode s = Some bs -> decode_ignore bs = s.
Proof. intros E. rewrite <- (app_nil_r bs), (ignore_text _ _ [] E). cbn. apply app_nil_r. Qed.

(** ** Parts in UTF-8 *)
Lemma payload_utf8 codec headers main sub bytes t : codec ($"utf-8") false bytes = Some t ->
  payload codec (mkPart headers main sub (Some ($"utf-8")) bytes) = Ok t.
Proof.
  intros H. assert (E : payload codec (mkPart headers main sub (Some ($"utf-8")) bytes) =
    match match codec ($"utf-8") false bytes with Some t => Ok t | None => Expected end with Expected => Ok (ascii_ignore bytes) | x => x end) by reflexivity.
  rewrite E, H. reflexivity.
Qed.
Lemma load_one udigit uword codec feed header_parts bytes t : codec ($"utf-8") false bytes = Some t ->
  exists l, load udigit uword codec feed header_parts [mkPart [] ($"text") ($"plain") (Some ($"utf-8")) bytes] = Some l /\
    l_uris l = nodup str_eq_dec (findall udigit uword URL_RE t).
Proof.
  intros H. assert (P := payload_utf8 codec [] ($"text") ($"plain") bytes t H).
  destruct (load udigit uword codec feed header_parts [mkPart [] ($"text") ($"plain") (Some ($"utf-8")) bytes]) as [l|] eqn:L.
  - exists l. split; [reflexivity|]. apply load_some in L as (subj & texts & _ & F & _ & _ & E & _).
    change (filter texty [mkPart [] ($"text") ($"plain") (Some ($"utf-8")) bytes]) with [mkPart [] ($"text") ($"plain") (Some ($"utf-8")) bytes] in F.
    inversion F as [|? st ? texts' [S _] F']; subst. inversion F'; subst. rewrite P in S. injection S as S. rewrite E. cbn [map concat]. rewrite app_nil_r, S. reflexivity.
  - exfalso. revert L. apply load_iff. split; [intros h []|]. split.
    + intros p [<-|[]] _. apply (payload_ok codec). exists t. exact P.
    + intros p t' line [<-|[]] _ X. vm_compute in X. discriminate.
Qed.
