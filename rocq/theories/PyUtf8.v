(** Python's UTF-8 codec ([bytes.decode("utf8")], [str.encode("utf8")], strict).
    Library file: the semantics of a Python built-in, not of code in /repo. *)
From Verif Require Import PyStr.
Local Open Scope N_scope.

(** [None]: [UnicodeEncodeError] (a surrogate, or not a code point). *)
Definition encode_char (c : char) : option (list N) :=
  if c <? 128 then Some [c]
  else if c <? 2048 then Some [192 + c / 64; 128 + c mod 64]
  else if (55296 <=? c) && (c <? 57344) then None
  else if c <? 65536 then Some [224 + c / 4096; 128 + c / 64 mod 64; 128 + c mod 64]
  else if c <? 1114112 then Some [240 + c / 262144; 128 + c / 4096 mod 64; 128 + c / 64 mod 64; 128 + c mod 64]
  else None.
Fixpoint encode (s : str) : option (list N) :=
  match s with
  | [] => Some []
  | c :: s' => match encode_char c, encode s' with
               | Some a, Some b => Some (a ++ b)
               | _, _ => None
               end
  end.

Definition cont (b : N) : bool := (128 <=? b) && (b <? 192).
(** [None]: [UnicodeDecodeError]. *)
Fixpoint decode (bs : list N) : option str :=
  match bs with
  | [] => Some []
  | b0 :: r0 =>
      if b0 <? 128 then option_map (cons b0) (decode r0)
      else match r0 with
      | [] => None
      | b1 :: r1 =>
          if negb (cont b1) then None
          else if (194 <=? b0) && (b0 <? 224)
          then option_map (cons ((b0 - 192) * 64 + (b1 - 128))) (decode r1)
          else match r1 with
          | [] => None
          | b2 :: r2 =>
              if negb (cont b2) then None
              else if (224 <=? b0) && (b0 <? 240)
              then let c := (b0 - 224) * 4096 + (b1 - 128) * 64 + (b2 - 128) in
                   if (c <? 2048) || ((55296 <=? c) && (c <? 57344)) then None
                   else option_map (cons c) (decode r2)
              else match r2 with
              | [] => None
              | b3 :: r3 =>
                  let c := (b0 - 240) * 262144 + (b1 - 128) * 4096 + (b2 - 128) * 64 + (b3 - 128) in
                  if negb (cont b3) || negb ((240 <=? b0) && (b0 <? 245)) || (c <? 65536) || (1114112 <=? c) then None
                  else option_map (cons c) (decode r3)
              end
          end
      end
  end.

(** ** Lemmas *)
Ltac lt_t a b := rewrite (proj2 (N.ltb_lt a b)) by lia.
Ltac lt_f a b := rewrite (proj2 (N.ltb_ge a b)) by lia.
Ltac le_t a b := rewrite (proj2 (N.leb_le a b)) by lia.
Ltac le_f a b := rewrite (proj2 (N.leb_gt a b)) by lia.
Lemma range_true a x b : (a <=? x) && (x <? b) = true -> a <= x < b.
Proof. intros H. apply andb_true_iff in H. rewrite N.leb_le, N.ltb_lt in H. exact H. Qed.
Lemma range_t a x b : a <= x < b -> (a <=? x) && (x <? b) = true.
Proof. intros H. apply andb_true_iff. rewrite N.leb_le, N.ltb_lt. exact H. Qed.
Lemma range_f a x b : x < a \/ b <= x -> (a <=? x) && (x <? b) = false.
Proof. intros H. apply andb_false_iff. rewrite N.leb_gt, N.ltb_ge. exact H. Qed.

Lemma join2 q r : r < 64 -> (q * 64 + r) / 64 = q /\ (q * 64 + r) mod 64 = r.
Proof.
  intros H. split; symmetry; [apply (N.div_unique _ _ _ r)|apply (N.mod_unique _ _ q)]; lia.
Qed.

Lemma split64 c : exists q r, c = q * 64 + r /\ r < 64 /\ c / 64 = q /\ c mod 64 = r.
Proof.
  exists (c / 64), (c mod 64). split; [rewrite N.mul_comm; apply N.div_mod'|].
  split; [apply N.mod_lt; lia|split; reflexivity].
Qed.
Lemma div4096 c : c / 4096 = c / 64 / 64.
Proof. rewrite N.div_div by lia. reflexivity. Qed.
Lemma div262144 c : c / 262144 = c / 64 / 64 / 64.
Proof. rewrite !N.div_div by lia. reflexivity. Qed.

Lemma some_inj {A} (a b : A) : Some a = Some b -> a = b.
Proof. intros [= H]; exact H. Qed.
Lemma back k b : k <= b -> k + (b - k) = b.
Proof. lia. Qed.
Lemma cons_inj {A} (a b : A) x y : a :: x = b :: y -> a = b /\ x = y.
Proof. intros [= H1 H2]; auto. Qed.
Lemma encode_char_decode c b rest : encode_char c = Some b -> decode (b ++ rest) = option_map (cons c) (decode rest).
Proof.
  unfold encode_char. rewrite div4096, div262144.
  destruct (split64 c) as (q & r & Hc & Hr & -> & ->). destruct (split64 q) as (q2 & r2 & Hc2 & Hr2 & -> & ->).
  destruct (split64 q2) as (q3 & r3 & Hc3 & Hr3 & -> & ->).
  destruct (N.ltb_spec c 128) as [H1|H1]; [|destruct (N.ltb_spec c 2048) as [H2|H2]; [|
    destruct ((55296 <=? c) && (c <? 57344)) eqn:Es; [discriminate|];
    destruct (N.ltb_spec c 65536) as [H3|H3]; [|destruct (N.ltb_spec c 1114112) as [H4|H4]; [|discriminate]]]];
    intros H; apply some_inj in H; subst b; cbn [app decode].
  - destruct (N.ltb_spec c 128); [reflexivity|lia].
  - unfold cont. lt_f (192 + q) 128. rewrite (range_t 128 (128 + r) 192) by lia. cbn [negb]. rewrite range_t by lia.
    replace ((192 + q - 192) * 64 + (128 + r - 128)) with c by lia. reflexivity.
  - unfold cont. lt_f (224 + q2) 128. rewrite (range_t 128 (128 + r2) 192), (range_t 128 (128 + r) 192) by lia. cbn [negb].
    rewrite (range_f 194) by lia. rewrite range_t by lia. cbv zeta.
    replace ((224 + q2 - 224) * 4096 + (128 + r2 - 128) * 64 + (128 + r - 128)) with c by lia. rewrite Es. lt_f c 2048. reflexivity.
  - unfold cont. lt_f (240 + q3) 128.
    rewrite (range_t 128 (128 + r3) 192), (range_t 128 (128 + r2) 192), (range_t 128 (128 + r) 192) by lia. cbn [negb].
    rewrite (range_f 194), (range_f 224), (range_t 240) by lia. cbv zeta.
    replace ((240 + q3 - 240) * 262144 + (128 + r3 - 128) * 4096 + (128 + r2 - 128) * 64 + (128 + r - 128)) with c by lia.
    lt_f c 65536. le_f 1114112 c. reflexivity.
Qed.

Lemma decode_encode s : forall b, encode s = Some b -> decode b = Some s.
Proof.
  induction s as [|c s IH]; intros b; cbn [encode]; [intros [= <-]; reflexivity|].
  destruct (encode_char c) as [a|] eqn:Ec; [|discriminate]. destruct (encode s) as [b'|] eqn:Es; [|discriminate].
  intros [= <-]. rewrite (encode_char_decode _ _ _ Ec), (IH b' eq_refl). reflexivity.
Qed.

(** One step of [decode]: a decodable byte list starts with the encoding of its
    first character. *)
Lemma decode_step bs c s : decode bs = Some (c :: s) -> exists a r, encode_char c = Some a /\ bs = a ++ r /\ decode r = Some s.
Proof.
  destruct bs as [|b0 r0]; cbn [decode]; [discriminate|].
  destruct (N.ltb_spec b0 128) as [H0|H0].
  - destruct (decode r0) as [s'|] eqn:E; cbn [option_map]; [|discriminate]. intros [= -> ->].
    exists [c], r0. unfold encode_char. destruct (N.ltb_spec c 128); [|lia]. auto.
  - destruct r0 as [|b1 r1]; [discriminate|]. unfold cont at 1.
    destruct (negb ((128 <=? b1) && (b1 <? 192))) eqn:E1; [discriminate|].
    assert (Hb1 : 128 <= b1 < 192) by (apply range_true, negb_false_iff; exact E1). clear E1.
    destruct ((194 <=? b0) && (b0 <? 224)) eqn:E2.
    + assert (Hb : 194 <= b0 < 224) by (apply range_true; exact E2). clear E2.
      destruct (decode r1) as [s'|] eqn:E; cbn [option_map]; [|discriminate]. intros H; apply some_inj in H; apply cons_inj in H; destruct H as [Hc Hs]; subst s'.
      exists [b0; b1], r1. split; [|split; [reflexivity|exact E]].
      unfold encode_char. rewrite <- Hc. destruct (join2 (b0 - 192) (b1 - 128)) as [-> ->]; [lia|].
      destruct (N.ltb_spec ((b0 - 192) * 64 + (b1 - 128)) 128); [lia|].
      destruct (N.ltb_spec ((b0 - 192) * 64 + (b1 - 128)) 2048); [|lia].
      rewrite (back 192 b0), (back 128 b1) by lia. reflexivity.
    + destruct r1 as [|b2 r2]; [discriminate|]. unfold cont at 1.
      destruct (negb ((128 <=? b2) && (b2 <? 192))) eqn:E3; [discriminate|].
      assert (Hb2 : 128 <= b2 < 192) by (apply range_true, negb_false_iff; exact E3). clear E3.
      destruct ((224 <=? b0) && (b0 <? 240)) eqn:E4.
      * assert (Hb : 224 <= b0 < 240) by (apply range_true; exact E4). clear E4 E2.
        cbv zeta. remember ((b0 - 224) * 4096 + (b1 - 128) * 64 + (b2 - 128)) as c0 eqn:Ec0.
        destruct (c0 <? 2048) eqn:E5; [discriminate|]. destruct ((55296 <=? c0) && (c0 <? 57344)) eqn:E6; [discriminate|]. cbn [orb].
        destruct (decode r2) as [s'|] eqn:E; cbn [option_map]; [|discriminate]. intros H; apply some_inj in H; apply cons_inj in H; destruct H as [Hc Hs]; subst c s'.
        exists [b0; b1; b2], r2. split; [|split; [reflexivity|exact E]].
        apply N.ltb_ge in E5. unfold encode_char. rewrite div4096.
        assert (Hd : c0 / 64 = (b0 - 224) * 64 + (b1 - 128) /\ c0 mod 64 = b2 - 128).
        { replace c0 with (((b0 - 224) * 64 + (b1 - 128)) * 64 + (b2 - 128)) by lia. apply join2. lia. }
        destruct Hd as [-> ->]. destruct (join2 (b0 - 224) (b1 - 128)) as [-> ->]; [lia|].
        destruct (N.ltb_spec c0 128); [lia|]. destruct (N.ltb_spec c0 2048); [lia|]. rewrite E6.
        destruct (N.ltb_spec c0 65536); [|lia]. rewrite (back 224 b0), (back 128 b1), (back 128 b2) by lia. reflexivity.
      * destruct r2 as [|b3 r3]; [discriminate|]. cbv zeta.
        remember ((b0 - 240) * 262144 + (b1 - 128) * 4096 + (b2 - 128) * 64 + (b3 - 128)) as c0 eqn:Ec0.
        unfold cont. destruct (negb ((128 <=? b3) && (b3 <? 192))) eqn:E5; [discriminate|].
        destruct (negb ((240 <=? b0) && (b0 <? 245))) eqn:E6; [discriminate|].
        destruct (c0 <? 65536) eqn:E7; [discriminate|]. destruct (1114112 <=? c0) eqn:E8; [discriminate|]. cbn [orb].
        assert (Hb3 : 128 <= b3 < 192) by (apply range_true, negb_false_iff; exact E5).
        assert (Hb : 240 <= b0 < 245) by (apply range_true, negb_false_iff; exact E6).
        destruct (decode r3) as [s'|] eqn:E; cbn [option_map]; [|discriminate]. intros H; apply some_inj in H; apply cons_inj in H; destruct H as [Hc Hs]; subst c s'.
        exists [b0; b1; b2; b3], r3. split; [|split; [reflexivity|exact E]].
        apply N.ltb_ge in E7. apply N.leb_gt in E8. unfold encode_char. rewrite div4096, div262144.
        assert (Hd : c0 / 64 = ((b0 - 240) * 64 + (b1 - 128)) * 64 + (b2 - 128) /\ c0 mod 64 = b3 - 128).
        { replace c0 with ((((b0 - 240) * 64 + (b1 - 128)) * 64 + (b2 - 128)) * 64 + (b3 - 128)) by lia. apply join2. lia. }
        destruct Hd as [-> ->]. destruct (join2 ((b0 - 240) * 64 + (b1 - 128)) (b2 - 128)) as [-> ->]; [lia|].
        destruct (join2 (b0 - 240) (b1 - 128)) as [-> ->]; [lia|].
        destruct (N.ltb_spec c0 128); [lia|]. destruct (N.ltb_spec c0 2048); [lia|].
        destruct (N.ltb_spec c0 57344); [lia|]. rewrite andb_false_r.
        destruct (N.ltb_spec c0 65536); [lia|]. destruct (N.ltb_spec c0 1114112); [|lia]. rewrite (back 240 b0), (back 128 b1), (back 128 b2), (back 128 b3) by lia. reflexivity.
Qed.
Lemma decode_nil bs : decode bs = Some [] -> bs = [].
Proof.
  destruct bs as [|b0 r0]; [reflexivity|]. intros H; exfalso; revert H. cbn [decode].
  destruct (b0 <? 128); [destruct (decode r0); discriminate|]. destruct r0 as [|b1 r1]; [discriminate|].
  destruct (negb (cont b1)); [discriminate|]. destruct ((194 <=? b0) && (b0 <? 224)); [destruct (decode r1); discriminate|].
  destruct r1 as [|b2 r2]; [discriminate|]. destruct (negb (cont b2)); [discriminate|].
  destruct ((224 <=? b0) && (b0 <? 240)); cbv zeta.
  - match goal with |- context [if ?b then _ else _] => destruct b end; [discriminate|]. destruct (decode r2); discriminate.
  - destruct r2 as [|b3 r3]; [discriminate|].
    match goal with |- context [if ?b then _ else _] => destruct b end; [discriminate|]. destruct (decode r3); discriminate.
Qed.
Lemma encode_decode s : forall bs, decode bs = Some s -> encode s = Some bs.
Proof.
  induction s as [|c s IH]; intros bs H; [apply decode_nil in H; subst; reflexivity|].
  apply decode_step in H. destruct H as (a & r & Ha & -> & Hr). cbn [encode]. rewrite Ha, (IH _ Hr). reflexivity.
Qed.
Lemma decode_iff bs s : decode bs = Some s <-> encode s = Some bs.
Proof. split; [apply encode_decode|apply decode_encode]. Qed.

Lemma decode_app a x b : decode a = Some x -> decode (a ++ b) = option_map (app x) (decode b).
Proof.
  revert a. induction x as [|c x IH]; intros a H.
  - apply decode_nil in H. subst. cbn. destruct (decode b); reflexivity.
  - apply decode_step in H. destruct H as (a1 & r & Ha & -> & Hr). rewrite <- app_assoc, (encode_char_decode _ _ _ Ha), (IH _ Hr).
    destruct (decode b); reflexivity.
Qed.
Lemma encode_app s t b : encode (s ++ t) = Some b <-> exists x y, encode s = Some x /\ encode t = Some y /\ b = x ++ y.
Proof.
  revert b. induction s as [|c s IH]; intros b; cbn [app encode].
  - split; [intros H; exists [], b; auto|]. intros (x & y & [= <-] & H & ->). exact H.
  - destruct (encode_char c) as [a|]; [|split; [discriminate|intros (x & y & H & _); discriminate]].
    split.
    + destruct (encode (s ++ t)) as [r|] eqn:E; [|discriminate]. intros [= <-].
      destruct (proj1 (IH r) eq_refl) as (x & y & -> & Hy & ->). exists (a ++ x), y. rewrite app_assoc. auto.
    + intros (x & y & H & Hy & ->). destruct (encode s) as [x'|]; [|discriminate]. injection H as <-.
      rewrite (proj2 (IH (x' ++ y))) by eauto. rewrite app_assoc. reflexivity.
Qed.
Lemma decode_ascii b : Forall (fun c => c < 128) b -> decode b = Some b.
Proof.
  induction 1 as [|c b Hc _ IH]; [reflexivity|]. cbn [decode]. destruct (N.ltb_spec c 128); [|lia]. rewrite IH. reflexivity.
Qed.
Lemma encode_ascii b : Forall (fun c => c < 128) b -> encode b = Some b.
Proof. intros H. apply encode_decode, decode_ascii, H. Qed.

Lemma encode_length s : forall b, encode s = Some b -> (length s <= length b)%nat.
Proof.
  induction s as [|c s IH]; intros b; cbn [encode]; [intros [= <-]; cbn; lia|].
  destruct (encode_char c) as [a|] eqn:Ec; [|discriminate]. destruct (encode s) as [b'|]; [|discriminate]. intros [= <-].
  rewrite app_length. specialize (IH _ eq_refl). cbn [length].
  assert (1 <= length a)%nat; [|lia]. unfold encode_char in Ec.
  repeat match type of Ec with context [if ?x then _ else _] => destruct x end; try discriminate; apply some_inj in Ec; subst a; cbn [length]; lia.
Qed.
Lemma encode_length_eq s : forall b, encode s = Some b -> length s = length b -> Forall (fun c => c < 128) s.
Proof.
  induction s as [|c s IH]; intros b; cbn [encode]; [constructor|].
  destruct (encode_char c) as [a|] eqn:Ec; [|discriminate]. destruct (encode s) as [b'|] eqn:E; [|discriminate]. intros [= <-].
  rewrite app_length. cbn [length]. pose proof (encode_length _ _ E) as Hl.
  intros H. assert (Ha : length a = 1%nat /\ length s = length b').
  { assert (1 <= length a)%nat; [|lia]. unfold encode_char in Ec.
    repeat match type of Ec with context [if ?x then _ else _] => destruct x end; try discriminate; apply some_inj in Ec; subst a; cbn [length]; lia. }
  destruct Ha as [Ha Hs]. constructor; [|exact (IH _ eq_refl Hs)].
  unfold encode_char in Ec. destruct (N.ltb_spec c 128); [assumption|].
  repeat match type of Ec with context [if ?x then _ else _] => destruct x end; try discriminate; apply some_inj in Ec; subst a; discriminate.
Qed.
