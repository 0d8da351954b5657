(** Proofs about the relay evaluation rules. *)
From Coq Require Import Bool Arith Lia.
From Verif Require Import PyStr PyRe Model_Net Spec_Net Proofs_Net Proofs_Dns Model_Relays Spec_Relays Proofs_Relays Model_RelayEval Spec_RelayEval.

(** ** Dotted quads *)
Definition digit_chars : list char := map N.of_nat (seq 48 10).
Lemma digit_chars_In c : is_digit c = true -> In c digit_chars.
Proof.
  unfold is_digit. rewrite andb_true_iff, !N.leb_le. intros [H1 H2]. unfold digit_chars. apply in_map_iff.
  exists (N.to_nat c). split; [apply N2Nat.id|]. apply in_seq. lia.
Qed.
Definition short_digits : list str :=
  flat_map (fun a => [a] :: flat_map (fun b => [a; b] :: map (fun c => [a; b; c]) digit_chars) digit_chars) digit_chars.
Lemma short_digits_In s : forallb is_digit s = true -> s <> [] -> length s <= 3 -> In s short_digits.
Proof.
  intros D NE L. destruct s as [|a [|b [|c [|d s]]]]; [congruence| | | |cbn in L; lia]; cbn [forallb] in D; rewrite ?andb_true_iff in D;
    unfold short_digits; apply in_flat_map; exists a; (split; [apply digit_chars_In; tauto|]).
  - left; reflexivity.
  - right. apply in_flat_map. exists b. split; [apply digit_chars_In; tauto|left; reflexivity].
  - right. apply in_flat_map. exists b. split; [apply digit_chars_In; tauto|]. right. apply in_map_iff. exists c. split; [reflexivity|apply digit_chars_In; tauto].
Qed.
Lemma short_digits_ok : forallb (fun s => match parse_octet s with Some n => streqb s (dec n) && N.ltb n 256 | None => true end) short_digits = true.
Proof. vm_compute. reflexivity. Qed.
Lemma digits_val_digits s : forall acc n, digits_val acc s = Some n -> forallb is_digit s = true.
Proof. induction s as [|c s IH]; cbn; [reflexivity|]. intros acc n. destruct (is_digit c); [|discriminate]. intros H. cbn. eauto. Qed.
Lemma parse_octet_dec s n : parse_octet s = Some n -> s = dec n /\ octet n.
Proof.
  intros H. assert (I : In s short_digits).
  { unfold parse_octet, natural in H. destruct s as [|c s]; [discriminate|]. destruct (digits_val 0 (c :: s)) as [m|] eqn:E; [|discriminate].
    apply digits_val_digits in E. apply short_digits_In; [exact E|discriminate|].
    destruct (length (c :: s) <=? 3) eqn:L; [now apply Nat.leb_le in L|discriminate]. }
  pose proof (proj1 (forallb_forall _ _) short_digits_ok s I) as E. cbv beta in E. rewrite H in E.
  apply andb_true_iff in E. destruct E as [E1 E2]. apply streqb_eq in E1. apply N.ltb_lt in E2. split; assumption.
Qed.
Lemma ip4_text_eq a b c d : ip4_text a b c d = dec a ++ 46%N :: dec b ++ 46%N :: dec c ++ 46%N :: dec d.
Proof. reflexivity. Qed.
Definition value4 (a b c d : N) : N := (a * 16777216 + b * 65536 + c * 256 + d)%N.
Lemma parse_ip4_text s n : parse_ip4 s = Some n <-> exists a b c d, octets4 a b c d /\ s = ip4_text a b c d /\ n = value4 a b c d.
Proof.
  split.
  - unfold parse_ip4. intros H. pose proof (join_split_char 46%N s) as J.
    destruct (split_char 46%N s) as [|w [|x [|y [|z [|q r]]]]]; cbn [map] in H; try discriminate; try (destruct (parse_octet w); discriminate);
      try (destruct (parse_octet w), (parse_octet x); discriminate).
    + destruct (parse_octet w), (parse_octet x), (parse_octet y); discriminate.
    + destruct (parse_octet w) as [a|] eqn:A, (parse_octet x) as [b|] eqn:B, (parse_octet y) as [c|] eqn:C, (parse_octet z) as [d|] eqn:D; try discriminate.
      apply parse_octet_dec in A, B, C, D. destruct A as [-> A], B as [-> B], C as [-> C], D as [-> D]. injection H as <-.
      exists a, b, c, d. split; [repeat split; assumption|]. split; [|reflexivity]. rewrite <- J. reflexivity.
    + destruct (parse_octet w), (parse_octet x), (parse_octet y), (parse_octet z); discriminate.
  - intros (a & b & c & d & (A & B & C & D) & -> & ->). rewrite ip4_text_eq. now apply parse_ip4_dots.
Qed.
Lemma front_dot x a s t : ~ In 46%N x -> ~ In 46%N a -> x ++ 46%N :: s = a ++ 46%N :: t -> x = a /\ s = t.
Proof.
  revert a. induction x as [|c x IH]; intros [|e a] Hx Ha E; cbn in *.
  - injection E as ->. split; reflexivity.
  - injection E as <- _. exfalso. apply Ha. left; reflexivity.
  - injection E as -> _. exfalso. apply Hx. left; reflexivity.
  - injection E as <- E. destruct (IH a) as [-> ->]; [tauto|tauto|exact E|split; reflexivity].
Qed.
Lemma ip4_text_inj a b c d a' b' c' d' : ip4_text a b c d = ip4_text a' b' c' d' -> a = a' /\ b = b' /\ c = c' /\ d = d'.
Proof.
  rewrite !ip4_text_eq. intros E. apply front_dot in E; [|apply dec_no_dot..]. destruct E as [E1 E].
  apply front_dot in E; [|apply dec_no_dot..]. destruct E as [E2 E]. apply front_dot in E; [|apply dec_no_dot..]. destruct E as [E3 E4].
  repeat split; now apply dec_injective.
Qed.
Lemma starts1 x a t : startswith (dec x ++ [46%N]) (dec a ++ 46%N :: t) = true <-> x = a.
Proof.
  rewrite startswith_app. split.
  - intros [u E]. rewrite <- app_assoc in E. cbn [app] in E. symmetry in E. apply front_dot in E; [|apply dec_no_dot..]. destruct E as [E _]. now apply dec_injective.
  - intros ->. exists t. now rewrite <- app_assoc.
Qed.
Lemma starts2 x y a b t : startswith (dec x ++ 46%N :: dec y ++ [46%N]) (dec a ++ 46%N :: dec b ++ 46%N :: t) = true <-> x = a /\ y = b.
Proof.
  rewrite startswith_app. split.
  - intros [u E]. rewrite <- app_assoc in E. cbn [app] in E. rewrite <- app_assoc in E. cbn [app] in E. symmetry in E.
    apply front_dot in E; [|apply dec_no_dot..]. destruct E as [E1 E]. apply front_dot in E; [|apply dec_no_dot..]. destruct E as [E2 _].
    split; now apply dec_injective.
  - intros [-> ->]. exists t. rewrite <- app_assoc. cbn [app]. now rewrite <- app_assoc.
Qed.
Lemma cgn_In b : In (dec b) cgn <-> (64 <= b <= 127)%N.
Proof.
  unfold cgn. rewrite in_map_iff. split.
  - intros (k & E & I). apply dec_injective in E. apply in_seq in I. lia.
  - intros H. exists (N.to_nat b). rewrite N2Nat.id. split; [reflexivity|]. apply in_seq. lia.
Qed.
Lemma private4_text a b c d : private4 (ip4_text a b c d) = true <-> private_range' a b.
Proof.
  unfold private4, private_range'. rewrite ip4_text_eq. rewrite !orb_true_iff, existsb_exists.
  change ($"10.") with (dec 10 ++ [46%N]). change ($"127.") with (dec 127 ++ [46%N]).
  change ($"169.254.") with (dec 169 ++ 46%N :: dec 254 ++ [46%N]). change ($"192.168.") with (dec 192 ++ 46%N :: dec 168 ++ [46%N]).
  rewrite !starts1, !starts2.
  assert (C : (exists x, In x cgn /\ startswith ($"100." ++ x ++ $".") (dec a ++ 46%N :: dec b ++ 46%N :: dec c ++ 46%N :: dec d) = true) <-> (a = 100 /\ 64 <= b <= 127)%N).
  { split.
    - intros (x & I & S). unfold cgn in I. apply in_map_iff in I. destruct I as (k & <- & I). apply in_seq in I.
      change ($"100." ++ dec (N.of_nat k) ++ $".") with (dec 100 ++ 46%N :: dec (N.of_nat k) ++ [46%N]) in S. apply starts2 in S. lia.
    - intros [-> H]. exists (dec b). split; [now apply cgn_In|].
      change ($"100." ++ dec b ++ $".") with (dec 100 ++ 46%N :: dec b ++ [46%N]). apply starts2. split; reflexivity. }
  rewrite C. intuition (subst; auto).
Qed.
Lemma ip4_text_chars a b c d x : octets4 a b c d -> In x (ip4_text a b c d) -> is_digit x = true \/ x = 46%N.
Proof.
  intros (A & B & C & D). destruct (dec_octet a A) as (_ & A' & _), (dec_octet b B) as (_ & B' & _), (dec_octet c C) as (_ & C' & _), (dec_octet d D) as (_ & D' & _).
  rewrite forallb_forall in A', B', C', D'. rewrite ip4_text_eq, in_app_iff. cbn [In]. rewrite in_app_iff. cbn [In]. rewrite in_app_iff. cbn [In].
  intuition auto.
Qed.
Lemma ip4_text_nonempty a b c d : octets4 a b c d -> nonempty (ip4_text a b c d) = true.
Proof. intros (A & _). destruct (dec_octet a A) as (_ & _ & _ & N). rewrite ip4_text_eq. destruct (dec a); [congruence|reflexivity]. Qed.

Section P.
Variable private6 : str -> bool.
Hypothesis colon : forall s, ~ In 58%N s -> private6 s = false.

Lemma ip_private_text a b c d : octets4 a b c d -> (ip_private private6 (ip4_text a b c d) = true <-> private_range' a b).
Proof.
  intros O. unfold ip_private. rewrite colon, orb_false_r; [apply private4_text|].
  intros I. destruct (ip4_text_chars _ _ _ _ _ O I) as [H|H]; discriminate.
Qed.
Lemma check_helo_iff r : check_helo private6 r = true <-> exists a b c d, numeric_helo r a b c d.
Proof.
  unfold check_helo, numeric_helo. split.
  - destruct (parse_ip4 (rl_helo r)) as [n|] eqn:E; [|discriminate]. apply parse_ip4_text in E. destruct E as (a & b & c & d & O & E & _).
    rewrite andb_true_iff, negb_true_iff. intros [_ H]. exists a, b, c, d. split; [exact O|]. split; [exact E|].
    intros P. apply (ip_private_text a b c d O) in P. rewrite E in H. congruence.
  - intros (a & b & c & d & O & E & P). destruct (parse_ip4 (rl_helo r)) as [n|] eqn:Q.
    + rewrite E. rewrite ip4_text_nonempty by exact O. cbn [andb]. apply negb_true_iff. destruct (ip_private private6 (ip4_text a b c d)) eqn:I; [|reflexivity].
      apply ip_private_text in I; [contradiction|exact O].
    + assert (parse_ip4 (rl_helo r) = Some (value4 a b c d)) by (apply parse_ip4_text; exists a, b, c, d; auto). congruence.
Qed.
Lemma numeric_helo_iff rs : check_for_numeric_helo private6 rs = true <-> exists r a b c d, In r rs /\ numeric_helo r a b c d.
Proof.
  unfold check_for_numeric_helo. rewrite existsb_exists. split.
  - intros (r & I & H). apply check_helo_iff in H. destruct H as (a & b & c & d & H). exists r, a, b, c, d; auto.
  - intros (r & a & b & c & d & I & H). exists r. split; [exact I|]. apply check_helo_iff. exists a, b, c, d; exact H.
Qed.

(** ** Networks *)
Lemma parse_net4_plain s : ~ In 47%N s -> parse_net4 s = option_map (fun a => Some (mkNet V4 a 32)) (parse_ip4 s).
Proof. intros H. unfold parse_net4. rewrite split_no by exact H. reflexivity. Qed.
Lemma supernet_text k s : ~ In 47%N s -> (k <= 32)%N ->
  supernet k s = option_map (fun v => mkNet V4 (v / 2 ^ k * 2 ^ k) (32 - k)) (parse_ip4 s).
Proof.
  intros H K. unfold supernet. rewrite parse_net4_plain by exact H. destruct (parse_ip4 s) as [v|]; [|reflexivity]. cbn [option_map n_len n_base].
  change (32 =? 0)%N with false. cbv iota. replace (N.ltb 32 k) with false by (symmetry; apply N.ltb_ge; exact K).
  cbv zeta. replace (32 - (32 - k))%N with k by lia. reflexivity.
Qed.
Lemma net_eqb_same x y l : net_eqb (mkNet V4 (x * y) l) (mkNet V4 (x * y) l) = true.
Proof. unfold net_eqb. cbn. now rewrite !N.eqb_refl. Qed.
Lemma same24 a b c d a' b' c' d' : octets4 a b c d -> octets4 a' b' c' d' ->
  net_eqb (mkNet V4 (value4 a b c d / 2 ^ 8 * 2 ^ 8) (32 - 8)) (mkNet V4 (value4 a' b' c' d' / 2 ^ 8 * 2 ^ 8) (32 - 8)) = true <-> a = a' /\ b = b' /\ c = c'.
Proof.
  intros (A & B & C & D) (A' & B' & C' & D'). unfold net_eqb. cbn [n_base n_len]. rewrite N.eqb_refl, andb_true_r, N.eqb_eq.
  change (2 ^ 8)%N with 256%N. destruct (div_octets a b c d A B C D) as (_ & _ & E), (div_octets a' b' c' d' A' B' C' D') as (_ & _ & E').
  unfold value4. rewrite E, E'. unfold octet in *. split; [|intros (-> & -> & ->); reflexivity]. lia.
Qed.
Lemma same16 a b c d a' b' c' d' : octets4 a b c d -> octets4 a' b' c' d' ->
  net_eqb (mkNet V4 (value4 a b c d / 2 ^ 16 * 2 ^ 16) (32 - 16)) (mkNet V4 (value4 a' b' c' d' / 2 ^ 16 * 2 ^ 16) (32 - 16)) = true <-> a = a' /\ b = b'.
Proof.
  intros (A & B & C & D) (A' & B' & C' & D'). unfold net_eqb. cbn [n_base n_len]. rewrite N.eqb_refl, andb_true_r, N.eqb_eq.
  change (2 ^ 16)%N with 65536%N. destruct (div_octets a b c d A B C D) as (_ & E & _), (div_octets a' b' c' d' A' B' C' D') as (_ & E' & _).
  unfold value4. rewrite E, E'. unfold octet in *. split; [|intros (-> & ->); reflexivity]. lia.
Qed.
Lemma text_no_slash a b c d : octets4 a b c d -> ~ In 47%N (ip4_text a b c d).
Proof. intros O I. destruct (ip4_text_chars _ _ _ _ _ O I) as [H|H]; discriminate. Qed.
Lemma helo_mismatch_iff rs : (forall r, In r rs -> ~ In 47%N (rl_ip r)) ->
  helo_ip_mismatch private6 rs = true <->
  exists r a b c d a' b' c' d', In r rs /\ numeric_helo r a b c d /\ octets4 a' b' c' d' /\ rl_ip r = ip4_text a' b' c' d' /\ ~ (a = a' /\ b = b' /\ c = c').
Proof.
  intros NS. unfold helo_ip_mismatch. rewrite existsb_exists. split.
  - intros (r & I & H). apply andb_true_iff in H. destruct H as [H1 H2]. apply check_helo_iff in H1. destruct H1 as (a & b & c & d & O & E & P).
    rewrite E in H2. rewrite supernet_text in H2 by (try lia; now apply text_no_slash). rewrite supernet_text in H2 by (try lia; now apply NS).
    assert (Q : parse_ip4 (ip4_text a b c d) = Some (value4 a b c d)) by (apply parse_ip4_text; exists a, b, c, d; auto). rewrite Q in H2. cbn [option_map] in H2.
    destruct (parse_ip4 (rl_ip r)) as [v|] eqn:V; [|discriminate]. apply parse_ip4_text in V. destruct V as (a' & b' & c' & d' & O' & E' & ->). cbn [option_map] in H2.
    apply andb_true_iff in H2. destruct H2 as [_ H2]. exists r, a, b, c, d, a', b', c', d'. repeat (split; [first [assumption | split; [exact O|split; [exact E|exact P]]]|]).
    intros S. apply (same24 _ _ _ _ _ _ _ _ O O') in S. rewrite S in H2. discriminate.
  - intros (r & a & b & c & d & a' & b' & c' & d' & I & H & O' & E' & N). exists r. split; [exact I|]. apply andb_true_iff. split; [apply check_helo_iff; exists a, b, c, d; exact H|].
    destruct H as (O & E & P). rewrite E, E'. rewrite !supernet_text by (try lia; now apply text_no_slash).
    assert (Q : parse_ip4 (ip4_text a b c d) = Some (value4 a b c d)) by (apply parse_ip4_text; exists a, b, c, d; auto).
    assert (Q' : parse_ip4 (ip4_text a' b' c' d') = Some (value4 a' b' c' d')) by (apply parse_ip4_text; exists a', b', c', d'; auto).
    rewrite Q, Q'. cbn [option_map]. apply andb_true_iff. rewrite !negb_true_iff. split.
    + apply streqb_neq. intros T. apply ip4_text_inj in T. tauto.
    + match goal with |- ?x = false => destruct x eqn:S end; [|reflexivity]. apply (same24 _ _ _ _ _ _ _ _ O O') in S. contradiction.
Qed.

(** ** Names of providers *)
Lemma chop_nl_id s : ~ In 10%N s -> chop_nl s = s.
Proof.
  unfold chop_nl. intros H. destruct (rev s) as [|c r] eqn:E; [reflexivity|].
  assert (I : In c s) by (apply in_rev; rewrite E; left; reflexivity). destruct (N.eqb_spec c 10) as [->|]; [contradiction|].
  destruct c as [|p]; [reflexivity|]. do 4 (destruct p as [p|p|]; try reflexivity). congruence.
Qed.
Lemma big_isp_iff h : ~ In 10%N h -> (big_isp h = true <-> provider h).
Proof.
  intros H. unfold big_isp. rewrite chop_nl_id by exact H. cbv zeta. rewrite (proj2 (mem_char_notIn 10%N h) H). cbn [negb andb].
  rewrite existsb_exists. unfold provider. split; intros (n & I & E); exists n; (split; [exact I|]).
  - apply orb_true_iff in E. destruct E as [E|E]; [left; now apply streqb_eq|right]. apply endswith_app in E. destruct E as [t E]. now exists t.
  - apply orb_true_iff. destruct E as [->|[t ->]]; [left; apply streqb_refl|right]. apply endswith_app. now exists t.
Qed.
Notation skipped := (passed_over (ip_private private6)).
Lemma dotcom_skipped r h : skipped r -> dotcom_step private6 h r = h.
Proof. unfold dotcom_step. intros [->| ->]; [reflexivity|]. destruct (ip_private private6 (rl_ip r)); reflexivity. Qed.
Lemma dotcom_skip l h : (forall r, In r l -> skipped r) -> fold_left (dotcom_step private6) l h = h.
Proof.
  induction l as [|r l IH] in h |- *; intros H; [reflexivity|]. cbn [fold_left]. rewrite dotcom_skipped by (apply H; left; reflexivity).
  apply IH. intros q Q. apply H. right; exact Q.
Qed.
Lemma skipped_dec r : skipped r \/ ~ skipped r.
Proof.
  unfold passed_over. destruct (ip_private private6 (rl_ip r)); [left; left; reflexivity|].
  destruct (rl_helo r); [left; right; reflexivity|right; intros [H|H]; discriminate].
Qed.
Lemma dotcom_iff rs : (forall r, In r rs -> ~ In 10%N (rl_helo r)) ->
  check_for_no_rdns_dotcom_helo private6 rs = true <->
  exists l r l', rs = l ++ r :: l' /\ ~ skipped r /\ provider (rl_helo r) /\ rl_rdns r = [] /\ forall q, In q l' -> skipped q.
Proof.
  intros NL. unfold check_for_no_rdns_dotcom_helo. split.
  - induction rs as [|r rs IH] using rev_ind; [discriminate|]. rewrite fold_left_app. cbn [fold_left]. destruct (skipped_dec r) as [S|S].
    + rewrite dotcom_skipped by exact S. intros H. destruct IH as (l & q & l' & -> & Q & P & R & F); [intros q Q; apply NL, in_app_iff; left; exact Q|exact H|].
      exists l, q, (l' ++ [r]). split; [now rewrite <- app_assoc|]. repeat (split; [assumption|]).
      intros x X. apply in_app_iff in X. destruct X as [X|[<-|[]]]; auto.
    + unfold dotcom_step. destruct (ip_private private6 (rl_ip r)) eqn:E; [exfalso; apply S; left; exact E|].
      destruct (nonempty (rl_helo r)) eqn:E'; [|exfalso; apply S; right; destruct (rl_helo r); [reflexivity|discriminate]].
      cbn [negb]. intros H. apply andb_true_iff in H. destruct H as [H1 H2]. exists rs, r, []. split; [reflexivity|]. split; [exact S|].
      split; [apply big_isp_iff; [apply NL, in_app_iff; right; left; reflexivity|exact H1]|]. split; [destruct (rl_rdns r); [reflexivity|discriminate]|intros q []].
  - intros (l & r & l' & -> & S & P & R & F). rewrite fold_left_app. cbn [fold_left]. rewrite dotcom_skip by exact F.
    unfold dotcom_step. destruct (ip_private private6 (rl_ip r)) eqn:E; [exfalso; apply S; left; exact E|].
    destruct (nonempty (rl_helo r)) eqn:E'; [|exfalso; apply S; right; destruct (rl_helo r); [reflexivity|discriminate]].
    cbn [negb]. rewrite R. cbn [nonempty negb]. rewrite andb_true_r. apply big_isp_iff; [apply NL, in_app_iff; right; left; reflexivity|exact P].
Qed.

(** ** Domains *)
Lemma generic_end_iff t : long_tld t = true <-> generic_end t.
Proof.
  unfold long_tld, generic_end. rewrite !orb_true_iff, !startswith_app. split.
  - intros [[[H|[r ->]]|[r ->]]|[r ->]]; [|right; exists r; auto..].
    left. destruct t as [|a [|b [|c t]]]; try discriminate. rewrite !andb_true_iff, !negb_true_iff in H. cbn [length firstn In]. split; [lia|].
    intros x [<-|[<-|[<-|[]]]]; tauto.
  - intros [[L H]|[r [->|[->| ->]]]]; [|left; left; right; eexists; reflexivity|left; right; eexists; reflexivity|right; eexists; reflexivity].
    left; left; left. destruct t as [|a [|b [|c t]]]; cbn in L; try lia. cbn [firstn In] in H. rewrite (H a), (H b), (H c) by auto. reflexivity.
Qed.
Lemma letter_iff c : is_letter c = true <-> (65 <= c <= 90)%N \/ (97 <= c <= 122)%N.
Proof. unfold is_letter. rewrite orb_true_iff, !andb_true_iff, !N.leb_le. reflexivity. Qed.
Lemma starts_letter_iff h : starts_with_letter h <-> match h with c :: _ => is_letter c = true | [] => False end.
Proof.
  unfold starts_with_letter. destruct h as [|c r]; [split; [intros (c & r & E & _); discriminate|intros []]|]. rewrite letter_iff. split.
  - intros (c' & r' & E & H). injection E as -> ->. exact H.
  - intros H. exists c, r. auto.
Qed.
Lemma last_n_app {A} (pre l : list A) : last_n (length l) (pre ++ l) = l.
Proof. unfold last_n. rewrite app_length. replace (length pre + length l - length l) with (length pre) by lia. rewrite skipn_app, skipn_all, Nat.sub_diag. reflexivity. Qed.
Lemma last_n2 {A} (pre : list A) w t : last_n 2 (pre ++ [w; t]) = [w; t].
Proof. exact (last_n_app pre [w; t]). Qed.
Lemma last_n3 {A} (pre : list A) v w t : last_n 3 (pre ++ [v; w; t]) = [v; w; t].
Proof. exact (last_n_app pre [v; w; t]). Qed.
Lemma last_app2 (pre : list str) w t : last (pre ++ [w; t]) [] = t.
Proof. change [w; t] with ([w] ++ [t]). rewrite app_assoc. apply last_last. Qed.
Lemma domain_letter h : starts_with_letter h -> hostname_to_domain h =
  (if (1 <? length (split_char 46%N h)) && long_tld (last (split_char 46%N h) []) then join ($".") (last_n 2 (split_char 46%N h))
   else if 2 <? length (split_char 46%N h) then join ($".") (last_n 3 (split_char 46%N h)) else h).
Proof. intros H. apply starts_letter_iff in H. destruct h as [|c r]; [destruct H|]. unfold hostname_to_domain. rewrite H. reflexivity. Qed.
Lemma domain_no_letter h : ~ starts_with_letter h -> hostname_to_domain h = h.
Proof. rewrite starts_letter_iff. destruct h as [|c r]; [reflexivity|]. unfold hostname_to_domain. destruct (is_letter c); [intros H; destruct (H eq_refl)|reflexivity]. Qed.
Lemma split_labels l : l <> [] -> (forall x, In x l -> label x) -> split_char 46%N (join ($".") l) = l.
Proof. intros NE H. apply split_char_join; [exact NE|]. apply Forall_forall. exact H. Qed.
Lemma long_false t : ~ generic_end t -> long_tld t = false.
Proof. intros H. destruct (long_tld t) eqn:E; [|reflexivity]. apply generic_end_iff in E. contradiction. Qed.
Lemma reduced_fun h d : reduced h d -> hostname_to_domain h = d.
Proof.
  intros [[H ->]|[(H & pre & w & t & L & G & E & ->)|[(H & pre & v & w & t & L & G & E & ->)|(H & D & ->)]]].
  - now apply domain_no_letter.
  - rewrite domain_letter by exact H. rewrite E, split_labels by (first [exact L|destruct pre; discriminate]).
    rewrite last_app2. rewrite (proj2 (generic_end_iff t) G). rewrite app_length. cbn [length].
    replace (1 <? length pre + 2) with true by (symmetry; apply Nat.ltb_lt; lia). cbn [andb]. rewrite last_n2. reflexivity.
  - rewrite domain_letter by exact H. rewrite E, split_labels by (first [exact L|destruct pre; discriminate]).
    change [v; w; t] with ([v] ++ [w; t]). rewrite app_assoc, last_app2, (long_false t G), andb_false_r. rewrite <- app_assoc. cbn [app].
    rewrite app_length. cbn [length]. replace (2 <? length pre + 3) with true by (symmetry; apply Nat.ltb_lt; lia). rewrite last_n3. reflexivity.
  - rewrite domain_letter by exact H. destruct D as [D|(w & t & W & T & G & ->)].
    + rewrite split_no by exact D. reflexivity.
    + assert (S : split_char 46%N (w ++ $"." ++ t) = [w; t]) by (change (w ++ $"." ++ t) with (w ++ 46%N :: t); rewrite split_at by exact W; now rewrite split_no by exact T).
      rewrite S. cbn [length last Nat.ltb Nat.leb]. rewrite (long_false t G). reflexivity.
Qed.
Lemma three_last {A} (l : list A) : l = [] \/ (exists x, l = [x]) \/ (exists x y, l = [x; y]) \/ exists pre x y z, l = pre ++ [x; y; z].
Proof.
  destruct l as [|z l] using rev_ind; [left; reflexivity|right]. clear IHl. destruct l as [|y l] using rev_ind; [left; exists z; reflexivity|right]. clear IHl.
  destruct l as [|x l] using rev_ind; [left; exists y, z; reflexivity|right]. exists l, x, y, z. rewrite <- !app_assoc. reflexivity.
Qed.
Lemma reduced_ex h : reduced h (hostname_to_domain h).
Proof.
  destruct h as [|c r].
  { left. split; [rewrite starts_letter_iff; auto|reflexivity]. }
  destruct (is_letter c) eqn:LC.
  2: { left. assert (N : ~ starts_with_letter (c :: r)) by (rewrite starts_letter_iff; congruence). split; [exact N|now apply domain_no_letter]. }
  assert (H : starts_with_letter (c :: r)) by (apply starts_letter_iff; exact LC). rewrite domain_letter by exact H.
  remember (c :: r) as h eqn:Eh. clear Eh LC c r. pose proof (join_split_char 46%N h) as J. pose proof (split_char_no_sep 46%N h) as NS.
  destruct (three_last (split_char 46%N h)) as [E|[[x E]|[(x & y & E)|(pre & x & y & z & E)]]]; rewrite E in *.
  - exfalso. now apply (split_char_nonempty 46%N h).
  - cbn [length Nat.ltb Nat.leb andb]. right; right; right. split; [exact H|]. split; [left|reflexivity]. cbn in J. subst x. apply NS. left; reflexivity.
  - cbn [length last Nat.ltb Nat.leb andb]. destruct (long_tld y) eqn:G.
    + right; left. split; [exact H|]. exists [], x, y. split; [intros w W; now apply NS|]. split; [now apply generic_end_iff|]. split; [symmetry; exact J|reflexivity].
    + right; right; right. split; [exact H|]. split; [right|reflexivity]. exists x, y. split; [apply NS; left; reflexivity|]. split; [apply NS; right; left; reflexivity|].
      split; [intros Q; apply generic_end_iff in Q; congruence|symmetry; exact J].
  - rewrite app_length. cbn [length]. replace (1 <? length pre + 3) with true by (symmetry; apply Nat.ltb_lt; lia).
    replace (2 <? length pre + 3) with true by (symmetry; apply Nat.ltb_lt; lia). cbn [andb].
    replace (last (pre ++ [x; y; z]) []) with z by (change [x; y; z] with ([x] ++ [y; z]); rewrite app_assoc, last_app2; reflexivity).
    destruct (long_tld z) eqn:G.
    + right; left. split; [exact H|]. exists (pre ++ [x]), y, z. rewrite <- app_assoc. cbn [app]. split; [intros w W; now apply NS|]. split; [now apply generic_end_iff|]. split; [symmetry; exact J|].
      change [x; y; z] with ([x] ++ [y; z]). rewrite app_assoc. rewrite last_n2. reflexivity.
    + right; right; left. split; [exact H|]. exists pre, x, y, z. split; [intros w W; now apply NS|]. split; [intros Q; apply generic_end_iff in Q; congruence|].
      split; [symmetry; exact J|]. rewrite last_n3. reflexivity.
Qed.
Lemma reduced_iff h d : reduced h d <-> d = hostname_to_domain h.
Proof. split; [intros H; symmetry; now apply reduced_fun|intros ->; apply reduced_ex]. Qed.

Lemma word_iff c : is_alnum c = true <-> word_char c.
Proof. unfold is_alnum, word_char, is_digit. rewrite !orb_true_iff, !andb_true_iff, !N.leb_le, N.eqb_eq. tauto. Qed.
Lemma hostname_iff h : ~ In 10%N h -> (hostname_re h = true <-> plain_host h).
Proof.
  intros NL. unfold hostname_re, plain_host. rewrite chop_nl_id by exact NL. split.
  - destruct (rsplit1 46%N h) as [[[|c p] t]|] eqn:E; try discriminate. apply rsplit1_Some in E. destruct E as [-> N].
    rewrite !andb_true_iff, !forallb_forall. intros [[[[H1 H2] H3] H4] H5]. exists c, p, t. split; [reflexivity|]. split; [now apply word_iff|].
    split; [intros ->; discriminate|]. split; [|split; [intros ->; discriminate|intros x X; apply word_iff; now apply H5]].
    intros x X. specialize (H3 x X). rewrite !orb_true_iff, !N.eqb_eq, word_iff in H3. tauto.
  - intros (c & p & t & -> & C & P & HP & T & HT). assert (E : rsplit1 46%N (c :: p ++ $"." ++ t) = Some (c :: p, t)).
    { apply rsplit1_Some. split; [reflexivity|]. intros I. specialize (HT _ I). unfold word_char in HT. lia. }
    rewrite E. rewrite (proj2 (word_iff c) C). cbn [andb]. rewrite !andb_true_iff, !forallb_forall. repeat split.
    + destruct p; [congruence|reflexivity].
    + intros x X. rewrite !orb_true_iff, !N.eqb_eq, word_iff. specialize (HP x X). tauto.
    + destruct t; [congruence|reflexivity].
    + intros x X. apply word_iff. now apply HT.
Qed.
Lemma domain_sub h x : In x (hostname_to_domain h) -> In x h.
Proof.
  destruct (reduced_ex h) as [[_ ->]|[(_ & pre & w & t & _ & _ & E & ->)|[(_ & pre & v & w & t & _ & _ & E & ->)|(_ & _ & ->)]]]; auto.
  - intros I. rewrite E. clear -I. induction pre as [|p pre IH]; [exact I|]. change (In x (join [46%N] (p :: pre ++ [w; t]))).
    rewrite join_cons_sep by (destruct pre; discriminate). apply in_app_iff. right; right; exact IH.
  - intros I. rewrite E. clear -I. induction pre as [|p pre IH]; [exact I|]. change (In x (join [46%N] (p :: pre ++ [v; w; t]))).
    rewrite join_cons_sep by (destruct pre; discriminate). apply in_app_iff. right; right; exact IH.
Qed.

(** ** Trails *)
Definition usable_by (r : relay) : bool := nonempty (hostname_to_domain (rl_by r)) && hostname_re (hostname_to_domain (rl_by r)).
Definition broken_b (p r : relay) : bool := usable_by r && from_mismatch p r.
Lemma plain_nonempty h : plain_host h -> nonempty h = true.
Proof. intros (c & p & t & -> & _). reflexivity. Qed.
Lemma usable_iff r : one_lined r -> (usable_by r = true <-> exists d, reduced (rl_by r) d /\ plain_host d).
Proof.
  intros [_ N]. assert (N' : ~ In 10%N (hostname_to_domain (rl_by r))) by (intros I; apply N; now apply domain_sub).
  unfold usable_by. rewrite andb_true_iff, hostname_iff by exact N'. split.
  - intros [_ H]. exists (hostname_to_domain (rl_by r)). split; [apply reduced_ex|exact H].
  - intros (d & R & P). apply reduced_iff in R. subst d. split; [now apply plain_nonempty|exact P].
Qed.
Lemma broken_iff p r : one_lined p -> one_lined r -> (broken_b p r = true <-> broken p r).
Proof.
  intros Np Nr. assert (N' : ~ In 10%N (hostname_to_domain (rl_by r))) by (intros I; apply (proj2 Nr); now apply domain_sub).
  unfold broken_b, from_mismatch, broken, usable_by. cbv zeta.
  rewrite !andb_true_iff, !negb_true_iff, !hostname_iff by (first [exact N'|exact (proj1 Np)]). unfold helo_forgery_whitelisted.
  rewrite andb_false_iff, !streqb_neq. split.
  - intros [[_ H1] [[H2 H3] H4]]. exists (hostname_to_domain (rl_by r)). split; [apply reduced_ex|]. repeat (split; [assumption|]). tauto.
  - intros (d & R & H1 & H2 & H3 & H4). apply reduced_iff in R. subst d. split; [split; [now apply plain_nonempty|exact H1]|]. split; [split; assumption|].
    destruct (str_eq_dec (hostname_to_domain (rl_by r)) ($"msn.com")); [right; tauto|left; assumption].
Qed.
Definition b2n (b : bool) : nat := if b then 1 else 0.
Fixpoint breaks (prev : option relay) (rs : list relay) : nat :=
  match rs with
  | [] => 0
  | r :: rest => match prev with Some p => b2n (broken_b p r) | None => 0 end + breaks (Some r) rest
  end.
Definition helo_broken (r : relay) : bool := usable_by r && ip_helo_mismatch private6 r.
Fixpoint helo_breaks (rs : list relay) : nat :=
  match rs with [] => 0 | r :: rest => b2n (helo_broken r) + helo_breaks rest end.
Lemma forged_loop_counts rs : forall prev mf mi,
  forged_loop private6 prev rs (mf, mi) = (mf + breaks prev rs, mi + helo_breaks rs).
Proof.
  induction rs as [|r rs IH]; intros prev mf mi; [cbn; f_equal; lia|]. cbn [forged_loop breaks helo_breaks]. cbv zeta.
  unfold broken_b, helo_broken. unfold usable_by at 1 2. rewrite <- negb_andb. fold (usable_by r). destruct (usable_by r); cbn [negb andb].
  - rewrite IH. destruct prev as [p|]; [destruct (from_mismatch p r)|]; destruct (ip_helo_mismatch private6 r); cbn [b2n]; f_equal; lia.
  - rewrite IH. destruct prev; cbn [b2n]; f_equal; lia.
Qed.
Lemma forged_counts rs : forged_received private6 rs = (breaks None rs, helo_breaks rs).
Proof. apply forged_loop_counts. Qed.

Lemma breaks_pos p rs : 1 <= breaks (Some p) rs <-> exists j a b, nth_error (p :: rs) j = Some a /\ nth_error (p :: rs) (S j) = Some b /\ broken_b a b = true.
Proof.
  induction rs as [|r rs IH] in p |- *; cbn [breaks].
  - split; [lia|]. intros (j & a & b & _ & E & _). destruct j; discriminate.
  - split.
    + intros H. destruct (broken_b p r) eqn:B.
      * exists 0, p, r. auto.
      * cbn [b2n] in H. apply IH in H. destruct H as (j & a & b & H1 & H2 & H3). exists (S j), a, b. auto.
    + intros (j & a & b & H1 & H2 & H3). destruct j as [|j].
      * cbn in H1, H2. injection H1 as <-. injection H2 as <-. rewrite H3. cbn. lia.
      * assert (1 <= breaks (Some r) rs) by (apply IH; exists j, a, b; auto). lia.
Qed.
Lemma breaks_two p rs : 2 <= breaks (Some p) rs <->
  exists i j a b a' b', i < j /\ nth_error (p :: rs) i = Some a /\ nth_error (p :: rs) (S i) = Some b /\ broken_b a b = true /\
    nth_error (p :: rs) j = Some a' /\ nth_error (p :: rs) (S j) = Some b' /\ broken_b a' b' = true.
Proof.
  induction rs as [|r rs IH] in p |- *; cbn [breaks].
  - split; [lia|]. intros (i & j & a & b & a' & b' & _ & _ & E & _). destruct i; discriminate.
  - split.
    + intros H. destruct (broken_b p r) eqn:B.
      * cbn [b2n] in H. assert (K : 1 <= breaks (Some r) rs) by lia. apply breaks_pos in K. destruct K as (j & a & b & H1 & H2 & H3).
        exists 0, (S j), p, r, a, b. repeat split; auto; lia.
      * cbn [b2n] in H. apply IH in H. destruct H as (i & j & a & b & a' & b' & L & H). exists (S i), (S j), a, b, a', b'. split; [lia|]. exact H.
    + intros (i & j & a & b & a' & b' & L & H1 & H2 & H3 & H4 & H5 & H6). destruct j as [|j]; [lia|].
      destruct i as [|i].
      * cbn in H1, H2. injection H1 as <-. injection H2 as <-. rewrite H3. assert (1 <= breaks (Some r) rs) by (apply breaks_pos; exists j, a', b'; auto). cbn [b2n]. lia.
      * assert (2 <= breaks (Some r) rs) by (apply IH; exists i, j, a, b, a', b'; repeat split; auto; lia). lia.
Qed.
Lemma breaks_start rs : breaks None rs = match rs with [] => 0 | r :: rest => breaks (Some r) rest end.
Proof. destruct rs; reflexivity. Qed.
Lemma trail_fresh rs : (forall r, In r rs -> one_lined r) ->
  (fst (check_for_forged_received_trail private6 rs fstate0) = true <-> two_broken rs).
Proof.
  intros N. unfold check_for_forged_received_trail, settle, fstate0. cbn [fst]. rewrite forged_counts. cbn [fst]. rewrite Nat.ltb_lt, breaks_start.
  unfold two_broken. assert (Q : forall i x, nth_error rs i = Some x -> one_lined x) by (intros i x E; apply N; eapply nth_error_In; exact E).
  destruct rs as [|r rs].
  - split; [lia|]. intros (i & j & p & q & p' & q' & _ & E & _). destruct i; discriminate.
  - change (1 < breaks (Some r) rs) with (2 <= breaks (Some r) rs). rewrite breaks_two.
    split; intros (i & j & a & b & a' & b' & L & H1 & H2 & H3 & H4 & H5 & H6); exists i, j, a, b, a', b'; repeat (split; [assumption|]);
      (split; [apply broken_iff; eauto|]); repeat (split; [assumption|]); apply broken_iff; eauto.
Qed.
Lemma helo_breaks_pos rs : 0 < helo_breaks rs <-> exists r, In r rs /\ helo_broken r = true.
Proof.
  induction rs as [|r rs IH]; cbn [helo_breaks In]; [split; [lia|intros (x & [] & _)]|]. split.
  - intros H. destruct (helo_broken r) eqn:B; [exists r; auto|]. cbn [b2n] in H. apply IH in H. destruct H as (x & X & E). exists x; auto.
  - intros (x & [<-|X] & E); [rewrite E; cbn; lia|]. assert (0 < helo_breaks rs) by (apply IH; exists x; auto). lia.
Qed.
Lemma domain_quad h n : parse_ip4 (hostname_to_domain h) = Some n -> hostname_to_domain h = h.
Proof.
  intros P. destruct (reduced_ex h) as [[_ E]|[(_ & pre & w & t & L & _ & E & D)|[(_ & pre & v & w & t & L & _ & E & D)|(_ & _ & E)]]]; auto; exfalso; rewrite D in P.
  - unfold parse_ip4 in P. change (w ++ $"." ++ t) with (w ++ 46%N :: t) in P.
    rewrite split_at, split_no in P by (apply L, in_app_iff; right; cbn; auto). cbn [map] in P. destruct (parse_octet w), (parse_octet t); discriminate.
  - unfold parse_ip4 in P. change (v ++ $"." ++ w ++ $"." ++ t) with (v ++ 46%N :: w ++ 46%N :: t) in P.
    rewrite !split_at, split_no in P by (apply L, in_app_iff; right; cbn; auto). cbn [map] in P. destruct (parse_octet v), (parse_octet w), (parse_octet t); discriminate.
Qed.
Lemma text_no_letter a b c d : octets4 a b c d -> ~ starts_with_letter (ip4_text a b c d).
Proof.
  intros O (x & r & E & H). assert (I : In x (ip4_text a b c d)) by (rewrite E; left; reflexivity).
  destruct (ip4_text_chars _ _ _ _ _ O I) as [D|D]; [unfold is_digit in D; apply andb_true_iff in D; rewrite !N.leb_le in D|]; lia.
Qed.
Lemma ip_helo_fresh rs : (forall r, In r rs -> one_lined r /\ ~ In 47%N (rl_ip r) /\ ~ In 47%N (rl_helo r)) ->
  (fst (check_for_forged_received_ip_helo private6 rs fstate0) = true <->
   exists r d0 a b c d a' b' c' d', In r rs /\ reduced (rl_by r) d0 /\ plain_host d0 /\ numeric_helo r a b c d /\ octets4 a' b' c' d' /\
     rl_ip r = ip4_text a' b' c' d' /\ ~ (a = a' /\ b = b')).
Proof.
  intros N. unfold check_for_forged_received_ip_helo, settle, fstate0. cbn [fst]. rewrite forged_counts. cbn [snd]. rewrite Nat.ltb_lt, helo_breaks_pos. split.
  - intros (r & I & H). destruct (N r I) as (N1 & N2 & N3). unfold helo_broken in H. apply andb_true_iff in H. destruct H as [H1 H2].
    apply usable_iff in H1; [|exact N1]. destruct H1 as (d0 & R & P). unfold ip_helo_mismatch in H2. cbv zeta in H2.
    rewrite !supernet_text in H2 by (first [lia|exact N2|intros X; apply N3; now apply domain_sub]).
    destruct (parse_ip4 (rl_ip r)) as [v|] eqn:V; [|discriminate]. destruct (parse_ip4 (hostname_to_domain (rl_helo r))) as [u|] eqn:U; [|discriminate].
    pose proof (domain_quad _ _ U) as DQ. rewrite DQ in U, H2. apply parse_ip4_text in V, U. destruct V as (a' & b' & c' & d' & O' & E' & ->), U as (a & b & c & d & O & E & ->).
    cbn [option_map] in H2. rewrite !andb_true_iff, !negb_true_iff in H2. destruct H2 as [[_ H2] H3].
    exists r, d0, a, b, c, d, a', b', c', d'. repeat (split; [assumption|]). split.
    + split; [exact O|]. split; [exact E|]. intros Q. apply (ip_private_text a b c d O) in Q. rewrite E in H3. congruence.
    + repeat (split; [assumption|]). intros [-> ->]. rewrite (proj2 (same16 a' b' c' d' a' b' c d O' O)) in H2 by auto. discriminate.
  - intros (r & d0 & a & b & c & d & a' & b' & c' & d' & I & R & P & (O & E & Q) & O' & E' & NE). exists r. split; [exact I|]. destruct (N r I) as (N1 & N2 & N3).
    unfold helo_broken. apply andb_true_iff. split; [apply usable_iff; [exact N1|exists d0; auto]|]. unfold ip_helo_mismatch. cbv zeta.
    rewrite E, E', domain_no_letter by (now apply text_no_letter). rewrite !supernet_text by (try lia; now apply text_no_slash).
    assert (X : parse_ip4 (ip4_text a b c d) = Some (value4 a b c d)) by (apply parse_ip4_text; exists a, b, c, d; auto).
    assert (X' : parse_ip4 (ip4_text a' b' c' d') = Some (value4 a' b' c' d')) by (apply parse_ip4_text; exists a', b', c', d'; auto).
    rewrite X, X'. cbn [option_map]. rewrite !andb_true_iff, !negb_true_iff. repeat split.
    + apply streqb_neq. intros T. apply ip4_text_inj in T. destruct T as (T1 & T2 & _). apply NE. split; congruence.
    + match goal with |- ?x = false => destruct x eqn:S end; [|reflexivity]. apply (same16 _ _ _ _ _ _ _ _ O' O) in S. destruct S; subst. exfalso. apply NE; auto.
    + destruct (ip_private private6 (ip4_text a b c d)) eqn:Y; [|reflexivity]. apply ip_private_text in Y; [contradiction|exact O].
Qed.

(** Later messages *)
Lemma forged_kept l c : forged_run private6 l (Some c) = map (fun km => match fst km with Trail => 1 <? fst c | IpHelo => 0 <? snd c end) l.
Proof. induction l as [|[k m] l IH]; [reflexivity|]. cbn [forged_run map fst]. destruct k; cbn [forged_check]; unfold check_for_forged_received_trail, check_for_forged_received_ip_helo; cbn [settle]; now rewrite IH. Qed.
Lemma forged_first k m l : forged_run private6 ((k, m) :: l) fstate0 =
  map (fun km => fst (forged_check private6 (fst km) m fstate0)) ((k, m) :: l).
Proof.
  cbn [forged_run]. assert (E : forall k', forged_check private6 k' m fstate0 = (fst (forged_check private6 k' m fstate0), Some (forged_received private6 m))) by (intros []; reflexivity).
  rewrite E. cbn [map]. f_equal. rewrite forged_kept. apply map_ext. intros [[] m']; reflexivity.
Qed.
End P.

(** ** Trusted and missing relays *)
Lemma all_trusted_iff ip_address is_private nw l st : parse_relays ip_address is_private nw l = Some st ->
  (check_no_relays (trusted_relays st) (untrusted_relays st) = true <-> forall r, In r l -> rl_ip r = []) /\
  (check_all_trusted (trusted_relays st) (untrusted_relays st) = true <->
     (exists r, In r l /\ rl_ip r <> []) /\ untrusted_relays st = []).
Proof.
  intros H. destruct (partition _ _ _ _ _ H) as (M & P & _ & _).
  assert (A : trusted_relays st ++ untrusted_relays st = [] <-> forall r, In r l -> rl_ip r = []).
  { rewrite P. clear P. revert M. generalize (received st). clear H st. induction l as [|r l IH]; intros [|q rs] M; try discriminate M.
    - split; [intros _ r []|reflexivity].
    - cbn [map] in M. injection M as _ M0 _ _ _ _ _ _ M. specialize (IH rs M). cbn [filter]. unfold has_address at 1. rewrite M0. destruct (rl_ip r) as [|c i] eqn:E; cbn [nonempty].
      + rewrite IH. split; intros F x; [intros [<-|X]; [exact E|now apply F]|intros X; apply F; right; exact X].
      + split; [discriminate|]. intros F. specialize (F r (or_introl eq_refl)). congruence. }
  split.
  - rewrite <- A. destruct (trusted_relays st), (untrusted_relays st); cbn; split; congruence.
  - assert (E : (exists r, In r l /\ rl_ip r <> []) <-> ~ (forall r, In r l -> rl_ip r = [])).
    { clear. induction l as [|r l IH]; [split; [intros (r & [] & _)|intros F; destruct F; intros r []]|]. split.
      - intros (q & I & N) F. apply N. now apply F.
      - intros F. destruct (rl_ip r) as [|c i] eqn:E; [|exists r; split; [left; reflexivity|congruence]].
        destruct (proj2 IH) as (q & I & N); [intros G; apply F; intros x [<-|X]; auto|]. exists q. split; [right; exact I|exact N]. }
    rewrite E, <- A. destruct (trusted_relays st), (untrusted_relays st); cbn; split; try congruence; intros; try discriminate; try tauto.
    + split; [discriminate|reflexivity].
    + destruct H0; discriminate.
Qed.
Lemma after_at_iff a d : after_at a = d <-> address_domain a d.
Proof.
  unfold after_at, address_domain. destruct (rsplit1 64%N a) as [[u d']|] eqn:E.
  - apply rsplit1_Some in E. destruct E as [-> N]. split.
    + intros <-. left. exists u. auto.
    + intros [(v & E & N')|[N' _]]; [|exfalso; apply N', in_app_iff; right; left; reflexivity].
      assert (X : rsplit1 64%N (u ++ 64%N :: d') = Some (u, d')) by (apply rsplit1_Some; auto).
      assert (Y : rsplit1 64%N (u ++ 64%N :: d') = Some (v, d)) by (apply rsplit1_Some; auto). congruence.
  - apply rsplit1_None in E. split; [intros <-; right; auto|]. intros [(v & -> & _)|[_ ->]]; [|reflexivity].
    exfalso. apply E, in_app_iff. right; left; reflexivity.
Qed.
Lemma from_domain_iff froms trusted untrusted domain desired :
  check_for_from_domain_in_received_headers froms trusted untrusted domain desired = true <->
  (exists a, In a froms /\ address_domain a domain) /\
  (desired = $"true" <-> exists r, In r (trusted ++ untrusted) /\ contains domain (rl_rdns r) = true /\ contains domain (rl_by r) = true).
Proof.
  unfold check_for_from_domain_in_received_headers. destruct (mem_str domain (map after_at froms)) eqn:M; cbn [negb].
  - assert (F : exists a, In a froms /\ address_domain a domain).
    { apply mem_str_In, in_map_iff in M. destruct M as (a & E & I). exists a. split; [exact I|now apply after_at_iff]. }
    destruct (existsb _ (trusted ++ untrusted)) eqn:E.
    + apply existsb_exists in E. destruct E as (r & I & E). apply andb_true_iff in E.
      rewrite streqb_eq. split; [intros H; split; [exact F|split; [intros _; exists r; tauto|auto]]|]. intros [_ H]. apply H. exists r; tauto.
    + rewrite negb_true_iff, streqb_neq. split.
      * intros N. split; [exact F|]. split; [congruence|]. intros (r & I & H). exfalso.
        assert (X : existsb (fun r => contains domain (rl_rdns r) && contains domain (rl_by r)) (trusted ++ untrusted) = true) by (apply existsb_exists; exists r; rewrite andb_true_iff; auto). congruence.
      * intros [_ H] D. apply H in D. destruct D as (r & I & D).
        assert (X : existsb (fun r => contains domain (rl_rdns r) && contains domain (rl_by r)) (trusted ++ untrusted) = true) by (apply existsb_exists; exists r; rewrite andb_true_iff; auto). congruence.
  - split; [discriminate|]. intros [(a & I & D) _]. apply after_at_iff in D. apply mem_str_notIn in M. exfalso. apply M, in_map_iff. exists a; auto.
Qed.
Lemma no_reverse_iff private6 rs : check_for_sender_no_reverse private6 rs = true <->
  exists l r, rs = l ++ [r] /\ In 46%N (rl_rdns r) /\ ip_private private6 (rl_ip r) = false.
Proof.
  unfold check_for_sender_no_reverse. destruct rs as [|r rs _] using rev_ind; [split; [discriminate|intros (l & q & E & _); destruct l; discriminate]|].
  rewrite rev_app_distr. cbn [rev app]. split.
  - destruct (contains ($".") (rl_rdns r)) eqn:C; [|discriminate]. cbn [negb]. destruct (ip_private private6 (rl_ip r)) eqn:P; [discriminate|].
    intros _. exists rs, r. split; [reflexivity|]. split; [|exact P]. apply contains_app in C. destruct C as (a & b & ->). apply in_app_iff. right; left; reflexivity.
  - intros (l & q & E & I & P). apply app_inj_tail in E. destruct E as [_ <-]. rewrite P.
    assert (C : contains ($".") (rl_rdns r) = true) by (apply contains_app; apply in_split in I; destruct I as (a & b & ->); exists a, b; reflexivity). rewrite C. reflexivity.
Qed.
