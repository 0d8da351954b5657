(** Proofs about the command line programs. *)
From Coq Require Import ZArith QArith Lia.
From Verif Require Import PyStr PyDict PyUtf8 Model_Rules Spec_Rules Proofs_Rules Model_Tools Model_Scripts Spec_Scripts.
From Verif Require Import Model_Net.
From Verif Require Model_Headers Proofs_Headers Proofs_Handover.
Open Scope nat_scope.

(** ** The loop over the messages *)
Lemma handle_expected rv rp ro tm m : handle (mode_of rv rp ro tm) m = expected rv rp ro tm m.
Proof. destruct rv, rp, ro, tm; reflexivity. Qed.
Lemma summary_eq rv rp ro tm n : match mode_of rv rp ro tm with Revoke | Report => [PrintCount n] | _ => [] end = summary rv rp n.
Proof. destruct rv, rp, ro, tm; reflexivity. Qed.

Section Loop.
Variables (loads : str -> bool) (rv rp ro tm : bool).
Notation o := (mode_of rv rp ro tm).
Notation ex := (expected rv rp ro tm).
Lemma one_ok texts ts : Forall2 (arg_ok loads) texts ts -> one_argument loads o texts = (flat_map ex ts, true).
Proof.
  induction 1 as [|a t texts ts [-> L] F IH]; [reflexivity|]. cbn [one_argument flat_map]. rewrite L, IH, handle_expected. reflexivity.
Qed.
Lemma one_true texts : forall ev, one_argument loads o texts = (ev, true) -> exists ts, Forall2 (arg_ok loads) texts ts /\ ev = flat_map ex ts.
Proof.
  induction texts as [|[m|] texts IH]; cbn [one_argument]; intros ev H.
  - injection H as <-. exists []. split; [constructor|reflexivity].
  - destruct (loads m) eqn:L; [|discriminate]. destruct (one_argument loads o texts) as [e ok] eqn:E. injection H as <- ->.
    destruct (IH e eq_refl) as (ts & F & ->). exists (m :: ts). split; [constructor; [split; auto|exact F]|]. cbn [flat_map]. rewrite handle_expected. reflexivity.
  - discriminate.
Qed.
Lemma one_app texts ts rest : Forall2 (arg_ok loads) texts ts ->
  one_argument loads o (texts ++ rest) = let (e, ok) := one_argument loads o rest in (flat_map ex ts ++ e, ok).
Proof.
  induction 1 as [|a t texts ts [-> L] F IH]; [cbn; destruct (one_argument loads o rest); reflexivity|].
  cbn [app one_argument flat_map]. rewrite L, IH, handle_expected. destruct (one_argument loads o rest). rewrite <- app_assoc. reflexivity.
Qed.
Lemma all_ok args tss : Forall2 (Forall2 (arg_ok loads)) args tss -> forall n,
  all_arguments loads o n args = (flat_map ex (concat tss) ++ summary rv rp (n + length args), true).
Proof.
  induction 1 as [|a ts args tss F _ IH]; intros n; cbn [all_arguments].
  - rewrite summary_eq, Nat.add_0_r. reflexivity.
  - rewrite (one_ok _ _ F), IH. cbn [concat length]. rewrite flat_map_app, <- app_assoc, Nat.add_succ_comm. reflexivity.
Qed.
Lemma all_true args : forall n ev, all_arguments loads o n args = (ev, true) ->
  exists tss, Forall2 (Forall2 (arg_ok loads)) args tss /\ ev = flat_map ex (concat tss) ++ summary rv rp (n + length args).
Proof.
  induction args as [|a args IH]; intros n ev; cbn [all_arguments]; intros H.
  - injection H as <-. exists []. rewrite summary_eq, Nat.add_0_r. split; [constructor|reflexivity].
  - destruct (one_argument loads o a) as [e ok] eqn:E. destruct ok; [|discriminate]. destruct (all_arguments loads o (S n) args) as [e' ok'] eqn:E'. injection H as <- ->.
    destruct (one_true _ _ E) as (ts & F & ->). destruct (IH _ _ E') as (tss & F' & ->). exists (ts :: tss). split; [constructor; auto|].
    cbn [concat length]. rewrite flat_map_app, <- app_assoc, Nat.add_succ_comm. reflexivity.
Qed.
(** The first message that cannot be handled *)
Lemma one_broken before ts bad after : Forall2 (arg_ok loads) before ts -> broken loads bad ->
  one_argument loads o (before ++ bad :: after) = (flat_map ex ts, false).
Proof.
  intros F B. rewrite (one_app _ _ _ F). destruct bad as [m|]; cbn [one_argument]; [cbn in B; rewrite B|]; rewrite app_nil_r; reflexivity.
Qed.
Lemma all_broken args : forall n before ts bad after, concat args = before ++ bad :: after -> Forall2 (arg_ok loads) before ts -> broken loads bad ->
  all_arguments loads o n args = (flat_map ex ts, false).
Proof.
  induction args as [|a args IH]; intros n before ts bad after E F B; cbn [concat] in E; [destruct before; discriminate|].
  cbn [all_arguments]. destruct (Nat.le_gt_cases (length a) (length before)) as [L|L].
  - assert (E1 : exists b2, before = a ++ b2).
    { exists (skipn (length a) before). assert (X := f_equal (firstn (length a)) E). rewrite firstn_app, firstn_all, Nat.sub_diag in X. cbn in X. rewrite app_nil_r in X.
      rewrite firstn_app in X. replace (length a - length before) with 0 in X by lia. cbn in X. rewrite app_nil_r in X. rewrite X at 1. symmetry. apply firstn_skipn. }
    destruct E1 as [b2 ->]. apply Forall2_app_inv_l in F as (t1 & t2 & F1 & F2 & ->). rewrite (one_ok _ _ F1).
    rewrite <- app_assoc in E. apply app_inv_head in E. rewrite (IH _ _ _ _ _ E F2 B). rewrite flat_map_app. reflexivity.
  - assert (E1 : exists a2, a = before ++ bad :: a2).
    { assert (X := f_equal (firstn (length a)) E). rewrite firstn_app, firstn_all, Nat.sub_diag in X. cbn in X. rewrite app_nil_r in X.
      rewrite firstn_app in X. rewrite (firstn_all2 before) in X by lia. destruct (length a - length before) as [|k] eqn:K; [lia|]. cbn in X. rewrite X. eexists. reflexivity. }
    destruct E1 as [a2 ->]. rewrite (one_broken _ _ _ _ F B). reflexivity.
Qed.
End Loop.

(** ** UTF-8 with errors ignored *)
Lemma encode_char_nonempty c a : encode_char c = Some a -> 1 <= length a <= 4.
Proof.
  unfold encode_char. intros H.
  repeat match type of H with context [if ?b then _ else _] => destruct b end; try discriminate; injection H as <-; cbn; lia.
Qed.
Lemma encode_one c : encode [c] = option_map (fun a => a ++ []) (encode_char c).
Proof. cbn [encode]. destruct (encode_char c); reflexivity. Qed.
Lemma try_prefix c a rest n d : encode_char c = Some a -> decode (firstn n (a ++ rest)) = Some [d] -> n <= length a -> n = length a /\ d = c.
Proof.
  intros E D L. rewrite firstn_app in D. replace (n - length a) with 0 in D by lia. cbn [firstn] in D. rewrite app_nil_r in D.
  assert (X : decode a = option_map (app [d]) (decode (skipn n a))).
  { rewrite <- (decode_app _ _ (skipn n a) D), firstn_skipn. reflexivity. }
  assert (Y : decode a = Some [c]). { rewrite <- (app_nil_r a), (encode_char_decode _ _ _ E). reflexivity. }
  rewrite Y in X. destruct (decode (skipn n a)) as [s|] eqn:Z; [|discriminate]. cbn in X. injection X as -> X. destruct s; [|discriminate].
  apply decode_nil in Z. apply (f_equal (@length N)) in Z. rewrite skipn_length in Z. cbn in Z. split; [lia|reflexivity].
Qed.
Lemma first_char_code c a rest : encode_char c = Some a -> first_char (a ++ rest) = Some (c, length a).
Proof.
  intros E. destruct (encode_char_nonempty _ _ E) as [L1 L4].
  assert (Y : decode (firstn (length a) (a ++ rest)) = Some [c]).
  { rewrite firstn_app, firstn_all, Nat.sub_diag. cbn [firstn]. rewrite (encode_char_decode _ _ _ E). reflexivity. }
  assert (No : forall n, n < length a -> match decode (firstn n (a ++ rest)) with Some [d] => Some (d, n) | _ => None end = None).
  { intros n Hn. destruct (decode (firstn n (a ++ rest))) as [[|d [|? ?]]|] eqn:D; try reflexivity.
    destruct (try_prefix _ _ _ _ _ E D); lia. }
  unfold first_char. cbv zeta.
  destruct (Nat.eq_dec (length a) 1) as [K|K1]; [rewrite K in Y |- *; rewrite Y; reflexivity|]. rewrite (No 1) by lia.
  destruct (Nat.eq_dec (length a) 2) as [K|K2]; [rewrite K in Y |- *; rewrite Y; reflexivity|]. rewrite (No 2) by lia.
  destruct (Nat.eq_dec (length a) 3) as [K|K3]; [rewrite K in Y |- *; rewrite Y; reflexivity|]. rewrite (No 3) by lia.
  assert (K : length a = 4) by lia. rewrite K in Y |- *. rewrite Y. reflexivity.
Qed.
Lemma decode_from_skip a : forall rest k, k = length a -> decode_from k (a ++ rest) = decode_from 0 rest.
Proof.
  induction a as [|b a IH]; intros rest k ->; [reflexivity|]. cbn [length app decode_from]. apply IH. reflexivity.
Qed.
Lemma ignore_char c a rest : encode_char c = Some a -> decode_ignore (a ++ rest) = c :: decode_ignore rest.
Proof.
  intros E. unfold decode_ignore. assert (F := first_char_code c a rest E). destruct (encode_char_nonempty _ _ E) as [L1 L4].
  destruct a as [|b a]; [cbn in L1; lia|]. cbn [app] in F |- *. cbn [decode_from]. rewrite F. f_equal. apply decode_from_skip. cbn. lia.
Qed.
Lemma ignore_text t : forall b rest, encode t = Some b -> decode_ignore (b ++ rest) = t ++ decode_ignore rest.
Proof.
  induction t as [|c t IH]; intros b rest E; cbn [encode] in E; [injection E as <-; reflexivity|].
  destruct (encode_char c) as [a|] eqn:Ea; [|discriminate]. destruct (encode t) as [b'|]; [|discriminate]. injection E as <-.
  rewrite <- app_assoc, (ignore_char _ _ _ Ea), (IH b' rest eq_refl). reflexivity.
Qed.
Lemma ignore_valid bs t : decode bs = Some t -> decode_ignore bs = t.
Proof. intros D. apply decode_iff in D. rewrite <- (app_nil_r bs), (ignore_text _ _ [] D). cbn. apply app_nil_r. Qed.
Lemma div_bound c k m : (k <> 0 -> c < k * m -> c / k < m)%N.
Proof. intros Hk H. apply N.div_lt_upper_bound; assumption. Qed.
Lemma div_low c k m : (k <> 0 -> k * m <= c -> m <= c / k)%N.
Proof. intros Hk H. apply N.div_le_lower_bound; assumption. Qed.
Lemma first_byte c b r : encode_char c = Some (b :: r) -> ~ no_start b.
Proof.
  unfold encode_char, no_start. intros H.
  destruct (N.ltb_spec c 128) as [H1|H1]; [injection H as <- _; lia|].
  destruct (N.ltb_spec c 2048) as [H2|H2].
  { apply some_inj, cons_inj in H as [H _]. assert (c / 64 < 32)%N by (apply div_bound; lia). assert (2 <= c / 64)%N by (apply div_low; lia). remember (c / 64)%N as q. clear Heqq. lia. }
  destruct (_ && _)%bool; [discriminate|].
  destruct (N.ltb_spec c 65536) as [H3|H3].
  { apply some_inj, cons_inj in H as [H _]. assert (c / 4096 < 16)%N by (apply div_bound; lia). remember (c / 4096)%N as q. clear Heqq. lia. }
  destruct (N.ltb_spec c 1114112) as [H4|H4]; [|discriminate].
  apply some_inj, cons_inj in H as [H _]. assert (c / 262144 < 5)%N by (apply div_bound; lia). remember (c / 262144)%N as q. clear Heqq. lia.
Qed.
Lemma no_start_first b r : no_start b -> first_char (b :: r) = None.
Proof.
  intros H. unfold first_char. cbv zeta.
  assert (No : forall n, match decode (firstn (S n) (b :: r)) with Some [d] => Some (d, S n) | _ => None end = None).
  { intros n. destruct (decode (firstn (S n) (b :: r))) as [[|d [|? ?]]|] eqn:D; try reflexivity. exfalso.
    apply decode_iff in D. rewrite encode_one in D. destruct (encode_char d) as [a|] eqn:E; [|discriminate]. cbn in D. rewrite app_nil_r in D. injection D as ->.
    exact (first_byte _ _ _ E H). }
  rewrite (No 0), (No 1), (No 2), (No 3). reflexivity.
Qed.
Lemma ignore_junk junk rest : Forall no_start junk -> decode_ignore (junk ++ rest) = decode_ignore rest.
Proof.
  induction 1 as [|b junk H _ IH]; [reflexivity|]. unfold decode_ignore in *. cbn [app decode_from]. rewrite (no_start_first _ _ H). exact IH.
Qed.
Lemma ignore_spoilt pieces : forall bs, Forall (fun p => Forall no_start (fst p)) pieces -> spoilt pieces = Some bs ->
  decode_ignore bs = flat_map snd pieces.
Proof.
  induction pieces as [|[j t] r IH]; intros bs F E; cbn [spoilt] in E; [injection E as <-; reflexivity|].
  inversion_clear F as [|? ? Hj F']. destruct (encode t) as [b|] eqn:Et; [|discriminate]. destruct (spoilt r) as [rest|]; [|discriminate]. injection E as <-.
  rewrite (ignore_junk _ _ Hj), (ignore_text _ _ _ Et), (IH rest F' eq_refl). reflexivity.
Qed.

(** ** Line breaks *)
Lemma universal_eq s : universal_newlines s = Model_Headers.translate_line_breaks s.
Proof.
  rewrite Proofs_Headers.tlb_eq. remember (length s) as n eqn:E. assert (L : length s <= n) by lia. clear E. revert s L.
  induction n as [|n IH]; intros s L; [destruct s; [reflexivity|cbn in L; lia]|].
  destruct s as [|c s]; [reflexivity|]. cbn [length] in L. cbn [universal_newlines Proofs_Headers.crlf_lf].
  destruct (N.eqb c 13) eqn:Ec.
  - destruct s as [|d s]; [cbn; unfold Proofs_Headers.to_lf; rewrite Ec; reflexivity|]. destruct (N.eqb d 10).
    + cbn [map]. rewrite IH by (cbn in L; lia). reflexivity.
    + cbn [map]. rewrite IH by lia. unfold Proofs_Headers.to_lf at 2. rewrite Ec. reflexivity.
  - cbn [map]. rewrite IH by lia. unfold Proofs_Headers.to_lf at 2. rewrite Ec. reflexivity.
Qed.
Lemma same_message bs t : decode bs = Some t ->
  option_map Model_Headers.translate_line_breaks (read_text bs) = Some (Model_Headers.translate_line_breaks (decode_ignore bs)).
Proof.
  intros D. unfold read_text. rewrite D. cbn [option_map]. rewrite universal_eq, (ignore_valid _ _ D), Proofs_Headers.tlb_idem. reflexivity.
Qed.

(** ** Numbers in texts *)
Lemma digits_acc d : forall acc, Model_Rules.digits_val (Z.pos acc) (uint_str d) = Some (Z.pos (Pos.of_uint_acc d acc)).
Proof. induction d; intros acc; cbn [uint_str Model_Rules.digits_val Pos.of_uint_acc]; [reflexivity|..]; change (is_digit _) with true; cbv iota; rewrite <- IHd; f_equal; lia. Qed.
Lemma digits_zero d : Model_Rules.digits_val 0 (uint_str d) = Some (Z.of_N (Pos.of_uint d)).
Proof. induction d; cbn [uint_str Model_Rules.digits_val Pos.of_uint]; [reflexivity|..]; change (is_digit _) with true; cbv iota; [exact IHd|..]; cbn [Z.of_N]; rewrite <- digits_acc; reflexivity. Qed.
Lemma dec_digits n : forallb is_digit (dec n) = true.
Proof. unfold dec. induction (N.to_uint n); cbn [uint_str forallb]; [reflexivity|..]; rewrite IHu; reflexivity. Qed.
Lemma dec_nonempty n : dec n <> [].
Proof.
  unfold dec. intros H. assert (E : N.to_uint n = Decimal.Nil) by (destruct (N.to_uint n); try discriminate; reflexivity).
  destruct n as [|p]; [discriminate|]. apply (f_equal N.of_uint) in E. rewrite DecimalN.Unsigned.of_to in E. discriminate.
Qed.
Lemma digit_not_space c : is_digit c = true -> is_space c = false.
Proof.
  unfold is_digit. rewrite andb_true_iff, !N.leb_le. intros H. unfold is_space.
  repeat (apply orb_false_iff; split); rewrite ?andb_false_iff, ?N.eqb_neq, ?N.leb_gt; lia.
Qed.
Lemma py_int_dec n : Model_Rules.py_int (dec n) = Some (Z.of_N n).
Proof.
  assert (D := dec_digits n). assert (NE := dec_nonempty n). rewrite forallb_forall in D.
  assert (E : strip (dec n) = dec n).
  { apply Proofs_Handover.strip_p_none. intros c Hc. apply digit_not_space, D, Hc. }
  unfold Model_Rules.py_int. rewrite E. destruct (dec n) as [|c t] eqn:Ed; [congruence|].
  assert (Dc : is_digit c = true) by (apply D; left; reflexivity). unfold is_digit in Dc. rewrite andb_true_iff, !N.leb_le in Dc.
  destruct (N.eqb_spec c 45); [lia|]. destruct (N.eqb_spec c 43); [lia|]. unfold Model_Rules.nat_val. rewrite <- Ed. unfold dec.
  rewrite digits_zero. f_equal. f_equal. exact (DecimalN.Unsigned.of_to n).
Qed.

(** ** Where compiling works *)
Lemma compile3 impl m patch : contains ($"pypy") (lower impl) = false ->
  can_compile impl ($"3") (dec m) patch = Some (N.leb 5 m).
Proof.
  intros H. unfold can_compile. rewrite H. change (py_int ($"3")) with (Some 3%Z). cbn [Z.leb Z.compare Pos.compare Pos.compare_cont]. rewrite py_int_dec.
  f_equal. destruct (Z.ltb_spec (Z.of_N m) 5), (N.leb_spec 5 m); try reflexivity; lia.
Qed.
Lemma compile_exactly impl M m p : contains ($"pypy") (lower impl) = false -> (M = 3 \/ M = 2 /\ m <= 7)%N ->
  exists b, can_compile impl (dec M) (dec m) (dec p) = Some b /\
    (b = true <-> at_least (M, m, p) (2, 7, 11)%N /\ ~ (at_least (M, m, p) (3, 0, 0)%N /\ ~ at_least (M, m, p) (3, 5, 0)%N)).
Proof.
  intros H V. unfold can_compile. rewrite H, !py_int_dec. destruct V as [->|[-> Hm]]; cbn [Z.of_N Z.leb Z.compare Pos.compare Pos.compare_cont].
  - eexists. split; [reflexivity|]. unfold at_least. destruct (Z.ltb_spec (Z.of_N m) 5); cbn [negb]; split; try discriminate; try reflexivity; lia.
  - destruct (Z.ltb_spec (Z.of_N m) 7).
    + eexists. split; [reflexivity|]. unfold at_least. split; [discriminate|]. lia.
    + eexists. split; [reflexivity|]. unfold at_least. destruct (Z.ltb_spec (Z.of_N p) 11); cbn [negb]; split; try discriminate; try reflexivity; lia.
Qed.

(** ** Short circuits applied again *)
Section Again.
Context {X : Type}.
Lemma sc_call_twice name score t (sp ha : Q) (inner : msg X -> msg X * outcome) m :
  sc_call name score t sp ha (sc_call name score t sp ha inner) m = sc_call name score t sp ha inner m.
Proof.
  unfold sc_call. destruct (inner m) as [m1 [v| |]]; try reflexivity. destruct (truthy v) eqn:T; [reflexivity|]. rewrite T. reflexivity.
Qed.
Lemma loop_same (f g : rule X -> rule X) (l : list (str * rule X)) :
  (forall r m, r_match (f r) m = r_match (g r) m) -> (forall r k m v, record k (f r) m v = record k (g r) m v) ->
  forall m, match_loop (map (fun e => (fst e, f (snd e))) l) m = match_loop (map (fun e => (fst e, g (snd e))) l) m.
Proof.
  intros Hm Hr. induction l as [|[k r] l IH]; intros m; [reflexivity|]. cbn [map fst snd match_loop]. rewrite Hm.
  destruct (r_match (g r) m) as [m1 [v| |]]; [rewrite Hr; apply IH|rewrite Hr; apply IH|reflexivity].
Qed.
Lemma sc_again sp ha configs (rs : ruleset X) m : well_keyed (rs_checked rs) ->
  match_loop (rs_checked (sc_finish sp ha configs (sc_finish sp ha configs rs))) m =
  match_loop (rs_checked (sc_finish sp ha configs rs)) m.
Proof.
  intros W. assert (W2 : well_keyed (rs_checked (sc_finish sp ha configs rs))).
  { rewrite (sc_finish_checked _ _ _ _ W). apply (well_keyed_map (sc_wrapped sp ha configs)); [|exact W]. intros r. apply sc_wrapped_fields. }
  rewrite (sc_finish_checked _ _ _ _ W2), (sc_finish_checked _ _ _ _ W), map_map. cbn [fst snd].
  apply (loop_same (fun r => sc_wrapped sp ha configs (sc_wrapped sp ha configs r)) (sc_wrapped sp ha configs)).
  - intros r m0. rewrite sc_wrapped_match. destruct (sc_wrapped_fields sp ha configs r) as (-> & -> & _).
    destruct (sc_setting configs (r_name r)) as [t|] eqn:E; [|reflexivity].
    transitivity (sc_call (r_name r) (r_score r) t sp ha (sc_call (r_name r) (r_score r) t sp ha (r_match r)) m0).
    + unfold sc_call at 1 2. rewrite sc_wrapped_match, E. reflexivity.
    + rewrite sc_call_twice, sc_wrapped_match, E. reflexivity.
  - intros r k m0 v. apply record_wrapped.
Qed.
End Again.

(** ** The pid file *)
Lemma orderly_inv hs : forall up, orderly up hs ->
  let m := history hs (mkM up (match up with Some p => [p] | None => [] end)) in
  serving m = match pid_file m with Some p => [p] | None => [] end.
Proof.
  induction hs as [|h hs IH]; intros up H; [destruct up; reflexivity|]. destruct h as [p d ok|p|p]; cbn [orderly] in H.
  - destruct H as (-> & -> & -> & H). exact (IH (Some p) H).
  - unfold history. cbn [fold_left happens serving]. destruct up as [q|].
    + cbn [existsb orb]. destruct (N.eqb_spec p q) as [->|Hn]; cbn [orb].
      * unfold without. cbn [filter]. rewrite N.eqb_refl. cbn [negb]. exact (IH None H).
      * exact (IH (Some q) H).
    + exact (IH None H).
  - destruct H.
Qed.

(** ** Logging *)
Lemma emitted_in l level out : In out (emitted l level) <-> (l_level l <= level)%N /\ exists lv, In (out, lv) (l_handlers l) /\ (lv <= level)%N.
Proof.
  unfold emitted. destruct (N.leb_spec (l_level l) level) as [H|H].
  - rewrite in_map_iff. split.
    + intros ([o lv] & <- & I). apply filter_In in I as [I L]. apply N.leb_le in L. split; [exact H|]. exists lv. split; [exact I|exact L].
    + intros (_ & lv & I & L). exists (out, lv). split; [reflexivity|]. apply filter_In. split; [exact I|]. apply N.leb_le. exact L.
  - split; [intros []|]. lia.
Qed.
Lemma log_stream debug fp dsn fl sl rv level : (fl <= 50)%N ->
  (In Stream (emitted (setup_logging debug fp dsn fl sl rv []) level) <-> (if debug then 10 <= level else 50 <= level)%N).
Proof.
  intros F. rewrite emitted_in. unfold setup_logging. cbn [l_level l_handlers app]. split.
  - intros (A & lv & [E|I] & L).
    + injection E as <-. destruct debug; exact L.
    + exfalso. apply in_app_or in I as [I|I].
      * destruct fp as [[|? ?]|]; try (destruct I; fail). destruct I as [I|[]]; discriminate.
      * destruct dsn as [[|? ?]|]; try (destruct I; fail). destruct rv; [|destruct I]. destruct I as [I|[]]; discriminate.
  - intros H. split; [destruct debug; lia|]. eexists. split; [left; reflexivity|]. destruct debug; exact H.
Qed.
Lemma log_file debug fp dsn fl sl rv level path :
  In (File path) (emitted (setup_logging debug fp dsn fl sl rv []) level) <->
  fp = Some path /\ path <> [] /\ (if debug then 10 <= level else fl <= level)%N.
Proof.
  rewrite emitted_in. unfold setup_logging. cbn [l_level l_handlers app]. split.
  - intros (A & lv & [E|I] & L); [discriminate|]. apply in_app_or in I as [I|I].
    + destruct fp as [[|c p]|]; try (destruct I; fail). destruct I as [I|[]]. injection I as <- <-. split; [reflexivity|]. split; [discriminate|]. destruct debug; exact L.
    + exfalso. destruct dsn as [[|? ?]|]; try (destruct I; fail). destruct rv; [|destruct I]. destruct I as [I|[]]; discriminate.
  - intros (-> & NE & L). destruct path as [|c p]; [congruence|]. split; [destruct debug; exact L|]. eexists. split; [right; left; reflexivity|]. destruct debug; exact L.
Qed.
Lemma log_sentry debug fp dsn fl sl level d :
  In (Sentry d) (emitted (setup_logging debug fp dsn fl sl true []) level) <->
  dsn = Some d /\ d <> [] /\ (sl <= level)%N /\ (if debug then 10 <= level else fl <= level)%N.
Proof.
  rewrite emitted_in. unfold setup_logging. cbn [l_level l_handlers app]. split.
  - intros (A & lv & [E|I] & L); [discriminate|]. apply in_app_or in I as [I|I].
    + exfalso. destruct fp as [[|c p]|]; try (destruct I; fail). destruct I as [I|[]]. discriminate.
    + destruct dsn as [[|? ?]|]; try (destruct I; fail). destruct I as [I|[]]. injection I as <- <-. split; [reflexivity|]. split; [discriminate|]. split; [exact L|]. destruct debug; exact A.
  - intros (-> & NE & L & B). destruct d as [|c p]; [congruence|]. split; [destruct debug; exact B|]. eexists. split; [right; apply in_or_app; right; left; reflexivity|]. exact L.
Qed.

(** ** The programs *)
Section Main.
Context {R : Type} (parse : list str -> bool -> bool -> parsed R) (post : R -> option R).
Notation mm := (match_main R parse post).
Lemma main_direct files compiles store pa su loads rv rp ro tm args used ev e :
  mm files false compiles store pa su loads (mode_of rv rp ro tm) args = (used, ev, e) ->
  (status e = 0 <-> exists fs rs tss, files = Some fs /\ fs <> [] /\ parse fs pa (negb su) = Parsed rs /\
     Forall2 (Forall2 (arg_ok (loads rs))) args tss /\ used = Some rs /\
     ev = flat_map (expected rv rp ro tm) (concat tss) ++ summary rv rp (length args)).
Proof.
  unfold match_main, load_ruleset. destruct files as [[|f fs]|].
  - intros [= <- <- <-]. split; [discriminate|]. intros (fs & rs & tss & [= <-] & N & _). congruence.
  - destruct (parse (f :: fs) pa (negb su)) as [r| |] eqn:P.
    + destruct (all_arguments (loads r) (mode_of rv rp ro tm) 0 args) as [ev' ok] eqn:A. intros [= <- <- <-]. destruct ok.
      * split; [intros _|reflexivity]. destruct (all_true _ _ _ _ _ _ _ _ A) as (tss & F & ->). exists (f :: fs), r, tss. repeat split; auto. discriminate.
      * split; [discriminate|]. intros (fs' & rs & tss & [= <-] & _ & P' & F & _). rewrite P in P'. injection P' as <-. rewrite (all_ok _ _ _ _ _ _ _ F) in A. discriminate.
    + intros [= <- <- <-]. split; [discriminate|]. intros (fs' & rs & tss & [= <-] & _ & P' & _). congruence.
    + intros [= <- <- <-]. split; [discriminate|]. intros (fs' & rs & tss & [= <-] & _ & P' & _). congruence.
  - intros [= <- <- <-]. split; [discriminate|]. intros (fs & rs & tss & [=] & _).
Qed.
Lemma main_no_rules files compiles store ser pa su loads o args used ev e :
  mm files ser compiles store pa su loads o args = (used, ev, e) -> used = None -> ev = [] /\ status e = 1.
Proof.
  unfold match_main. destruct (load_ruleset _ _ _ _ _ _ _ _ _) as [r|x] eqn:L.
  - destruct (all_arguments _ _ _ _). intros [= <- _ _]. discriminate.
  - intros [= <- <- <-] _. split; [reflexivity|]. unfold load_ruleset in L.
    repeat match type of L with context [match ?b with _ => _ end] => destruct b end; try discriminate; injection L as <-; reflexivity.
Qed.
Lemma main_broken files ser compiles store pa su loads rv rp ro tm args rs before ts bad after :
  load_ruleset R parse post files ser compiles store pa su = inl rs ->
  concat args = before ++ bad :: after -> Forall2 (arg_ok (loads rs)) before ts -> broken (loads rs) bad ->
  mm files ser compiles store pa su loads (mode_of rv rp ro tm) args = (Some rs, flat_map (expected rv rp ro tm) ts, Traceback).
Proof. intros L C F B. unfold match_main. rewrite L, (all_broken _ _ _ _ _ _ _ _ _ _ _ C F B). reflexivity. Qed.

Lemma compile_ok files compiles pa su w pk before store e :
  compile_main R parse files compiles pa su w pk before = (store, e) ->
  (status e = 0 -> exists fs r, files = Some fs /\ fs <> [] /\ compiles = Some true /\ parse fs pa (negb su) = Parsed r /\ store = Holds r) /\
  (status e <> 0 -> store = before \/ store = Corrupt /\ exists fs r, files = Some fs /\ parse fs pa (negb su) = Parsed r /\ pk r = false).
Proof.
  unfold compile_main. intros H.
  destruct files as [fs|]; [|injection H as <- <-; split; [discriminate|auto]].
  destruct compiles as [[|]|]; [|injection H as <- <-; split; [discriminate|auto]..].
  destruct fs as [|f fs]; [injection H as <- <-; split; [discriminate|auto]|].
  destruct (parse (f :: fs) pa (negb su)) as [r| |] eqn:P; [|injection H as <- <-; split; [discriminate|auto]..].
  destruct w; [|injection H as <- <-; split; [discriminate|auto]].
  destruct (pk r) eqn:K; injection H as <- <-.
  - split; [|intros []; reflexivity]. intros _. exists (f :: fs), r. repeat split; auto. discriminate.
  - split; [discriminate|]. intros _. right. split; [reflexivity|]. exists (f :: fs), r. auto.
Qed.
Lemma stored_used files1 files2 c pa su w pk before store e pa2 su2 loads o args f fs :
  compile_main R parse files1 c pa su w pk before = (store, e) -> status e = 0 -> files2 = Some (f :: fs) ->
  exists fs1 r, files1 = Some fs1 /\ parse fs1 pa (negb su) = Parsed r /\
    fst (fst (mm files2 true (Some true) store pa2 su2 loads o args)) = post r.
Proof.
  intros C S ->. destruct (proj1 (compile_ok _ _ _ _ _ _ _ _ _ C) S) as (fs1 & r & -> & _ & _ & P & ->).
  exists fs1, r. split; [reflexivity|]. split; [exact P|]. unfold match_main, load_ruleset. destruct (post r) as [r'|]; [|reflexivity].
  destruct (all_arguments _ _ _ _). reflexivity.
Qed.
Lemma fall_back files store pa su loads o args :
  mm files true (Some false) store pa su loads o args = mm files false (Some false) store pa su loads o args.
Proof. unfold match_main, load_ruleset. destruct files as [[|f fs]|]; reflexivity. Qed.
End Main.

Lemma same_server o1 o2 : server_of o1 = server_of o2 <->
  o_listen o1 = o_listen o2 /\ o_port o1 = o_port o2 /\ o_prefork o1 = o_prefork o2 /\ o_sitepath o1 = o_sitepath o2 /\
  o_configpath o1 = o_configpath o2 /\ o_paranoid o1 = o_paranoid o2 /\ o_show_unknown o1 = o_show_unknown o2.
Proof.
  destruct o1 as [d1 p1 s1 t1 z1 k1 l1 r1 c1 i1 f1 g1 y1], o2 as [d2 p2 s2 t2 z2 k2 l2 r2 c2 i2 f2 g2 y2]. unfold server_of. cbn. split.
  - intros [= -> -> -> -> -> -> E]. repeat split. destruct s1, s2; auto; discriminate.
  - intros (-> & -> & -> & -> & -> & -> & ->). reflexivity.
Qed.

Lemma file_text_reads content stdin p : read_from content stdin p (file_text content stdin p).
Proof.
  unfold read_from, file_text. destruct (streqb_spec p ($"-")) as [E|E]; [split; [reflexivity|intros K; destruct (K E)]|].
  split; [intros K; destruct (E K)|]. intros _. destruct (content p); reflexivity.
Qed.
Lemma map_reads content stdin fs : Forall2 (read_from content stdin) fs (map (file_text content stdin) fs).
Proof. induction fs as [|f r IH]; constructor; [apply file_text_reads|exact IH]. Qed.
Lemma arguments_are isdir listdir content stdin paths :
  (paths = [] -> arguments isdir listdir content stdin paths = [[Some (decode_ignore stdin)]]) /\
  (paths <> [] -> Forall2 (fun p texts =>
     if isdir p then match listdir p with None => texts = [None] | Some fs => Forall2 (read_from content stdin) fs texts end
     else exists t, texts = [t] /\ read_from content stdin p t) paths (arguments isdir listdir content stdin paths)).
Proof.
  split; [intros ->; reflexivity|]. intros H. assert (E : arguments isdir listdir content stdin paths = map (argument isdir listdir content stdin) paths) by (destruct paths; [destruct (H eq_refl)|reflexivity]).
  rewrite E. clear H E. induction paths as [|p r IH]; constructor; [|exact IH]. unfold argument. destruct (isdir p).
  - destruct (listdir p); [apply map_reads|reflexivity].
  - eexists. split; [reflexivity|apply file_text_reads].
Qed.
