(** Proofs about the network lists. *)
From Coq Require DecimalPos.
From Verif Require Import PyStr Model_Net Spec_Net.

(** C25 *)
Lemma contains_first l a b : contains_addr l a = Some b <->
  first_containing l a b \/ (b = false /\ forall m x, In (m, x) l -> exists n, m = Some n /\ in_net a n = false).
Proof.
  induction l as [|[[n|] x] l IH]; simpl.
  - split; [intros H; injection H as <-; right; split; [reflexivity|intros m x []]|].
    intros [(bf & n & af & E & _)|[-> _]]; [destruct bf; discriminate|reflexivity].
  - destruct (in_net a n) eqn:E.
    + split.
      * intros H; injection H as <-. left. exists [], n, l. split; [reflexivity|]. split; [exact E|intros m y []].
      * intros [(bf & n' & af & El & Hn & Hb)|[-> Hall]].
        -- destruct bf as [|[m y] bf]; simpl in El; [injection El as -> -> _; reflexivity|].
           injection El as <- <- _. destruct (Hb (Some n) x (or_introl eq_refl)) as (n2 & E2 & F). injection E2 as <-. congruence.
        -- destruct (Hall (Some n) x (or_introl eq_refl)) as (n2 & E2 & F). injection E2 as <-. congruence.
    + rewrite IH. split.
      * intros [(bf & n' & af & -> & Hn & Hb)|[-> Hall]].
        -- left. exists ((Some n, x) :: bf), n', af. split; [reflexivity|]. split; [exact Hn|].
           intros m y [H|H]; [injection H as <- _; eauto|eauto].
        -- right. split; [reflexivity|]. intros m y [H|H]; [injection H as <- _; eauto|eauto].
      * intros [(bf & n' & af & El & Hn & Hb)|[-> Hall]].
        -- destruct bf as [|[m y] bf]; simpl in El; [injection El as <- <- _; congruence|]. injection El as <- <- ->.
           left. exists bf, n', af. split; [reflexivity|]. split; [exact Hn|]. intros m y Hi. apply (Hb m y). right; exact Hi.
        -- right. split; [reflexivity|]. intros m y Hi. apply (Hall m y). right; exact Hi.
  - split; [discriminate|]. intros [(bf & n' & af & El & Hn & Hb)|[-> Hall]].
    + destruct bf as [|[m y] bf]; simpl in El; [discriminate|]. injection El as <- <- _.
      destruct (Hb None x (or_introl eq_refl)) as (n2 & E2 & _). discriminate.
    + destruct (Hall None x (or_introl eq_refl)) as (n2 & E2 & _). discriminate.
Qed.
(** The only failure: a text that was not a network is reached first. *)
Lemma contains_fails l a : contains_addr l a = None <->
  exists before x after, l = before ++ (None, x) :: after /\
    forall m y, In (m, y) before -> exists n, m = Some n /\ in_net a n = false.
Proof.
  induction l as [|[[n|] x] l IH]; simpl.
  - split; [discriminate|]. intros (bf & x & af & E & _). destruct bf; discriminate.
  - destruct (in_net a n) eqn:E.
    + split; [discriminate|]. intros (bf & y & af & El & Hb). destruct bf as [|[m z] bf]; simpl in El; [discriminate|].
      injection El as <- <- _. destruct (Hb _ _ (or_introl eq_refl)) as (n2 & E2 & F). injection E2 as <-. congruence.
    + rewrite IH. split.
      * intros (bf & y & af & -> & Hb). exists ((Some n, x) :: bf), y, af. split; [reflexivity|].
        intros m z [H|H]; [injection H as <- _; eauto|eauto].
      * intros (bf & y & af & El & Hb). destruct bf as [|[m z] bf]; simpl in El; [discriminate|]. injection El as <- <- ->.
        exists bf, y, af. split; [reflexivity|]. intros m z Hi. apply (Hb m z). right; exact Hi.
  - split; [|reflexivity]. intros _. exists [], x, l. split; [reflexivity|intros m y []].
Qed.

(** C26 *)
Lemma net_127 b c d : octet b -> octet c -> octet d -> in_net (ip4 127 b c d) (mkNet V4 2130706432 8) = true.
Proof.
  unfold octet, in_net, ip4. intros Hb Hc Hd. cbn [a_ver a_val n_ver n_base n_len ver_eqb andb bits]. apply N.eqb_eq.
  change (2130706432 / 2 ^ (32 - 8))%N with 127%N. change (2 ^ (32 - 8))%N with 16777216%N. change (2 ^ 24)%N with 16777216%N.
  change (2 ^ 16)%N with 65536%N. change (2 ^ 8)%N with 256%N. symmetry. apply (N.div_unique _ _ _ (b * 65536 + c * 256 + d)); lia.
Qed.
Section R.
Variable parse_net6 : str -> option net.
Definition starts_ok (l : netlist) : Prop := exists r, l = always_accepted ++ r.
Lemma starts_snoc l e : starts_ok l -> starts_ok (l ++ [e]).
Proof. intros [r ->]. exists (r ++ [e]). rewrite app_assoc. reflexivity. Qed.
Lemma starts_init : starts_ok always_accepted.
Proof. exists []. symmetry. apply app_nil_r. Qed.
Lemma add_starts l s s' : add_line parse_net6 l s = Some s' -> starts_ok (n_trusted s) -> starts_ok (n_internal s) ->
  starts_ok (n_trusted s') /\ starts_ok (n_internal s').
Proof.
  destruct l; simpl; destruct (extract_network parse_net6 t) as [[e n]|]; try discriminate; intros H; injection H as <-; simpl; intros H1 H2.
  - split; [apply starts_snoc; exact H1|]. destruct (n_iconf s); [exact H2|apply starts_snoc; exact H2].
  - split; [apply starts_snoc; exact H1|]. apply starts_snoc. destruct (n_iconf s); [exact H2|apply starts_init].
  - auto.
Qed.
Lemma run_starts ls : forall s, starts_ok (n_trusted s) -> starts_ok (n_internal s) ->
  starts_ok (n_trusted (run_lines parse_net6 ls s)) /\ starts_ok (n_internal (run_lines parse_net6 ls s)).
Proof.
  induction ls as [|l ls IH]; intros s H1 H2; simpl; [auto|]. destruct (add_line parse_net6 l s) as [s'|] eqn:E; [|auto].
  destruct (add_starts _ _ _ E H1 H2). auto.
Qed.
Lemma starts_loopback l a : starts_ok l -> loopback a -> contains_addr l a = Some true.
Proof.
  intros [r ->] [(b & c & d & Hb & Hc & Hd & ->)| ->]; [|reflexivity].
  unfold always_accepted. cbn [app contains_addr]. rewrite net_127 by assumption. reflexivity.
Qed.
Lemma c26 ls a : loopback a ->
  contains_addr (n_trusted (run_lines parse_net6 ls nets0)) a = Some true /\
  contains_addr (n_internal (run_lines parse_net6 ls nets0)) a = Some true.
Proof.
  intros H. destruct (run_starts ls nets0 starts_init starts_init). split; apply starts_loopback; assumption.
Qed.

(** C27: the internal list is the trusted list without some accepting entries. *)
Inductive drops : netlist -> netlist -> Prop :=
| Dnil : drops [] []
| Dkeep e i t : drops i t -> drops (e :: i) (e :: t)
| Ddrop n i t : drops i t -> drops i ((Some n, true) :: t).
Lemma drops_refl l : drops l l.
Proof. induction l; constructor; assumption. Qed.
Lemma drops_snoc i t e : drops i t -> drops (i ++ [e]) (t ++ [e]).
Proof. induction 1; simpl; [apply drops_refl|constructor; assumption..]. Qed.
Lemma drops_snoc_drop i t n : drops i t -> drops i (t ++ [(Some n, true)]).
Proof. induction 1; simpl; [apply Ddrop; constructor|constructor; assumption..]. Qed.
Lemma drops_in i t a : drops i t -> contains_addr i a = Some true -> contains_addr t a = Some true.
Proof.
  induction 1 as [|[[n|] x] i t H IH|n i t H IH]; simpl; [auto| | |].
  - destruct (in_net a n); [auto|exact IH].
  - discriminate.
  - destruct (in_net a n); [reflexivity|exact IH].
Qed.
Definition accepting (l : nline) : Prop :=
  match l with LTrusted t => forall e n, extract_network parse_net6 t = Some (e, n) -> e = false /\ n <> None | _ => True end.
Lemma drops_accepted l : (forall e, In e l -> exists n, e = (Some n, true)) -> drops [] l.
Proof.
  induction l as [|e l IH]; intros H; [constructor|]. destruct (H e (or_introl eq_refl)) as [n ->].
  apply Ddrop, IH. intros e' Hi. apply H. right; exact Hi.
Qed.
Lemma drops_app i t r : drops i t -> (forall e, In e r -> exists n, e = (Some n, true)) -> drops i (t ++ r).
Proof. intros H Hr. induction H; simpl; [apply drops_accepted; exact Hr|constructor; assumption..]. Qed.

Definition inv27 (s : nets) : Prop :=
  drops (n_internal s) (n_trusted s) /\
  (n_iconf s = false -> exists r, n_trusted s = always_accepted ++ r /\ forall e, In e r -> exists n, e = (Some n, true)).
Lemma add_inv27 l s s' : accepting l -> add_line parse_net6 l s = Some s' -> inv27 s -> inv27 s'.
Proof.
  unfold inv27. destruct l; simpl; destruct (extract_network parse_net6 t) as [[e n]|] eqn:E; try discriminate; intros Ha H; injection H as <-; simpl; intros [H1 H2].
  - destruct (Ha _ _ eq_refl) as [-> Hn]. destruct n as [n|]; [|congruence]. simpl. destruct (n_iconf s) eqn:Ei.
    + split; [apply drops_snoc_drop; exact H1|discriminate].
    + split; [apply drops_snoc; exact H1|]. intros _. destruct (H2 eq_refl) as (r & -> & Hr).
      exists (r ++ [(Some n, true)]). split; [reflexivity|]. intros e Hi. apply in_app_iff in Hi.
      destruct Hi as [Hi|[<-|[]]]; eauto.
  - split; [|discriminate]. apply drops_snoc. destruct (n_iconf s) eqn:Ei; [exact H1|]. destruct (H2 eq_refl) as (r & -> & Hr).
    apply (drops_app always_accepted always_accepted r); [apply drops_refl|exact Hr].
  - split; [exact H1|discriminate].
Qed.
Lemma c27 ls a : Forall accepting ls ->
  let s := run_lines parse_net6 ls nets0 in
  contains_addr (n_internal s) a = Some true -> contains_addr (n_trusted s) a = Some true.
Proof.
  intros Hf. simpl. apply drops_in.
  assert (H : forall s, inv27 s -> inv27 (run_lines parse_net6 ls s)).
  { induction Hf as [|l ls Hl Hf IH]; intros s Hs; simpl; [exact Hs|].
    destruct (add_line parse_net6 l s) as [s'|] eqn:E; [|auto]. apply IH. eapply add_inv27; eassumption. }
  apply H. split; [apply drops_refl|]. intros _. exists []. split; [reflexivity|intros e []].
Qed.

(** C28 *)
Definition octets : list N := map N.of_nat (seq 0 256).
Lemma octets_In n : octet n -> In n octets.
Proof.
  intros H. unfold octets. apply in_map_iff. exists (N.to_nat n). split; [apply N2Nat.id|].
  apply in_seq. unfold octet in H. lia.
Qed.
Definition dec_ok (n : N) : bool :=
  match parse_octet (dec n) with Some m => N.eqb m n | None => false end &&
  forallb is_digit (dec n) && (length (dec n) <=? 3) && negb (length (dec n) =? 0).
Lemma dec_ok_all : forallb dec_ok octets = true.
Proof. vm_compute. reflexivity. Qed.
Lemma dec_octet n : octet n -> parse_octet (dec n) = Some n /\ forallb is_digit (dec n) = true /\ length (dec n) <= 3 /\ dec n <> [].
Proof.
  intros H. pose proof (proj1 (forallb_forall dec_ok octets) dec_ok_all n (octets_In n H)) as E.
  unfold dec_ok in E. rewrite !andb_true_iff in E. destruct E as [[[E1 E2] E3] E4].
  destruct (parse_octet (dec n)) as [m|]; [|discriminate]. apply N.eqb_eq in E1. subst m.
  split; [reflexivity|]. split; [exact E2|]. split; [apply Nat.leb_le; exact E3|]. destruct (dec n); [discriminate|discriminate].
Qed.
Lemma digits_notin x s : forallb is_digit s = true -> is_digit x = false -> ~ In x s.
Proof. intros H Hx Hi. rewrite forallb_forall in H. specialize (H _ Hi). congruence. Qed.

(** Texts of digits and dots. *)
Definition v4c (c : char) : bool := is_digit c || N.eqb c 46.
Lemma v4_digits s : forallb is_digit s = true -> forallb v4c s = true.
Proof. rewrite !forallb_forall. intros H x Hx. unfold v4c. rewrite (H _ Hx). reflexivity. Qed.
Lemma take_all (p : char -> bool) s : forallb p s = true -> take_while p s = s.
Proof. induction s as [|c s IH]; simpl; [reflexivity|]. intros H. apply andb_true_iff in H. destruct H as [-> H]. f_equal; auto. Qed.
Lemma drop_all (p : char -> bool) s : forallb p s = true -> drop_while p s = [].
Proof. induction s as [|c s IH]; simpl; [reflexivity|]. intros H. apply andb_true_iff in H. destruct H as [-> H]. auto. Qed.
Lemma take_until (p : char -> bool) s c r : forallb p s = true -> p c = false -> take_while p (s ++ c :: r) = s.
Proof. intros H Hc. induction s as [|x s IH]; simpl in *; [rewrite Hc; reflexivity|]. apply andb_true_iff in H. destruct H as [-> H]. f_equal; auto. Qed.
Lemma drop_until (p : char -> bool) s c r : forallb p s = true -> p c = false -> drop_while p (s ++ c :: r) = c :: r.
Proof. intros H Hc. induction s as [|x s IH]; simpl in *; [rewrite Hc; reflexivity|]. apply andb_true_iff in H. destruct H as [-> H]. auto. Qed.

Lemma re_plain e s : s <> [] -> forallb v4c s = true -> network_re (mark e ++ s) = Some (e, s, []).
Proof.
  intros Hne H. destruct s as [|c s]; [congruence|]. pose proof H as Hall. simpl in H. apply andb_true_iff in H. destruct H as [Hc _].
  assert (N1 : N.eqb c 33 = false /\ N.eqb c 91 = false).
  { unfold v4c, is_digit in Hc. destruct (N.eqb_spec c 33) as [->|]; [discriminate|]. destruct (N.eqb_spec c 91) as [->|]; [discriminate|auto]. }
  destruct N1 as [N1 N2].
  assert (E : opt_char 91 (opt_char 33 (mark e ++ c :: s)) = c :: s).
  { destruct e; simpl; rewrite ?N1, ?N2; simpl; rewrite ?N2; reflexivity. }
  unfold network_re. rewrite E. fold v4c. rewrite (take_all v4c) by exact Hall. rewrite (drop_all v4c) by exact Hall.
  destruct e; simpl; rewrite ?N1; reflexivity.
Qed.
Lemma re_mask e s m : s <> [] -> forallb v4c s = true -> forallb is_digit m = true -> length m <= 5 ->
  network_re (mark e ++ s ++ 47%N :: m) = Some (e, s, m).
Proof.
  intros Hne H Hm Hl. destruct s as [|c s]; [congruence|]. pose proof H as Hall. simpl in H. apply andb_true_iff in H. destruct H as [Hc _].
  assert (N1 : N.eqb c 33 = false /\ N.eqb c 91 = false).
  { unfold v4c, is_digit in Hc. destruct (N.eqb_spec c 33) as [->|]; [discriminate|]. destruct (N.eqb_spec c 91) as [->|]; [discriminate|auto]. }
  destruct N1 as [N1 N2].
  assert (E : opt_char 91 (opt_char 33 (mark e ++ (c :: s) ++ 47%N :: m)) = (c :: s) ++ 47%N :: m).
  { destruct e; simpl; rewrite ?N1, ?N2; simpl; rewrite ?N2; reflexivity. }
  unfold network_re. rewrite E. fold v4c. rewrite (take_until v4c) by (exact Hall || reflexivity). rewrite (drop_until v4c) by (exact Hall || reflexivity).
  assert (T : re_tail (47%N :: m) = Some m).
  { unfold re_tail. simpl opt_char. rewrite take_all, drop_all by exact Hm. apply Nat.leb_le in Hl. rewrite Hl. reflexivity. }
  rewrite T. destruct e; simpl; rewrite ?N1; reflexivity.
Qed.

Lemma split_no c s : ~ In c s -> split_char c s = [s].
Proof.
  induction s as [|x s IH]; intros H; simpl; [reflexivity|].
  destruct (N.eqb_spec x c) as [->|Hx]; [exfalso; apply H; left; reflexivity|].
  rewrite IH by (intros Hi; apply H; right; exact Hi). reflexivity.
Qed.
Lemma split_at c a b : ~ In c a -> split_char c (a ++ c :: b) = a :: split_char c b.
Proof.
  induction a as [|x a IH]; intros H; simpl; [rewrite N.eqb_refl; reflexivity|].
  destruct (N.eqb_spec x c) as [->|Hx]; [exfalso; apply H; left; reflexivity|].
  rewrite IH by (intros Hi; apply H; right; exact Hi). reflexivity.
Qed.
Lemma count_no c s : ~ In c s -> count_char c s = 0.
Proof.
  unfold count_char. induction s as [|x s IH]; intros H; simpl; [reflexivity|].
  destruct (N.eqb_spec c x) as [->|Hx]; [exfalso; apply H; left; reflexivity|]. apply IH. intros Hi; apply H; right; exact Hi.
Qed.
Lemma count_app c a b : count_char c (a ++ b) = count_char c a + count_char c b.
Proof. unfold count_char. rewrite filter_app, app_length. reflexivity. Qed.
Lemma contains_no c s : ~ In c s -> contains [c] s = false.
Proof.
  induction s as [|x s IH]; intros H; [reflexivity|]. change (contains [c] (x :: s)) with (startswith [c] (x :: s) || contains [c] s).
  rewrite IH by (intros Hi; apply H; right; exact Hi). rewrite orb_false_r.
  destruct (startswith [c] (x :: s)) eqn:E; [|reflexivity]. apply startswith_app in E. destruct E as [t E]. injection E as -> _.
  exfalso. apply H. left; reflexivity.
Qed.
Lemma ends_dot s : endswith ($".") (s ++ $".") = true.
Proof. apply endswith_app. exists s; reflexivity. Qed.
Lemma ends_no s : ~ In 46%N s -> endswith ($".") s = false.
Proof.
  intros H. destruct (endswith ($".") s) eqn:E; [|reflexivity]. apply endswith_app in E. destruct E as [t ->].
  exfalso. apply H. apply in_app_iff. right; left; reflexivity.
Qed.
Lemma ends_no2 a s : s <> [] -> ~ In 46%N s -> endswith ($".") (a ++ s) = false.
Proof.
  intros Hne H. destruct (endswith ($".") (a ++ s)) eqn:E; [|reflexivity]. apply endswith_app in E. destruct E as [t E].
  destruct (exists_last Hne) as (s' & x & ->). rewrite app_assoc in E. apply app_inj_tail in E. destruct E as [_ ->].
  exfalso. apply H. apply in_app_iff. right; left; reflexivity.
Qed.

(** A dotted text, with the facts needed about each octet. *)
Lemma dec_facts n : octet n -> ~ In 46%N (dec n) /\ ~ In 47%N (dec n) /\ dec n <> [] /\ forallb v4c (dec n) = true /\ parse_octet (dec n) = Some n.
Proof.
  intros H. destruct (dec_octet n H) as (H1 & H2 & H3 & H4). repeat split; auto;
    try (apply (digits_notin _ _ H2); reflexivity). apply v4_digits; exact H2.
Qed.
Lemma parse_ip4_dots a b c d : octet a -> octet b -> octet c -> octet d ->
  parse_ip4 (dec a ++ 46%N :: dec b ++ 46%N :: dec c ++ 46%N :: dec d) = Some (a * 16777216 + b * 65536 + c * 256 + d)%N.
Proof.
  intros Ha Hb Hc Hd. destruct (dec_facts a Ha) as (A1 & _ & _ & _ & A2), (dec_facts b Hb) as (B1 & _ & _ & _ & B2),
    (dec_facts c Hc) as (C1 & _ & _ & _ & C2), (dec_facts d Hd) as (D1 & _ & _ & _ & D2).
  unfold parse_ip4. rewrite !split_at by assumption. rewrite split_no by assumption. cbn [map]. rewrite A2, B2, C2, D2. reflexivity.
Qed.
Lemma no_slash_dots a b c d : octet a -> octet b -> octet c -> octet d -> ~ In 47%N (dec a ++ 46%N :: dec b ++ 46%N :: dec c ++ 46%N :: dec d).
Proof.
  intros Ha Hb Hc Hd. destruct (dec_facts a Ha) as (_ & A1 & _), (dec_facts b Hb) as (_ & B1 & _), (dec_facts c Hc) as (_ & C1 & _), (dec_facts d Hd) as (_ & D1 & _).
  rewrite in_app_iff; simpl; rewrite in_app_iff; simpl; rewrite in_app_iff; simpl. intuition discriminate.
Qed.
Lemma natural_dec m : (m <= 32)%N -> natural (dec m) = Some m.
Proof.
  intros H. assert (Hall : forallb (fun m => match natural (dec m) with Some k => N.eqb k m | None => false end) (map N.of_nat (seq 0 33)) = true) by (vm_compute; reflexivity).
  rewrite forallb_forall in Hall. specialize (Hall m). destruct (natural (dec m)) as [k|].
  - f_equal. apply N.eqb_eq. apply Hall. apply in_map_iff. exists (N.to_nat m). split; [apply N2Nat.id|]. apply in_seq. lia.
  - discriminate Hall. apply in_map_iff. exists (N.to_nat m). split; [apply N2Nat.id|]. apply in_seq. lia.
Qed.
Lemma net_text a b c d m : octet a -> octet b -> octet c -> octet d -> (m <= 32)%N ->
  ip_network parse_net6 ((dec a ++ 46%N :: dec b ++ 46%N :: dec c ++ 46%N :: dec d) ++ 47%N :: dec m) =
  let v := (a * 16777216 + b * 65536 + c * 256 + d)%N in
  if N.eqb (v mod 2 ^ (32 - m)) 0 then Some (mkNet V4 v m) else None.
Proof.
  intros Ha Hb Hc Hd Hm. unfold ip_network, parse_net4. rewrite split_at by (apply no_slash_dots; assumption).
  assert (Hoc : octet m) by (unfold octet; lia). destruct (dec_facts m Hoc) as (_ & M1 & _).
  rewrite split_no by exact M1. rewrite parse_ip4_dots by assumption. rewrite natural_dec by exact Hm.
  apply N.leb_le in Hm. rewrite Hm. reflexivity.
Qed.

Lemma div_octets w x y z : octet w -> octet x -> octet y -> octet z ->
  ((w * 16777216 + x * 65536 + y * 256 + z) / 16777216 = w /\
   (w * 16777216 + x * 65536 + y * 256 + z) / 65536 = w * 256 + x /\
   (w * 16777216 + x * 65536 + y * 256 + z) / 256 = w * 65536 + x * 256 + y)%N.
Proof.
  unfold octet. intros Hw Hx Hy Hz. split; [|split]; symmetry.
  - apply (N.div_unique _ _ _ (x * 65536 + y * 256 + z)); lia.
  - apply (N.div_unique _ _ _ (y * 256 + z)); lia.
  - apply (N.div_unique _ _ _ z); lia.
Qed.
Lemma ip4_val w x y z : a_val (ip4 w x y z) = (w * 16777216 + x * 65536 + y * 256 + z)%N.
Proof. reflexivity. Qed.


Ltac asc := change ($".") with [46%N]; change ($"/") with [47%N]; repeat (rewrite <- !app_assoc; cbn [app]); reflexivity.

Lemma fmt_dots s k : count_char 46%N s = k ->
  format_network (s ++ $".") [] = (s ++ $".") ++ join ($".") (repeat ($"0") (4 - (k + 1))) ++ $"/" ++ dec (N.of_nat (k + 1) * 8).
Proof.
  intros Hk. unfold format_network. rewrite ends_dot. cbn [negb andb]. rewrite ends_dot, count_app, Hk.
  change (count_char 46 ($".")) with 1. destruct (dec (N.of_nat (k + 1) * 8)) as [|x l] eqn:E; [|reflexivity].
  exfalso. revert E. unfold dec. rewrite Nat.add_1_r. clear. destruct (N.of_nat (S k) * 8)%N as [|p] eqn:Ep; [lia|].
  intros E. assert (U : N.to_uint (Npos p) <> Decimal.Nil) by (apply DecimalPos.Unsigned.to_uint_nonnil). 
  destruct (N.to_uint (N.pos p)); try discriminate. congruence.
Qed.
Lemma fmt_mask s m : ~ In 47%N s -> count_char 46%N s = 3 -> endswith ($".") s = false -> m <> [] ->
  length (split_char 46%N s) = 4 -> format_network s m = s ++ 47%N :: m.
Proof.
  intros H1 H2 H3 Hm H4. unfold format_network. rewrite H3, H4. cbn [negb andb orb Nat.eqb]. rewrite H3.
  destruct m; [congruence|]. reflexivity.
Qed.

Lemma extract8 e a : octet a -> extract_network parse_net6 (mark e ++ dec a ++ $".") = Some (e, Some (mkNet V4 (a * 16777216) 8)).
Proof.
  intros Ha. destruct (dec_facts a Ha) as (A1 & A2 & A3 & A4 & A5). unfold extract_network.
  rewrite re_plain; [|destruct (dec a); discriminate|rewrite forallb_app, A4; reflexivity]. do 2 f_equal.
  rewrite (fmt_dots _ 0) by (apply count_no; exact A1).
  replace ((dec a ++ $".") ++ join ($".") (repeat ($"0") (4 - (0 + 1))) ++ $"/" ++ dec (N.of_nat (0 + 1) * 8))
    with ((dec a ++ 46%N :: dec 0 ++ 46%N :: dec 0 ++ 46%N :: dec 0) ++ 47%N :: dec 8) by asc.
  rewrite net_text by (assumption || unfold octet; lia). cbv zeta.
  replace (a * 16777216 + 0 * 65536 + 0 * 256 + 0)%N with (a * 16777216)%N by lia.
  change (2 ^ (32 - 8))%N with 16777216%N. rewrite N.mod_mul by discriminate. reflexivity.
Qed.
Lemma extract16 e a b : octet a -> octet b ->
  extract_network parse_net6 (mark e ++ dec a ++ $"." ++ dec b ++ $".") = Some (e, Some (mkNet V4 ((a * 256 + b) * 65536) 16)).
Proof.
  intros Ha Hb. destruct (dec_facts a Ha) as (A1 & A2 & A3 & A4 & A5), (dec_facts b Hb) as (B1 & B2 & B3 & B4 & B5). unfold extract_network.
  rewrite re_plain; [|destruct (dec a); discriminate|rewrite !forallb_app, A4, B4; reflexivity]. do 2 f_equal.
  replace (dec a ++ $"." ++ dec b ++ $".") with ((dec a ++ $"." ++ dec b) ++ $".") by asc.
  rewrite (fmt_dots _ 1) by (rewrite !count_app, (count_no _ _ A1), (count_no _ _ B1); reflexivity).
  replace (((dec a ++ $"." ++ dec b) ++ $".") ++ join ($".") (repeat ($"0") (4 - (1 + 1))) ++ $"/" ++ dec (N.of_nat (1 + 1) * 8))
    with ((dec a ++ 46%N :: dec b ++ 46%N :: dec 0 ++ 46%N :: dec 0) ++ 47%N :: dec 16) by asc.
  rewrite net_text by (assumption || unfold octet; lia). cbv zeta.
  replace (a * 16777216 + b * 65536 + 0 * 256 + 0)%N with ((a * 256 + b) * 65536)%N by lia.
  change (2 ^ (32 - 16))%N with 65536%N. rewrite N.mod_mul by discriminate. reflexivity.
Qed.
Lemma net24 a b c : octet a -> octet b -> octet c ->
  ip_network parse_net6 (format_network ((dec a ++ $"." ++ dec b ++ $"." ++ dec c) ++ $".") []) =
  Some (mkNet V4 ((a * 65536 + b * 256 + c) * 256) 24).
Proof.
  intros Ha Hb Hc. destruct (dec_facts a Ha) as (A1 & A2 & A3 & A4 & A5), (dec_facts b Hb) as (B1 & B2 & B3 & B4 & B5), (dec_facts c Hc) as (C1 & C2 & C3 & C4 & C5).
  rewrite (fmt_dots _ 2) by (rewrite !count_app, (count_no _ _ A1), (count_no _ _ B1), (count_no _ _ C1); reflexivity).
  replace (((dec a ++ $"." ++ dec b ++ $"." ++ dec c) ++ $".") ++ join ($".") (repeat ($"0") (4 - (2 + 1))) ++ $"/" ++ dec (N.of_nat (2 + 1) * 8))
    with ((dec a ++ 46%N :: dec b ++ 46%N :: dec c ++ 46%N :: dec 0) ++ 47%N :: dec 24) by asc.
  rewrite net_text by (assumption || unfold octet; lia). cbv zeta.
  replace (a * 16777216 + b * 65536 + c * 256 + 0)%N with ((a * 65536 + b * 256 + c) * 256)%N by lia.
  change (2 ^ (32 - 24))%N with 256%N. rewrite N.mod_mul by discriminate. reflexivity.
Qed.
Lemma extract24 e a b c : octet a -> octet b -> octet c ->
  extract_network parse_net6 (mark e ++ dec a ++ $"." ++ dec b ++ $"." ++ dec c ++ $".") = Some (e, Some (mkNet V4 ((a * 65536 + b * 256 + c) * 256) 24)).
Proof.
  intros Ha Hb Hc. destruct (dec_facts a Ha) as (A1 & A2 & A3 & A4 & A5), (dec_facts b Hb) as (B1 & B2 & B3 & B4 & B5), (dec_facts c Hc) as (C1 & C2 & C3 & C4 & C5). unfold extract_network.
  rewrite re_plain; [|destruct (dec a); discriminate|rewrite !forallb_app, A4, B4, C4; reflexivity]. do 2 f_equal.
  replace (dec a ++ $"." ++ dec b ++ $"." ++ dec c ++ $".") with ((dec a ++ $"." ++ dec b ++ $"." ++ dec c) ++ $".") by asc.
  apply net24; assumption.
Qed.
Lemma extract24' e a b c : octet a -> octet b -> octet c ->
  extract_network parse_net6 (mark e ++ dec a ++ $"." ++ dec b ++ $"." ++ dec c) = Some (e, Some (mkNet V4 ((a * 65536 + b * 256 + c) * 256) 24)).
Proof.
  intros Ha Hb Hc. destruct (dec_facts a Ha) as (A1 & A2 & A3 & A4 & A5), (dec_facts b Hb) as (B1 & B2 & B3 & B4 & B5), (dec_facts c Hc) as (C1 & C2 & C3 & C4 & C5). unfold extract_network.
  rewrite re_plain; [|destruct (dec a); discriminate|rewrite !forallb_app, A4, B4, C4; reflexivity]. do 2 f_equal.
  rewrite <- net24 by assumption. f_equal. unfold format_network at 1.
  assert (E : endswith ($".") (dec a ++ $"." ++ dec b ++ $"." ++ dec c) = false).
  { rewrite !app_assoc. apply ends_no2; assumption. }
  assert (L : length (split_char 46 (dec a ++ $"." ++ dec b ++ $"." ++ dec c)) = 3).
  { change (dec a ++ $"." ++ dec b ++ $"." ++ dec c) with (dec a ++ 46%N :: dec b ++ 46%N :: dec c).
    rewrite !split_at by assumption. rewrite split_no by assumption. reflexivity. }
  assert (S : contains ($"/") (dec a ++ $"." ++ dec b ++ $"." ++ dec c) = false).
  { apply contains_no. rewrite in_app_iff; simpl; rewrite in_app_iff; simpl. intuition discriminate. }
  rewrite E, L, S. cbn [negb andb orb Nat.eqb]. unfold format_network. rewrite !ends_dot. cbn [negb andb]. rewrite ?ends_dot. reflexivity.
Qed.
Lemma dots_shape a b c d : octet a -> octet b -> octet c -> octet d ->
  let s := dec a ++ 46%N :: dec b ++ 46%N :: dec c ++ 46%N :: dec d in
  s <> [] /\ forallb v4c s = true /\ count_char 46%N s = 3 /\ endswith ($".") s = false /\ length (split_char 46%N s) = 4.
Proof.
  intros Ha Hb Hc Hd. destruct (dec_facts a Ha) as (A1 & A2 & A3 & A4 & A5), (dec_facts b Hb) as (B1 & B2 & B3 & B4 & B5),
    (dec_facts c Hc) as (C1 & C2 & C3 & C4 & C5), (dec_facts d Hd) as (D1 & D2 & D3 & D4 & D5). cbv zeta.
  split; [destruct (dec a); discriminate|]. split.
  - rewrite forallb_app, A4. simpl. rewrite forallb_app, B4. simpl. rewrite forallb_app, C4. simpl. exact D4.
  - split.
    + change (dec a ++ 46%N :: dec b ++ 46%N :: dec c ++ 46%N :: dec d) with (dec a ++ $"." ++ dec b ++ $"." ++ dec c ++ $"." ++ dec d).
      rewrite !count_app, (count_no _ _ A1), (count_no _ _ B1), (count_no _ _ C1), (count_no _ _ D1). reflexivity.
    + split.
      * change (dec a ++ 46%N :: dec b ++ 46%N :: dec c ++ 46%N :: dec d) with (dec a ++ $"." ++ dec b ++ $"." ++ dec c ++ $"." ++ dec d).
        rewrite !app_assoc. apply ends_no2; assumption.
      * rewrite !split_at by assumption. rewrite split_no by assumption. reflexivity.
Qed.
Lemma dec_mask m : (m <= 32)%N -> forallb is_digit (dec m) = true /\ length (dec m) <= 5 /\ dec m <> [].
Proof.
  intros H. assert (Ho : octet m) by (unfold octet; lia). destruct (dec_octet m Ho) as (_ & H1 & H2 & H3). repeat split; auto; lia.
Qed.
Lemma extract_mask e a b c d m : octet a -> octet b -> octet c -> octet d -> (m <= 32)%N ->
  extract_network parse_net6 (mark e ++ dec a ++ $"." ++ dec b ++ $"." ++ dec c ++ $"." ++ dec d ++ $"/" ++ dec m) =
  Some (e, let v := (a * 16777216 + b * 65536 + c * 256 + d)%N in
           if N.eqb (v mod 2 ^ (32 - m)) 0 then Some (mkNet V4 v m) else None).
Proof.
  intros Ha Hb Hc Hd Hm. destruct (dots_shape a b c d Ha Hb Hc Hd) as (S1 & S2 & S3 & S4 & S5). destruct (dec_mask m Hm) as (M1 & M2 & M3).
  unfold extract_network.
  replace (mark e ++ dec a ++ $"." ++ dec b ++ $"." ++ dec c ++ $"." ++ dec d ++ $"/" ++ dec m)
    with (mark e ++ (dec a ++ 46%N :: dec b ++ 46%N :: dec c ++ 46%N :: dec d) ++ 47%N :: dec m)
    by asc.
  rewrite re_mask by assumption. rewrite fmt_mask; auto; [|apply no_slash_dots; assumption].
  rewrite net_text by assumption. reflexivity.
Qed.
Lemma extract32 e a b c d : octet a -> octet b -> octet c -> octet d ->
  extract_network parse_net6 (mark e ++ dec a ++ $"." ++ dec b ++ $"." ++ dec c ++ $"." ++ dec d) =
  Some (e, Some (mkNet V4 (a * 16777216 + b * 65536 + c * 256 + d) 32)).
Proof.
  intros Ha Hb Hc Hd. destruct (dots_shape a b c d Ha Hb Hc Hd) as (S1 & S2 & S3 & S4 & S5). unfold extract_network.
  change (dec a ++ $"." ++ dec b ++ $"." ++ dec c ++ $"." ++ dec d) with (dec a ++ 46%N :: dec b ++ 46%N :: dec c ++ 46%N :: dec d).
  rewrite re_plain by assumption. do 2 f_equal. unfold format_network. rewrite S4, S5. cbn [negb andb orb Nat.eqb]. rewrite S4, app_nil_r.
  unfold ip_network, parse_net4. rewrite split_no by (apply no_slash_dots; assumption). rewrite parse_ip4_dots by assumption. reflexivity.
Qed.

(** Membership in the networks of the shorthands. *)
Lemma in8 a w x y z : octet w -> octet x -> octet y -> octet z ->
  (in_net (ip4 w x y z) (mkNet V4 (a * 16777216) 8) = true <-> w = a).
Proof.
  intros Hw Hx Hy Hz. unfold in_net. rewrite ip4_val. cbn [a_ver n_ver n_base n_len bits ver_eqb ip4 andb].
  change (2 ^ (32 - 8))%N with 16777216%N. destruct (div_octets w x y z Hw Hx Hy Hz) as (-> & _ & _).
  rewrite N.div_mul by discriminate. apply N.eqb_eq.
Qed.
Lemma in16 a b w x y z : octet a -> octet b -> octet w -> octet x -> octet y -> octet z ->
  (in_net (ip4 w x y z) (mkNet V4 ((a * 256 + b) * 65536) 16) = true <-> w = a /\ x = b).
Proof.
  intros Ha Hb Hw Hx Hy Hz. unfold in_net. rewrite ip4_val. cbn [a_ver n_ver n_base n_len bits ver_eqb ip4 andb].
  change (2 ^ (32 - 16))%N with 65536%N. destruct (div_octets w x y z Hw Hx Hy Hz) as (_ & -> & _).
  rewrite N.div_mul by discriminate. rewrite N.eqb_eq. unfold octet in *. split; [intros E; split; lia|intros [-> ->]; reflexivity].
Qed.
Lemma in24 a b c w x y z : octet a -> octet b -> octet c -> octet w -> octet x -> octet y -> octet z ->
  (in_net (ip4 w x y z) (mkNet V4 ((a * 65536 + b * 256 + c) * 256) 24) = true <-> w = a /\ x = b /\ y = c).
Proof.
  intros Ha Hb Hc Hw Hx Hy Hz. unfold in_net. rewrite ip4_val. cbn [a_ver n_ver n_base n_len bits ver_eqb ip4 andb].
  change (2 ^ (32 - 24))%N with 256%N. destruct (div_octets w x y z Hw Hx Hy Hz) as (_ & _ & ->).
  rewrite N.div_mul by discriminate. rewrite N.eqb_eq. unfold octet in *. split; [intros E; split; [|split]; lia|intros (-> & -> & ->); reflexivity].
Qed.
Lemma in32 a b c d w x y z : octet a -> octet b -> octet c -> octet d -> octet w -> octet x -> octet y -> octet z ->
  (in_net (ip4 w x y z) (mkNet V4 (a * 16777216 + b * 65536 + c * 256 + d) 32) = true <-> w = a /\ x = b /\ y = c /\ z = d).
Proof.
  intros Ha Hb Hc Hd Hw Hx Hy Hz. unfold in_net. rewrite ip4_val. cbn [a_ver n_ver n_base n_len bits ver_eqb ip4 andb].
  change (2 ^ (32 - 32))%N with 1%N. rewrite !N.div_1_r, N.eqb_eq. unfold octet in *. split; [intros E; repeat split; lia|intros (-> & -> & -> & ->); reflexivity].
Qed.
End R.

Lemma div_pow_bits (x y k : N) :
  (x / 2 ^ k = y / 2 ^ k)%N <-> forall i, (k <= i)%N -> N.testbit x i = N.testbit y i.
Proof.
  rewrite <- !N.shiftr_div_pow2. split.
  - intros H i Hi. replace i with ((i - k) + k)%N by lia. rewrite <- !N.shiftr_spec by lia. rewrite H. reflexivity.
  - intros H. apply N.bits_inj. intros i. rewrite !N.shiftr_spec by lia. apply H. lia.
Qed.
Lemma in_net_bits a n :
  in_net a n = true <->
  a_ver a = n_ver n /\
  forall i, (bits (n_ver n) - n_len n <= i)%N -> N.testbit (a_val a) i = N.testbit (n_base n) i.
Proof.
  unfold in_net. rewrite andb_true_iff, N.eqb_eq, div_pow_bits.
  assert (Hv : ver_eqb (a_ver a) (n_ver n) = true <-> a_ver a = n_ver n) by (destruct (a_ver a), (n_ver n); cbn; split; congruence).
  rewrite Hv. reflexivity.
Qed.

Lemma default_internal_aux parse6 trusted : forall s s', n_iconf s = false -> n_internal s = n_trusted s ->
  add_all parse6 (map LTrusted trusted) s = Some s' -> n_internal s' = n_trusted s'.
Proof.
  induction trusted as [|t l IH]; intros s s' Hi He H; cbn [map add_all] in H; [injection H as <-; exact He|].
  unfold add_line in H. destruct (extract_network parse6 t) as [[e n]|]; [|discriminate]. rewrite Hi in H.
  apply (IH _ s') in H; [exact H|reflexivity|]. cbn. rewrite He. reflexivity.
Qed.
Lemma default_internal parse6 trusted s :
  add_networks parse6 trusted [] [] nets0 = Some s -> n_internal s = n_trusted s.
Proof. unfold add_networks. cbn [map app]. rewrite app_nil_r. apply default_internal_aux; reflexivity. Qed.
