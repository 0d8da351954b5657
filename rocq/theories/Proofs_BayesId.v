(** Message ids. *)
From Verif Require Import PyStr Regexp Spec_Regexp RegexpSub Model_Received Model_BayesChew Spec_BayesChew Proofs_Regexp Proofs_RegexpLang Proofs_RegexpSub Proofs_BayesChew Proofs_BayesStop.
From Coq Require Import Lia.
Open Scope nat_scope.

Section Id.
Variable udigit uword : char -> bool.
Notation ways := (ways udigit uword).
Notation reads := (reads udigit uword).
Notation re_sub := (re_sub udigit uword).
Notation class_in := (class_in udigit uword).

Lemma no_word_class c : class_in false true [IChar 95; IRange 65 90; IRange 97 122; IRange 48 57] c = negb (id_char c).
Proof.
  unfold Regexp.class_in, id_char, alphanumeric, digit, upper_case, lower_case. cbn [existsb item_in]. rewrite andb_false_l, !orb_false_r, xorb_true_l. f_equal.
  destruct (N.eqb c 95), (N.leb 97 c && N.leb c 122), (N.leb 65 c && N.leb c 90), (N.leb 48 c && N.leb c 57); reflexivity.
Qed.
Lemma blank_all s : re_sub (always ($" ")) NO_WORD s = blanked s.
Proof.
  unfold NO_WORD. rewrite re_sub_class. unfold blanked. induction s as [|c s IH]; [reflexivity|]. cbn [flat_map map]. rewrite no_word_class, IH. destruct (id_char c); reflexivity.
Qed.
Lemma blanked_alphabet s : Forall (fun c => c = 32%N \/ id_char c = true) (blanked s).
Proof. unfold blanked. apply Forall_forall. intros c I. apply in_map_iff in I as (d & <- & _). destruct (id_char d) eqn:E; auto. Qed.

(** ** Matches that begin with a character *)
Definition begins (r : re) (c : char) : Prop := forall b w a, reads r b w a -> exists x, w = c :: x.
Lemma cat_begins c p : begins (Cat (Chr false false [IChar c]) p) c.
Proof. intros b w a (u & v & -> & (d & -> & D) & _). apply class_one in D. subst d. exists v. reflexivity. Qed.
Lemma begins_no_match r c b u v : begins r c -> ~ In c u -> no_match_in udigit uword r b u v.
Proof.
  intros B N x y -> Y w a E R. apply B in R as [z ->]. destruct y as [|d y]; [congruence|]. cbn [app] in E. injection E as -> _. apply N. apply in_or_app. right. left. reflexivity.
Qed.
Lemma begins_none repl r c s : ordered r = true -> begins r c -> ~ In c s -> re_sub repl r s = s.
Proof.
  intros O B N. apply sub_none; [exact O|intros b a R; apply B in R as [x X]; discriminate|auto|]. eapply begins_no_match; eauto.
Qed.
Lemma chew_plain v : ~ In 60%N v -> chew_id udigit uword v = blanked v.
Proof.
  intros N. unfold chew_id. rewrite blank_all. f_equal.
  rewrite (begins_none _ OUTLOOK 60); [|reflexivity|apply cat_begins|exact N]. rewrite (begins_none _ EXIM 60); [|reflexivity|apply cat_begins|exact N].
  apply (begins_none _ SENDMAIL 60); [reflexivity|apply cat_begins|exact N].
Qed.

(** ** The only way to match *)
Definition only_way (r : re) (st st' : state) : Prop := ways r st <> [] /\ forall x, In x (ways r st) -> x = st'.
Lemma only_first r st st' : only_way r st st' -> first udigit uword r st st'.
Proof. intros [N H]. unfold first. destruct (ways r st) as [|x l]; [congruence|]. rewrite (H x (or_introl eq_refl)). eauto. Qed.
Lemma only_cat a b st st1 st2 : only_way a st st1 -> only_way b st1 st2 -> only_way (Cat a b) st st2.
Proof.
  intros [A1 A2] [B1 B2]. split; cbn [Regexp.ways].
  - destruct (ways a st) as [|x l]; [congruence|]. rewrite (A2 x (or_introl eq_refl)). cbn [flat_map]. destruct (ways b st1); [congruence|discriminate].
  - intros x X. apply in_flat_map in X as (y & Y & X). apply A2 in Y. subst y. apply B2. exact X.
Qed.
Lemma only_grp n r b w a k k' : only_way r (mkS b (w ++ a) k) (mkS (rev w ++ b) a k') -> only_way (Grp n r) (mkS b (w ++ a) k) (mkS (rev w ++ b) a ((n, w) :: k')).
Proof.
  intros [A1 A2]. split; cbn [Regexp.ways].
  - destruct (ways r (mkS b (w ++ a) k)); [congruence|discriminate].
  - intros x X. apply in_map_iff in X as (y & <- & Y). apply A2 in Y. subst y. cbn [s_before s_after s_caps].
    assert (E : ext (mkS b (w ++ a) k) (mkS (rev w ++ b) a k') w) by (split; reflexivity). rewrite (ext_consumed _ _ _ E). reflexivity.
Qed.
Lemma only_chr ci neg l b c a k : class_in ci neg l c = true -> only_way (Chr ci neg l) (mkS b (c :: a) k) (mkS (c :: b) a k).
Proof. intros H. split; rewrite ways_chr by exact H; [discriminate|]. intros x [<-|[]]. reflexivity. Qed.
Lemma only_by_reads r b w a k : ordered r = true -> no_groups r = true -> reads r b w a -> (forall w' a', w ++ a = w' ++ a' -> reads r b w' a' -> w' = w) ->
  only_way r (mkS b (w ++ a) k) (mkS (rev w ++ b) a k).
Proof.
  intros O G R Q. split.
  - apply (ways_reads udigit uword r O b w a k) in R as [k' K]. intros E. rewrite E in K. destruct K.
  - intros x X. pose proof (ways_same_caps udigit uword r G _ _ X) as C. cbn in C. destruct (way_reads udigit uword r _ _ _ _ O X) as (w' & W1 & W2 & W3 & _).
    pose proof (Q w' (s_after x) W1 W3) as ->. apply app_inv_head in W1. destruct x. cbn in *. subst. reflexivity.
Qed.
Lemma only_fixed n ci neg l b w a k : length w = n -> Forall (fun c => class_in ci neg l c = true) w ->
  only_way (Rep true n (Some n) (Chr ci neg l)) (mkS b (w ++ a) k) (mkS (rev w ++ b) a k).
Proof.
  intros L F. apply only_by_reads; [cbn; rewrite Nat.leb_refl; reflexivity|reflexivity|apply rep_chr; split; [lia|exact F]|].
  intros w' a' E R. apply rep_chr in R as [L' _]. apply app_eq_app in E as [x [[-> _]|[-> _]]]; rewrite app_length in *; (destruct x; [rewrite app_nil_r; reflexivity|cbn in *; lia]).
Qed.

(** ** Characters *)
Ltac cls := unfold Regexp.class_in; cbn [existsb item_in]; rewrite andb_false_l, !orb_false_r, xorb_false_l.
Lemma class_lowhex c : class_in false false [IRange 48 57; IRange 97 102] c = low_hex c.
Proof. cls. reflexivity. Qed.
Lemma class_highhex c : class_in false false [IRange 65 70; IRange 48 57] c = high_hex c.
Proof. cls. unfold high_hex, digit. apply orb_comm. Qed.
Lemma class_azn c : class_in false false [IRange 65 90; IRange 97 122; IRange 48 57] c = alphanumeric c.
Proof.
  cls. unfold alphanumeric, digit, upper_case, lower_case. destruct (N.leb 97 c && N.leb c 122), (N.leb 65 c && N.leb c 90), (N.leb 48 c && N.leb c 57); reflexivity.
Qed.
Lemma class_char c : class_in false false [IChar c] c = true.
Proof. cls. apply N.eqb_refl. Qed.
Lemma fixed_all n l p b w a k : (forall c, class_in false false l c = p c) -> all p n w -> only_way (Rep true n (Some n) (Chr false false l)) (mkS b (w ++ a) k) (mkS (rev w ++ b) a k).
Proof. intros E [L F]. apply only_fixed; [exact L|]. apply (Forall_eqb w E). exact F. Qed.

(** ** Outlook Express *)
Lemma host_way b host k : host <> [] -> (forall c, In c host -> is_space c = false) -> ~ In 62%N host ->
  only_way (Cat (Grp 4 (Rep true 1 None (Chr false false [INotSpace]))) (Chr false false [IChar 62])) (mkS b (host ++ ($">")) k) (mkS (62%N :: rev host ++ b) [] ((4, host) :: k)).
Proof.
  intros N S G. assert (R : ordered (Rep true 1 None (Chr false false [INotSpace])) = true) by reflexivity. split.
  - assert (K : reads (Rep true 1 None (Chr false false [INotSpace])) b host ($">")).
    { exists (length host). split; [destruct host; [congruence|cbn; lia]|]. split; [exact I|]. apply chr_times. split; [reflexivity|]. apply Forall_forall. intros c C. cls. cbn [item_in]. rewrite (S c C). reflexivity. }
    apply (ways_reads udigit uword _ R b host ($">") k) in K as [k' K]. intros E.
    assert (X : In (mkS (62%N :: rev host ++ b) [] ((4, host) :: k')) (ways (Cat (Grp 4 (Rep true 1 None (Chr false false [INotSpace]))) (Chr false false [IChar 62])) (mkS b (host ++ ($">")) k))).
    { cbn [Regexp.ways]. apply in_flat_map. exists (mkS (rev host ++ b) ($">") ((4, host) :: k')). split.
      - apply in_map_iff. exists (mkS (rev host ++ b) ($">") k'). split; [|exact K]. cbn [s_before s_after s_caps].
        assert (E' : ext (mkS b (host ++ ($">")) k) (mkS (rev host ++ b) ($">") k') host) by (split; reflexivity). rewrite (ext_consumed _ _ _ E'). reflexivity.
      - left. reflexivity. }
    rewrite E in X. destruct X.
  - intros x X. cbn [Regexp.ways] in X. apply in_flat_map in X as (y & Y & X). apply in_map_iff in Y as (z & <- & Z).
    pose proof (ways_same_caps udigit uword (Rep true 1 None (Chr false false [INotSpace])) eq_refl _ _ Z) as C. cbn in C.
    destruct (way_reads udigit uword (Rep true 1 None (Chr false false [INotSpace])) _ _ _ _ R Z) as (w & W1 & W2 & W3 & W4). rewrite W4 in X. apply step_In in X as (c & Cc & E & K). apply class_one in Cc. subst c.
    destruct E as [E1 E2]. cbn in E1, E2, K. rewrite E1 in W1. change ($">") with [62%N] in W1. assert (H : w = host /\ s_after x = []).
    { symmetry in W1. apply app_eq_app in W1 as [t [[-> T]|[-> T]]]; cbn [app] in T.
      - destruct t as [|d t]; [injection T as T; rewrite app_nil_r; auto|]. cbn [app] in T. injection T as _ T. destruct t; discriminate.
      - destruct t as [|d t]; [injection T as T; rewrite app_nil_r; auto|]. cbn [app] in T. injection T as <- T. destruct G. apply in_or_app. right. left. reflexivity. }
    destruct H as [-> H]. rewrite C in K. destruct x as [xb xa xc]. cbn in *. subst. rewrite W2. reflexivity.
Qed.
Lemma outlook a x y b z c host : all low_hex 4 a -> all low_hex 4 x -> all low_hex 4 y -> all low_hex 4 b -> all low_hex 4 z -> all low_hex 8 c ->
  host <> [] -> (forall d, In d host -> is_space d = false) -> ~ In 62%N host ->
  exists bf, only_way OUTLOOK (mkS [] (outlook_id a x y b z c host) []) (mkS bf [] [(4, host); (3, c); (2, b); (1, a)]).
Proof.
  intros A X Y B Z C H1 H2 H3. eexists. unfold outlook_id, OUTLOOK.
  eapply only_cat; [apply only_chr, class_char|]. eapply only_cat; [apply only_grp, (fixed_all 4 _ low_hex); [exact class_lowhex|exact A]|].
  eapply only_cat; [apply (fixed_all 4 _ low_hex); [exact class_lowhex|exact X]|]. eapply only_cat; [apply (fixed_all 4 _ low_hex); [exact class_lowhex|exact Y]|].
  eapply only_cat; [apply only_chr, class_char|]. eapply only_cat; [apply only_grp, (fixed_all 4 _ low_hex); [exact class_lowhex|exact B]|].
  eapply only_cat; [apply (fixed_all 4 _ low_hex); [exact class_lowhex|exact Z]|]. eapply only_cat; [apply only_chr, class_char|].
  eapply only_cat; [apply only_grp, (fixed_all 8 _ low_hex); [exact class_lowhex|exact C]|]. eapply only_cat; [apply only_chr, class_char|].
  apply host_way; assumption.
Qed.
Lemma hex_id c : low_hex c = true -> id_char c = true.
Proof.
  unfold low_hex, id_char, alphanumeric, digit, upper_case, lower_case. destruct (N.leb 48 c && N.leb c 57); [reflexivity|].
  destruct (N.leb_spec 97 c), (N.leb_spec c 102), (N.leb_spec c 122); cbn; try discriminate; try lia; intros _; rewrite ?orb_true_r; reflexivity.
Qed.
Lemma blanked_app s t : blanked (s ++ t) = blanked s ++ blanked t.
Proof. apply map_app. Qed.
Lemma blanked_id s : Forall (fun c => id_char c = true) s -> blanked s = s.
Proof. unfold blanked. induction 1 as [|c s H F IH]; [reflexivity|]. cbn [map]. rewrite H, IH. reflexivity. Qed.
Lemma hex_blanked n s : all low_hex n s -> blanked s = s.
Proof. intros [_ F]. apply blanked_id. eapply Forall_impl; [|exact F]. exact hex_id. Qed.
Lemma id_not c d : id_char d = false -> id_char c = true -> c <> d.
Proof. congruence. Qed.
Lemma all_not p n s d : all p n s -> (forall c, p c = true -> id_char c = true) -> id_char d = false -> ~ In d s.
Proof. intros [_ F] P D I. rewrite Forall_forall in F. specialize (P d (F d I)). congruence. Qed.
Lemma host_not h d : host_name h -> id_char d = false -> ~ In d ($".-") -> ~ In d h.
Proof. intros [_ F] D N I. rewrite Forall_forall in F. destruct (F d I) as [K|K]; [congruence|contradiction]. Qed.
Lemma host_no_space h : host_name h -> forall d, In d h -> is_space d = false.
Proof.
  intros [_ F] d I. rewrite Forall_forall in F. destruct (F d I) as [K|K].
  - unfold id_char, alphanumeric, digit, upper_case, lower_case in K. unfold is_space.
    destruct (N.leb_spec 48 d), (N.leb_spec d 57), (N.leb_spec 65 d), (N.leb_spec d 90), (N.leb_spec 97 d), (N.leb_spec d 122), (N.eqb_spec d 95); cbn in K; try discriminate;
      (repeat match goal with |- context [N.leb ?x ?y] => destruct (N.leb_spec x y); try lia | |- context [N.eqb ?x ?y] => destruct (N.eqb_spec x y); try lia end); reflexivity.
  - revert K. vm_compute. intros [<-|[<-|[]]]; reflexivity.
Qed.
Lemma whole_match repl r s bf k : ordered r = true -> never_empty udigit uword r -> only_way r (mkS [] s []) (mkS bf [] k) -> s <> [] -> re_sub repl r s = repl (mkS bf [] k).
Proof.
  intros O E W N. destruct (only_first _ _ _ W) as [l L]. unfold RegexpSub.re_sub. cbn [RegexpSub.sub_from]. rewrite L. unfold consumed. cbn [s_after length]. rewrite Nat.sub_0_r, firstn_all.
  destruct s as [|c s]; [congruence|]. cbn [length s_before]. rewrite sub_copy; [apply app_nil_r|exact O|]. intros w a K. symmetry in K. apply app_eq_nil in K as [-> ->]. apply E.
Qed.
Lemma outlook_chew a x y b z c host : all low_hex 4 a -> all low_hex 4 x -> all low_hex 4 y -> all low_hex 4 b -> all low_hex 4 z -> all low_hex 8 c -> host_name host ->
  chew_id udigit uword (outlook_id a x y b z c host) = ($" OEA") ++ a ++ ($" OEB") ++ b ++ ($" OEC") ++ c ++ ($" ") ++ blanked host ++ ($" ").
Proof.
  intros A X Y B Z C H. destruct (outlook a x y b z c host A X Y B Z C) as [bf W]; [apply H|apply host_no_space; exact H|apply host_not; [exact H|reflexivity|vm_compute; intuition discriminate]|].
  unfold chew_id. rewrite blank_all. rewrite (whole_match _ OUTLOOK _ _ _ eq_refl (some_never udigit uword OUTLOOK eq_refl) W) by discriminate.
  unfold grp. cbn [s_caps group Nat.eqb]. set (s := ($" OEA") ++ a ++ ($" OEB") ++ b ++ ($" OEC") ++ c ++ ($" ") ++ host ++ ($" ")).
  assert (N : ~ In 60%N s).
  { unfold s. rewrite !in_app_iff. intros K. repeat destruct K as [K|K]; try (vm_compute in K; intuition discriminate).
    - eapply all_not; [exact A|exact hex_id| |exact K]. reflexivity.
    - eapply all_not; [exact B|exact hex_id| |exact K]. reflexivity.
    - eapply all_not; [exact C|exact hex_id| |exact K]. reflexivity.
    - eapply host_not; [exact H| | |exact K]; [reflexivity|vm_compute; intuition discriminate]. }
  rewrite (begins_none _ EXIM 60); [|reflexivity|apply cat_begins|exact N]. rewrite (begins_none _ SENDMAIL 60); [|reflexivity|apply cat_begins|exact N].
  unfold s. rewrite !blanked_app. rewrite (hex_blanked 4 a A), (hex_blanked 4 b B), (hex_blanked 8 c C). reflexivity.
Qed.

(** ** Exim and Sendmail *)
Definition asks (r : re) (c : char) : Prop := forall b w a, reads r b w a -> In c w.
Lemma asks_none repl r c s : ordered r = true -> asks r c -> ~ In c s -> re_sub repl r s = s.
Proof.
  intros O B N. apply re_sub_none; [exact O|intros b a R; apply (B _ _ _ R)|]. intros (b & w & a & -> & R). apply N. apply in_or_app. right. apply in_or_app. left. eapply B; eauto.
Qed.
Lemma outlook_asks : asks OUTLOOK 36.
Proof.
  intros b w a R. destruct R as (u1 & v1 & -> & _ & (u2 & v2 & -> & _ & (u3 & v3 & -> & _ & (u4 & v4 & -> & _ & (u5 & v5 & -> & (d & -> & D) & _))))).
  apply class_one in D. subst d. do 4 (apply in_or_app; right). left. reflexivity.
Qed.
Lemma alnum_id c : alphanumeric c = true -> id_char c = true.
Proof. unfold id_char. intros ->. reflexivity. Qed.
Lemma one_char l p b c a : (forall c, class_in false false l c = p c) -> p c = true -> reads (Chr false false l) b [c] a.
Proof. intros E P. exists c. split; [reflexivity|]. rewrite E. exact P. Qed.
Lemma exact_char b c a : reads (Chr false false [IChar c]) b [c] a.
Proof. exists c. split; [reflexivity|apply class_char]. Qed.
Lemma cat_cons p q b c v a : reads p b [c] (v ++ a) -> reads q (c :: b) v a -> reads (Cat p q) b (c :: v) a.
Proof. intros P Q. exists [c], v. auto. Qed.
Lemma exim_reads b w a : reads EXIM b w a <-> exists x y c, w = ($"<") ++ x ++ ($"-") ++ y ++ ($"-0") ++ [c] ++ ($"@") /\ all alphanumeric 7 x /\ all alphanumeric 6 y /\ alphanumeric c = true.
Proof.
  split.
  - intros R. chain R. destruct R as (e & -> & E). apply class_one in E. subst e. apply rep_chr in R0 as [L0 F0], R1 as [L1 F1]. rewrite class_azn in C.
    exists u, u0, c. split; [reflexivity|]. split; [split; [lia|apply (Forall_eqb u class_azn); exact F0]|]. split; [split; [lia|apply (Forall_eqb u0 class_azn); exact F1]|exact C].
  - intros (x & y & c & -> & [X1 X2] & [Y1 Y2] & C). apply (cat_cons _ _ _ 60%N); [apply exact_char|]. exists x. eexists. split; [reflexivity|]. split; [apply rep_chr; split; [lia|apply (Forall_eqb x class_azn); exact X2]|].
    apply (cat_cons _ _ _ 45%N); [apply exact_char|]. exists y. eexists. split; [reflexivity|]. split; [apply rep_chr; split; [lia|apply (Forall_eqb y class_azn); exact Y2]|].
    apply (cat_cons _ _ _ 45%N); [apply exact_char|]. apply (cat_cons _ _ _ 48%N); [apply exact_char|]. apply (cat_cons _ _ _ c); [apply (one_char _ alphanumeric); [exact class_azn|exact C]|]. apply exact_char.
Qed.
Lemma app_same_length {A} (x y s t : list A) : x ++ s = y ++ t -> length x = length y -> x = y /\ s = t.
Proof.
  revert y. induction x as [|c x IH]; intros [|d y] E L; try discriminate; [auto|]. cbn in E. injection E as -> E. destruct (IH y E ltac:(cbn in L; congruence)) as [-> ->]. auto.
Qed.
Lemma exim_chew x y c host : all alphanumeric 7 x -> all alphanumeric 6 y -> alphanumeric c = true -> host_name host ->
  chew_id udigit uword (exim_id x y c host) = blanked host ++ ($" ").
Proof.
  intros X Y C H. unfold chew_id. rewrite blank_all. assert (S : forall d, ~ In d ($"<-0@>.") -> id_char d = false -> ~ In d (exim_id x y c host)).
  { intros d D I. unfold exim_id. rewrite !in_app_iff. intros K. repeat destruct K as [K|K]; try (apply D; revert K; vm_compute; tauto).
    - eapply all_not; [exact X|exact alnum_id| |exact K]. exact I.
    - eapply all_not; [exact Y|exact alnum_id| |exact K]. exact I.
    - subst d. rewrite (alnum_id _ C) in I. discriminate.
    - eapply host_not; [exact H| | |exact K]; [exact I|]. intros J. apply D. revert J. vm_compute. tauto. }
  rewrite (asks_none _ OUTLOOK 36); [|reflexivity|exact outlook_asks|apply S; [vm_compute; intuition discriminate|reflexivity]].
  set (w := ($"<") ++ x ++ ($"-") ++ y ++ ($"-0") ++ [c] ++ ($"@")). replace (exim_id x y c host) with ([] ++ w ++ (host ++ ($">"))) by (unfold w, exim_id; rewrite <- !app_assoc; reflexivity).
  assert (N : ~ In 60%N (host ++ ($">"))).
  { rewrite in_app_iff. intros [K|K]; [|vm_compute in K; intuition discriminate]. eapply host_not; [exact H| | |exact K]; [reflexivity|vm_compute; intuition discriminate]. }
  rewrite (re_sub_unique udigit uword [] EXIM [] w (host ++ ($">"))).
  - cbn [app]. rewrite (begins_none _ SENDMAIL 60); [|reflexivity|apply cat_begins|exact N]. rewrite blanked_app. reflexivity.
  - reflexivity.
  - apply some_never. reflexivity.
  - discriminate.
  - intros p q E Q. symmetry in E. apply app_eq_nil in E as [_ ->]. congruence.
  - apply exim_reads. exists x, y, c. split; [reflexivity|]. auto.
  - intros w' v' E R. apply exim_reads in R as (x' & y' & c' & -> & X' & Y' & _). unfold w in E |- *. destruct X as [X _], Y as [Y _], X' as [X' _], Y' as [Y' _]. apply app_same_length in E as [E _]; [exact (eq_sym E)|].
    rewrite !app_length, X, Y, X', Y'. reflexivity.
  - apply (begins_no_match _ 60); [apply cat_begins|exact N].
Qed.
Lemma class_digit c : digit c = true -> class_in false false [IDigit] c = true.
Proof.
  unfold digit. intros H. cls. unfold is_d. apply andb_true_iff in H as [H1 H2]. apply N.leb_le in H1, H2. assert (K : (c < 128)%N) by lia. apply N.ltb_lt in K. rewrite K.
  apply N.leb_le in H1, H2. rewrite H1, H2. reflexivity.
Qed.
Lemma class_chars l c : class_in false false (map IChar l) c = true <-> In c l.
Proof.
  cls. rewrite existsb_exists. split.
  - intros (i & I & E). apply in_map_iff in I as (d & <- & D). cbn in E. apply N.eqb_eq in E. subst. exact D.
  - intros I. exists (IChar c). split; [apply in_map; exact I|]. cbn. apply N.eqb_refl.
Qed.
Lemma in_class l b c a : In c l -> reads (Chr false false (map IChar l)) b [c] a.
Proof. intros I. exists c. split; [reflexivity|]. apply class_chars. exact I. Qed.
Lemma a_digit b c a : digit c = true -> reads (Chr false false [IDigit]) b [c] a.
Proof. intros D. exists c. split; [reflexivity|]. apply class_digit. exact D. Qed.
Lemma highhex_id c : high_hex c = true -> id_char c = true.
Proof.
  unfold high_hex, id_char, alphanumeric, digit, upper_case, lower_case. destruct (N.leb 48 c && N.leb c 57); [reflexivity|].
  destruct (N.leb_spec 65 c), (N.leb_spec c 70), (N.leb_spec c 90); cbn; try discriminate; try lia; intros _; reflexivity.
Qed.
Lemma digit_id c : digit c = true -> id_char c = true.
Proof. unfold id_char, alphanumeric. intros ->. reflexivity. Qed.
Lemma sendmail_chew year month day hour minute second number host :
  two_digits ($"0123456789") year -> two_digits ($"01") month -> two_digits ($"0123") day -> two_digits ($"012") hour -> two_digits ($"012345") minute -> two_digits ($"012345") second ->
  10 <= length number <= 12 -> Forall (fun c => high_hex c = true) number -> host_name host ->
  chew_id udigit uword (sendmail_id year month day hour minute second number host) = blanked host ++ ($" ").
Proof.
  intros (y1 & y2 & -> & Y1 & Y2) (m1 & m2 & -> & M1 & M2) (d1 & d2 & -> & D1 & D2) (h1 & h2 & -> & H1 & H2) (i1 & i2 & -> & I1 & I2) (s1 & s2 & -> & S1 & S2) L F H.
  assert (DG : forall c, In c ($"0123456789") -> digit c = true) by (intros c; vm_compute; intros K; repeat (destruct K as [<-|K]; [reflexivity|]); destruct K).
  assert (Y1' : digit y1 = true) by (apply DG; exact Y1). assert (M1' : digit m1 = true) by (apply DG; revert M1; vm_compute; tauto).
  assert (D1' : digit d1 = true) by (apply DG; revert D1; vm_compute; tauto). assert (H1' : digit h1 = true) by (apply DG; revert H1; vm_compute; tauto).
  assert (I1' : digit i1 = true) by (apply DG; revert I1; vm_compute; tauto). assert (S1' : digit s1 = true) by (apply DG; revert S1; vm_compute; tauto).
  set (ds := [y1; y2; m1; m2; d1; d2; h1; h2; i1; i2; s1; s2]). assert (DS : forall c, In c ds -> digit c = true) by (unfold ds; cbn [In]; intros c K; intuition (subst; assumption)).
  unfold chew_id. rewrite blank_all. set (v := sendmail_id [y1; y2] [m1; m2] [d1; d2] [h1; h2] [i1; i2] [s1; s2] number host).
  assert (V : v = 60%N :: (50%N :: 48%N :: ds ++ 46%N :: number ++ 64%N :: host ++ [62%N])) by reflexivity.
  assert (S : forall d, ~ In d ($"20@>.-") -> id_char d = false -> ~ In d (50%N :: 48%N :: ds ++ 46%N :: number ++ 64%N :: host ++ [62%N])).
  { intros d D I [K|[K|K]]; [apply D; revert K; vm_compute; tauto|apply D; revert K; vm_compute; tauto|]. apply in_app_or in K as [K|[K|K]].
    - rewrite (digit_id _ (DS d K)) in I. discriminate.
    - apply D; revert K; vm_compute; tauto.
    - apply in_app_or in K as [K|[K|K]]; [rewrite Forall_forall in F; rewrite (highhex_id _ (F d K)) in I; discriminate|apply D; revert K; vm_compute; tauto|].
      apply in_app_or in K as [K|[K|[]]]; [|apply D; revert K; vm_compute; tauto]. eapply host_not; [exact H| | |exact K]; [exact I|]. intros J. apply D. revert J. vm_compute. tauto. }
  rewrite (asks_none _ OUTLOOK 36); [|reflexivity|exact outlook_asks|].
  2:{ rewrite V. intros [K|K]; [discriminate|]. revert K. apply S; [vm_compute; intuition discriminate|reflexivity]. }
  rewrite (re_sub_none udigit uword _ EXIM); [|reflexivity|apply some_never; reflexivity|].
  2:{ rewrite V. intros (b & w & a & E & R). apply exim_reads in R as (x & y & c & -> & [X _] & _). destruct b as [|b0 b].
      - cbn [app] in E. change ($"<") with [60%N] in E. cbn [app] in E. injection E as E. do 7 (destruct x as [|? x]; [discriminate|]). destruct x; [|discriminate]. unfold ds in E. cbn [app] in E.
        injection E as _ _ _ _ _ _ _ E. subst d2. discriminate.
      - cbn [app] in E. injection E as _ E. apply (S 60%N); [vm_compute; intuition discriminate|reflexivity|]. unfold ds in *. cbn [app] in *. rewrite E. apply in_or_app. right. left. reflexivity. }
  set (w := 60%N :: 50%N :: 48%N :: ds ++ 46%N :: number ++ [64%N]). replace v with ([] ++ w ++ (host ++ ($">"))) by (rewrite V; unfold w, ds; cbn [app]; rewrite <- !app_assoc; reflexivity).
  assert (N : ~ In 60%N (host ++ ($">"))).
  { rewrite in_app_iff. intros [K|K]; [|vm_compute in K; intuition discriminate]. eapply host_not; [exact H| | |exact K]; [reflexivity|vm_compute; intuition discriminate]. }
  rewrite (re_sub_unique udigit uword [] SENDMAIL [] w (host ++ ($">"))).
  - cbn [app]. rewrite blanked_app. reflexivity.
  - reflexivity.
  - apply some_never. reflexivity.
  - discriminate.
  - intros p q E Q. symmetry in E. apply app_eq_nil in E as [_ ->]. congruence.
  - unfold w, ds. cbn [app]. do 3 (apply cat_cons; [apply exact_char|]). do 2 (apply cat_cons; [apply a_digit; assumption|]).
    apply cat_cons; [apply (in_class [48; 49]%N); exact M1|]. apply cat_cons; [apply a_digit; assumption|].
    apply cat_cons; [apply (in_class [48; 49; 50; 51]%N); exact D1|]. apply cat_cons; [apply a_digit; assumption|].
    apply cat_cons; [apply (in_class [48; 49; 50]%N); exact H1|]. apply cat_cons; [apply a_digit; assumption|].
    apply cat_cons; [apply (in_class [48; 49; 50; 51; 52; 53]%N); exact I1|]. apply cat_cons; [apply a_digit; assumption|].
    apply cat_cons; [apply (in_class [48; 49; 50; 51; 52; 53]%N); exact S1|]. apply cat_cons; [apply a_digit; assumption|].
    apply cat_cons; [apply exact_char|]. exists number, [64%N]. split; [reflexivity|]. split; [apply rep_chr; split; [exact L|apply (Forall_eqb number class_highhex); exact F]|apply exact_char].
  - intros w' v' E R. chain R. destruct R as (e & -> & K). apply class_one in K. subst e. apply rep_chr in R0 as [L0 F0]. apply (Forall_eqb _ class_highhex) in F0.
    unfold w, ds in *. cbn [app] in *. rewrite <- !app_assoc in E. cbn [app] in E. injection E as -> -> -> -> -> -> -> -> -> -> -> -> E.
    assert (NA : forall q, Forall (fun c => high_hex c = true) q -> ~ In 64%N q) by (intros q Fq Q; rewrite Forall_forall in Fq; specialize (Fq _ Q); discriminate).
    apply split_first in E as [[-> _]|(b' & -> & _)]; [reflexivity| |apply NA; exact F0]. exfalso. apply (NA _ F). apply in_or_app. right. left. reflexivity.
  - apply (begins_no_match _ 60); [apply cat_begins|exact N].
Qed.
End Id.
