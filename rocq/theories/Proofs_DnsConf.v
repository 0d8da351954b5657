(** Proofs about the configuration of the resolver. *)
From Coq Require Import QArith Lia.
From Verif Require Import PyStr Regexp Proofs_Regexp Spec_Regexp Proofs_RegexpLang Spec_Template Proofs_Template Model_Net Model_Rules Model_Received Model_DnsConf Spec_DnsConf.
From Verif Require Proofs_Scripts Proofs_Dns.
Open Scope nat_scope.

Section Unicode.
Variable udigit uword : char -> bool.
Notation class_in := (class_in udigit uword).
Notation ways := (ways udigit uword).
Notation reads := (reads udigit uword).
Notation first := (first udigit uword).

(** ** Classes *)
Lemma in_open c : class_in true false [IChar 91] c = true <-> c = 91%N.
Proof.
  unfold Regexp.class_in, swapcase. rewrite Bool.xorb_false_l. cbn [existsb item_in andb]. rewrite !orb_false_r, orb_true_iff, !N.eqb_eq.
  destruct (N.leb_spec 65 c), (N.leb_spec c 90), (N.leb_spec 97 c), (N.leb_spec c 122); cbn [andb]; lia.
Qed.
Lemma in_close c : class_in true false [IChar 93] c = true <-> c = 93%N.
Proof.
  unfold Regexp.class_in, swapcase. rewrite Bool.xorb_false_l. cbn [existsb item_in andb]. rewrite !orb_false_r, orb_true_iff, !N.eqb_eq.
  destruct (N.leb_spec 65 c), (N.leb_spec c 90), (N.leb_spec 97 c), (N.leb_spec c 122); cbn [andb]; lia.
Qed.
Lemma in_colon c : class_in true false [IChar 58] c = true <-> c = 58%N.
Proof.
  unfold Regexp.class_in, swapcase. rewrite Bool.xorb_false_l. cbn [existsb item_in andb]. rewrite !orb_false_r, orb_true_iff, !N.eqb_eq.
  destruct (N.leb_spec 65 c), (N.leb_spec c 90), (N.leb_spec 97 c), (N.leb_spec c 122); cbn [andb]; lia.
Qed.
Lemma in_digit c : class_in true false [IRange 48 57] c = true <-> (48 <= c <= 57)%N.
Proof.
  unfold Regexp.class_in, swapcase. rewrite Bool.xorb_false_l. cbn [existsb item_in andb]. rewrite !orb_false_r, orb_true_iff, !andb_true_iff, !N.leb_le.
  destruct (N.leb_spec 65 c), (N.leb_spec c 90), (N.leb_spec 97 c), (N.leb_spec c 122); cbn [andb]; lia.
Qed.
Lemma in_dotted c : class_in true false [IRange 48 57; IChar 46] c = true <-> (48 <= c <= 57 \/ c = 46)%N.
Proof.
  unfold Regexp.class_in, swapcase. rewrite Bool.xorb_false_l. cbn [existsb item_in andb]. rewrite !orb_false_r, !orb_true_iff, !andb_true_iff, !N.leb_le, !N.eqb_eq.
  destruct (N.leb_spec 65 c), (N.leb_spec c 90), (N.leb_spec 97 c), (N.leb_spec c 122); cbn [andb]; lia.
Qed.
Lemma in_hex c : class_in true false [IRange 48 57; IRange 97 102; IChar 58] c = true <-> hexadecimal c \/ c = 58%N.
Proof.
  unfold Regexp.class_in, swapcase, hexadecimal. rewrite Bool.xorb_false_l. cbn [existsb item_in andb]. rewrite !orb_false_r, !orb_true_iff, !andb_true_iff, !N.leb_le, !N.eqb_eq.
  destruct (N.leb_spec 65 c), (N.leb_spec c 90), (N.leb_spec 97 c), (N.leb_spec c 122); cbn [andb]; lia.
Qed.

(** ** The pieces of the pattern *)
Definition OPEN := Chr true false [IChar 91].
Definition CLOSE := Chr true false [IChar 93].
Definition DOTTED := Rep true 1 None (Chr true false [IRange 48 57; IChar 46]).
Definition HEX := Rep true 1 None (Chr true false [IRange 48 57; IRange 97 102; IChar 58]).
Definition DIGITS := Rep true 1 None (Chr true false [IRange 48 57]).
Definition PORT := Cat (Chr true false [IChar 58]) (Grp 2 DIGITS).
Definition TAIL := Cat (Rep true 0 (Some 1) CLOSE) (Cat (Rep true 0 (Some 1) PORT) Eos).
Lemma server_re : SERVER_RE = Cat Bos (Cat (Rep true 0 (Some 1) OPEN) (Cat (Grp 1 (Alt DOTTED HEX)) TAIL)).
Proof. reflexivity. Qed.

(** What the tail reads. *)
Definition tail_text (v : str) : Prop :=
  exists c p, v = c ++ p /\ (c = [] \/ c = $"]") /\ (p = [] \/ exists d, p = $":" ++ d /\ d <> [] /\ Forall (fun x => 48 <= x <= 57)%N d).
Lemma opt_reads p b w a : reads (Rep true 0 (Some 1) p) b w a <-> w = [] \/ reads p b w a.
Proof.
  cbn [Spec_Regexp.reads]. split.
  - intros (n & _ & H & T). cbn in H. destruct n as [|[|n]]; [left; exact T| |lia]. right. cbn [times] in T. destruct T as (u & v & -> & P & ->). rewrite app_nil_r. exact P.
  - intros [-> | H]; [exists 0; cbn; auto|]. exists 1. cbn. split; [lia|]. split; [lia|]. exists w, []. rewrite app_nil_r. auto.
Qed.
Lemma chr_reads ci neg l b w a : reads (Chr ci neg l) b w a <-> exists c, w = [c] /\ class_in ci neg l c = true.
Proof. reflexivity. Qed.
Lemma plus_reads ci neg l (P : char -> Prop) b w a : (forall c, class_in ci neg l c = true <-> P c) ->
  reads (Rep true 1 None (Chr ci neg l)) b w a <-> w <> [] /\ Forall P w.
Proof.
  intros HP. cbn [Spec_Regexp.reads]. split.
  - intros (n & H & _ & T). revert b w T. assert (G : forall n b w, times (reads (Chr ci neg l)) n b w a -> length w = n /\ Forall P w).
    { clear n H. intros n. induction n as [|n IH]; intros b w; cbn [times]; [intros ->; auto|].
      intros (u & v & -> & (c & -> & Hc) & T). apply IH in T as [L F]. cbn. split; [lia|]. constructor; [apply HP, Hc|exact F]. }
    intros b w T. apply G in T as [L F]. split; [intros ->; cbn in L; lia|exact F].
  - intros [N F]. exists (length w). split; [destruct w; [congruence|cbn; lia]|]. split; [exact I|]. clear N. revert b. induction F as [|c w Hc F IH]; intros b; cbn [length times]; [reflexivity|].
    exists [c], w. split; [reflexivity|]. split; [exists c; split; [reflexivity|apply HP, Hc]|apply IH].
Qed.
Lemma tail_reads b w a : reads TAIL b w a <-> tail_text w /\ (a = [] \/ a = [10%N]).
Proof.
  unfold TAIL. set (Q := Rep true 0 (Some 1) PORT). cbn [Spec_Regexp.reads]. split.
  - intros (c & r & -> & C & p & e & -> & P & -> & E). rewrite app_nil_r. split; [|exact E]. exists c, p. split; [reflexivity|]. split.
    + apply opt_reads in C as [->|(x & -> & X)]; [auto|]. apply in_close in X as ->. right. reflexivity.
    + apply opt_reads in P as [->|P]; [auto|]. right. destruct P as (u & d & -> & (x & -> & X) & D). apply in_colon in X as ->. exists d. split; [reflexivity|].
      change (reads DIGITS (rev [58%N] ++ rev c ++ b) d (([] ++ a))) in D. apply (plus_reads _ _ _ _ _ _ _ in_digit) in D. exact D.
  - intros [(c & p & -> & C & P) E]. exists c, p. split; [reflexivity|]. split.
    + apply opt_reads. destruct C as [->| ->]; [auto|]. right. exists 93%N. split; [reflexivity|]. apply in_close. reflexivity.
    + exists p, []. rewrite app_nil_r. split; [reflexivity|]. split; [|auto]. apply opt_reads. destruct P as [->|(d & -> & D)]; [auto|]. right.
      exists [58%N], d. split; [reflexivity|]. split; [exists 58%N; split; [reflexivity|apply in_colon; reflexivity]|]. apply (plus_reads _ _ _ _ _ _ _ in_digit). exact D.
Qed.

(** ** First ways *)
Lemma opt_first_gen r st st1 w : first r st st1 -> ext st st1 w -> w <> [] -> first (Rep true 0 (Some 1) r) st st1.
Proof.
  intros [l H] [E _] N. unfold Proofs_Regexp.first. cbn [Regexp.ways]. rewrite E. destruct w as [|c w]; [congruence|]. cbn [app length Nat.add repeats]. rewrite H. cbn [filter].
  assert (P : progress st st1 = true). { unfold progress. rewrite E. cbn [app length]. rewrite app_length. apply negb_true_iff, Nat.eqb_neq. lia. }
  rewrite P. cbn [flat_map]. destruct (length (w ++ s_after st1)); cbn [repeats app]; eauto.
Qed.
Lemma opt_skip_gen r st : ways r st = [] -> ways (Rep true 0 (Some 1) r) st = [st].
Proof.
  intros H. cbn [Regexp.ways]. destruct (length (s_after st)); cbn [Nat.add repeats]; [reflexivity|]. rewrite H. reflexivity.
Qed.
Lemma first_of r st st' : ways r st = [st'] -> first r st st'.
Proof. intros H. exists []. exact H. Qed.
Lemma tail_first c p b k : (c = [] \/ c = $"]") -> exists st, first TAIL (mkS b (c ++ port_text p) k) st /\ s_caps st = match p with Some n => [(2, dec n)] | None => [] end ++ k.
Proof.
  intros C. set (b1 := rev c ++ b).
  assert (F1 : first (Rep true 0 (Some 1) CLOSE) (mkS b (c ++ port_text p) k) (mkS b1 (port_text p) k)).
  { destruct C as [->| ->].
    - apply first_of. unfold CLOSE. apply opt_none. destruct p as [n|]; [|exact I]. change (port_text (Some n)) with (58%N :: dec n).
      destruct (class_in true false [IChar 93] 58) eqn:E; [|reflexivity]. apply in_close in E. discriminate.
    - apply opt_first. apply in_close. reflexivity. }
  destruct p as [n|].
  - assert (D : Forall (fun x => class_in true false [IRange 48 57] x = true) (dec n)).
    { apply Forall_forall. intros x Hx. apply in_digit. assert (H := Proofs_Scripts.dec_digits n). rewrite forallb_forall in H. specialize (H x Hx). unfold is_digit in H. apply andb_true_iff in H as [H1 H2]. apply N.leb_le in H1, H2. lia. }
    exists (mkS (rev (dec n) ++ 58%N :: b1) [] ((2, dec n) :: k)). split; [|reflexivity].
    eapply first_cat; [exact F1|]. apply first_cat with (st1 := mkS (rev (dec n) ++ 58%N :: b1) [] ((2, dec n) :: k)); [|exists []; reflexivity].
    apply opt_first_gen with (w := 58%N :: dec n); [|split; cbn [s_after s_before]; [rewrite app_nil_r; reflexivity|cbn [rev]; rewrite <- app_assoc; reflexivity]|discriminate].
    eapply first_cat; [apply first_chr, in_colon; reflexivity|].
    pose proof (plus_first udigit uword true false [IRange 48 57] (dec n) (58%N :: b1) [] [] k (Proofs_Scripts.dec_nonempty n) D eq_refl) as F. rewrite !app_nil_r in F.
    apply (first_grp _ _ 2 _ _ _ (dec n)) in F; [exact F|]. split; cbn [s_after s_before]; [rewrite app_nil_r|]; reflexivity.
  - exists (mkS b1 [] k). split; [|reflexivity]. eapply first_cat; [exact F1|]. apply first_cat with (st1 := mkS b1 [] k); [|exists []; reflexivity].
    apply first_of. apply opt_skip_gen. reflexivity.
Qed.

(** An alternative that leads nowhere. *)
Lemma first_alt_tail n A B K st st' : ways (Cat (Grp n A) K) st = [] -> first (Cat (Grp n B) K) st st' -> first (Cat (Grp n (Alt A B)) K) st st'.
Proof.
  intros H [l F]. unfold Proofs_Regexp.first. cbn [Regexp.ways] in *. rewrite map_app, flat_map_app, H, F. cbn. eauto.
Qed.
Lemma not_dotted b a c p k : colons a -> (c = [] \/ c = $"]") -> ways (Cat (Grp 1 DOTTED) TAIL) (mkS b (a ++ c ++ port_text p) k) = [].
Proof.
  intros [H1 H2] C. destruct (ways (Cat (Grp 1 DOTTED) TAIL) (mkS b (a ++ c ++ port_text p) k)) as [|[b1 s1 k1] l] eqn:E; [reflexivity|exfalso].
  assert (Hin : In (mkS b1 s1 k1) (ways (Cat (Grp 1 DOTTED) TAIL) (mkS b (a ++ c ++ port_text p) k))) by (rewrite E; left; reflexivity). clear E.
  destruct (ways_ext _ _ _ _ _ Hin) as [w [X1 X2]]. cbn in X1, X2. subst b1. rewrite X1 in Hin.
  assert (R : reads (Cat (Grp 1 DOTTED) TAIL) b w s1) by (apply (ways_reads udigit uword (Cat (Grp 1 DOTTED) TAIL) eq_refl b w s1 k); eauto).
  destruct R as (u & v & -> & D & T). apply (plus_reads _ _ _ _ _ _ _ in_dotted) in D as [_ D]. apply tail_reads in T as [(c' & p' & -> & C' & P') Z].
  assert (CN : forall x, count_occ N.eq_dec (dec x) 58%N = 0).
  { intros x. apply count_occ_not_In. intros Hx. assert (Dx := Proofs_Scripts.dec_digits x). rewrite forallb_forall in Dx. specialize (Dx _ Hx). discriminate. }
  assert (Cu : count_occ N.eq_dec u 58%N = 0) by (apply count_occ_not_In; intros Hx; rewrite Forall_forall in D; specialize (D _ Hx); lia).
  (* one colon more on the left than on the right *)
  assert (L : count_occ N.eq_dec (a ++ c ++ port_text p) 58%N = count_occ N.eq_dec ((u ++ c' ++ p') ++ s1) 58%N) by (rewrite X1; reflexivity).
  rewrite !count_occ_app in L.
  assert (Cp' : count_occ N.eq_dec p' 58%N <= 1).
  { destruct P' as [->|(d & -> & _ & Dd)]; [cbn; lia|]. rewrite count_occ_app. change (count_occ N.eq_dec ($":") 58%N) with 1. assert (count_occ N.eq_dec d 58%N = 0); [|lia]. apply count_occ_not_In. intros Hx. rewrite Forall_forall in Dd. specialize (Dd _ Hx). lia. }
  assert (Cc' : count_occ N.eq_dec c' 58%N = 0) by (destruct C' as [->| ->]; reflexivity).
  assert (Cs : count_occ N.eq_dec s1 58%N = 0) by (destruct Z as [->| ->]; reflexivity).
  lia.
Qed.

Lemma group1_first A a x t b k st : first A (mkS b (a ++ x ++ t) k) (mkS (rev a ++ b) (x ++ t) k) ->
  first TAIL (mkS (rev a ++ b) (x ++ t) ((1, a) :: k)) st -> first (Cat (Grp 1 A) TAIL) (mkS b (a ++ x ++ t) k) st.
Proof.
  intros F T. eapply first_cat; [|exact T]. apply (first_grp _ _ 1 _ _ _ a) in F; [exact F|]. split; reflexivity.
Qed.
(** The head: the bracket. *)
Lemma line_first o s st : (o = [] /\ (forall c t, s = c :: t -> c <> 91%N) \/ o = $"[") -> first (Cat (Grp 1 (Alt DOTTED HEX)) TAIL) (mkS (rev o) s []) st ->
  re_match udigit uword SERVER_RE (o ++ s) = Some st.
Proof.
  intros O F. apply match_first. rewrite server_re. eapply first_cat; [exists []; reflexivity|]. eapply first_cat; [|exact F].
  destruct O as [[-> H]| ->].
  - cbn [app rev]. apply first_of, opt_none. destruct s as [|c t]; [exact I|]. destruct (class_in true false [IChar 91] c) eqn:E; [|reflexivity]. apply in_open in E. exfalso. exact (H c t eq_refl E).
  - cbn [rev app]. change ($"[" ++ s) with (91%N :: s). change (rev ($"[")) with [91%N]. apply opt_first, in_open. reflexivity.
Qed.
Lemma stops cls c p : (c = [] \/ c = $"]") -> (p <> None -> c = [] -> class_in true false cls 58 = false) -> class_in true false cls 93 = false ->
  match c ++ port_text p with x :: _ => class_in true false cls x = false | [] => True end.
Proof.
  intros C H1 H2. destruct C as [->| ->]; [|exact H2]. destruct p as [n|]; [|exact I]. apply H1; congruence.
Qed.
Lemma first_plus cls a b t k : a <> [] -> Forall (fun c => class_in true false cls c = true) a ->
  match t with x :: _ => class_in true false cls x = false | [] => True end ->
  first (Rep true 1 None (Chr true false cls)) (mkS b (a ++ t) k) (mkS (rev a ++ b) t k).
Proof.
  intros N F H. pose proof (plus_first udigit uword true false cls a b t [] k N F) as P. rewrite !app_nil_r in P. apply P. destruct t; [reflexivity|exact H].
Qed.
Lemma written_line line a p : written line a p -> server_line udigit uword line = Some (a, option_map dec p).
Proof.
  assert (K : forall o c, (o = [] /\ (forall x t, a ++ c ++ port_text p = x :: t -> x <> 91%N) \/ o = $"[") -> (c = [] \/ c = $"]") ->
      (exists st, first (Cat (Grp 1 (Alt DOTTED HEX)) TAIL) (mkS (rev o) (a ++ c ++ port_text p) []) st /\ s_caps st = match p with Some n => [(2, dec n)] | None => [] end ++ [(1, a)]) ->
      server_line udigit uword (o ++ a ++ c ++ port_text p) = Some (a, option_map dec p)).
  { intros o c O C (st & F & S). unfold server_line. rewrite (line_first o _ st O F), S. destruct p; reflexivity. }
  assert (T : forall c b, (c = [] \/ c = $"]") -> exists st, first TAIL (mkS b (c ++ port_text p) [(1, a)]) st /\ s_caps st = match p with Some n => [(2, dec n)] | None => [] end ++ [(1, a)]) by (intros; apply tail_first; assumption).
  assert (D4 : dotted a -> forall c b, (c = [] \/ c = $"]") -> exists st, first (Cat (Grp 1 (Alt DOTTED HEX)) TAIL) (mkS b (a ++ c ++ port_text p) []) st /\ s_caps st = match p with Some n => [(2, dec n)] | None => [] end ++ [(1, a)]).
  { intros [N F] c b C. destruct (T c (rev a ++ b) C) as (st & Ft & S). exists st. split; [|exact S]. apply group1_first; [|exact Ft]. apply first_alt_l. apply first_plus; [exact N| |].
    - revert F. apply Forall_impl. intros x. apply in_dotted.
    - apply stops; [exact C| |]; [intros _ _|]; (destruct (class_in true false [IRange 48 57; IChar 46] _) eqn:E; [apply in_dotted in E; lia|reflexivity]). }
  assert (D6 : colons a -> forall c b, (c = [] /\ p = None \/ c = $"]") -> exists st, first (Cat (Grp 1 (Alt DOTTED HEX)) TAIL) (mkS b (a ++ c ++ port_text p) []) st /\ s_caps st = match p with Some n => [(2, dec n)] | None => [] end ++ [(1, a)]).
  { intros H c b C. assert (C' : c = [] \/ c = $"]") by tauto. destruct (T c (rev a ++ b) C') as (st & Ft & S). exists st. split; [|exact S]. apply first_alt_tail; [apply not_dotted; assumption|].
    apply group1_first; [|exact Ft]. destruct H as [F CO]. apply first_plus; [intros ->; cbn in CO; lia| |].
    - revert F. apply Forall_impl. intros x. apply in_hex.
    - apply stops; [exact C'|intros N ->; destruct C as [[_ C]|C]; [congruence|discriminate]|]. destruct (class_in true false [IRange 48 57; IRange 97 102; IChar 58] 93) eqn:E; [apply in_hex in E; unfold hexadecimal in E; lia|reflexivity]. }
  intros W. destruct W as [a p D|a p D|a D|a p D].
  - apply (K [] []); [left|left|]; [split; [reflexivity|]|reflexivity|apply (D4 D []); auto].
    intros x t E. destruct D as [N F]. destruct a as [|y a]; [congruence|]. cbn in E. injection E as -> _. inversion F; subst. lia.
  - apply (K ($"[") ($"]")); [right; reflexivity|right; reflexivity|apply (D4 D); auto].
  - assert (G := K [] []). cbn [app port_text] in G. rewrite app_nil_r in G. apply G; [left; split; [reflexivity|]|left; reflexivity|].
    + intros x t E. destruct D as [F _]. subst a. inversion F as [|? ? Hx]; subst. unfold hexadecimal in Hx. lia.
    + destruct (D6 D [] (rev []) (or_introl (conj eq_refl eq_refl))) as (st & Hs). cbn [app port_text] in Hs. rewrite app_nil_r in Hs. exists st. exact Hs.
  - apply (K ($"[") ($"]")); [right; reflexivity|right; reflexivity|apply (D6 D); auto].
Qed.
Lemma unreadable_line line : unreadable line -> ~ In 10%N line -> server_line udigit uword line = None.
Proof.
  intros U NL. unfold server_line. destruct (re_match udigit uword SERVER_RE line) as [st|] eqn:E; [exfalso|reflexivity].
  assert (M : matched (re_match udigit uword SERVER_RE line) = true) by (rewrite E; reflexivity). apply match_reads in M; [|reflexivity].
  destruct M as (w & z & -> & R). rewrite server_re in R. destruct R as (w0 & w1 & -> & [-> _] & o & w2 & -> & O & a & v & -> & A & T).
  apply tail_reads in T as [(c & p & -> & C & P) Z]. cbn [app] in *. apply U. exists o, a, c, p. split.
  - destruct Z as [->| ->]; [rewrite app_nil_r; reflexivity|]. exfalso. apply NL. apply in_or_app. right. left. reflexivity.
  - split; [apply opt_reads in O as [->|(x & -> & X)]; [auto|apply in_open in X as ->; right; reflexivity]|]. split; [exact C|]. split; [|exact P].
    destruct A as [A|A]; [left; apply (plus_reads _ _ _ _ _ _ _ in_dotted) in A|right; apply (plus_reads _ _ _ _ _ _ _ in_hex) in A]; exact A.
Qed.

(** ** All lines *)
Definition some_dec (p : option N) := option_map dec p.
Lemma lines_ok lines es : Forall2 entry lines es -> forall cp acc,
  server_lines udigit uword lines (some_dec cp) acc =
  (some_dec (match cp with Some _ => cp | None => stated es end), acc ++ flat_map (agrees (match cp with Some _ => cp | None => stated es end)) es).
Proof.
  intros H. induction H as [|line e lines es He H IH]; intros cp acc; cbn [server_lines flat_map stated].
  - rewrite app_nil_r. destruct cp; reflexivity.
  - destruct e as [[a [n|]]|].
    + apply written_line in He. rewrite He. cbn [option_map some_dec agrees]. destruct cp as [m|]; cbn [some_dec option_map].
      * destruct (streqb_spec (dec m) (dec n)) as [E|E].
        -- apply Proofs_Dns.dec_injective in E as ->. rewrite (IH (Some n)). rewrite N.eqb_refl, <- app_assoc. reflexivity.
        -- rewrite (IH (Some m)). destruct (N.eqb_spec n m) as [->|]; [congruence|]. reflexivity.
      * rewrite (IH (Some n)). rewrite N.eqb_refl, <- app_assoc. reflexivity.
    + apply written_line in He. rewrite He. cbn [option_map some_dec agrees]. destruct cp as [m|]; [rewrite (IH (Some m))|rewrite (IH None)]; rewrite <- app_assoc; reflexivity.
    + destruct He as [He NL]. rewrite (unreadable_line _ He NL). rewrite IH. cbn [agrees app]. destruct cp; reflexivity.
Qed.
Lemma configure_ok lines es lt tm i : Forall2 entry lines es ->
  exists i', configure udigit uword lt tm lines i = Some i' /\
    (chosen es = [] -> i_resolver i' = i_resolver i) /\
    (chosen es <> [] -> q_servers (i_resolver i') = chosen es /\ q_port (i_resolver i') = match stated es with Some p => Z.of_N p | None => 53%Z end) /\
    q_edns (i_resolver i') = q_edns (i_resolver i) /\ q_payload (i_resolver i') = q_payload (i_resolver i) /\ q_rotate (i_resolver i') = q_rotate (i_resolver i) /\
    q_lifetime (i_resolver i') = q_lifetime (i_resolver i) /\ q_timeout (i_resolver i') = q_timeout (i_resolver i) /\ i_interval i' = i_interval i /\
    i_lifetime i' = Some lt /\ i_timeout i' = Some tm.
Proof.
  intros H. unfold configure. change None with (some_dec None) at 1. rewrite (lines_ok lines es H None []). cbn [app]. fold (chosen es).
  destruct (chosen es) as [|a l] eqn:E.
  - eexists. split; [reflexivity|]. cbn. repeat split; congruence.
  - assert (P : match some_dec (stated es) with Some p => py_int p | None => Some 53%Z end = Some (match stated es with Some p => Z.of_N p | None => 53%Z end)).
    { destruct (stated es) as [n|]; [|reflexivity]. apply Proofs_Scripts.py_int_dec. }
    rewrite P. eexists. split; [reflexivity|]. cbn. repeat split; congruence.
Qed.
Lemma options_ignored value i : exists i', apply_options udigit uword value i = Some i' /\
  q_payload (i_resolver i') = 4096%Z /\ q_rotate (i_resolver i') = q_rotate (i_resolver i) /\ q_servers (i_resolver i') = q_servers (i_resolver i) /\
  q_port (i_resolver i') = q_port (i_resolver i) /\ q_edns (i_resolver i') = q_edns (i_resolver i) /\ q_lifetime (i_resolver i') = q_lifetime (i_resolver i) /\ q_timeout (i_resolver i') = q_timeout (i_resolver i) /\
  i_interval i' = i_interval i /\ i_lifetime i' = i_lifetime i /\ i_timeout i' = i_timeout i.
Proof.
  unfold apply_options, options_groups. destruct (re_match udigit uword OPTIONS_RE value); cbn [flat_map app]; (eexists; split; [vm_compute; reflexivity|cbn; repeat split]).
Qed.
Lemma interval_ok n c u i : unit_of_time c u -> exists i', set_test_interval (dec n ++ [c]) i = Some i' /\ i_interval i' = (Z.of_N n * u)%Z /\ i_resolver i' = i_resolver i.
Proof.
  intros H. unfold set_test_interval. rewrite rev_app_distr. cbn [rev app]. rewrite app_length. cbn [length]. rewrite Nat.add_sub, firstn_app, Nat.sub_diag, firstn_all. cbn [firstn]. rewrite app_nil_r.
  destruct H; cbn [N.eqb Pos.eqb]; rewrite Proofs_Scripts.py_int_dec; cbn [option_map]; eexists; (split; [reflexivity|]); split; reflexivity.
Qed.
Lemma interval_plain n i : exists i', set_test_interval (dec n) i = Some i' /\ i_interval i' = Z.of_N n /\ i_resolver i' = i_resolver i.
Proof.
  unfold set_test_interval. assert (D := Proofs_Scripts.dec_digits n). rewrite forallb_forall in D. setoid_rewrite in_rev in D.
  destruct (rev (dec n)) as [|c t] eqn:E.
  - rewrite Proofs_Scripts.py_int_dec. cbn [option_map]. eexists. split; [reflexivity|]. cbn [i_interval i_resolver]. split; [lia|reflexivity].
  - assert (C := D c (or_introl eq_refl)). unfold is_digit in C. apply andb_true_iff in C as [C1 C2]. apply N.leb_le in C1, C2.
    destruct (N.eqb_spec c 115); [lia|]. destruct (N.eqb_spec c 109); [lia|]. destruct (N.eqb_spec c 104); [lia|]. destruct (N.eqb_spec c 100); [lia|]. destruct (N.eqb_spec c 119); [lia|].
    rewrite Proofs_Scripts.py_int_dec. cbn [option_map]. eexists. split; [reflexivity|]. cbn [i_interval i_resolver]. split; [lia|reflexivity].
Qed.
End Unicode.
