(** Proofs about the MIME rules. *)
From Coq Require Import QArith Lia Lqa.
From Verif Require Import PyStr PyDict.
From Verif Require Import Model_MimeEval Spec_MimeEval.
From Verif Require Model_BodyEval Model_HeaderEval.
Open Scope nat_scope.

(** ** One part *)
Definition d_high (p : part) : bool :=
  nonempty (p_bytes p) && (length (filter is_ascii (p_bytes p)) <? length (p_bytes p)) && (3 <? length (p_bytes p) * 2).
Definition d_alt (p : part) : bool := is_type ($"multipart") ($"alternative") p.
Definition d_ma (p : part) : bool :=
  is_type ($"multipart") ($"alternative") p &&
  match p_raw p with Text _ => false | Parts l => existsb (fun m => negb (streqb m ($"text"))) l end.
Definition b2n (b : bool) : nat := if b then 1 else 0.
Definition d_html (p : part) : nat := b2n (streqb (p_sub p) ($"html")).
Definition d_plain (p : part) : bool := is_type ($"text") ($"plain") p.
Definition d_ill (p : part) : bool :=
  d_plain p && match p_raw p with Text t => negb (forallb is_ascii t) | Parts _ => false end.
Definition d_nb (raw : str) (p : part) : bool := d_plain p && (Model_BodyEval.count_sub ($"--") raw + 1 <=? 4).
Definition d_uni (p : part) : nat := b2n (d_plain p && has_entity (p_text p)).
Definition d_b64t (p : part) : bool :=
  contains ($"base64") (p_cte p) && (negb (nonempty (p_charset p)) || existsb (fun n => contains n (p_charset p)) ascii_names) &&
  negb (mem_str (strip (p_disposition p)) [$"inline"; $"attachment"]).
Definition d_b64 (p : part) : bool := contains ($"base64") (lower (p_cte p)).
Definition d_len (p : part) : nat :=
  if d_b64 p then match p_raw p with Text t => max_len (splitlines t) | Parts _ => 0 end else 0.
Definition d_qp (p : part) : bool := contains ($"quoted-printable") (lower (p_cte p)).
Definition d_long (p : part) : bool := d_qp p && existsb long_line (p_lines p).
Definition d_qpb (p : part) : nat := if d_qp p then match p_raw p with Text t => length t | Parts _ => 0 end else 0.
Definition d_far (loc : str) (p : part) : bool :=
  match p_charset p with
  | c :: _ => is_letter c && negb (mem_str ($"all") (words loc)) &&
              negb (Model_HeaderEval.charset_ok_for_locales (p_charset p) (words loc))
  | [] => false
  end.
(** The exceptions *)
Definition e_alt (p : part) : bool :=
  is_type ($"multipart") ($"alternative") p && match p_raw p with Text (_ :: _) => true | _ => false end.
Definition e_other (p : part) : bool :=
  (streqb (p_sub p) ($"html") && negb (streqb (p_main p) ($"text"))) ||
  (d_b64 p && match p_raw p with Parts (_ :: _) => true | _ => false end) ||
  (d_qp p && match p_raw p with Parts _ => true | _ => false end).

Section Step.
Variables loc raw : str.
Definition next (s : state) (p : part) : state :=
  mkSt (base64_count s + b2n (d_b64 p)) (base64_text s || d_b64t p) (html_count s + d_html p) (text_count s + b2n (d_plain p))
       (far s || d_far loc p) (no_boundary s || d_nb raw p) (alternative s || d_alt p) (qp_count s + b2n (d_qp p))
       (qp_long s || d_long p) (ascii_illegal s || d_ill p) (ma_non_text s || d_ma p) (base64_length s + d_len p)
       (ascii_chars s + plain_size p) (plain_chars s + plain_size p) (html_chars s + html_size p)
       (unicode_count s + d_uni p) (qp_chars s) (qp_bytes s + d_qpb p) (high s || d_high p).

Lemma u_high s p : update_high p s = set_high (high s || d_high p) s.
Proof. unfold update_high. fold (d_high p). destruct (d_high p); destruct s; cbn; [now rewrite orb_true_r|now rewrite orb_false_r]. Qed.
Lemma u_alt s p : update_alternative p s =
  if e_alt p && negb (ma_non_text s) then None else Some (set_alternative (alternative s || d_alt p) (ma_non_text s || d_ma p) s).
Proof.
  unfold update_alternative, e_alt, d_alt, d_ma. destruct (is_type _ _ p); cbn [andb].
  - rewrite orb_true_r. destruct (ma_non_text s); cbn [negb].
    + rewrite andb_false_r. reflexivity.
    + rewrite andb_true_r. destruct (p_raw p) as [[|c t]|l]; reflexivity.
  - destruct s; cbn. now rewrite !orb_false_r.
Qed.
Lemma u_html s p : update_html p s =
  if streqb (p_sub p) ($"html") && negb (streqb (p_main p) ($"text")) then None
  else Some (set_html (html_count s + d_html p) (html_chars s + html_size p) s).
Proof.
  unfold update_html, d_html, html_size. destruct (streqb (p_sub p) _); cbn [andb b2n].
  - destruct (streqb (p_main p) _); reflexivity.
  - destruct s; cbn. now rewrite !Nat.add_0_r.
Qed.
Lemma u_text s p : update_text raw p s =
  set_plain (text_count s + b2n (d_plain p)) (no_boundary s || d_nb raw p) (ascii_illegal s || d_ill p)
    (ascii_chars s + plain_size p) (plain_chars s + plain_size p) (unicode_count s + d_uni p) s.
Proof.
  unfold update_text, d_nb, d_ill, d_uni, plain_size. fold (is_type ($"text") ($"plain") p). fold (d_plain p). destruct (d_plain p); cbn [andb b2n].
  - f_equal.
    + destruct (_ <=? _); [now rewrite orb_true_r|now rewrite orb_false_r].
    + destruct (p_raw p) as [t|l]; [|now rewrite orb_false_r]. destruct (forallb is_ascii t); cbn; [now rewrite orb_false_r|now rewrite orb_true_r].
    + destruct (has_entity _); cbn; [reflexivity|now rewrite Nat.add_0_r].
  - destruct s; cbn. now rewrite !Nat.add_0_r, !orb_false_r.
Qed.
Lemma u_b64t s p : update_base64_text p s = set_base64_text (base64_text s || d_b64t p) s.
Proof. unfold update_base64_text. cbv zeta. fold (d_b64t p). destruct (d_b64t p); destruct s; cbn; [now rewrite orb_true_r|now rewrite orb_false_r]. Qed.
Lemma u_b64 s p : update_base64 p s =
  if d_b64 p && match p_raw p with Parts (_ :: _) => true | _ => false end then None
  else Some (set_base64 (base64_count s + b2n (d_b64 p)) (base64_length s + d_len p) s).
Proof.
  unfold update_base64, d_len. fold (d_b64 p). destruct (d_b64 p); cbn [andb b2n].
  - destruct (p_raw p) as [[|c t]|[|m l]]; try reflexivity; cbn; now rewrite Nat.add_0_r.
  - destruct s; cbn. now rewrite !Nat.add_0_r.
Qed.
Lemma u_qp s p : update_qp p s =
  if d_qp p && match p_raw p with Parts _ => true | _ => false end then None
  else Some (set_qp (qp_count s + b2n (d_qp p)) (qp_long s || d_long p) (qp_chars s) (qp_bytes s + d_qpb p) s).
Proof.
  unfold update_qp, d_long, d_qpb. fold (d_qp p). destruct (d_qp p); cbn [andb b2n].
  - destruct (p_raw p) as [t|l]; [|reflexivity]. unfold qp_groups. rewrite Nat.add_0_r. destruct (has_qp t); reflexivity.
  - destruct s; cbn. now rewrite !Nat.add_0_r, !orb_false_r.
Qed.
Lemma u_far s p : update_far loc p s = set_far (far s || d_far loc p) s.
Proof.
  unfold update_far, d_far. destruct (p_charset p) as [|c r] eqn:E; [destruct s; cbn; now rewrite orb_false_r|].
  destruct (is_letter c); cbn [andb]; [|destruct s; cbn; now rewrite orb_false_r].
  destruct (mem_str ($"all") (words loc)); cbn [negb andb]; [rewrite andb_false_r; destruct s; cbn; now rewrite orb_false_r|].
  rewrite andb_true_r. destruct (far s) eqn:F; cbn [negb orb]; [|reflexivity]. destruct s; cbn in *. now rewrite F.
Qed.
Lemma step_eq s p : extract_metadata loc raw s p =
  if e_other p || (e_alt p && negb (ma_non_text s)) then None else Some (next s p).
Proof.
  unfold extract_metadata, e_other. rewrite u_high, u_alt. cbn [ma_non_text set_high].
  destruct (e_alt p && negb (ma_non_text s)); cbn [bind]; [now rewrite orb_true_r|]. rewrite orb_false_r.
  rewrite u_html. destruct (streqb (p_sub p) _ && _); cbn [bind orb]; [reflexivity|].
  rewrite u_text, u_b64t, u_b64. destruct (d_b64 p && _); cbn [bind orb]; [reflexivity|].
  rewrite u_qp. destruct (d_qp p && _); cbn [bind orb]; [reflexivity|].
  rewrite u_far. destruct s. reflexivity.
Qed.
Lemma all_eq l : forall s s', extract_all loc raw s l = Some s' -> s' = fold_left next l s.
Proof.
  induction l as [|p l IH]; cbn [extract_all fold_left]; intros s s'; [now intros [= <-]|].
  rewrite step_eq. destruct (_ || _); cbn [bind]; [discriminate|]. apply IH.
Qed.

(** ** Fields after all parts *)
Lemma fold_bool (f : state -> bool) (d : part -> bool) :
  (forall s p, f (next s p) = f s || d p) -> forall l s, f (fold_left next l s) = f s || existsb d l.
Proof.
  intros Hf l. induction l as [|p l IH]; intros s; cbn [fold_left existsb]; [now rewrite orb_false_r|].
  rewrite IH, Hf. now rewrite orb_assoc.
Qed.
Lemma fold_nat (f : state -> nat) (d : part -> nat) :
  (forall s p, f (next s p) = f s + d p) -> forall l s, f (fold_left next l s) = f s + total d l.
Proof.
  intros Hf l. induction l as [|p l IH]; intros s; cbn [fold_left total]; [now rewrite Nat.add_0_r|].
  rewrite IH, Hf. lia.
Qed.
Section Loaded.
Variables (l : list part) (s : state).
Hypothesis H : load loc raw l = Some s.
Lemma l_eq : s = fold_left next l check_start.
Proof. exact (all_eq _ _ _ H). Qed.
Lemma l_far : far s = existsb (d_far loc) l.
Proof. rewrite l_eq. exact (fold_bool far (d_far loc) (fun _ _ => eq_refl) l check_start). Qed.
Lemma l_high : high s = existsb d_high l.
Proof. rewrite l_eq. exact (fold_bool high d_high (fun _ _ => eq_refl) l check_start). Qed.
Lemma l_alt : alternative s = existsb d_alt l.
Proof. rewrite l_eq. exact (fold_bool alternative d_alt (fun _ _ => eq_refl) l check_start). Qed.
Lemma l_ma : ma_non_text s = existsb d_ma l.
Proof. rewrite l_eq. exact (fold_bool ma_non_text d_ma (fun _ _ => eq_refl) l check_start). Qed.
Lemma l_ill : ascii_illegal s = existsb d_ill l.
Proof. rewrite l_eq. exact (fold_bool ascii_illegal d_ill (fun _ _ => eq_refl) l check_start). Qed.
Lemma l_nb : no_boundary s = existsb (d_nb raw) l.
Proof. rewrite l_eq. exact (fold_bool no_boundary (d_nb raw) (fun _ _ => eq_refl) l check_start). Qed.
Lemma l_b64t : base64_text s = existsb d_b64t l.
Proof. rewrite l_eq. exact (fold_bool base64_text d_b64t (fun _ _ => eq_refl) l check_start). Qed.
Lemma l_long : qp_long s = existsb d_long l.
Proof. rewrite l_eq. exact (fold_bool qp_long d_long (fun _ _ => eq_refl) l check_start). Qed.
Lemma l_b64c : base64_count s = total (fun p => b2n (d_b64 p)) l.
Proof. rewrite l_eq. exact (fold_nat base64_count (fun p => b2n (d_b64 p)) (fun _ _ => eq_refl) l check_start). Qed.
Lemma l_htmlc : html_count s = total d_html l.
Proof. rewrite l_eq. exact (fold_nat html_count d_html (fun _ _ => eq_refl) l check_start). Qed.
Lemma l_textc : text_count s = total (fun p => b2n (d_plain p)) l.
Proof. rewrite l_eq. exact (fold_nat text_count (fun p => b2n (d_plain p)) (fun _ _ => eq_refl) l check_start). Qed.
Lemma l_qpc : qp_count s = total (fun p => b2n (d_qp p)) l.
Proof. rewrite l_eq. exact (fold_nat qp_count (fun p => b2n (d_qp p)) (fun _ _ => eq_refl) l check_start). Qed.
Lemma l_len : base64_length s = total d_len l.
Proof. rewrite l_eq. exact (fold_nat base64_length d_len (fun _ _ => eq_refl) l check_start). Qed.
Lemma l_ascii : ascii_chars s = total plain_size l.
Proof. rewrite l_eq. exact (fold_nat ascii_chars plain_size (fun _ _ => eq_refl) l check_start). Qed.
Lemma l_plain : plain_chars s = total plain_size l.
Proof. rewrite l_eq. exact (fold_nat plain_chars plain_size (fun _ _ => eq_refl) l check_start). Qed.
Lemma l_html : html_chars s = total html_size l.
Proof. rewrite l_eq. exact (fold_nat html_chars html_size (fun _ _ => eq_refl) l check_start). Qed.
Lemma l_uni : unicode_count s = total d_uni l.
Proof. rewrite l_eq. exact (fold_nat unicode_count d_uni (fun _ _ => eq_refl) l check_start). Qed.
Lemma l_qpchars : qp_chars s = 0.
Proof.
  rewrite l_eq. transitivity (qp_chars check_start + total (fun _ => 0) l).
  - apply fold_nat. intros. cbn. lia.
  - cbn. clear. induction l; cbn; auto.
Qed.
End Loaded.

(** ** Failures *)
Lemma none_iff l : forall s, extract_all loc raw s l = None <->
  exists a p b, l = a ++ p :: b /\ (e_other p = true \/ e_alt p = true /\ ma_non_text s = false /\ existsb d_ma a = false).
Proof.
  induction l as [|p l IH]; intros s; cbn [extract_all].
  - split; [discriminate|]. intros (a & p & b & E & _). destruct a; discriminate.
  - rewrite step_eq. destruct (e_other p || (e_alt p && negb (ma_non_text s))) eqn:E; cbn [bind].
    + split; [|reflexivity]. intros _. exists [], p, l. split; [reflexivity|].
      apply orb_prop in E as [E|E]; [now left|]. apply andb_prop in E as [E1 E2]. right.
      repeat split; [assumption|now apply negb_true_iff].
    + apply orb_false_elim in E as [Eo Ea]. rewrite IH. split.
      * intros (a & p' & b & -> & [Hp|(H1 & H2 & H3)]); exists (p :: a), p', b; (split; [reflexivity|]); [now left|right].
        cbn [next ma_non_text] in H2. apply orb_false_elim in H2 as [H2 H4]. cbn [existsb]. now rewrite H3, H4.
      * intros (a & p' & b & Hl & Hp). destruct a as [|p0 a]; injection Hl as -> ->.
        -- exfalso. destruct Hp as [Hp|(H1 & H2 & _)]; [congruence|]. rewrite H1, H2 in Ea. discriminate.
        -- exists a, p', b. split; [reflexivity|]. destruct Hp as [Hp|(H1 & H2 & H3)]; [now left|right].
           cbn [existsb] in H3. apply orb_false_elim in H3 as [H3 H4]. cbn [next ma_non_text]. now rewrite H2, H3.
Qed.
End Step.

(** ** What the tests mean *)
Lemma is_type_iff m s p : is_type m s p = true <-> p_main p = m /\ p_sub p = s.
Proof. unfold is_type. rewrite andb_true_iff, !streqb_eq. tauto. Qed.
Lemma b64_iff p : d_b64 p = true <-> encoded ($"base64") p.
Proof. apply contains_app. Qed.
Lemma qp_iff p : d_qp p = true <-> encoded ($"quoted-printable") p.
Proof. apply contains_app. Qed.
Lemma ma_iff p : d_ma p = true <-> alternative_part p /\ non_text_inside p.
Proof.
  unfold d_ma, alternative_part, non_text_inside. rewrite andb_true_iff, is_type_iff.
  destruct (p_raw p) as [t|l].
  - split; [intros [_ H]; discriminate|intros [_ (l & m & H & _)]; discriminate].
  - rewrite existsb_exists. split.
    + intros [H (m & Hm & E)]. split; [assumption|]. exists l, m. repeat split; [assumption|].
      intros ->. rewrite streqb_refl in E. discriminate.
    + intros [H (l' & m & [= <-] & Hm & E)]. split; [assumption|]. exists m. split; [assumption|].
      now apply negb_true_iff, streqb_neq.
Qed.
Lemma unreadable_iff a p : (e_other p = true \/ e_alt p = true /\ existsb d_ma a = false) <-> unreadable a p.
Proof.
  unfold unreadable, e_other, e_alt, html_part. rewrite !orb_true_iff, !andb_true_iff, negb_true_iff, streqb_eq, streqb_neq, b64_iff, qp_iff, is_type_iff.
  assert (Ha : existsb d_ma a = false <-> forall p', In p' a -> ~ (alternative_part p' /\ non_text_inside p')).
  { split.
    - intros H p' Hp K%ma_iff. assert (existsb d_ma a = true) by (apply existsb_exists; eauto). congruence.
    - intros H. destruct (existsb d_ma a) eqn:E; [|reflexivity]. apply existsb_exists in E as (p' & Hp & K).
      exfalso. exact (H p' Hp (proj1 (ma_iff p') K)). }
  rewrite Ha. clear Ha. fold (alternative_part p).
  destruct (p_raw p) as [[|c t]|[|m l]].
  - split.
    + intros [[[H|[_ H]]|[_ H]]|[[_ H] _]]; try discriminate. now left.
    + intros [H|[(_ & (t & [= <-] & K) & _)|[(_ & l & K & _)|(_ & l & K)]]]; try discriminate; [now left; left; left|now elim K].
  - split.
    + intros [[[H|[_ H]]|[_ H]]|[[H _] K]]; try discriminate; [now left|]. right; left.
      split; [assumption|]. split; [|assumption]. eexists. split; [reflexivity|discriminate].
    + intros [H|[(H & _ & K)|[(_ & l & K & _)|(_ & l & K)]]]; try discriminate; [now left; left; left|]. right. tauto.
  - split.
    + intros [[[H|[_ H]]|[H _]]|[[_ H] _]]; try discriminate; [now left|]. right; right; right. eauto.
    + intros [H|[(_ & (t & K & _) & _)|[(_ & l & [= <-] & K)|(H & _)]]]; try discriminate; [now left; left; left|now elim K|]. left. right. tauto.
  - split.
    + intros [[[H|[H _]]|[H _]]|[[_ H] _]]; try discriminate; [now left| |].
      * right; right; left. split; [assumption|]. eexists. split; [reflexivity|discriminate].
      * right; right; right. eauto.
    + intros [H|[(_ & (t & K & _) & _)|[(H & _)|(H & _)]]]; try discriminate; [now left; left; left| |].
      * left; left; right. tauto.
      * left; right. tauto.
Qed.
Lemma load_none loc raw l : load loc raw l = None <-> exists a p b, l = a ++ p :: b /\ unreadable a p.
Proof.
  unfold load. rewrite none_iff. split; intros (a & p & b & -> & H); exists a, p, b; (split; [reflexivity|]).
  - apply unreadable_iff. destruct H as [H|(H & _ & K)]; [now left|now right].
  - apply unreadable_iff in H. destruct H as [H|(H & K)]; [now left|right]. now repeat split.
Qed.

Lemma exists_iff (d : part -> bool) (P : part -> Prop) l : (forall p, d p = true <-> P p) -> existsb d l = true <-> exists p, In p l /\ P p.
Proof. intros H. rewrite existsb_exists. split; intros (p & Hp & K); exists p; (split; [assumption|]); now apply H. Qed.
Lemma total_pos (d : part -> bool) l : negb (total (fun p => b2n (d p)) l =? 0) = existsb d l.
Proof.
  induction l as [|p l IH]; [reflexivity|]. cbn [total existsb]. rewrite <- IH. destruct (d p); [reflexivity|]. reflexivity.
Qed.
Lemma ascii_len s : length (filter is_ascii s) <= length s.
Proof. induction s as [|c s IH]; cbn; [lia|]. destruct (is_ascii c); cbn; lia. Qed.
Lemma ascii_lt s : (length (filter is_ascii s) <? length s) = true <-> exists c, In c s /\ (128 <= c)%N.
Proof.
  rewrite Nat.ltb_lt. induction s as [|c s IH]; cbn [filter length].
  - split; [lia|intros (c & [] & _)].
  - pose proof (ascii_len s). destruct (is_ascii c) eqn:E; cbn [length].
    + unfold is_ascii in E. apply N.ltb_lt in E. split.
      * intros H1. destruct IH as [IH _]. destruct IH as (c' & Hc & K); [lia|]. exists c'. split; [now right|assumption].
      * intros (c' & [<-|Hc] & K); [lia|]. assert (length (filter is_ascii s) < length s) by (apply IH; eauto). lia.
    + unfold is_ascii in E. apply N.ltb_ge in E. split; [|lia]. intros _. exists c. split; [now left|assumption].
Qed.
Lemma high_iff p : d_high p = true <-> high_bytes p.
Proof.
  unfold d_high, high_bytes. rewrite !andb_true_iff, ascii_lt, Nat.ltb_lt. split.
  - intros [[H1 H2] H3]. split; [lia|assumption].
  - intros [H1 H2]. repeat split; [|assumption|lia]. destruct (p_bytes p); [cbn in H1; lia|reflexivity].
Qed.
Lemma letter_iff c : is_letter c = true <-> (65 <= c <= 90)%N \/ (97 <= c <= 122)%N.
Proof. unfold is_letter. rewrite orb_true_iff, !andb_true_iff, !N.leb_le. tauto. Qed.
Lemma far_iff loc p : d_far loc p = true <-> foreign_charset loc p.
Proof.
  unfold d_far, foreign_charset. destruct (p_charset p) as [|c r] eqn:E.
  - split; [discriminate|intros (_ & (c & r & K & _) & _); discriminate].
  - rewrite !andb_true_iff, !negb_true_iff, mem_str_notIn. split.
    + intros ((H1 & H2) & H3). apply letter_iff in H1. repeat split; eauto.
    + intros (H1 & (c' & r' & [= <- <-] & H2) & H3). apply letter_iff in H2. tauto.
Qed.
Lemma ill_iff p : d_ill p = true <-> plain_part p /\ non_ascii_text p.
Proof.
  unfold d_ill, d_plain, plain_part, non_ascii_text. rewrite andb_true_iff, is_type_iff. destruct (p_raw p) as [t|l].
  - rewrite negb_true_iff. assert (forallb is_ascii t = false <-> exists c, In c t /\ (128 <= c)%N) as ->.
    { induction t as [|c t IH]; cbn [forallb]; [split; [discriminate|intros (c & [] & _)]|].
      unfold is_ascii at 1. destruct (N.ltb_spec c 128) as [L|L]; cbn [andb].
      - rewrite IH. split; intros (c' & H & K); exists c'; (split; [|assumption]); [now right|destruct H as [<-|H]; [lia|assumption]].
      - split; [|reflexivity]. intros _. exists c. split; [now left|assumption]. }
    split; [intros (H & c & K); split; [assumption|]; exists t, c; tauto|intros (H & t' & c & [= <-] & K); eauto].
  - split; [intros [_ H]; discriminate|intros (_ & t & c & H & _); discriminate].
Qed.
Lemma ascii_names_iff n : In n ascii_names <-> In n names_of_ascii.
Proof. unfold ascii_names, names_of_ascii. cbn [In]. tauto. Qed.
Lemma b64t_iff p : d_b64t p = true <-> base64_text_part p.
Proof.
  unfold d_b64t, base64_text_part. rewrite !andb_true_iff, orb_true_iff, !negb_true_iff, mem_str_notIn, contains_app.
  assert (nonempty (p_charset p) = false <-> p_charset p = []) as -> by (destruct (p_charset p); split; intros K; try discriminate K; reflexivity).
  assert (existsb (fun n => contains n (p_charset p)) ascii_names = true <->
          exists n a b, In n names_of_ascii /\ p_charset p = a ++ n ++ b) as ->.
  { rewrite existsb_exists. split.
    - intros (n & Hn & K). apply contains_app in K as (a & b & K). apply ascii_names_iff in Hn. eauto 6.
    - intros (n & a & b & Hn & K). exists n. split; [now apply ascii_names_iff|]. apply contains_app. eauto. }
  cbn [In]. split.
  - intros ((H1 & H2) & H3). repeat split; [assumption|assumption|intros K; apply H3; now left|intros K; apply H3; right; now left].
  - intros (H1 & H2 & H3 & H4). repeat split; [assumption|assumption|]. intros [K|[K|[]]]; [now apply H3|now apply H4].
Qed.

(** Lines *)
Lemma concat_split_len c s : concat (split_char c s) = filter (fun x => negb (N.eqb x c)) s.
Proof.
  induction s as [|x s IH]; [reflexivity|]. cbn [split_char filter].
  pose proof (split_char_nonempty c s) as Hn. destruct (split_char c s) as [|w r] eqn:E; [now elim Hn|].
  cbn [concat] in IH. destruct (N.eqb x c) eqn:Ex; cbn [negb concat app]; [cbn; exact IH|]. now rewrite IH.
Qed.
Lemma split_tl c name rest : ~ In c name -> tl (split_char c (name ++ c :: rest)) = split_char c rest.
Proof.
  induction name as [|x name IH]; intros H; cbn [app split_char].
  - pose proof (split_char_nonempty c rest). destruct (split_char c rest) as [|w r]; [contradiction|]. now rewrite N.eqb_refl.
  - assert (N.eqb x c = false) as Ex by (apply N.eqb_neq; intros ->; apply H; now left).
    assert (~ In c name) as H' by (intros K; apply H; now right). specialize (IH H').
    destruct (split_char c (name ++ c :: rest)) as [|w r] eqn:E; [now pose proof (split_char_nonempty c (name ++ c :: rest))|].
    rewrite Ex. exact IH.
Qed.
Lemma split_no c s : ~ In c s -> split_char c s = [s].
Proof.
  induction s as [|x s IH]; intros H; [reflexivity|]. cbn [split_char].
  assert (N.eqb x c = false) as -> by (apply N.eqb_neq; intros ->; apply H; now left). rewrite IH; [reflexivity|].
  intros K. apply H. now right.
Qed.
Lemma long_iff l : long_line l = true <-> long_after_colon l.
Proof.
  unfold long_line, long_after_colon, max_line_len. rewrite andb_true_iff, Nat.ltb_lt, negb_true_iff.
  assert (startswith ($"SPAM") l = false <-> ~ exists r, l = $"SPAM" ++ r) as ->.
  { rewrite <- startswith_app. destruct (startswith _ l); split; intros K; try discriminate; try reflexivity; now elim K. }
  destruct (split1 58%N l) as [[a b]|] eqn:E.
  - apply split1_Some in E as [-> Ha]. rewrite (split_tl _ _ _ Ha), concat_split_len. split.
    + intros [H1 H2]. split; [assumption|]. exists a, b. tauto.
    + intros [H1 (a' & b' & E & Ha' & H2)]. split; [|assumption].
      assert (split1 58%N (a ++ 58%N :: b) = Some (a, b)) as S1 by (apply split1_Some; tauto).
      assert (split1 58%N (a ++ 58%N :: b) = Some (a', b')) as S2 by (apply split1_Some; tauto).
      rewrite S1 in S2. injection S2 as <- <-. exact H2.
  - apply split1_None in E. rewrite (split_no _ _ E). cbn [tl concat length]. split; [intros [H _]; lia|].
    intros [_ (a & b & -> & _)]. exfalso. apply E, in_or_app. right. now left.
Qed.
Lemma dlong_iff p : d_long p = true <-> encoded ($"quoted-printable") p /\ exists x, In x (p_lines p) /\ long_after_colon x.
Proof.
  unfold d_long. rewrite andb_true_iff, qp_iff, existsb_exists.
  split; intros [H (x & Hx & K)]; (split; [assumption|]); exists x; (split; [assumption|]); now apply long_iff.
Qed.

(** Entities *)
Lemma hex_iff c : is_hex c = true <-> In c ($"0123456789ABCDEF").
Proof.
  split; [|intros H; vm_compute in H; repeat (destruct H as [<-|H]; [reflexivity|]); destruct H].
  unfold is_hex. rewrite orb_true_iff, !andb_true_iff, !N.leb_le. intros H.
  assert (c = 48 \/ c = 49 \/ c = 50 \/ c = 51 \/ c = 52 \/ c = 53 \/ c = 54 \/ c = 55 \/ c = 56 \/ c = 57 \/
          c = 65 \/ c = 66 \/ c = 67 \/ c = 68 \/ c = 69 \/ c = 70)%N as K by lia.
  vm_compute. intuition congruence.
Qed.
Lemma entity_here_iff s : entity_here s = true <->
  exists d b, s = $"&#x" ++ d ++ $";" ++ b /\ length d = 4 /\ forall c, In c d -> In c ($"0123456789ABCDEF").
Proof.
  split.
  - destruct s as [|a [|b [|c [|w [|x [|y [|z [|e s]]]]]]]]; try discriminate. cbn [entity_here].
    rewrite !andb_true_iff, !N.eqb_eq. intros (((((((-> & ->) & ->) & Hw) & Hx) & Hy) & Hz) & ->).
    exists [w; x; y; z], s. split; [reflexivity|]. split; [reflexivity|]. intros k [<-|[<-|[<-|[<-|[]]]]]; apply hex_iff; assumption.
  - intros (d & b & -> & Hd & K). destruct d as [|w [|x [|y [|z [|]]]]]; try discriminate.
    assert (is_hex w = true /\ is_hex x = true /\ is_hex y = true /\ is_hex z = true) as (E1 & E2 & E3 & E4) by (repeat split; apply hex_iff, K; cbn; tauto).
    change (true && true && true && is_hex w && is_hex x && is_hex y && is_hex z && true = true). now rewrite E1, E2, E3, E4.
Qed.
Lemma entity_iff s : has_entity s = true <-> with_entity s.
Proof.
  unfold with_entity. induction s as [|c s IH]; cbn [has_entity].
  - split; [discriminate|]. intros (a & d & b & E & _). destruct a; discriminate.
  - rewrite orb_true_iff, entity_here_iff, IH. split.
    + intros [(d & b & -> & H)|(a & d & b & -> & H)]; [exists []|exists (c :: a)]; exists d, b; split; [reflexivity|assumption|reflexivity|assumption].
    + intros (a & d & b & E & H). destruct a as [|c' a]; [left; exists d, b; tauto|right]. injection E as -> ->. exists a, d, b. tauto.
Qed.

(** Base64 lines *)
Lemma lines_nonempty s : forall cur cr, cur <> [] -> lines_aux s cur cr <> [].
Proof.
  induction s as [|c s IH]; intros cur cr H; cbn [lines_aux]; [destruct cur; [contradiction|discriminate]|].
  destruct (cr && N.eqb c 10); [now apply IH|]. destruct (is_break c); [discriminate|]. apply IH. discriminate.
Qed.
Lemma splitlines_nonempty t : t <> [] -> splitlines t <> [].
Proof.
  destruct t as [|c t]; [contradiction|]. intros _. unfold splitlines. cbn [lines_aux andb].
  destruct (is_break c); [discriminate|]. apply lines_nonempty. discriminate.
Qed.
Lemma max_len_ge l x : In x l -> length x <= max_len l.
Proof. induction l as [|y l IH]; [intros []|]. cbn [max_len fold_right]. fold (max_len l). intros [->|H]; [lia|]. specialize (IH H). lia. Qed.
Lemma max_len_in l : l <> [] -> exists x, In x l /\ length x = max_len l.
Proof.
  induction l as [|y l IH]; [contradiction|]. intros _. cbn [max_len fold_right]. fold (max_len l).
  destruct l as [|z l]; [exists y; split; [now left|cbn; lia]|].
  destruct IH as (x & Hx & E); [discriminate|]. destruct (Nat.max_spec (length y) (max_len (z :: l))) as [[_ ->]|[_ ->]].
  - exists x. split; [now right|assumption].
  - exists y. split; [now left|reflexivity].
Qed.
Lemma break_iff c : is_break c = true <-> In c line_breaks.
Proof.
  unfold is_break. rewrite existsb_exists. split.
  - intros (x & Hx & E). apply N.eqb_eq in E as <-. revert Hx. unfold line_breaks. cbn [In]. tauto.
  - intros H. exists c. split; [|apply N.eqb_refl]. revert H. unfold line_breaks. cbn [In]. tauto.
Qed.
Lemma unbroken_aux x : unbroken x -> forall r cur, lines_aux (x ++ r) cur false = lines_aux r (rev x ++ cur) false.
Proof.
  induction x as [|c x IH]; intros H r cur; [reflexivity|]. cbn [app lines_aux andb rev].
  destruct (is_break c) eqn:E; [apply break_iff in E; elim (H c (or_introl eq_refl) E)|].
  rewrite IH; [|intros d Hd; apply H; now right]. now rewrite <- app_assoc.
Qed.
Lemma lines_fun t ls : lines t ls -> splitlines t = ls.
Proof.
  unfold splitlines. induction 1 as [|x Hx Hu|x r ls Hu H IH|x c r ls Hu Hc Hn H IH].
  - reflexivity.
  - rewrite <- (app_nil_r x) at 1. rewrite unbroken_aux, app_nil_r by assumption. cbn [lines_aux].
    destruct (rev x) eqn:E; [elim Hx; now rewrite <- (rev_involutive x), E|]. now rewrite <- E, rev_involutive.
  - rewrite unbroken_aux, app_nil_r by assumption. change (lines_aux ([13%N; 10%N] ++ r) (rev x) false) with (rev (rev x) :: lines_aux r [] false).
    now rewrite rev_involutive, IH.
  - rewrite unbroken_aux, app_nil_r by assumption. cbn [app lines_aux andb]. rewrite (proj2 (break_iff c) Hc), rev_involutive. f_equal.
    rewrite <- IH. destruct (N.eqb_spec c 13) as [->|_]; [|reflexivity]. destruct r as [|d r]; [reflexivity|]. cbn [lines_aux andb].
    destruct (N.eqb_spec d 10) as [->|_]; [elim (Hn eq_refl r eq_refl)|reflexivity].
Qed.
Lemma lines_ex n : forall t, length t <= n -> exists ls, lines t ls.
Proof.
  induction n as [|n IH]; intros t Ht; [destruct t; [exists []; constructor|cbn in Ht; lia]|].
  pose proof (take_drop_while (fun c => negb (is_break c)) t) as E.
  assert (U : unbroken (take_while (fun c => negb (is_break c)) t)).
  { clear. induction t as [|c t IH]; [intros c []|]. cbn [take_while]. destruct (is_break c) eqn:B; cbn [negb]; [intros d []|].
    intros d [<-|Hd]; [intros K%break_iff; congruence|now apply IH]. }
  destruct (drop_while (fun c => negb (is_break c)) t) as [|c r] eqn:D.
  - rewrite app_nil_r in E. destruct t as [|c t]; [exists []; constructor|]. exists [c :: t]. constructor; [discriminate|]. now rewrite <- E.
  - apply drop_while_head, negb_false_iff, break_iff in D. set (x := take_while (fun c => negb (is_break c)) t) in *. clearbody x. subst t.
    rewrite app_length in Ht. cbn [length] in Ht.
    destruct (N.eq_dec c 13) as [->|Hc].
    + destruct r as [|d r]; [exists [x]; apply (lines_more x 13%N [] []); [assumption|assumption|discriminate|constructor]|].
      destruct (N.eq_dec d 10) as [->|Hd].
      * destruct (IH r) as [ls Hl]; [cbn [length] in Ht; lia|]. exists (x :: ls). now apply (lines_crlf x r ls).
      * destruct (IH (d :: r)) as [ls Hl]; [lia|]. exists (x :: ls). apply (lines_more x 13%N (d :: r) ls); [assumption|assumption| |assumption].
        intros _ r' K. congruence.
    + destruct (IH r) as [ls Hl]; [lia|]. exists (x :: ls). apply (lines_more x c r ls); [assumption|assumption|congruence|assumption].
Qed.
Lemma lines_iff t ls : lines t ls <-> ls = splitlines t.
Proof.
  split; [intros H; symmetry; now apply lines_fun|]. intros ->. destruct (lines_ex (length t) t (le_n _)) as [ls H]. now rewrite (lines_fun t ls H).
Qed.
Lemma longest_iff t n : longest t n <-> n = max_len (splitlines t).
Proof.
  unfold longest. split.
  - intros (ls & ->%lines_iff & H1 & [[-> ->]|(x & Hx & E)]); [reflexivity|]. pose proof (max_len_ge _ _ Hx).
    destruct (max_len_in (splitlines t)) as (y & Hy & Ey); [intros K; rewrite K in Hx; destruct Hx|]. specialize (H1 _ Hy). lia.
  - intros ->. exists (splitlines t). split; [now apply lines_iff|]. split; [intros x; apply max_len_ge|].
    destruct (splitlines t) as [|y l]; [now left|right]. apply max_len_in. discriminate.
Qed.
Lemma lines_total l ns : base64_lines l ns -> sum_of ns = total d_len l.
Proof.
  induction 1 as [|p l ns Hp H IH|p l ns t n Hp Hr Hn H IH|p l ns Hp Hr H IH]; cbn [total]; [reflexivity| | |].
  - unfold d_len. destruct (d_b64 p) eqn:E; [now apply b64_iff in E|]. exact IH.
  - unfold d_len. rewrite (proj2 (b64_iff p) Hp), Hr. apply longest_iff in Hn as ->. cbn [sum_of fold_right]. fold (sum_of ns). now rewrite IH.
  - unfold d_len. rewrite (proj2 (b64_iff p) Hp), Hr. exact IH.
Qed.
Lemma lines_exist loc raw l : forall s s', extract_all loc raw s l = Some s' -> exists ns, base64_lines l ns.
Proof.
  induction l as [|p l IH]; intros s s'; cbn [extract_all]; [intros _; exists []; constructor|].
  rewrite step_eq. destruct (e_other p || _) eqn:E; cbn [bind]; [discriminate|]. intros H. destruct (IH _ _ H) as [ns Hns].
  apply orb_false_elim in E as [E _]. unfold e_other in E. apply orb_false_elim in E as [E _]. apply orb_false_elim in E as [_ E].
  destruct (d_b64 p) eqn:Eb.
  - apply b64_iff in Eb. destruct (p_raw p) as [t|[|]] eqn:Er; [| |discriminate].
    + exists (max_len (splitlines t) :: ns). apply bl_text with t; [assumption|assumption|now apply longest_iff|assumption].
    + exists (0 :: ns). now apply bl_empty.
  - exists ns. apply bl_skip; [|assumption]. intros K%b64_iff. congruence.
Qed.

(** Rules *)
Lemma q_rat n : Model_BodyEval.q n = rat n.
Proof. reflexivity. Qed.
Lemma le_max_iff x m : le_max x m = true <-> at_most x m.
Proof. destruct m; cbn; [apply Qle_bool_iff|tauto]. Qed.
Lemma length_rule loc raw l s minl maxl : load loc raw l = Some s ->
  (check_base64_length minl maxl s = true <->
   exists ns, base64_lines l ns /\ (minl <= rat (sum_of ns))%Q /\ at_most (rat (sum_of ns)) maxl).
Proof.
  intros H. unfold check_base64_length. rewrite andb_true_iff, Qle_bool_iff, le_max_iff, q_rat, (l_len _ _ _ _ H). split.
  - intros K. destruct (lines_exist _ _ _ _ _ H) as [ns Hns]. exists ns. rewrite (lines_total _ _ Hns). tauto.
  - intros (ns & Hns & K). rewrite (lines_total _ _ Hns) in K. tauto.
Qed.
Lemma qp_rule loc raw l s minr maxr : load loc raw l = Some s ->
  (check_qp_ratio minr maxr s = true <-> (minr <= 0)%Q /\ at_most 0 maxr).
Proof.
  intros H. unfold check_qp_ratio, qp_ratio. rewrite (l_qpchars _ _ _ _ H). cbn [Nat.eqb orb].
  now rewrite andb_true_iff, Qle_bool_iff, le_max_iff.
Qed.
Lemma ratio_rule loc raw l s minr maxr : load loc raw l = Some s ->
  (check_mime_multipart_ratio minr maxr s = true <->
   exists r, (minr <= r)%Q /\ (r < maxr)%Q /\
     ((total plain_size l = 0 \/ total html_size l = 0) /\ r = 1%Q \/
      0 < total plain_size l /\ 0 < total html_size l /\ r = (rat (total plain_size l) / rat (total html_size l))%Q)).
Proof.
  intros H. unfold check_mime_multipart_ratio, multipart_ratio. rewrite (l_html _ _ _ _ H), (l_plain _ _ _ _ H).
  assert (Hlt : forall a b, negb (Qle_bool a b) = true <-> (b < a)%Q).
  { intros a b. rewrite negb_true_iff, <- not_true_iff_false, Qle_bool_iff. split; [apply Qnot_le_lt|apply Qlt_not_le]. }
  rewrite andb_true_iff, Qle_bool_iff, Hlt. change Model_BodyEval.q with rat.
  destruct (Nat.eqb_spec (total html_size l) 0) as [E|E]; cbn [orb].
  - split; [intros [H1 H2]; exists 1%Q; tauto|]. intros (r & H1 & H2 & [[_ ->]|(_ & K & _)]); [tauto|lia].
  - destruct (Nat.eqb_spec (total plain_size l) 0) as [E'|E'].
    + split; [intros [H1 H2]; exists 1%Q; tauto|]. intros (r & H1 & H2 & [[_ ->]|(K & _)]); [tauto|lia].
    + split.
      * intros [H1 H2]. eexists. split; [exact H1|]. split; [exact H2|]. right. repeat split; lia.
      * intros (r & H1 & H2 & [[[K|K] _]|(_ & _ & ->)]); [lia|lia|tauto].
Qed.
Lemma uni_rule loc raw l s minr maxr : load loc raw l = Some s ->
  (check_abundant_unicode_ratio minr maxr s = true <->
   exists r, (minr <= r)%Q /\ at_most r maxr /\
     (total plain_size l = 0 /\ r = 0%Q \/
      0 < total plain_size l /\ r = (rat (total d_uni l) / rat (total plain_size l))%Q)).
Proof.
  intros H. unfold check_abundant_unicode_ratio, unicode_ratio. rewrite (l_ascii _ _ _ _ H), (l_uni _ _ _ _ H).
  rewrite andb_true_iff, Qle_bool_iff, le_max_iff. change Model_BodyEval.q with rat.
  destruct (Nat.eqb_spec (total plain_size l) 0) as [E|E].
  - split; [intros [H1 H2]; exists 0%Q; tauto|]. intros (r & H1 & H2 & [[_ ->]|(K & _)]); [tauto|lia].
  - split; [intros [H1 H2]; eexists; split; [exact H1|]; split; [exact H2|]; right; split; [lia|reflexivity]|].
    intros (r & H1 & H2 & [[K _]|(_ & ->)]); [lia|tauto].
Qed.

(** ** Paragraphs *)
Definition nn : str := [10%N; 10%N].
Lemma no_nn_cons c d s : (forall a b, c :: d :: s <> a ++ nn ++ b) <-> ~ (c = 10%N /\ d = 10%N) /\ forall a b, d :: s <> a ++ nn ++ b.
Proof.
  split.
  - intros H. split; [intros [-> ->]; exact (H [] s eq_refl)|]. intros a b E. apply (H (c :: a) b). cbn [app]. now rewrite E.
  - intros [H1 H2] [|x a] b E; cbn [app nn] in E.
    + injection E as -> -> _. now apply H1.
    + injection E as -> E. exact (H2 _ _ E).
Qed.
Lemma paras_spec n : forall s cur, length s <= n -> (forall a b, rev cur <> a ++ nn ++ b) ->
  (hd 0%N s = 10%N -> forall a b, rev cur ++ [10%N] <> a ++ nn ++ b) ->
  paragraphs (rev cur ++ s) (paras_aux s cur false).
Proof.
  assert (Happ : forall x c, (forall a b, x <> a ++ nn ++ b) -> (c <> 10%N \/ x = [] \/ exists y d, x = y ++ [d] /\ d <> 10%N) ->
                 forall a b, x ++ [c] <> a ++ nn ++ b).
  { intros x c Hx Hc a b E. destruct b as [|z b _] using rev_ind.
    - rewrite app_nil_r in E. unfold nn in E. change (a ++ [10%N; 10%N]) with (a ++ [10%N] ++ [10%N]) in E. rewrite app_assoc in E.
      apply app_inj_tail in E as [-> ->]. destruct Hc as [Hc|[Hc|(y & d & Hc & Hd)]]; [now apply Hc|destruct a; discriminate|].
      apply app_inj_tail in Hc as [_ Hc]. now apply Hd.
    - rewrite !app_assoc in E. apply app_inj_tail in E as [-> _]. apply (Hx a b). now rewrite app_assoc. }
  induction n as [|n IH]; intros s cur Hn Hc Hs.
  - destruct s; [|cbn in Hn; lia]. cbn [paras_aux]. rewrite app_nil_r. now apply par_last.
  - destruct s as [|c s]; [cbn [paras_aux]; rewrite app_nil_r; now apply par_last|].
    cbn [paras_aux]. destruct s as [|d s].
    + cbn [paras_aux]. apply par_last. fold nn. cbn [rev].
      destruct (N.eq_dec c 10) as [->|Hcc]; [exact (Hs eq_refl)|]. apply Happ; [exact Hc|now left].
    + destruct (N.eqb_spec c 10) as [->|Hcc]; cbn [andb].
      * destruct (N.eqb_spec d 10) as [->|Hd].
        -- cbn [paras_aux]. change (rev cur ++ 10%N :: 10%N :: s) with (rev cur ++ [10%N; 10%N] ++ s).
           apply par_more; [exact (Hs eq_refl)|]. apply (IH s []); [cbn in Hn; lia| |].
           ++ cbn. intros a b E. destruct a; discriminate.
           ++ intros _ [|x [|y a]] b E; discriminate.
        -- replace (rev cur ++ 10%N :: d :: s) with (rev (10%N :: cur) ++ d :: s) by (cbn [rev]; now rewrite <- app_assoc).
           apply IH; [cbn in *; lia|exact (Hs eq_refl)|]. cbn [hd]. intros K. now elim Hd.
      * replace (rev cur ++ c :: d :: s) with (rev (c :: cur) ++ d :: s) by (cbn [rev]; now rewrite <- app_assoc).
        apply IH; [cbn in *; lia|cbn [rev]; apply Happ; [exact Hc|now left]|].
        cbn [rev]. intros _. apply Happ; [apply Happ; [exact Hc|now left]|]. right; right. exists (rev cur), c. split; [reflexivity|assumption].
Qed.
Lemma paras_paragraphs s : paragraphs s (paras s).
Proof.
  apply (paras_spec (length s) s []); [lia| |].
  - intros [|] b E; discriminate.
  - intros _ [|x [|y a]] b E; discriminate.
Qed.
Lemma first_unique p r p' r' : (forall a b, p ++ [10%N] <> a ++ nn ++ b) -> (forall a b, p' ++ [10%N] <> a ++ nn ++ b) ->
  p ++ nn ++ r = p' ++ nn ++ r' -> p = p' /\ r = r'.
Proof.
  revert p'. induction p as [|x p IH]; intros [|x' p'] H H' E; cbn [app nn] in E.
  - split; [reflexivity|]. now injection E.
  - exfalso. injection E as <- E. destruct p' as [|y p']; cbn [app] in E.
    + exact (H' [] [] eq_refl).
    + injection E as <- E. exact (H' [] (p' ++ [10%N]) eq_refl).
  - exfalso. injection E as -> E. destruct p as [|y p]; cbn [app] in E.
    + exact (H [] [] eq_refl).
    + injection E as -> E. exact (H [] (p ++ [10%N]) eq_refl).
  - injection E as -> E. destruct (IH p') as [-> ->].
    + intros a b K. apply (H (x' :: a) b). cbn [app]. now rewrite <- K.
    + intros a b K. apply (H' (x' :: a) b). cbn [app]. now rewrite <- K.
    + exact E.
    + split; reflexivity.
Qed.
Lemma paragraphs_fun s ps : paragraphs s ps -> forall qs, paragraphs s qs -> ps = qs.
Proof.
  induction 1 as [s H|p r ps H H1 IH]; intros qs K; inversion K as [s' H' E1 E2|p' r' ps' H' K' E1 E2]; subst.
  - reflexivity.
  - exfalso. exact (H p' r' eq_refl).
  - exfalso. exact (H' p r eq_refl).
  - destruct (first_unique p' r' p r H' H E1) as [-> ->]. f_equal. now apply IH.
Qed.
Lemma counted_iff p : counted p = true <-> several_words p.
Proof.
  unfold counted, several_words. rewrite mem_char_In. unfold nl_blank. rewrite in_map_iff. split.
  - intros (c & E & H). apply in_split in H as (a & b & H). exists a, c, b. split; [exact H|].
    destruct (N.eqb_spec c 10); [now right|now left].
  - intros (a & c & b & E & H). exists c. split; [|rewrite E; apply in_or_app; right; now left].
    destruct H as [->| ->]; reflexivity.
Qed.
Lemma kept_filter ps : kept ps (filter counted ps).
Proof.
  induction ps as [|p ps IH]; cbn [filter]; [constructor|]. destruct (counted p) eqn:E.
  - constructor; [now apply counted_iff|assumption].
  - constructor; [|assumption]. intros K%counted_iff. congruence.
Qed.
Lemma kept_fun ps qs : kept ps qs -> qs = filter counted ps.
Proof.
  induction 1 as [|p ps qs H H1 IH|p ps qs H H1 IH]; cbn [filter]; [reflexivity| |].
  - apply counted_iff in H as ->. now rewrite IH.
  - destruct (counted p) eqn:E; [now apply counted_iff in E|exact IH].
Qed.

Section Uppercase.
Variables (up : char -> str) (is_word is_dig : char -> bool).
Hypothesis blank : is_word 32%N = false.
Hypothesis newline : is_word 10%N = false.
Lemma letters_eq p : letters is_word p = filter is_word p.
Proof.
  unfold letters, nl_blank. induction p as [|c p IH]; [reflexivity|]. cbn [map filter]. rewrite IH.
  destruct (N.eqb_spec c 10) as [->|H]; [now rewrite blank, newline|reflexivity].
Qed.
Lemma count_lower_eq t : (forall c, In c t -> exists d, up c = [d]) ->
  count_lower up is_dig t + length (filter (fun c => negb (is_dig c) && streqb (up c) [c]) t) = length t.
Proof.
  unfold count_lower. induction t as [|c t IH]; intros H; [reflexivity|]. cbn [flat_map].
  destruct (H c (or_introl eq_refl)) as [d Hd]. rewrite Hd at 1. cbn [app combine filter fst snd length].
  specialize (IH (fun x Hx => H x (or_intror Hx))). rewrite Hd.
  assert (streqb [d] [c] = N.eqb c d) as ->.
  { destruct (streqb_spec [d] [c]) as [E|E]; destruct (N.eqb_spec c d) as [E'|E']; [reflexivity|congruence|congruence|reflexivity]. }
  destruct (N.eqb c d), (is_dig c); cbn [negb orb andb length]; lia.
Qed.
Lemma capital_filter p : filter (fun c => negb (is_dig c) && streqb (up c) [c]) (filter is_word p) = filter (capital up is_word is_dig) p.
Proof.
  induction p as [|c p IH]; [reflexivity|]. cbn [filter]. unfold capital at 1. destruct (is_word c); cbn [andb filter]; [|exact IH].
  destruct (negb _ && _); now rewrite IH.
Qed.
Lemma concat_len qs : sum (map (@length char) qs) = length (concat qs).
Proof. induction qs as [|p qs IH]; [reflexivity|]. cbn [map sum fold_right concat]. fold (sum (map (@length char) qs)). rewrite app_length. now rewrite IH. Qed.
Lemma letters_len qs : sum (map (fun p => length (letters is_word p)) qs) = length (filter is_word (concat qs)).
Proof.
  induction qs as [|p qs IH]; [reflexivity|]. cbn [map sum fold_right concat]. fold (sum (map (fun p => length (letters is_word p)) qs)).
  rewrite filter_app, app_length, letters_eq. now rewrite IH.
Qed.
Lemma lower_len qs : (forall c, In c (concat qs) -> exists d, up c = [d]) ->
  sum (map (fun p => count_lower up is_dig (letters is_word p)) qs) + length (filter (capital up is_word is_dig) (concat qs)) = length (filter is_word (concat qs)).
Proof.
  induction qs as [|p qs IH]; intros H; [reflexivity|]. cbn [map sum fold_right concat].
  fold (sum (map (fun p => count_lower up is_dig (letters is_word p)) qs)).
  rewrite !filter_app, !app_length, letters_eq. specialize (IH (fun c Hc => H c (in_or_app _ _ _ (or_intror Hc)))).
  pose proof (count_lower_eq (filter is_word p)) as K. rewrite capital_filter in K.
  assert (forall c, In c (filter is_word p) -> exists d, up c = [d]) as Hp.
  { intros c Hc. apply filter_In in Hc as [Hc _]. apply (H c). cbn [concat]. apply in_or_app. now left. }
  specialize (K Hp). lia.
Qed.
Lemma paragraphs_in s ps : paragraphs s ps -> forall p c, In p ps -> In c p -> In c s.
Proof.
  induction 1 as [s H|p r ps H H1 IH]; intros x c Hx Hc.
  - destruct Hx as [<-|[]]. exact Hc.
  - apply in_or_app. destruct Hx as [<-|Hx]; [now left|]. right. right. right. now apply (IH x).
Qed.
Lemma uppercase_rule minp maxp raw : (forall c, In c raw -> exists d, up c = [d]) ->
  check_for_uppercase up is_word is_dig minp maxp raw = true <->
  exists ps qs, paragraphs raw ps /\ kept ps qs /\ 200 <= length (concat qs) /\ 0 < length (filter is_word (concat qs)) /\
    let r := (rat (length (filter (capital up is_word is_dig) (concat qs))) / rat (length (filter is_word (concat qs))) * 100)%Q in
    (minp < r)%Q /\ (r <= maxp)%Q.
Proof.
  intros Hup. unfold check_for_uppercase. cbv zeta.
  set (qs := filter counted (paras raw)).
  assert (Hq : forall c, In c (concat qs) -> exists d, up c = [d]).
  { intros c Hc. apply in_concat in Hc as (p & Hp & Hc). apply filter_In in Hp as [Hp _]. apply Hup.
    exact (paragraphs_in _ _ (paras_paragraphs raw) p c Hp Hc). }
  rewrite concat_len, letters_len. pose proof (lower_len qs Hq) as HL.
  set (T := length (filter is_word (concat qs))) in *. set (C := length (filter (capital up is_word is_dig) (concat qs))) in *.
  set (L := sum _) in *. replace (T - L) with C by lia. change Model_BodyEval.q with rat.
  assert (G : (if N.ltb (N.of_nat (length (concat qs))) min_length then false
     else if T =? 0 then false else negb (Qle_bool (rat C / rat T * 100) minp) && Qle_bool (rat C / rat T * 100) maxp) = true <->
     200 <= length (concat qs) /\ 0 < T /\ (minp < rat C / rat T * 100)%Q /\ (rat C / rat T * 100 <= maxp)%Q).
  { unfold min_length. destruct (N.ltb_spec (N.of_nat (length (concat qs))) 200) as [K|K]; [split; [discriminate|intros [K' _]; lia]|].
    destruct (Nat.eqb_spec T 0) as [K'|K']; [split; [discriminate|intros [_ [K'' _]]; lia]|].
    rewrite andb_true_iff, negb_true_iff, <- not_true_iff_false, !Qle_bool_iff. split.
    - intros [H1 H2]. repeat split; [lia|lia|now apply Qnot_le_lt|assumption].
    - intros (_ & _ & H1 & H2). split; [now apply Qlt_not_le|assumption]. }
  rewrite G. split.
  - intros H. exists (paras raw), qs. split; [apply paras_paragraphs|]. split; [apply kept_filter|]. exact H.
  - intros (ps & qs' & Hp & Hk & H). rewrite (paragraphs_fun _ _ Hp _ (paras_paragraphs raw)) in Hk.
    apply kept_fun in Hk. fold qs in Hk. subst qs'. exact H.
Qed.
End Uppercase.

(** ** Boundaries *)
Lemma count_skip p s : forall k, Model_BodyEval.count_aux p s k = Model_BodyEval.count_sub p (skipn k s).
Proof.
  induction s as [|c s IH]; intros [|k]; try reflexivity. cbn [Model_BodyEval.count_aux skipn]. apply IH.
Qed.
Lemma count_cons p c s : p <> [] -> Model_BodyEval.count_sub p (c :: s) =
  if startswith p (c :: s) then S (Model_BodyEval.count_sub p (skipn (length p) (c :: s))) else Model_BodyEval.count_sub p s.
Proof.
  intros Hp. unfold Model_BodyEval.count_sub at 1. cbn [Model_BodyEval.count_aux]. destruct (startswith p (c :: s)); [|reflexivity].
  rewrite count_skip. destruct p as [|x p]; [contradiction|]. cbn [length skipn]. now rewrite Nat.sub_0_r || now rewrite Nat.sub_succ, Nat.sub_0_r.
Qed.
Lemma times_more n p x b : times n p b -> times n p (x ++ b).
Proof.
  destruct n as [|n]; cbn [times]; [easy|]. intros (a & c & -> & H). exists (x ++ a), c. split; [now rewrite app_assoc|assumption].
Qed.
Lemma suffix_of (a b c d : str) : a ++ b = c ++ d -> length d <= length b -> exists x, b = x ++ d.
Proof.
  revert c. induction a as [|y a IH]; intros c E H; [now exists c|]. destruct c as [|z c]; cbn [app] in E.
  - subst d. cbn [length] in H. rewrite app_length in H. lia.
  - injection E as _ E. now apply (IH c).
Qed.
Lemma count_times p : p <> [] -> forall k s n, length s <= k -> (n <= Model_BodyEval.count_sub p s <-> times n p s).
Proof.
  intros Hp. induction k as [|k IH]; intros s n Hk.
  - destruct s; [|cbn in Hk; lia]. destruct n as [|n]; [cbn; split; [easy|lia]|]. split; [cbn; lia|].
    intros (a & b & E & _). destruct a; [|discriminate]. destruct p; [contradiction|discriminate].
  - destruct s as [|c s]; [apply IH; cbn; lia|]. rewrite count_cons by assumption. destruct n as [|n]; [cbn; split; [easy|lia]|].
    destruct (startswith p (c :: s)) eqn:E.
    + apply startswith_app in E as [t E]. rewrite E. rewrite skipn_app, skipn_all, Nat.sub_diag. cbn [app skipn].
      assert (Ht : length t <= k) by (apply (f_equal (@length _)) in E; rewrite app_length in E; destruct p; [contradiction|cbn [length] in *; lia]).
      specialize (IH t n Ht). split.
      * intros H. exists [], t. split; [reflexivity|]. apply IH. lia.
      * intros (a & b & E2 & H). assert (K : exists x, t = x ++ b).
        { apply (suffix_of p t (a ++ p) b); [now rewrite <- app_assoc|].
          apply (f_equal (@length _)) in E2. rewrite !app_length in E2. lia. }
        destruct K as [x ->]. assert (n <= Model_BodyEval.count_sub p (x ++ b)) by (apply IH; now apply times_more). lia.
    + assert (Hs : length s <= k) by (cbn in Hk; lia). rewrite (IH s (S n) Hs). split.
      * intros H. exact (times_more _ _ [c] _ H).
      * intros (a & b & E2 & H). destruct a as [|y a].
        -- exfalso. cbn [app] in E2. assert (startswith p (c :: s) = true) by (apply startswith_app; eauto). congruence.
        -- injection E2 as -> ->. exists a, b. tauto.
Qed.
Lemma nb_iff raw p : d_nb raw p = true <-> plain_part p /\ ~ times 4 ($"--") raw.
Proof.
  unfold d_nb, d_plain, plain_part. rewrite andb_true_iff, is_type_iff, Nat.leb_le.
  rewrite <- (count_times ($"--") ltac:(discriminate) (length raw) raw 4 (le_n _)). intuition lia.
Qed.

(** ** Separator *)
Lemma header_iff l : header_line l = true <-> header_like l.
Proof.
  unfold header_line, header_like. rewrite !orb_true_iff, startswith_app, or_assoc.
  assert (H1 : match drop_while name_char l with c :: _ => N.eqb c 58 | [] => false end = true <->
    exists name r, l = name ++ 58%N :: r /\ forall c, In c name -> (33 <= c <= 126)%N /\ c <> 58%N).
  { assert (Hn : forall c, name_char c = true <-> (33 <= c <= 126)%N /\ c <> 58%N).
    { intros c. unfold name_char. rewrite !andb_true_iff, !N.leb_le, negb_true_iff, N.eqb_neq. tauto. }
    split.
    - intros H. destruct (drop_while name_char l) as [|c r] eqn:E; [discriminate|]. apply N.eqb_eq in H as ->.
      destruct (drop_while_suffix name_char l) as (a & Ha & Hf). rewrite E in Ha. exists a, r. split; [exact Ha|].
      intros c Hc. apply Hn. rewrite forallb_forall in Hf. now apply Hf.
    - intros (name & r & -> & H). assert (drop_while name_char (name ++ 58%N :: r) = 58%N :: r) as ->; [|reflexivity].
      induction name as [|c name IH]; [reflexivity|]. cbn [app drop_while]. rewrite (proj2 (Hn c) (H c (or_introl eq_refl))).
      apply IH. intros x Hx. apply H. now right. }
  assert (H2 : match l with c :: _ => N.eqb c 32 || N.eqb c 9 | [] => false end = true <->
    exists c r, l = c :: r /\ (c = 32%N \/ c = 9%N)).
  { destruct l as [|c l]; [split; [discriminate|intros (c & r & E & _); discriminate]|].
    rewrite orb_true_iff, !N.eqb_eq. split; [intros H; exists c, l; tauto|intros (c' & r & [= <- <-] & H); exact H]. }
  now rewrite H1, H2.
Qed.
Lemma strip_nil (s : str) : strip s = [] <-> blank_line s.
Proof.
  unfold strip, strip_p, rstrip_p, lstrip_p, blank_line. split.
  - intros H c Hc. destruct (drop_while_suffix is_space s) as (a & Ha & Hf). rewrite Ha in Hc.
    rewrite forallb_forall in Hf. apply in_app_or in Hc as [Hc|Hc]; [now apply Hf|].
    assert (drop_while is_space (rev (drop_while is_space s)) = []) as H' by (apply (f_equal (@rev _)) in H; now rewrite rev_involutive in H).
    apply drop_while_nil in H'. rewrite forallb_forall in H'. apply H'. now apply -> in_rev.
  - intros H. assert (drop_while is_space s = []) as ->; [|reflexivity]. apply drop_while_nil, forallb_forall. exact H.
Qed.
Lemma separator_aux raw : missing_separator raw = true <->
  exists before x after, splitlines raw = before ++ x :: after /\ (forall h, In h before -> header_like h) /\
    ~ header_like x /\ ~ blank_line x.
Proof.
  unfold missing_separator. induction (splitlines raw) as [|x l IH]; cbn [missing_separator_aux].
  - split; [discriminate|]. intros (b & x & a & E & _). destruct b; discriminate.
  - destruct (header_line x) eqn:E.
    + rewrite IH. apply header_iff in E. split.
      * intros (b & y & a & -> & H1 & H2). exists (x :: b), y, a. split; [reflexivity|]. split; [|assumption]. intros h [<-|Hh]; [assumption|now apply H1].
      * intros (b & y & a & Hl & H1 & H2 & H3). destruct b as [|z b]; injection Hl as -> ->; [contradiction|].
        exists b, y, a. split; [reflexivity|]. split; [|tauto]. intros h Hh. apply H1. now right.
    + assert (Hx : ~ header_like x) by (intros K%header_iff; congruence).
      assert (Hb : nonempty (strip x) = true <-> ~ blank_line x).
      { rewrite <- strip_nil. destruct (strip x); cbn; split; intros; congruence. }
      rewrite Hb. split.
      * intros H. exists [], x, l. repeat split; [intros h []|assumption|assumption].
      * intros (b & y & a & Hl & H1 & H2 & H3). destruct b as [|z b]; injection Hl as -> ->; [assumption|].
        elim Hx. apply H1. now left.
Qed.
Lemma separator_iff raw : missing_separator raw = true <->
  exists before x after, lines raw (before ++ x :: after) /\ (forall h, In h before -> header_like h) /\
    ~ header_like x /\ ~ blank_line x.
Proof.
  rewrite separator_aux. split; intros (b & x & a & H & K); exists b, x, a; (split; [|exact K]); [apply lines_iff; now symmetry|symmetry; now apply lines_iff].
Qed.
Lemma no_headers_iff l : missing_headers l = true <-> exists p, In p l /\ p_noheaders p = true.
Proof. unfold missing_headers. rewrite existsb_exists. reflexivity. Qed.
Lemma truncated_iff h : truncated_headers h = true <->
  exists name values, In (name, values) h /\ ((256 < N.of_nat (length name))%N \/ (8192 < N.of_nat (length values))%N).
Proof.
  unfold truncated_headers, max_header_key, max_header_value. rewrite existsb_exists. split.
  - intros ((n & v) & H & K). cbn [fst snd] in K. apply orb_prop in K. rewrite !N.ltb_lt in K. exists n, v. tauto.
  - intros (n & v & H & K). exists (n, v). split; [assumption|]. cbn [fst snd]. apply orb_true_iff. now rewrite !N.ltb_lt.
Qed.

(** ** Order of the parts *)
From Coq Require Import Permutation.
Lemma total_perm d l l' : Permutation l l' -> total d l = total d l'.
Proof. induction 1; cbn [total]; lia. Qed.
Lemma existsb_perm (d : part -> bool) l l' : Permutation l l' -> existsb d l = existsb d l'.
Proof.
  induction 1 as [|x a b _ IH|x y a|a b c _ IH1 _ IH2]; cbn [existsb]; [reflexivity|now rewrite IH| |congruence].
  rewrite !orb_assoc. f_equal. apply orb_comm.
Qed.
Lemma order_state loc raw l l' s s' : Permutation l l' -> load loc raw l = Some s -> load loc raw l' = Some s' -> s = s'.
Proof.
  intros P H H'. 
  assert (forall a b, base64_count a = base64_count b -> base64_text a = base64_text b -> html_count a = html_count b ->
    text_count a = text_count b -> far a = far b -> no_boundary a = no_boundary b -> alternative a = alternative b ->
    qp_count a = qp_count b -> qp_long a = qp_long b -> ascii_illegal a = ascii_illegal b -> ma_non_text a = ma_non_text b ->
    base64_length a = base64_length b -> ascii_chars a = ascii_chars b -> plain_chars a = plain_chars b ->
    html_chars a = html_chars b -> unicode_count a = unicode_count b -> qp_chars a = qp_chars b -> qp_bytes a = qp_bytes b ->
    high a = high b -> a = b) as Hext by (clear; intros [] []; cbn; intros; subst; reflexivity).
  assert (Hq : qp_bytes s = qp_bytes s').
  { rewrite (l_eq _ _ _ _ H), (l_eq _ _ _ _ H'), !(fold_nat _ _ qp_bytes d_qpb (fun _ _ => eq_refl)). f_equal. now apply total_perm. }
  apply Hext; try exact Hq;
  rewrite ?(l_b64c _ _ _ _ H), ?(l_b64c _ _ _ _ H'), ?(l_b64t _ _ _ _ H), ?(l_b64t _ _ _ _ H'), ?(l_htmlc _ _ _ _ H), ?(l_htmlc _ _ _ _ H'),
    ?(l_textc _ _ _ _ H), ?(l_textc _ _ _ _ H'), ?(l_far _ _ _ _ H), ?(l_far _ _ _ _ H'), ?(l_nb _ _ _ _ H), ?(l_nb _ _ _ _ H'),
    ?(l_alt _ _ _ _ H), ?(l_alt _ _ _ _ H'), ?(l_qpc _ _ _ _ H), ?(l_qpc _ _ _ _ H'), ?(l_long _ _ _ _ H), ?(l_long _ _ _ _ H'),
    ?(l_ill _ _ _ _ H), ?(l_ill _ _ _ _ H'), ?(l_ma _ _ _ _ H), ?(l_ma _ _ _ _ H'), ?(l_len _ _ _ _ H), ?(l_len _ _ _ _ H'),
    ?(l_ascii _ _ _ _ H), ?(l_ascii _ _ _ _ H'), ?(l_plain _ _ _ _ H), ?(l_plain _ _ _ _ H'), ?(l_html _ _ _ _ H), ?(l_html _ _ _ _ H'),
    ?(l_uni _ _ _ _ H), ?(l_uni _ _ _ _ H'), ?(l_qpchars _ _ _ _ H), ?(l_qpchars _ _ _ _ H'), ?(l_high _ _ _ _ H), ?(l_high _ _ _ _ H');
  first [reflexivity|now apply existsb_perm|now apply total_perm].
Qed.
Lemma having_total (d : part -> bool) (P : part -> Prop) l n : (forall p, d p = true <-> P p) -> having P l n -> n = total (fun p => b2n (d p)) l.
Proof.
  intros Hd. induction 1 as [|p l n Hp H IH|p l n Hp H IH]; cbn [total]; [reflexivity| |].
  - apply Hd in Hp as ->. cbn. now rewrite IH.
  - destruct (d p) eqn:E; [now apply Hd in E|]. exact IH.
Qed.
Lemma having_exists (d : part -> bool) (P : part -> Prop) l : (forall p, d p = true <-> P p) -> having P l (total (fun p => b2n (d p)) l).
Proof.
  intros Hd. induction l as [|p l IH]; cbn [total]; [constructor|]. destruct (d p) eqn:E; cbn [b2n plus].
  - constructor; [now apply Hd|assumption].
  - constructor; [|assumption]. intros K. apply Hd in K. congruence.
Qed.
Lemma uni_iff p : d_plain p && has_entity (p_text p) = true <-> plain_part p /\ with_entity (p_text p).
Proof. unfold d_plain, plain_part. now rewrite andb_true_iff, is_type_iff, entity_iff. Qed.
Lemma unicode_rule loc raw l s minr maxr : load loc raw l = Some s ->
  (check_abundant_unicode_ratio minr maxr s = true <->
   exists n r, having (fun p => plain_part p /\ with_entity (p_text p)) l n /\ (minr <= r)%Q /\ at_most r maxr /\
     (total plain_size l = 0 /\ r = 0%Q \/
      0 < total plain_size l /\ r = (rat n / rat (total plain_size l))%Q)).
Proof.
  intros H. rewrite (uni_rule _ _ _ _ _ _ H). split.
  - intros (r & K). exists (total d_uni l), r. split; [|exact K].
    exact (having_exists (fun p => d_plain p && has_entity (p_text p)) _ _ uni_iff).
  - intros (n & r & Hn & K). exists r. rewrite (having_total (fun p => d_plain p && has_entity (p_text p)) _ _ _ uni_iff Hn) in K. exact K.
Qed.
Lemma html_rule loc raw l s : load loc raw l = Some s ->
  (check_for_mime_html s = true <-> exists p, In p l /\ p_main p = $"text" /\ p_sub p = $"html").
Proof.
  intros H. unfold check_for_mime_html. rewrite (l_htmlc _ _ _ _ H).
  assert (negb (total d_html l =? 0) = existsb (fun p => streqb (p_sub p) ($"html")) l) as ->.
  { unfold d_html. exact (total_pos (fun p => streqb (p_sub p) ($"html")) l). }
  rewrite existsb_exists. split.
  - intros (p & Hp & E). apply streqb_eq in E. exists p. repeat split; [assumption| |assumption].
    destruct (str_eq_dec (p_main p) ($"text")) as [K|K]; [assumption|]. exfalso.
    apply in_split in Hp as (a & b & ->). assert (load loc raw (a ++ p :: b) = None) as Hn; [|congruence].
    apply load_none. exists a, p, b. split; [reflexivity|]. left. split; assumption.
  - intros (p & Hp & _ & E). exists p. split; [assumption|]. now apply streqb_eq.
Qed.
Lemma plain_rule loc raw l s : load loc raw l = Some s -> ((text_count s =? 0) = true <-> forall p, In p l -> ~ plain_part p).
Proof.
  intros H. rewrite (l_textc _ _ _ _ H). pose proof (total_pos d_plain l) as E. destruct (_ =? 0) eqn:E0; cbn in E.
  - split; [|reflexivity]. intros _ p Hp K. apply is_type_iff in K. assert (existsb d_plain l = true) by (apply existsb_exists; eauto). congruence.
  - split; [discriminate|]. intros K. symmetry in E. apply existsb_exists in E as (p & Hp & E). elim (K p Hp). now apply is_type_iff.
Qed.
Lemma html_only_rule loc raw l s : load loc raw l = Some s ->
  (check_for_mime_html_only s = true <->
   (exists p, In p l /\ p_main p = $"text" /\ p_sub p = $"html") /\ forall p, In p l -> ~ plain_part p).
Proof.
  intros H. unfold check_for_mime_html_only. fold (check_for_mime_html s). now rewrite andb_true_iff, (html_rule _ _ _ _ H), (plain_rule _ _ _ _ H).
Qed.
Lemma count_flags loc raw l s : load loc raw l = Some s ->
  (check_for_mime ($"mime_base64_count") s = true <-> exists p, In p l /\ encoded ($"base64") p) /\
  (check_for_mime ($"mime_qp_count") s = true <-> exists p, In p l /\ encoded ($"quoted-printable") p) /\
  (check_for_mime ($"mime_body_html_count") s = true <-> exists p, In p l /\ p_main p = $"text" /\ p_sub p = $"html") /\
  (check_for_mime ($"mime_body_text_count") s = true <-> exists p, In p l /\ plain_part p) /\
  (check_for_mime ($"mime_multipart_alternative") s = true <-> exists p, In p l /\ alternative_part p).
Proof.
  intros H.
  change (check_for_mime ($"mime_base64_count") s) with (negb (base64_count s =? 0)).
  change (check_for_mime ($"mime_qp_count") s) with (negb (qp_count s =? 0)).
  change (check_for_mime ($"mime_body_html_count") s) with (check_for_mime_html s).
  change (check_for_mime ($"mime_body_text_count") s) with (negb (text_count s =? 0)).
  change (check_for_mime ($"mime_multipart_alternative") s) with (alternative s).
  rewrite (l_b64c _ _ _ _ H), (l_qpc _ _ _ _ H), (l_textc _ _ _ _ H), (l_alt _ _ _ _ H), !total_pos.
  split; [apply exists_iff, b64_iff|]. split; [apply exists_iff, qp_iff|]. split; [exact (html_rule _ _ _ _ H)|].
  split; apply exists_iff; intros p; apply is_type_iff.
Qed.
Lemma unknown_name test s : ~ In test check_names -> check_for_mime test s = false.
Proof.
  unfold check_names. cbn [In]. intros H. unfold check_for_mime. cbv zeta.
  repeat match goal with
  | |- context [streqb test ?n] => destruct (streqb_spec test n) as [E|_]; [exfalso; apply H; rewrite E; tauto|]
  end. reflexivity.
Qed.
Lemma faraway_rule loc raw l s : load loc raw l = Some s ->
  (check_for_faraway_charset s = true <-> (exists p, In p l /\ high_bytes p) /\ exists p, In p l /\ foreign_charset loc p).
Proof.
  intros H. unfold check_for_faraway_charset. rewrite (l_high _ _ _ _ H), (l_far _ _ _ _ H).
  rewrite <- (exists_iff d_high _ l high_iff), <- (exists_iff (d_far loc) _ l (far_iff loc)).
  destruct (existsb d_high l); split; [tauto|tauto|discriminate|intros [K _]; discriminate].
Qed.
