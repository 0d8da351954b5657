(** Proofs about the header rules. *)
From Coq Require Import Lia Permutation QArith.
From Coq Require Import Sorting.Sorted.
From Verif Require Import PyStr PyDict Model_Files Spec_Files Proofs_Files Model_HeaderEval Spec_HeaderEval.
Open Scope nat_scope.

(** ** Charsets *)
Lemma always_ok_iff c : always_ok c = true <-> usual c.
Proof.
  unfold always_ok, usual. rewrite !orb_true_iff, existsb_exists. split.
  - intros [[[H | (p & Hp & H)] | H] | H].
    + left. destruct (streqb_spec c ($"USASCII")); [subst; left; reflexivity | discriminate].
    + right. apply startswith_app in H as (r & ->). exists p, r. auto.
    + left. destruct (streqb_spec c ($"XUNKNOWN")); [subst; right; left; reflexivity | discriminate].
    + left. destruct (streqb_spec c ($"ISO")); [subst; right; right; left; reflexivity | discriminate].
  - intros [[<- | [<- | [<- | []]]] | (p & r & Hp & ->)].
    + left; left; left. reflexivity.
    + left; right. reflexivity.
    + right. reflexivity.
    + left; left; right. exists p. split; [exact Hp | apply startswith_self].
Qed.
Lemma locale_c l : (firstn 2 (if streqb l ($"C") then $"en" else l) = firstn 2 l) \/ l = $"C".
Proof. destruct (streqb_spec l ($"C")); [right; assumption | left; reflexivity]. Qed.
Lemma ok_iff c ok : charset_ok_for_locales c (words ok) = true <-> acceptable ok c.
Proof.
  unfold charset_ok_for_locales, acceptable. rewrite orb_true_iff, always_ok_iff, existsb_exists.
  assert (E : (exists l, In l (words ok) /\ match dget (firstn 2 (if streqb l ($"C") then $"en" else l)) unusual_charsets with
                          | Some u => mem_str (clean_charset c) u | None => false end = true) <->
              exists l, In l (words ok) /\ of_language l (clean_charset c)).
  { split; intros (l & Hl & H); exists l; (split; [exact Hl|]).
    - destruct (locale_c l) as [E | ->].
      + rewrite E in H. unfold of_language. destruct (dget (firstn 2 l) unusual_charsets) as [u|]; [|discriminate].
        exists u. split; [reflexivity | apply mem_str_In, H].
      + vm_compute in H. discriminate.
    - destruct H as (u & H1 & H2). destruct (locale_c l) as [E | ->].
      + rewrite E, H1. apply mem_str_In, H2.
      + vm_compute in H1. discriminate. }
  rewrite E. tauto.
Qed.
Lemma faraway_iff ok parts subject from : restricted ok ->
  (faraway ok parts subject from = true <->
   exists h l c, In h (subject ++ from) /\ parts h = Some l /\ In c l /\ ~ acceptable ok c).
Proof.
  intros [NE NA]. unfold faraway. destruct ok as [|x y] eqn:E; [congruence|]. rewrite <- E in *. clear E x y NE.
  destruct (streqb_spec (lower ok) ($"all")) as [K | _]; [contradiction|]. rewrite existsb_exists. split.
  - intros (h & Hh & H). destruct (parts h) as [l|] eqn:P; [|discriminate]. apply existsb_exists in H as (c & Hc & H).
    exists h, l, c. repeat split; try assumption. intros A. apply ok_iff in A. rewrite A in H. discriminate.
  - intros (h & l & c & Hh & P & Hc & A). exists h. split; [exact Hh|]. rewrite P. apply existsb_exists. exists c. split; [exact Hc|].
    destruct (charset_ok_for_locales c (words ok)) eqn:E; [|reflexivity]. apply ok_iff in E. contradiction.
Qed.
Lemma faraway_free ok parts subject from : ~ restricted ok -> faraway ok parts subject from = false.
Proof.
  intros H. unfold faraway. destruct ok as [|x y] eqn:E; [reflexivity|]. rewrite <- E in *.
  destruct (streqb_spec (lower ok) ($"all")) as [_ | K]; [reflexivity|]. destruct H. split; congruence.
Qed.
Lemma plain_unacceptable ok : ~ acceptable ok [].
Proof.
  intros H. apply ok_iff in H. unfold charset_ok_for_locales in H. change (clean_charset []) with (@nil char) in H.
  change (always_ok []) with false in H. cbn [orb] in H. apply existsb_exists in H as (l & _ & H).
  destruct (dget _ unusual_charsets) as [u|] eqn:E; [|discriminate]. apply dget_In in E. unfold unusual_charsets in E.
  apply mem_str_In in H. revert H. clear -E.
  repeat (destruct E as [E | E]; [injection E as _ <-; vm_compute; intuition discriminate|]). destruct E.
Qed.

(** ** Illegal characters *)
Lemma signs_one s : (length (filter (fun c => mem_char c s) [162%N; 163%N; 174%N]) =? 1) = true <-> one_sign s.
Proof.
  unfold one_sign. cbn [filter].
  destruct (mem_char 162%N s) eqn:A, (mem_char 163%N s) eqn:B, (mem_char 174%N s) eqn:C; cbn [length Nat.eqb];
    rewrite ?mem_char_In, ?mem_char_notIn in *;
    (split; [intros H; try discriminate H | intros (c & Hc & Hs & U); try reflexivity]);
    try (exists 162%N; split; [cbn; auto|]; split; [assumption|]; intros d [<- | [<- | [<- | []]]] Hd; [reflexivity | contradiction | contradiction]);
    try (exists 163%N; split; [cbn; auto|]; split; [assumption|]; intros d [<- | [<- | [<- | []]]] Hd; [contradiction | reflexivity | contradiction]);
    try (exists 174%N; split; [cbn; auto|]; split; [assumption|]; intros d [<- | [<- | [<- | []]]] Hd; [contradiction | contradiction | reflexivity]).
  - exfalso. pose proof (U 162%N (or_introl eq_refl) A). pose proof (U 163%N (or_intror (or_introl eq_refl)) B). congruence.
  - exfalso. pose proof (U 162%N (or_introl eq_refl) A). pose proof (U 163%N (or_intror (or_introl eq_refl)) B). congruence.
  - exfalso. pose proof (U 162%N (or_introl eq_refl) A). pose proof (U 174%N (or_intror (or_intror (or_introl eq_refl))) C). congruence.
  - exfalso. pose proof (U 163%N (or_intror (or_introl eq_refl)) B). pose proof (U 174%N (or_intror (or_intror (or_introl eq_refl))) C). congruence.
  - exfalso. destruct Hc as [<- | [<- | [<- | []]]]; contradiction.
Qed.
Lemma one_sign_illegal s : one_sign s -> 0 < length (filter illegal_char s).
Proof.
  intros (c & Hc & Hs & _). assert (In c (filter illegal_char s)).
  { apply filter_In. split; [exact Hs|]. destruct Hc as [<- | [<- | [<- | []]]]; reflexivity. }
  destruct (filter illegal_char s); [destruct H | cbn; lia].
Qed.
Lemma illegal_iff ratio count subject s n : illegal_count subject s n ->
  (illegal_in ratio count subject s = true <-> too_many ratio count s n).
Proof.
  intros H. unfold illegal_in, too_many. set (k := if _ : bool then _ else _). assert (k = n) as ->.
  { subst k. destruct H as [(-> & O & ->) | [NO ->]].
    - rewrite (proj2 (signs_one s) O). pose proof (one_sign_illegal s O). destruct (Z.ltb_spec 0 (Z.of_nat (length (filter illegal_char s)))); [reflexivity | lia].
    - destruct (Z.ltb 0 _ && subject && (_ =? 1)) eqn:E; [|reflexivity]. exfalso. apply NO. apply andb_true_iff in E as [E1 E2].
      apply andb_true_iff in E1 as [_ E1]. split; [exact E1 | apply signs_one, E2]. }
  destruct s as [|c s]; [split; [discriminate | intros [K _]; congruence]|].
  rewrite andb_true_iff, Z.leb_le, Qle_bool_iff.
  assert (P : (0 < inject_Z (Z.of_nat (length (c :: s))))%Q) by (change 0%Q with (inject_Z 0); rewrite <- Zlt_Qlt; cbn [length]; lia).
  split.
  - intros [A B]. split; [discriminate|]. split; [|exact B]. apply (Qmult_le_r _ _ _ P) in A. unfold Qdiv in A.
    rewrite <- Qmult_assoc, (Qmult_comm (/ _)), Qmult_inv_r, Qmult_1_r in A; [exact A|]. intros E. rewrite E in P. apply (Qlt_irrefl 0), P.
  - intros (_ & A & B). split; [|exact B]. apply Qle_shift_div_l; assumption.
Qed.

(** ** Rules asked one after the other *)
Section Headers.
Variable decode : str -> str.
Variables up low : char -> bool.
Variable parts : str -> option (list str).
Definition cached (raw : dict (list str)) (h : hstate) : Prop :=
  h_raw h = raw /\ forall n l, dget n (h_decoded h) = Some l -> l = map decode (match dget n raw with Some v => v | None => [] end).
Lemma decoded_cached raw name h : cached raw h ->
  fst (get_decoded decode name h) = map decode (match dget (lower name) raw with Some v => v | None => [] end) /\ cached raw (snd (get_decoded decode name h)).
Proof.
  intros [R C]. unfold get_decoded. destruct (dget (lower name) (h_decoded h)) as [l|] eqn:E; cbn [fst snd].
  - split; [exact (C _ _ E) | split; assumption].
  - unfold raw_of. rewrite R. split; [reflexivity|]. split; [reflexivity|]. cbn [h_decoded h_raw]. intros n l.
    rewrite dget_dset. destruct (streqb_spec (lower name) n) as [<- | _]; [intros H; injection H as <-; reflexivity | apply C].
Qed.
Lemma hask_cached raw q h : not_all q -> cached raw h ->
  fst (hask decode up low parts q h) = fst (hask decode up low parts q (message raw)) /\ cached raw (snd (hask decode up low parts q h)).
Proof.
  intros NA C. assert (C0 : cached raw (message raw)) by (split; [reflexivity | discriminate]). pose proof C as [R _].
  destruct q as [n r c | | n a b | | l]; cbn [hask not_all] in *.
  - unfold check_illegal_chars. destruct (streqb_spec n ($"ALL")) as [K | _]; [contradiction|]. cbn [fst snd]. unfold raw_of. rewrite R. auto.
  - unfold check_for_missing_to_header, raw_of. cbn [fst snd]. rewrite R. auto.
  - unfold check_header_count_range, raw_of. cbn [fst snd]. rewrite R. auto.
  - unfold subject_is_all_caps. destruct (decoded_cached raw ($"Subject") h C) as [E1 C1]. destruct (decoded_cached raw ($"Subject") _ C0) as [E2 _].
    destruct (get_decoded decode ($"Subject") h) as [l1 h1], (get_decoded decode ($"Subject") (message raw)) as [l2 h2]. cbn [fst snd] in *. rewrite E1, E2. auto.
  - unfold check_faraway, raw_of. cbn [fst snd]. rewrite R. auto.
Qed.
Lemma hanswers_alone raw qs : Forall not_all qs -> forall h, cached raw h ->
  hanswers decode up low parts qs h = map (fun q => fst (hask decode up low parts q (message raw))) qs.
Proof.
  induction qs as [|q qs IH]; intros F h C; [reflexivity|]. inversion F as [|? ? F1 F2]; subst. cbn [hanswers map].
  destruct (hask_cached raw q h F1 C) as [E C1]. destruct (hask decode up low parts q h) as [b h1]. cbn [fst snd] in *. rewrite (IH F2 h1 C1), E. reflexivity.
Qed.
Lemma hanswers_message raw qs : Forall not_all qs ->
  hanswers decode up low parts qs (message raw) = map (fun q => fst (hask decode up low parts q (message raw))) qs.
Proof. intros F. apply hanswers_alone; [exact F|]. split; [reflexivity | discriminate]. Qed.

(** After "ALL" the Subject is gone. *)
Lemma all_drops ratio count raw : dget ($"subject") (h_raw (snd (check_illegal_chars ($"ALL") ratio count (message raw)))) = None /\
  dget ($"from") (h_raw (snd (check_illegal_chars ($"ALL") ratio count (message raw)))) = None.
Proof.
  unfold check_illegal_chars. change (streqb ($"ALL") ($"ALL")) with true. cbn [snd h_raw message].
  split; apply dget_None; unfold dkeys; intros H; apply in_map_iff in H as ((k & v) & E & H); apply filter_In in H as [_ H]; cbn [fst] in *; subst k; discriminate.
Qed.
Lemma caps_after_all ratio count raw rest :
  exists b l, hanswers decode up low parts (HIllegal ($"ALL") ratio count :: HCaps :: rest) (message raw) = b :: false :: l.
Proof.
  cbn [hanswers hask]. destruct (all_drops ratio count raw) as [D _].
  assert (DC : h_decoded (snd (check_illegal_chars ($"ALL") ratio count (message raw))) = []) by reflexivity.
  destruct (check_illegal_chars ($"ALL") ratio count (message raw)) as [b h]. cbn [snd] in *.
  unfold subject_is_all_caps, get_decoded. rewrite DC. cbn [dget]. unfold raw_of.
  change (lower ($"Subject")) with ($"subject"). rewrite D. cbn [map existsb].
  eexists _, _. reflexivity.
Qed.

(** ** Header counts *)
Lemma count_iff header a b h : check_header_count_range header a b h = true <->
  exists l, NoDup l /\ (forall x, In x l <-> In x (raw_of h header)) /\ (a <= Z.of_nat (length l) <= b)%Z.
Proof.
  unfold check_header_count_range. set (u := nodup _ _). rewrite andb_true_iff, !Z.leb_le.
  assert (U : NoDup u) by apply NoDup_nodup. assert (I : forall x, In x u <-> In x (raw_of h header)) by (intros; apply nodup_In). split.
  - intros H. exists u. auto.
  - intros (l & N & Il & H). assert (length l = length u) as <-; [|exact H].
    apply Nat.le_antisymm; apply NoDup_incl_length; try assumption; intros x Hx; [apply I, Il, Hx | apply Il, I, Hx].
Qed.

(** ** Subjects *)
Lemma lower_app_inv s : forall p q, lower s = p ++ q -> exists a b, s = a ++ b /\ lower a = p /\ lower b = q.
Proof.
  induction s as [|c s IH]; intros p q H.
  - symmetry in H. apply app_eq_nil in H as [-> ->]. exists [], []. auto.
  - destruct p as [|x p]; [exists [], (c :: s); auto|]. injection H as <- H. destruct (IH _ _ H) as (a & b & -> & <- & <-).
    exists (c :: a), b. auto.
Qed.
Lemma drop_notation_spec s : without_notation s (drop_notation notations s).
Proof.
  assert (G : forall ps, (forall p, In p ps -> In p notations) -> 
    (exists p q, In (lower p) ps /\ s = p ++ q /\ drop_notation ps s = q) \/
    ((forall p q, s = p ++ q -> ~ In (lower p) ps) /\ drop_notation ps s = s)).
  { induction ps as [|p ps IH]; intros I; cbn [drop_notation]; [right; split; [intros ? ? _ [] | reflexivity]|].
    destruct (startswith p (lower s)) eqn:E.
    - left. apply startswith_app in E as (t & E). apply lower_app_inv in E as (a & b & -> & <- & <-). exists a, b. split; [left; reflexivity|]. split; [reflexivity|].
      unfold lower. rewrite map_length. rewrite skipn_app, skipn_all, Nat.sub_diag. reflexivity.
    - destruct IH as [(a & b & H1 & H2 & H3) | [H1 H2]]; [intros x Hx; apply I; right; exact Hx | |].
      + left. exists a, b. split; [right; exact H1 | auto].
      + right. split; [|exact H2]. intros a b -> [K | H]; [|exact (H1 a b eq_refl H)]. subst p. assert (X : lower (a ++ b) = lower a ++ lower b) by apply map_app. rewrite X in E. 
        rewrite startswith_self in E. discriminate. }
  exact (G notations (fun p H => H)).
Qed.
Lemma without_unique s r1 r2 : without_notation s r1 -> without_notation s r2 -> r1 = r2.
Proof.
  assert (D : forall a b, In a notations -> In b notations -> (exists x y, a ++ x = b ++ y) -> length a = length b).
  { intros a b Ha Hb (x & y & E). repeat (destruct Ha as [<- | Ha]); try destruct Ha; repeat (destruct Hb as [<- | Hb]); try destruct Hb; try reflexivity; discriminate E. }
  intros [(p & q & Hp & -> & ->) | [H1 ->]] [(p' & q' & Hp' & E & ->) | [H2 ->]]; try reflexivity.
  - assert (L : length p = length p').
    { rewrite <- (map_length lower_char p), <- (map_length lower_char p'). apply D; [exact Hp | exact Hp'|]. exists (lower q), (lower q').
      unfold lower. rewrite <- !map_app. f_equal. exact E. }
    apply (f_equal (skipn (length p))) in E. rewrite skipn_app, skipn_all, Nat.sub_diag, L, skipn_app, skipn_all, Nat.sub_diag in E. exact E.
  - exfalso. exact (H2 p q eq_refl Hp).
  - exfalso. exact (H1 p' q' E Hp').
Qed.
Lemma isupper_iff s : isupper up low s = true <-> shouted up low s.
Proof.
  unfold isupper, shouted. rewrite andb_true_iff, negb_true_iff, existsb_exists. split; intros [H K]; (split; [exact H|]).
  - intros c Hc. destruct (low c) eqn:E; [|reflexivity]. assert (X : existsb low s = true) by (apply existsb_exists; exists c; auto). congruence.
  - destruct (existsb low s) eqn:E; [|reflexivity]. apply existsb_exists in E as (c & Hc & E). rewrite (K c Hc) in E. discriminate.
Qed.
Lemma caps_iff raw : fst (subject_is_all_caps decode up low (message raw)) = true <->
  exists h rest, In h (raw_of (message raw) ($"Subject")) /\ without_notation (decode h) rest /\
    10 <= length (strip rest) /\ length (words (strip rest)) <> 1 /\ shouted up low (strip rest).
Proof.
  unfold subject_is_all_caps, get_decoded. cbn [message h_decoded dget fst]. rewrite existsb_exists. split.
  - intros (s & Hs & H). apply in_map_iff in Hs as (h & <- & Hh). exists h, (drop_notation notations (decode h)). split; [exact Hh|]. split; [apply drop_notation_spec|].
    unfold all_caps in H. apply andb_true_iff in H as [H H3]. apply andb_true_iff in H as [H1 H2]. apply negb_true_iff in H1, H2.
    apply Nat.ltb_ge in H1. apply Nat.eqb_neq in H2. apply isupper_iff in H3. auto.
  - intros (h & rest & Hh & W & H1 & H2 & H3). exists (decode h). split; [apply in_map, Hh|].
    rewrite (without_unique _ _ _ W (drop_notation_spec _)) in *. unfold all_caps. rewrite (proj2 (isupper_iff _) H3), andb_true_r. apply andb_true_iff. rewrite !negb_true_iff, Nat.ltb_ge, Nat.eqb_neq. auto.
Qed.
End Headers.

(** ** Domains *)
Lemma equal_hit from env : check_equal_from_domains from env = true -> env <> [] /\ concat from <> [] /\ lower (after_at env) <> lower (after_at (concat from)).
Proof.
  unfold check_equal_from_domains. destruct env as [|x y] eqn:E; [discriminate|]. rewrite <- E. destruct (concat from) as [|a b] eqn:F; [discriminate|]. rewrite <- F.
  intros H. split; [congruence|]. split; [congruence|]. intros K. rewrite K in H. apply negb_true_iff in H.
  assert (contains (lower (after_at (concat from))) (lower (after_at (concat from))) = true); [|congruence]. apply contains_app. exists [], []. rewrite app_nil_r. reflexivity.
Qed.

(** ** Recipients *)
Lemma insert_first x l : in_order (x :: l) -> insert_str x l = x :: l.
Proof.
  destruct l as [|y l]; intros H; [reflexivity|]. inversion H as [|? ? _ F]; subst. inversion F as [|? ? Hxy _]; subst. cbn [insert_str].
  apply str_leb_le in Hxy. rewrite Hxy. reflexivity.
Qed.
Lemma sorted_id l : in_order l -> sorted l = l.
Proof.
  induction l as [|x l IH]; intros H; [reflexivity|]. unfold sorted in *. cbn [fold_right]. inversion H; subst. rewrite IH by assumption. apply insert_first, H.
Qed.
Lemma sorted_iff l : sorted l = l <-> in_order l.
Proof. split; [intros <-; apply sorted_order | apply sorted_id]. Qed.
Lemma first_sorted recipients : fst (sorted_recipients recipients tocc0) = Some true <-> recipients <> [] /\ in_order recipients.
Proof.
  unfold sorted_recipients, check_recipients. cbn [tocc0 to_similar]. destruct recipients as [|x l] eqn:E; [split; [discriminate | intros [K _]; congruence]|].
  rewrite <- E in *. assert (NE : recipients <> []) by congruence. clear E x l. rewrite <- sorted_iff.
  destruct (length _ <? 5); cbn [fst to_sorted]; destruct (list_eq_dec _ (sorted recipients) recipients); split; try tauto; try discriminate; intros [_ K]; contradiction.
Qed.
Lemma tocc_kept recipients t r t' : check_recipients recipients tocc0 = (r, t) ->
  check_recipients recipients t = (to_similar t, t) /\ (t' = t -> to_similar t' <> None).
Proof.
  unfold check_recipients. cbn [tocc0 to_similar]. destruct recipients as [|x l]; [intros H; injection H as <- <-; split; [reflexivity | intros ->; discriminate]|].
  destruct (length _ <? 5); intros H; injection H as <- <-; (split; [reflexivity | intros ->; discriminate]).
Qed.
Lemma tanswers_alone recipients qs : 5 <= length (distinct_neighbours recipients) ->
  tanswers recipients qs tocc0 = map (fun q => fst (task recipients q tocc0)) qs.
Proof.
  intros L. assert (NE : exists x l, recipients = x :: l) by (destruct recipients as [|x l]; [cbn in L; lia | eauto]).
  set (t1 := {| to_similar := Some (similarity (distinct_neighbours recipients));
                to_sorted := Some (if list_eq_dec (list_eq_dec N.eq_dec) (sorted recipients) recipients then true else false) |}).
  assert (C0 : check_recipients recipients tocc0 = (Some (similarity (distinct_neighbours recipients)), t1)).
  { unfold check_recipients. cbn [tocc0 to_similar]. destruct NE as (x & l & ->). destruct (Nat.ltb_spec (length (distinct_neighbours (x :: l))) 5); [lia | reflexivity]. }
  assert (C1 : check_recipients recipients t1 = (Some (similarity (distinct_neighbours recipients)), t1)) by reflexivity.
  assert (T : forall q, task recipients q t1 = (fst (task recipients q tocc0), t1) /\ snd (task recipients q tocc0) = t1).
  { intros [|a b]; cbn [task]; unfold sorted_recipients, similar_recipients; rewrite C0, C1; auto. }
  assert (G : forall qs, tanswers recipients qs t1 = map (fun q => fst (task recipients q tocc0)) qs).
  { induction qs0 as [|q qs0 IH]; [reflexivity|]. cbn [tanswers map]. destruct (T q) as [E _]. rewrite E, IH. reflexivity. }
  destruct qs as [|q qs]; [reflexivity|]. cbn [tanswers map]. destruct (T q) as [_ E]. destruct (task recipients q tocc0) as [b t]. cbn [fst snd] in *. subst t. rewrite G. reflexivity.
Qed.
Lemma no_repeats_id x l : no_neighbours (x :: l) -> no_repeats x l = l.
Proof.
  revert x. induction l as [|y l IH]; intros x H; [reflexivity|]. cbn [no_repeats]. destruct H as [H1 H2].
  destruct (streqb_spec x y); [contradiction|]. rewrite IH by exact H2. reflexivity.
Qed.
Lemma distinct_id l : no_neighbours l -> distinct_neighbours l = l.
Proof. destruct l as [|x l]; intros H; [reflexivity|]. cbn [distinct_neighbours]. rewrite (no_repeats_id x l H). reflexivity. Qed.
Lemma similar_exact minr maxr recipients : no_neighbours recipients -> 5 <= length recipients ->
  (fst (similar_recipients minr maxr recipients tocc0) = true <->
   (match minr with Some m => m < similarity recipients | None => True end)%Q /\ (match maxr with Some m => similarity recipients < m | None => True end)%Q).
Proof.
  intros N L. unfold similar_recipients, check_recipients. cbn [tocc0 to_similar]. rewrite (distinct_id _ N).
  destruct recipients as [|x l] eqn:E; [cbn in L; lia|]. rewrite <- E in *. destruct (Nat.ltb_spec (length recipients) 5); [lia|]. cbn [fst].
  assert (LT : forall a b, lt a b = true <-> (a < b)%Q).
  { intros a b. unfold lt. rewrite negb_true_iff. split; intros H2.
    - apply Qnot_le_lt. intros K. apply Qle_bool_iff in K. congruence.
    - destruct (Qle_bool b a) eqn:E2; [|reflexivity]. apply Qle_bool_iff in E2. exfalso. exact (Qlt_not_le _ _ H2 E2). }
  rewrite andb_true_iff. destruct minr, maxr; rewrite ?LT; tauto.
Qed.

Lemma filter_swap {A} (P : A * A -> bool) (l : list A) x : (forall a b, P (a, b) = P (b, a)) ->
  length (filter P (map (pair x) l)) = length (filter (fun y => P (y, x)) l).
Proof.
  intros S. induction l as [|y l IH]; [reflexivity|]. cbn [map filter]. rewrite (S x y). destruct (P (y, x)); cbn [length]; rewrite IH; reflexivity.
Qed.
Lemma filter_length_perm {A} (P : A -> bool) l l' : Permutation l l' -> length (filter P l) = length (filter P l').
Proof.
  intros H. induction H as [| x l l' H IH | x y l | l1 l2 l3 H1 IH1 H2 IH2]; cbn [filter]; [reflexivity| | |congruence].
  - destruct (P x); cbn [length]; congruence.
  - destruct (P x), (P y); reflexivity.
Qed.
Lemma combinations_perm {A} (P : A * A -> bool) l l' : (forall a b, P (a, b) = P (b, a)) -> Permutation l l' ->
  length (filter P (combinations l)) = length (filter P (combinations l')).
Proof.
  intros S H. induction H as [| x l l' H IH | x y l | l1 l2 l3 H1 IH1 H2 IH2]; [reflexivity| | |congruence].
  - cbn [combinations]. rewrite !filter_app, !app_length, IH, !filter_swap by exact S. f_equal. apply filter_length_perm, H.
  - cbn [combinations map]. rewrite !filter_app, !app_length. cbn [filter]. rewrite (S y x). destruct (P (x, y)); cbn [length]; lia.
Qed.
Lemma combinations_length {A} (l : list A) : 2 * length (combinations l) = length l * (length l - 1).
Proof.
  induction l as [|x l IH]; [reflexivity|]. cbn [combinations length]. rewrite app_length, map_length.
  destruct (length l) as [|n]; [lia|]. replace (S n - 1) with n in IH by lia. replace (S (S n) - 1) with (S n) by lia. nia.
Qed.
Lemma streq_sym a b : streqb a b = streqb b a.
Proof. destruct (streqb_spec a b), (streqb_spec b a); congruence. Qed.
Lemma similarity_perm l l' : Permutation l l' -> similarity l = similarity l'.
Proof.
  intros H. unfold similarity, hits.
  rewrite (combinations_perm same_user l l'), (combinations_perm similar_host l l'); try exact H.
  - assert (length (combinations l) = length (combinations l')) as ->; [|reflexivity].
    pose proof (combinations_length l). pose proof (combinations_length l'). pose proof (Permutation_length H) as E. rewrite E in H0. lia.
  - intros a b. unfold similar_host. cbn [fst snd]. rewrite (streq_sym (rc_host (parse_rcpt a))), (streq_sym (rc_fqhn (parse_rcpt a))). reflexivity.
  - intros a b. unfold same_user. cbn [fst snd]. apply streq_sym.
Qed.
Lemma filter_le {A} (P : A -> bool) l : length (filter P l) <= length l.
Proof. induction l as [|x l IH]; [reflexivity|]. cbn. destruct (P x); cbn; lia. Qed.
Lemma similarity_bounds l : 2 <= length l -> (0 <= similarity l <= 2)%Q.
Proof.
  intros L. unfold similarity, hits. pose proof (combinations_length l) as C. set (n := length (combinations l)) in *.
  assert (P : (0 < inject_Z (Z.of_nat n))%Q) by (change 0%Q with (inject_Z 0); rewrite <- Zlt_Qlt; nia).
  pose proof (filter_le same_user (combinations l)). pose proof (filter_le similar_host (combinations l)). fold n in H, H0. split.
  - apply Qle_shift_div_l; [exact P|]. rewrite Qmult_0_l. change 0%Q with (inject_Z 0). rewrite <- Zle_Qle. lia.
  - apply Qle_shift_div_r; [exact P|]. change 2%Q with (inject_Z 2). rewrite <- inject_Z_mult, <- Zle_Qle. lia.
Qed.

Lemma with_head (P : str -> bool) l : exists js, NoDup js /\ length js = length (filter P l) /\
  forall j, In j js <-> exists b, nth_error l j = Some b /\ P b = true.
Proof.
  induction l as [|x l (js & N & L & I)].
  - exists []. repeat split; [constructor | intros [] | intros (b & H & _); destruct j; discriminate].
  - assert (J : forall j, In j (map S js) <-> exists k, j = S k /\ In k js).
    { intros j. rewrite in_map_iff. split; intros (k & A & B); exists k; auto. }
    cbn [filter]. destruct (P x) eqn:E.
    + exists (0 :: map S js). split; [|split; [cbn; rewrite map_length; lia|]].
      * constructor; [intros H; apply J in H as (k & H & _); discriminate | apply FinFun.Injective_map_NoDup; [intros a b H; congruence | exact N]].
      * intros [|j]; cbn [In nth_error]; [split; [exists x; auto | auto]|]. rewrite J. split.
        -- intros [H | (k & H & Hk)]; [discriminate|]. injection H as <-. apply I, Hk.
        -- intros H. right. exists j. split; [reflexivity | apply I, H].
    + exists (map S js). split; [|split; [rewrite map_length; exact L|]].
      * apply FinFun.Injective_map_NoDup; [intros a b H; congruence | exact N].
      * intros [|j]; rewrite J; cbn [nth_error]; split.
        -- intros (k & H & _). discriminate.
        -- intros (b & H & K). congruence.
        -- intros (k & H & Hk). injection H as <-. apply I, Hk.
        -- intros H. exists j. split; [reflexivity | apply I, H].
Qed.
Lemma pairs_count (P : str * str -> bool) (R : str -> str -> Prop) l : (forall a b, P (a, b) = true <-> R a b) ->
  pairs_number R l (length (filter P (combinations l))).
Proof.
  intros PR. induction l as [|x l (ps & N & L & I)].
  - exists []. split; [constructor|]. split; [reflexivity|]. intros i j. split; [intros [] | intros [_ (a & b & H & _)]; destruct i; discriminate].
  - destruct (with_head (fun b => P (x, b)) l) as (js & JN & JL & JI).
    exists (map (fun j => (0, S j)) js ++ map (fun p => (S (fst p), S (snd p))) ps). split; [|split].
    + apply NoDup_app_iff.
      * apply FinFun.Injective_map_NoDup; [intros a b H; congruence | exact JN].
      * apply FinFun.Injective_map_NoDup; [intros [a1 a2] [b1 b2] H; cbn in H; congruence | exact N].
      * intros [i j] H1 H2. apply in_map_iff in H1 as (k & E1 & _). apply in_map_iff in H2 as ([a b] & E2 & _). cbn in E2. congruence.
    + cbn [combinations]. rewrite filter_app, !app_length, !map_length, L, JL. f_equal.
      clear. induction l as [|y l IH]; [reflexivity|]. cbn [map filter]. destruct (P (x, y)); cbn [length]; congruence.
    + intros i j. rewrite in_app_iff, !in_map_iff. split.
      * intros [(k & E & Hk) | ([a b] & E & Hp)].
        -- injection E as <- <-. split; [lia|]. apply JI in Hk as (b & Hb & HP). exists x, b. cbn [nth_error]. rewrite <- PR. auto.
        -- cbn in E. injection E as <- <-. apply I in Hp as (Lt & c & d & H). split; [lia|]. exists c, d. exact H.
      * intros (Lt & a & b & Ha & Hb & HR). destruct j as [|j]; [lia|]. cbn [nth_error] in Hb. destruct i as [|i]; cbn [nth_error] in Ha.
        -- left. exists j. split; [reflexivity|]. apply JI. exists b. injection Ha as <-. split; [exact Hb | apply PR, HR].
        -- right. exists (i, j). split; [reflexivity|]. apply I. split; [lia|]. exists a, b. auto.
Qed.
Lemma domain_iff a d : domain a d <-> rc_fqhn (parse_rcpt a) = d.
Proof.
  unfold domain, parse_rcpt. cbn [rc_fqhn]. destruct (rsplit1 64%N a) as [[u e]|] eqn:E.
  - apply rsplit1_Some in E as [-> NI]. split.
    + intros [(v & H & N) | [N _]]; [|destruct N; apply in_or_app; right; left; reflexivity].
      assert (E2 : rsplit1 64%N (u ++ 64%N :: e) = Some (v, d)) by (apply rsplit1_Some; auto).
      assert (E3 : rsplit1 64%N (u ++ 64%N :: e) = Some (u, e)) by (apply rsplit1_Some; auto). congruence.
    + intros <-. left. exists u. auto.
  - apply rsplit1_None in E. split; [intros [(v & -> & _) | [_ ->]]; [destruct E; apply in_or_app; right; left; reflexivity | reflexivity] | intros <-; right; auto].
Qed.
Lemma similarity_exact l : exists same close, pairs_number alike l same /\ pairs_number near l close /\
  (similarity l == inject_Z (Z.of_nat (2 * (same + close))) / inject_Z (Z.of_nat (length l * (length l - 1))))%Q.
Proof.
  exists (length (filter same_user (combinations l))), (length (filter similar_host (combinations l))).
  split; [|split].
  - apply pairs_count. intros a b. unfold same_user, alike. change (rc_user (parse_rcpt (fst (a, b)))) with (firstn 5 a). change (rc_user (parse_rcpt (snd (a, b)))) with (firstn 5 b). destruct (streqb_spec (firstn 5 a) (firstn 5 b)); split; congruence.
  - apply pairs_count. intros a b. unfold near. setoid_rewrite domain_iff. unfold similar_host. cbn [fst snd]. rewrite andb_true_iff, negb_true_iff. split.
    + intros [H1 H2]. exists (rc_fqhn (parse_rcpt a)), (rc_fqhn (parse_rcpt b)). repeat split.
      * intros E. rewrite E, streqb_refl in H2. discriminate.
      * destruct (streqb_spec (rc_host (parse_rcpt a)) (rc_host (parse_rcpt b))) as [E | ]; [exact E | discriminate].
    + intros (d & e & <- & <- & NE & E). split; [|destruct (streqb_spec (rc_fqhn (parse_rcpt a)) (rc_fqhn (parse_rcpt b))); [contradiction | reflexivity]].
      change (firstn 2 (rc_fqhn (parse_rcpt a))) with (rc_host (parse_rcpt a)) in E. change (firstn 2 (rc_fqhn (parse_rcpt b))) with (rc_host (parse_rcpt b)) in E. rewrite E. apply streqb_refl.
  - unfold similarity, hits. rewrite <- combinations_length. set (a := length _ + length _). set (n := length (combinations l)).
    rewrite !Nat2Z.inj_mul, !inject_Z_mult. change (inject_Z (Z.of_nat 2)) with 2%Q.
    destruct (Qeq_dec (inject_Z (Z.of_nat n)) 0) as [E | NE].
    + rewrite E. unfold Qdiv. rewrite Qmult_0_r. change (/ 0)%Q with 0%Q. rewrite !Qmult_0_r. reflexivity.
    + field. exact NE.
Qed.

(** ** Dates *)
Lemma fold_min_le l : forall x, (fold_left Z.min l x <= x)%Z /\ forall y, In y l -> (fold_left Z.min l x <= y)%Z.
Proof.
  induction l as [|a l IH]; intros x; cbn [fold_left]; [split; [lia | intros ? []]|].
  destruct (IH (Z.min x a)) as [H1 H2]. split; [lia|]. intros y [<- | Hy]; [lia | apply H2, Hy].
Qed.
Lemma fold_min_in l : forall x, In (fold_left Z.min l x) (x :: l).
Proof.
  induction l as [|a l IH]; intros x; cbn [fold_left]; [left; reflexivity|].
  destruct (IH (Z.min x a)) as [H | H]; [|right; right; exact H]. destruct (Z.min_spec x a) as [[_ E] | [_ E]]; rewrite E in H at 1; [left | right; left]; exact H.
Qed.
Lemma differences_In ts d z : In z (differences ts d) <-> exists t, In t ts /\ t <> d /\ z = Z.abs (t - d).
Proof.
  unfold differences. rewrite filter_In, in_map_iff, negb_true_iff, Z.eqb_neq. split.
  - intros [(t & <- & H) N]. exists t. split; [exact H|]. split; [|reflexivity]. intros ->. apply N. rewrite Z.sub_diag. reflexivity.
  - intros (t & H & N & ->). split; [exists t; auto | lia].
Qed.
Lemma least_shift ts d : smallest_shift ts d (least (differences ts d)).
Proof.
  unfold smallest_shift. pose proof (differences_In ts d) as I. destruct (differences ts d) as [|x l]; cbn [least].
  - left. split; [reflexivity|]. intros t Ht. destruct (Z.eq_dec t d) as [E | NE]; [exact E|]. destruct (proj2 (I (Z.abs (t - d)))). exists t. auto.
  - right. split.
    + apply I, fold_min_in.
    + intros t Ht NE. destruct (fold_min_le l x) as [H1 H2]. assert (K : In (Z.abs (t - d)) (x :: l)) by (apply I; exists t; auto). destruct K as [<- | K]; [exact H1 | apply H2, K].
Qed.
Lemma within_iff a b n : within a b n = true <-> in_range a b n.
Proof.
  unfold within, in_range. rewrite andb_true_iff. destruct a, b; rewrite ?orb_true_iff, ?Z.eqb_eq, ?Z.leb_le, ?Z.ltb_lt; tauto.
Qed.
Lemma read_times_all ts : read_times (map Time ts) = (ts, true).
Proof. induction ts as [|t ts IH]; [reflexivity|]. cbn [map read_times]. rewrite IH. reflexivity. Qed.
(** The data after any rules on a well-dated message *)
Definition dated (ts : list Z) (d : Z) (s : dates) : Prop :=
  (da_header s = None \/ da_header s = Some (DTime d)) /\ (da_received s = None \/ da_received s = Some ts) /\
  (da_diff s = None \/ da_diff s = Some (least (differences ts d))) /\ (da_median s = None \/ da_median s = Some (DTime (median (ts ++ [d])))).
Lemma dated0 ts d : dated ts d dates0.
Proof. repeat split; left; reflexivity. Qed.
Lemma header_dated m ts d s : well_dated m ts d -> (da_header s = None \/ da_header s = Some (DTime d)) ->
  fst (get_date_header_time m s) = Some (DTime d) /\
  da_header (snd (get_date_header_time m s)) = Some (DTime d) /\ da_received (snd (get_date_header_time m s)) = da_received s /\
  da_diff (snd (get_date_header_time m s)) = da_diff s /\ da_median (snd (get_date_header_time m s)) = da_median s.
Proof.
  intros ((rs & R) & (more & D) & _) H. unfold get_date_header_time. destruct H as [H | H]; rewrite H; [rewrite R, D; destruct rs|]; cbn; repeat split; assumption.
Qed.
Lemma received_dated m ts d s : well_dated m ts d -> (da_received s = None \/ da_received s = Some ts) ->
  fst (get_received_times m s) = Some ts /\
  da_received (snd (get_received_times m s)) = Some ts /\ da_header (snd (get_received_times m s)) = da_header s /\
  da_diff (snd (get_received_times m s)) = da_diff s /\ da_median (snd (get_received_times m s)) = da_median s.
Proof.
  intros (_ & _ & R) H. unfold get_received_times. destruct H as [H | H]; rewrite H; [rewrite R, read_times_all|]; cbn; repeat split; assumption.
Qed.
Lemma diff_dated m ts d s : well_dated m ts d -> dated ts d s ->
  fst (check_date_diff m s) = Some (least (differences ts d)) /\ dated ts d (snd (check_date_diff m s)).
Proof.
  intros W (H1 & H2 & H3 & H4). unfold check_date_diff. destruct H3 as [H3 | H3]; rewrite H3.
  2:{ split; [reflexivity|]. repeat split; auto. }
  destruct (header_dated m ts d (set_diff 0 s) W H1) as (A1 & A2 & A3 & A4 & A5). destruct (get_date_header_time m (set_diff 0 s)) as [v s1]. cbn [fst snd] in *. subst v.
  assert (H2' : da_received s1 = None \/ da_received s1 = Some ts) by (rewrite A3; exact H2).
  destruct (received_dated m ts d s1 W H2') as (B1 & B2 & B3 & B4 & B5). destruct (get_received_times m s1) as [l s2]. cbn [fst snd] in *. subst l.
  cbn [fst snd]. split; [reflexivity|]. unfold dated, set_diff. cbn [da_header da_received da_diff da_median] in *. rewrite B2, B3, A2, B5, A5. cbn [set_diff da_median]. repeat split; auto.
Qed.
Lemma median_dated m ts d s : well_dated m ts d -> dated ts d s ->
  fst (check_date_received m s) = Some (DTime (median (ts ++ [d]))) /\ dated ts d (snd (check_date_received m s)).
Proof.
  intros W (H1 & H2 & H3 & H4). unfold check_date_received. destruct H4 as [H4 | H4]; rewrite H4.
  2:{ split; [reflexivity|]. repeat split; auto. }
  destruct (received_dated m ts d s W H2) as (B1 & B2 & B3 & B4 & B5). destruct (get_received_times m s) as [l s1]. cbn [fst snd] in *. subst l.
  assert (H1' : da_header s1 = None \/ da_header s1 = Some (DTime d)) by (rewrite B3; exact H1).
  destruct (header_dated m ts d s1 W H1') as (A1 & A2 & A3 & A4 & A5). destruct (get_date_header_time m s1) as [v s2]. cbn [fst snd] in *. subst v.
  cbn [fst snd]. split; [reflexivity|]. unfold dated. cbn [da_header da_received da_diff da_median]. rewrite A2, A3, A4, B2, B4. repeat split; auto.
Qed.
Lemma dask_dated delta m ts d q s : well_dated m ts d -> dated ts d s ->
  fst (dask delta m q s) = fst (dask delta m q dates0) /\ dated ts d (snd (dask delta m q s)).
Proof.
  intros W D. destruct q as [a b | a b]; cbn [dask].
  - unfold check_for_shifted_date. destruct (diff_dated m ts d s W D) as [E1 D1]. destruct (diff_dated m ts d dates0 W (dated0 ts d)) as [E2 _].
    destruct (check_date_diff m s) as [v s1], (check_date_diff m dates0) as [v2 s2]. cbn [fst snd] in *. subst v v2. cbn [fst snd]. auto.
  - unfold received_within_months. destruct (median_dated m ts d s W D) as [E1 D1]. destruct (median_dated m ts d dates0 W (dated0 ts d)) as [E2 _].
    destruct (check_date_received m s) as [v s1], (check_date_received m dates0) as [v2 s2]. cbn [fst snd] in *. subst v v2. cbn [fst snd]. auto.
Qed.
Lemma danswers_alone delta m ts d qs : well_dated m ts d -> danswers delta m qs dates0 = map (fun q => fst (dask delta m q dates0)) qs.
Proof.
  intros W. assert (G : forall s, dated ts d s -> danswers delta m qs s = map (fun q => fst (dask delta m q dates0)) qs).
  { induction qs as [|q qs IH]; intros s D; [reflexivity|]. cbn [danswers map]. destruct (dask_dated delta m ts d q s W D) as [E D1].
    destruct (dask delta m q s) as [b s1]. cbn [fst snd] in *. rewrite (IH s1 D1), E. reflexivity. }
  apply G, dated0.
Qed.
Lemma shifted_exact minv maxv m ts d : well_dated m ts d ->
  exists z, smallest_shift ts d z /\ (fst (check_for_shifted_date minv maxv m dates0) = true <-> in_range minv maxv (z / 3600)).
Proof.
  intros W. exists (least (differences ts d)). split; [apply least_shift|]. unfold check_for_shifted_date.
  destruct (diff_dated m ts d dates0 W (dated0 ts d)) as [E _]. destruct (check_date_diff m dates0) as [v s]. cbn [fst] in *. subst v. apply within_iff.
Qed.

Lemma insert_desc_perm x l : Permutation (insert_desc x l) (x :: l).
Proof.
  induction l as [|y l IH]; [reflexivity|]. cbn [insert_desc]. destruct (Z.leb x y); [|reflexivity].
  rewrite IH. apply perm_swap.
Qed.
Lemma sort_desc_perm l : Permutation (sort_desc l) l.
Proof. induction l as [|x l IH]; [reflexivity|]. unfold sort_desc in *. cbn [fold_right]. rewrite insert_desc_perm, IH. reflexivity. Qed.
Lemma insert_desc_sorted x l : StronglySorted Z.ge l -> StronglySorted Z.ge (insert_desc x l).
Proof.
  induction l as [|y l IH]; intros H; cbn [insert_desc]; [repeat constructor|]. inversion H as [|? ? H1 F]; subst.
  destruct (Z.leb_spec x y) as [L | L].
  - constructor; [apply IH, H1|]. rewrite Forall_forall in *. intros z Hz. apply (Permutation_in _ (insert_desc_perm x l)) in Hz as [<- | Hz]; [lia | apply F, Hz].
  - constructor; [exact H|]. constructor; [lia|]. rewrite Forall_forall in *. intros z Hz. specialize (F z Hz). lia.
Qed.
Lemma sort_desc_sorted l : StronglySorted Z.ge (sort_desc l).
Proof. induction l as [|x l IH]; [constructor|]. unfold sort_desc in *. cbn [fold_right]. apply insert_desc_sorted, IH. Qed.
Lemma later_le l : StronglySorted Z.ge l -> forall k, k < length l ->
  length (filter (Z.ltb (nth k l 0%Z)) l) <= k /\ length (filter (fun t => Z.ltb t (nth k l 0%Z)) l) <= length l - 1 - k.
Proof.
  induction l as [|x l IH]; intros H k L; [cbn in L; lia|]. inversion H as [|? ? H1 F]; subst. rewrite Forall_forall in F. destruct k as [|k].
  - cbn [nth length]. split.
    + cbn [filter]. rewrite Z.ltb_irrefl. assert (E : filter (Z.ltb x) l = []); [|rewrite E; cbn; lia].
      clear - F. induction l as [|y l IH]; [reflexivity|]. cbn [filter]. pose proof (F y (or_introl eq_refl)). destruct (Z.ltb_spec x y); [lia|]. apply IH. intros z Hz. apply F. right. exact Hz.
    + cbn [filter]. rewrite Z.ltb_irrefl. pose proof (filter_le (fun t => Z.ltb t x) l). lia.
  - cbn [nth length] in *. assert (L' : k < length l) by lia. destruct (IH H1 k L') as [A B]. assert (G : (x >= nth k l 0)%Z) by (apply F, nth_In, L'). split; cbn [filter].
    + destruct (Z.ltb (nth k l 0%Z) x); cbn [length]; lia.
    + destruct (Z.ltb_spec x (nth k l 0%Z)); [lia|]. lia.
Qed.
Lemma median_middle ts : ts <> [] -> middle ts (median ts).
Proof.
  intros NE. unfold median, middle. pose proof (sort_desc_perm ts) as P. pose proof (Permutation_length P) as L.
  assert (LT : Nat.div (length ts) 2 < length (sort_desc ts)).
  { rewrite L. apply Nat.div_lt; [|lia]. destruct ts; [congruence | cbn; lia]. }
  destruct (later_le _ (sort_desc_sorted ts) _ LT) as [A B].
  rewrite (filter_length_perm _ _ _ P) in A. rewrite (filter_length_perm _ _ _ P), L in B. split; [apply (Permutation_in _ P), nth_In, LT|].
  pose proof (Nat.div_mod (length ts) 2). pose proof (Nat.mod_upper_bound (length ts) 2). set (m := nth _ _ _) in *. lia.
Qed.
Lemma months_exact delta minv maxv m ts d : well_dated m ts d ->
  exists z, middle (ts ++ [d]) z /\ (fst (received_within_months delta minv maxv m dates0) = true <-> in_range minv maxv (snd (delta z))).
Proof.
  intros W. exists (median (ts ++ [d])). split; [apply median_middle; destruct ts; discriminate|]. unfold received_within_months.
  destruct (median_dated m ts d dates0 W (dated0 ts d)) as [E _]. destruct (check_date_received m dates0) as [v s]. cbn [fst] in *. subst v. apply within_iff.
Qed.
Lemma months_year delta k maxv m s : (forall z, snd (delta z) < 12)%Z -> (12 <= k)%Z ->
  fst (received_within_months delta (Some k) maxv m s) = false.
Proof.
  intros D K. unfold received_within_months. destruct (check_date_received m s) as [[[z | |]|] s1]; cbn [fst]; try reflexivity; unfold within.
  - specialize (D z). destruct (Z.eqb_spec k 0); [lia|]. destruct (Z.leb_spec k (snd (delta z))); [lia|]. reflexivity.
  - destruct (Z.eqb_spec k 0); [lia|]. destruct (Z.leb_spec k 0); [lia|]. reflexivity.
Qed.

(** ** Names of charsets *)
Lemma clean_lower c : clean_charset c = map upper_char (filter (fun c => (N.leb 97 c && N.leb c 122) || is_digit c) (lower c)).
Proof.
  unfold clean_charset, lower. induction c as [|x c IH]; [reflexivity|]. cbn [map filter].
  assert (E : charset_char (upper_char x) = ((N.leb 97 (lower_char x) && N.leb (lower_char x) 122) || is_digit (lower_char x)) /\
              (charset_char (upper_char x) = true -> upper_char (lower_char x) = upper_char x)).
  { unfold charset_char, upper_char, lower_char, is_digit.
    assert (C : (x < 48 \/ 48 <= x <= 57 \/ 57 < x < 65 \/ 65 <= x <= 90 \/ 90 < x < 97 \/ 97 <= x <= 122 \/ 122 < x)%N) by lia.
    assert (L : forall a b : N, (a <= b)%N -> N.leb a b = true) by (intros; now apply N.leb_le).
    assert (G : forall a b : N, (b < a)%N -> N.leb a b = false) by (intros; now apply N.leb_gt).
    destruct C as [C|[C|[C|[C|[C|[C|C]]]]]];
    repeat (match goal with |- context [N.leb ?a ?b] => first [rewrite (L a b) by lia|rewrite (G a b) by lia] end; cbn [andb orb]);
    (split; [reflexivity|]); intros; first [discriminate|reflexivity|lia]. }
  destruct E as [E1 E2]. rewrite <- E1. destruct (charset_char (upper_char x)); cbn [map]; rewrite IH; [rewrite E2 by reflexivity|]; reflexivity.
Qed.
Lemma same_clean a b : same_name a b -> clean_charset a = clean_charset b.
Proof. intros H. rewrite !clean_lower. now rewrite H. Qed.
Lemma same_ok a b ls : same_name a b -> charset_ok_for_locales a ls = charset_ok_for_locales b ls.
Proof. intros H. unfold charset_ok_for_locales. now rewrite (same_clean a b H). Qed.
Lemma common_ok l c ok : In (l, c) common_charsets -> (exists w r, In w (words ok) /\ w = l ++ r) -> acceptable ok c.
Proof.
  intros H (w & r & Hw & E). right. exists w. split; [assumption|]. subst w.
  repeat (destruct H as [H|H]; [injection H as <- <-; unfold of_language; rewrite firstn_app; vm_compute; eexists; split; [reflexivity|cbn [In]; tauto]|]).
  destruct H.
Qed.
Lemma missing_to_iff decode up low parts raw : NoDup (dkeys raw) ->
  (fst (hask decode up low parts HMissingTo (message raw)) = true <->
   forall n values, In (n, values) raw -> n = $"to" \/ n = $"apparently-to" -> values = []).
Proof.
  intros N. cbn [hask fst]. unfold check_for_missing_to_header, raw_of, message. cbn [h_raw].
  change (lower ($"To")) with ($"to"). change (lower ($"Apparently-To")) with ($"apparently-to"). split.
  - intros H n values I [-> | ->]; apply (In_dget _ _ _ N) in I; rewrite I in H.
    + destruct values; [reflexivity|discriminate].
    + destruct (match dget ($"to") raw with Some l => l | None => [] end); [|discriminate]. destruct values; [reflexivity|discriminate].
  - intros H. destruct (dget ($"to") raw) as [l|] eqn:E1.
    + apply dget_In in E1. rewrite (H _ _ E1 (or_introl eq_refl)).
      destruct (dget ($"apparently-to") raw) as [l2|] eqn:E2; [|reflexivity]. apply dget_In in E2. now rewrite (H _ _ E2 (or_intror eq_refl)).
    + destruct (dget ($"apparently-to") raw) as [l2|] eqn:E2; [|reflexivity]. apply dget_In in E2. now rewrite (H _ _ E2 (or_intror eq_refl)).
Qed.
