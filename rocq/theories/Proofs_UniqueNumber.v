(** Proofs about subjects that end in a long number. *)
From Coq Require Import Lia.
From Verif Require Import PyStr Regexp Spec_Regexp Proofs_Regexp Proofs_RegexpLang Model_Received Spec_Received Proofs_ReceivedIp Spec_Template Proofs_Template.
From Verif Require Import Model_Provider Spec_Provider Proofs_Provider Proofs_ReceivedMore Spec_Dynamic Proofs_Dynamic Proofs_UniqueId.
Open Scope nat_scope.

(** ** The pattern with the number in it *)
Lemma skip_digit c r : plain_digit c -> skip true (c :: r) = c :: r.
Proof.
  intros H. unfold skip, skip_x, plain_space, ch, plain_digit in *. change (Ascii.N_of_ascii "#") with 35%N.
  destruct (N.eqb_spec c 32); [lia|]. destruct (N.leb_spec 9 c); [|lia]. destruct (N.leb_spec c 13); [lia|]. cbn. destruct (N.eqb_spec c 35); [lia|]. reflexivity.
Qed.
Lemma digit_special c : plain_digit c -> in_s c special = false.
Proof.
  intros H. destruct (in_s c special) eqn:E; [|reflexivity]. exfalso. unfold in_s in E. apply mem_char_In in E. vm_compute in E. unfold plain_digit in H.
  repeat (destruct E as [E|E]; [subst c; lia|]). destruct E.
Qed.
Definition TAIL : str := $"\s*$".
Definition TAIL_RE : re := Eval vm_compute in match parse_seq true true 20 1 TAIL with Some (r, _, _) => r | None => Eps end.
Lemma seq_step_x f n c r a n1 s1 a' s2 b n2 s3 : ch c "|" || ch c ")" = false -> skip true (c :: r) = c :: r -> skip true s1 = s1 ->
  parse_atom true true f n c r = Some (a, n1, s1) -> quantified a s1 = (a', s2) ->
  parse_seq true true f n1 s2 = Some (b, n2, s3) -> b <> Eps -> parse_seq true true (S f) n (c :: r) = Some (Cat a' b, n2, s3).
Proof. intros A K1 K2 B C D E. rewrite seq_eq, K1. cbv iota. rewrite A, B, K2, C, D. destruct b; try reflexivity. congruence. Qed.
Lemma parse_number k n w : (forall c, In c w -> plain_digit c) ->
  parse_seq true true (length w + S (10 + k)) n (w ++ TAIL) = Some (lits true w TAIL_RE, n, []).
Proof.
  intros W. induction w as [|c w IH]; [reflexivity|]. cbn [length Nat.add app lits fold_right].
  assert (D := W c (or_introl eq_refl)). assert (S := digit_special c D).
  assert (T : exists d t, w ++ TAIL = d :: t /\ in_s d "*+?{" = false /\ skip true (d :: t) = d :: t).
  { destruct w as [|d w]; [eexists _, _; split; [reflexivity|]; split; reflexivity|]. exists d, (w ++ TAIL). split; [reflexivity|].
    assert (Dd := W d (or_intror (or_introl eq_refl))). split; [|apply skip_digit, Dd].
    assert (Sd := digit_special d Dd). destruct (in_s d "*+?{") eqn:E; [|reflexivity]. exfalso. unfold in_s in *. apply mem_char_In in E.
    assert (X : mem_char d (of_string special) = true) by (apply mem_char_In; vm_compute in E |- *; tauto). congruence. }
  destruct T as (d & t & Et & Ed & Es).
  apply seq_step_x with (a := atom true c) (n1 := n) (s1 := w ++ TAIL) (s2 := w ++ TAIL).
  - rewrite (ch_not special "|" c S), (ch_not special ")" c S) by reflexivity. reflexivity.
  - apply skip_digit, D.
  - rewrite Et. exact Es.
  - rewrite Nat.add_succ_r. rewrite atom_eq. cbv zeta. unfold atom. assert (X : ch c "." = false) by (unfold ch; apply N.eqb_neq; unfold plain_digit in D; change (Ascii.N_of_ascii ".") with 46%N; lia). rewrite X.
    rewrite (ch_not special "^" c S), (ch_not special "$" c S), (ch_not special "\" c S), (ch_not special "[" c S), (ch_not special "(" c S) by reflexivity.
    destruct (in_s c "*+?") eqn:E; [|reflexivity]. exfalso. unfold in_s in *. apply mem_char_In in E.
    assert (Y : mem_char c (of_string special) = true) by (apply mem_char_In; vm_compute in E |- *; tauto). congruence.
  - rewrite Et. apply (quantified_plain _ _ _ _ Ed). auto.
  - exact (IH (fun d Hd => W d (or_intror Hd))).
  - apply lits_eps. discriminate.
Qed.
Definition WORDS_RE : re := Eval vm_compute in match compile true true ($"(?:item|invoice|order|number|confirmation)") with Some r => r | None => Eps end.
Definition ORDER (w : str) : re := Cat WORDS_RE (Cat (Rep true 1 (Some 6) Dot) (lits true w TAIL_RE)).
Lemma compile_order w : w <> [] -> (forall c, In c w -> plain_digit c) ->
  compile true true ($"(?:item|invoice|order|number|confirmation).{1,6}" ++ w ++ TAIL) = Some (ORDER w).
Proof.
  intros N W. destruct w as [|c w]; [congruence|]. clear N.
  assert (P := parse_number 40 1 (c :: w) W). remember ((c :: w) ++ TAIL) as tail eqn:Et.
  assert (D := W c (or_introl eq_refl)).
  assert (Ks : skip true tail = tail) by (subst tail; apply skip_digit, D).
  assert (Q : forall a, quantified a tail = (a, tail)).
  { intros a. subst tail. apply (quantified_plain special); [apply digit_special, D|auto]. }
  unfold compile. rewrite app_length. change (length ($"(?:item|invoice|order|number|confirmation).{1,6}")) with 48.
  assert (Len : length tail = length (c :: w) + 4) by (subst tail; rewrite app_length; reflexivity). rewrite Len.
  replace (2 * (48 + (length (c :: w) + 4)) + 3) with (S (2 * (48 + (length (c :: w) + 4)) + 2)) by lia. rewrite alt_eq.
  assert (R : parse_seq true true (S (S (length (c :: w) + S (10 + 40)))) 1 ($"(?:item|invoice|order|number|confirmation).{1,6}" ++ tail) = Some (ORDER (c :: w), 1, [])).
  { remember (length (c :: w) + S (10 + 40)) as f eqn:Ef. assert (F : exists k, f = 40 + k) by (exists (f - 40); lia). destruct F as [k F].
    change ($"(?:item|invoice|order|number|confirmation).{1,6}" ++ tail) with (40%N :: $"?:item|invoice|order|number|confirmation)" ++ $".{1,6}" ++ tail).
    apply seq_step_x with (a := WORDS_RE) (n1 := 1) (s1 := $".{1,6}" ++ tail) (a' := WORDS_RE) (s2 := $".{1,6}" ++ tail).
    - reflexivity.
    - reflexivity.
    - reflexivity.
    - rewrite F. change (S (40 + k)) with (S (S (39 + k))). rewrite atom_eq. reflexivity.
    - reflexivity.
    - change ($".{1,6}" ++ tail) with (46%N :: $"{1,6}" ++ tail).
      apply seq_step_x with (a := Dot) (n1 := 1) (s1 := $"{1,6}" ++ tail) (a' := Rep true 1 (Some 6) Dot) (s2 := tail).
      + reflexivity.
      + reflexivity.
      + reflexivity.
      + rewrite F. change (40 + k) with (S (39 + k)). rewrite atom_eq. reflexivity.
      + subst tail. unfold quantified. change (quantifier ($"{1,6}" ++ (c :: w) ++ TAIL)) with (Some (1, Some 6, c :: w ++ TAIL)). cbv iota.
        rewrite (ch_not special "?" c (digit_special c D)) by reflexivity. reflexivity.
      + exact P.
      + apply lits_eps. discriminate.
    - discriminate. }
  rewrite (proj1 (proj2 (parse_more true true (S (S (length (c :: w) + S (10 + 40)))))) (2 * (48 + (length (c :: w) + 4)) + 2) _ _ _ ltac:(lia) R). reflexivity.
Qed.

Section Number.
Variable udigit uword : char -> bool.
Notation s_ := (s_ udigit uword).
Notation has := (has uword).
Notation fits := (fits uword).
Notation digit := (digit udigit).
Notation wordc := (wordc uword).
Notation forms := (forms udigit uword).

Lemma number_forms w r ls ms : (forall c, In c w -> plain_digit c) -> forms r = Some ls -> Forall2 (Forall2 like) ls ms ->
  exists ls', forms (lits true w r) = Some ls' /\ Forall2 (Forall2 like) ls' (map (app (text w)) ms).
Proof.
  intros W F L. induction w as [|c w IH].
  - exists ls. split; [exact F|]. cbn. rewrite map_id. exact L.
  - destruct (IH (fun d Hd => W d (or_intror Hd))) as (ls' & F' & L'). assert (D := W c (or_introl eq_refl)). cbn [lits fold_right]. fold (lits true w r). unfold atom, ch. change (Ascii.N_of_ascii ".") with 46%N.
    destruct (N.eqb_spec c 46) as [->|_]; [unfold plain_digit in D; lia|]. cbn [Proofs_Template.forms]. rewrite F'. eexists. split; [reflexivity|].
    cbn [text map]. fold (text w). rewrite <- (map_map (app (text w)) (cons (Run (eq c) 1 (Some 1)))). cbn [flat_map]. rewrite app_nil_r.
    clear - L' D. induction L' as [|x y l m H L IH]; [constructor|]. cbn [map app]. constructor; [|exact IH]. constructor; [|exact H]. constructor.
    intros d. apply cl_char. cbn [case_free]. unfold plain_digit in D. destruct (N.leb_spec 65 c); [lia|]. destruct (N.leb_spec 97 c); [lia|]. reflexivity.
Qed.
Ltac ilikes := repeat (apply Forall2_cons || apply Forall2_nil); apply like_run; intros ?c; apply cls_char_i; vm_compute; reflexivity.
Definition order_forms (w : str) : list (list part) := map (fun k => text_i k ++ [Run anyc 1 (Some 6)] ++ text w ++ many blank ++ [End]) order_words.
Lemma s_order w h : (forall c, In c w -> plain_digit c) -> s_ (ORDER w) h = true <-> has (order_forms w) h.
Proof.
  intros W. destruct (number_forms w TAIL_RE _ [many blank ++ [End]] W eq_refl) as (ls & F & L).
  { repeat (apply Forall2_cons || apply Forall2_nil); first [apply like_run; intros ?c; apply cls_blank_i|constructor]. }
  unfold Model_Received.s_. eapply search_has with (udigit := udigit).
  - unfold ORDER. cbn [ordered andb]. rewrite lits_ordered. reflexivity.
  - unfold ORDER. cbn [Proofs_Template.forms]. rewrite F. reflexivity.
  - cbn [flat_map map app] in L. inversion L as [|l0 m0 ls0 ms0 L1 L2]. subst. inversion L2. subst. clear L L2 F.
    assert (K : forall pre k, Forall2 like pre (text_i k) -> Forall2 like (pre ++ Run (fun c => c <> 10%N) 1 (Some 6) :: l0) (text_i k ++ [Run anyc 1 (Some 6)] ++ text w ++ many blank ++ [End])).
    { intros pre k H. apply Forall2_app; [exact H|]. constructor; [constructor; intros c; unfold anyc; tauto|exact L1]. }
    unfold order_forms, order_words. cbn [flat_map map app].
    constructor; [apply (K [_; _; _; _] ($"item")); ilikes|]. constructor; [apply (K [_; _; _; _; _; _; _] ($"invoice")); ilikes|]. constructor; [apply (K [_; _; _; _; _] ($"order")); ilikes|].
    constructor; [apply (K [_; _; _; _; _; _] ($"number")); ilikes|]. constructor; [apply (K [_; _; _; _; _; _; _; _; _; _; _; _] ($"confirmation")); ilikes|]. constructor.
Qed.

(** ** What the patterns find in a subject that ends in a number *)
Lemma digit_nonblank c : plain_digit c -> ~ blank c.
Proof. unfold plain_digit, blank. intros H K. unfold is_space in K. apply orb_prop in K. repeat (rewrite orb_true_iff in K). rewrite ?andb_true_iff, ?N.leb_le, ?N.eqb_eq in K. lia. Qed.
Lemma run_of_gaps (P : char -> Prop) n r h x w y : (forall c, P c -> c = 45%N \/ gap c) -> 3 <= n -> h = x ++ w ++ y -> fits (Run P n None :: r) (rev x) w y -> ~ no_gaps h.
Proof.
  intros HP L E F G. cbn [Spec_Template.fits] in F. destruct F as (u & v & -> & Fu & Lu & _). apply G. exists x, u, (v ++ y). split; [rewrite E, <- app_assoc; reflexivity|]. split; [lia|]. auto.
Qed.
Lemma no_gap_forms h : no_gaps h -> ~ has (form_range udigit uword 0 1 ++ form_range udigit uword 1 2 ++ form_range udigit uword 3 1 ++ form_range udigit uword 4 1 ++ form_range udigit uword 5 1 ++ form_range udigit uword 6 1) h.
Proof.
  intros G (l & x & w & y & I & E & F). unfold form_range, id_forms in I. cbn [firstn skipn app] in I.
  repeat (destruct I as [<-|I]; [revert G; refine (run_of_gaps _ _ _ _ _ _ _ _ _ E F); [unfold gap; intros; tauto|lia]|]). destruct I.
Qed.
Lemma ends_digit (p ds : str) a b : 1 <= length ds -> (forall c, In c ds -> plain_digit c) -> p ++ ds = a ++ b -> (forall c, In c b -> blank c) -> b = [].
Proof.
  intros L D E B. destruct b as [|c b _] using rev_ind; [reflexivity|]. exfalso. destruct ds as [|d ds _] using rev_ind; [cbn in L; lia|].
  rewrite !app_assoc in E. apply app_inj_tail in E as [_ <-]. apply (digit_nonblank d); [apply D, in_or_app; right; left; reflexivity|apply B, in_or_app; right; left; reflexivity].
Qed.
Lemma no_bracket_form p ds : 1 <= length ds -> (forall c, In c ds -> plain_digit c) -> ~ has (form_range udigit uword 7 1) (p ++ ds).
Proof.
  intros L D (l & x & w & y & [<-|[]] & E & F).
  change (fits ((text ($"(") ++ at_least 7 (fun c => c = 45%N \/ wordc c) ++ text ($"@") ++ some_ digit) ++ text ($")") ++ [End]) (rev x) w y) in F.
  apply fits_app in F as (u & v & -> & _ & F). apply fits_app in F as (v1 & v2 & -> & F1 & F2). apply fits_text in F1 as ->. cbn [Spec_Template.fits] in F2. destruct F2 as [F2 ->].
  rewrite app_nil_r in E. assert (X : y = []).
  { apply (ends_digit p ds (x ++ u ++ $")") y L D); [rewrite E, <- !app_assoc; reflexivity|]. cbn [app] in F2. intros c Hc. destruct F2 as [->| ->]; [destruct Hc|]. destruct Hc as [<-|[]]. reflexivity. }
  subst y. rewrite app_nil_r in E. destruct ds as [|d ds _] using rev_ind; [cbn in L; lia|]. rewrite !app_assoc in E. change ($")") with [41%N] in E. apply app_inj_tail in E as [_ ->].
  assert (K := D 41%N ltac:(apply in_or_app; right; left; reflexivity)). unfold plain_digit in K. lia.
Qed.
Lemma digit_word c : plain_digit c -> wordc c.
Proof. unfold plain_digit, Spec_Template.wordc. tauto. Qed.
Lemma number_form p ds x w y : 7 <= length ds -> (forall c, In c ds -> plain_digit c) -> (forall q c, p = q ++ [c] -> ~ wordc c /\ ~ digit c) ->
  p ++ ds = x ++ w ++ y -> fits ([Edge] ++ at_least 7 digit ++ many blank ++ [End]) (rev x) w y -> x = p /\ w = ds.
Proof.
  intros L D P E F. cbn [app at_least many Spec_Template.fits] in F. destruct F as (Ed & d & v & -> & Fd & Ld & _ & e & v' & -> & Fe & _ & _ & En & ->). rewrite app_nil_r in *.
  assert (X : e ++ y = []).
  { apply (ends_digit p ds (x ++ d) (e ++ y)); [lia|exact D|rewrite E, <- !app_assoc; reflexivity|]. intros c Hc. apply in_app_or in Hc as [Hc|Hc]; [auto|].
    cbn [app] in En. destruct En as [->| ->]; [destruct Hc|]. destruct Hc as [<-|[]]. reflexivity. }
  apply app_eq_nil in X as [-> ->]. rewrite !app_nil_r in *.
  destruct (Nat.compare_spec (length x) (length p)) as [C|C|C].
  - assert (Y : x = p /\ d = ds).
    { clear - E C. revert p E C. induction x as [|c x IH]; intros [|c' p] E C; try discriminate; [split; [reflexivity|symmetry; exact E]|].
      injection E as -> E. destruct (IH p E ltac:(cbn in C; lia)) as [-> ->]. auto. }
    exact Y.
  - exfalso. assert (Y : exists q c, p = q ++ [c] /\ In c d).
    { exists (firstn (length p - 1) p), (nth (length p - 1) p 0%N). assert (S : p = firstn (length p - 1) p ++ [nth (length p - 1) p 0%N]).
      { rewrite <- (firstn_skipn (length p - 1) p) at 1. f_equal. clear - C. destruct p as [|c p _] using rev_ind; [cbn in C; lia|].
        rewrite app_length. cbn [length]. replace (length p + 1 - 1) with (length p) by lia. rewrite skipn_app, skipn_all, Nat.sub_diag. cbn. rewrite app_nth2, Nat.sub_diag by lia. reflexivity. }
      split; [exact S|]. assert (Nt : nth (length p - 1) (x ++ d) 0%N = nth (length p - 1) p 0%N) by (rewrite <- E; apply app_nth1; lia).
      rewrite <- Nt, app_nth2 by lia. apply nth_In. assert (Le := f_equal (@length _) E). rewrite !app_length in Le. lia. }
    destruct Y as (q & c & Y & I). destruct (P q c Y) as [_ K]. exact (K (Fd c I)).
  - exfalso. assert (Y : exists d2, x = p ++ d2 /\ ds = d2 ++ d).
    { exists (skipn (length p) x). assert (S : firstn (length p) x = p).
      { assert (Z := f_equal (firstn (length p)) E). rewrite !firstn_app, firstn_all, Nat.sub_diag in Z. cbn [firstn] in Z. rewrite app_nil_r in Z.
        replace (length p - length x) with 0 in Z by lia. cbn [firstn] in Z. rewrite app_nil_r in Z. symmetry. exact Z. }
      split; [rewrite <- S at 1; symmetry; apply firstn_skipn|]. apply (app_inv_head p). rewrite E, app_assoc. f_equal. rewrite <- S at 1. symmetry. apply firstn_skipn. }
    destruct Y as (d2 & -> & ->). rewrite app_length in C. destruct d2 as [|c d2 _] using rev_ind; [cbn in C; lia|].
    assert (B1 : begins_with_word uword (rev (p ++ d2 ++ [c]))).
    { rewrite !rev_app_distr. cbn [rev app]. exists c, (rev d2 ++ rev p). split; [reflexivity|]. apply digit_word, D, in_or_app. left. apply in_or_app. right. left. reflexivity. }
    assert (B2 : begins_with_word uword d).
    { destruct d as [|c0 d]; [cbn in Ld; lia|]. exists c0, d. split; [reflexivity|]. apply digit_word, D, in_or_app. right. left. reflexivity. }
    cbn [app] in Ed. rewrite ?app_nil_r in Ed. destruct Ed as [[_ K]|[K _]]; contradiction.
Qed.
Lemma found_number p ds : 7 <= length ds -> (forall c, In c ds -> plain_digit c) -> (forall q c, p = q ++ [c] -> ~ wordc c /\ ~ digit c) ->
  no_gaps (p ++ ds) -> unique_id udigit uword (p ++ ds) = Some ds.
Proof.
  intros L D P G. assert (NG := no_gap_forms _ G). assert (NB := no_bracket_form p ds ltac:(lia) D). rewrite !has_app in NG.
  unfold unique_id. change UNIQUE_IDS with [nth_id 0; nth_id 1; nth_id 2; nth_id 3; nth_id 4; nth_id 5; nth_id 6; nth_id 7; nth_id 8; nth_id 9; nth_id 10]. cbn [fold_right].
  assert (X : forall k, ordered (nth_id k) = true -> nonnull (nth_id k) = true -> ~ s_ (nth_id k) (p ++ ds) = true -> re_search udigit uword (Grp 0 (nth_id k)) (p ++ ds) = None).
  { intros k O N K. assert (S := searched udigit uword _ (p ++ ds) O N). destruct (re_search _ _ _ _); [|reflexivity]. destruct S as [S _]. contradiction. }
  rewrite (X 0), (X 1), (X 2), (X 3), (X 4), (X 5), (X 6); try (vm_compute; reflexivity);
    try (first [rewrite u0|rewrite u1|rewrite u2|rewrite u3|rewrite u4|rewrite u5|rewrite u6]; tauto).
  assert (S := searched udigit uword (nth_id 7) (p ++ ds) ltac:(vm_compute; reflexivity) ltac:(vm_compute; reflexivity)).
  destruct (re_search udigit uword (Grp 0 (nth_id 7)) (p ++ ds)) as [st|] eqn:E.
  - f_equal. apply search_first in E as (u & v & E & H & _). apply Proofs_ReceivedMore.group_In in H as (w & s0 & [X1 X2] & H & _ & _ & C). cbn [s_after s_before] in X1, X2.
    unfold g_. rewrite C. cbn [group]. rewrite Nat.eqb_refl. rewrite app_nil_r in *.
    assert (R : reads udigit uword (nth_id 7) (rev u) w (s_after s0)).
    { apply (ways_reads udigit uword (nth_id 7) ltac:(vm_compute; reflexivity) _ w (s_after s0) []). exists (s_caps s0). rewrite <- X1. destruct s0 as [b0 a0 k0]. cbn in *. subst. exact H. }
    apply (reads_iff udigit uword (nth_id 7) _ ([Edge] ++ at_least 7 digit ++ many blank ++ [End]) _ _ _ eq_refl) in R.
    + apply (number_form p ds u w (s_after s0) L D P); [rewrite E, X1; reflexivity|exact R].
    + repeat (apply Forall2_cons || apply Forall2_nil); first [apply like_run; intros ?c; first [apply cls_digit_i|apply cls_blank_i] | constructor].
  - exfalso. assert (T : s_ (nth_id 7) (p ++ ds) = true); [|congruence]. apply u7. exists ([Edge] ++ at_least 7 digit ++ many blank ++ [End]), p, ds, [].
    split; [left; reflexivity|]. split; [rewrite app_nil_r; reflexivity|]. cbn [app at_least many Spec_Template.fits]. split.
    + right. rewrite app_nil_r. split.
      * intros (c & t & Er & W). destruct p as [|c' q _] using rev_ind; [discriminate|]. rewrite rev_app_distr in Er. cbn in Er. injection Er as -> _. exact (proj1 (P q c eq_refl) W).
      * destruct ds as [|c ds]; [cbn in L; lia|]. exists c, ds. split; [reflexivity|]. apply digit_word, D. left. reflexivity.
    + exists ds, []. rewrite app_nil_r. split; [reflexivity|]. split; [intros c Hc; left; apply D, Hc|]. split; [exact L|]. split; [exact I|].
      exists [], []. split; [reflexivity|]. split; [intros c []|]. split; [lia|]. split; [exact I|]. cbn. auto.
Qed.
Theorem unique_number m p ds : texts m ($"subject") = p ++ ds -> 7 <= length ds -> (forall c, In c ds -> plain_digit c) ->
  (forall q c, p = q ++ [c] -> ~ wordc c /\ ~ digit c) -> no_gaps (p ++ ds) ->
  exists b, check_for_unique_subject_id udigit uword m = Some b /\ (b = false <-> announced p).
Proof.
  intros E L D P G. unfold check_for_unique_subject_id. change (joined m ($"subject")) with (texts m ($"subject")). rewrite E, (found_number p ds L D P G).
  destruct ds as [|c0 ds']; [cbn in L; lia|]. remember (c0 :: ds') as ds eqn:Eds.
  assert (F : s_ FIVE_DIGITS ds = true).
  { apply s_five. exists [Run digit 5 None], [], ds, []. split; [left; reflexivity|]. split; [rewrite app_nil_r; reflexivity|]. cbn. exists ds, []. rewrite app_nil_r.
    split; [reflexivity|]. split; [intros c Hc; left; apply D, Hc|]. split; [lia|auto]. }
  rewrite F. change ($"\s*$") with TAIL. rewrite (compile_order ds ltac:(subst; discriminate) D). cbn [option_map]. eexists. split; [reflexivity|].
  rewrite negb_false_iff, (s_order ds _ D). unfold order_forms. split.
  - intros (l & x & w & y & I & E' & R). apply in_map_iff in I as (k & <- & I). apply fits_app in R as (k' & v & -> & R1 & R). apply fits_text_i in R1.
    apply fits_app in R as (g & v1 & -> & R2 & R). apply fits_app in R as (d & v2 & -> & R3 & R). apply fits_text in R3 as ->. cbn [Spec_Template.fits] in R2. destruct R2 as (g' & e & -> & A & L1 & L2 & ->).
    cbn [app many Spec_Template.fits] in R. destruct R as (bl & e & -> & B & _ & _ & En & ->). rewrite !app_nil_r in *.
    assert (X : bl ++ y = []).
    { apply (ends_digit p ds (x ++ k' ++ g' ++ ds) (bl ++ y)); [lia|exact D|rewrite E', <- !app_assoc; reflexivity|]. intros c Hc. apply in_app_or in Hc as [Hc|Hc]; [auto|].
      cbn [app] in En. destruct En as [->| ->]; [destruct Hc|]. destruct Hc as [<-|[]]. reflexivity. }
    apply app_eq_nil in X as [-> ->]. rewrite !app_nil_r in E'. exists x, k', g'. split; [|split; [rewrite R1; exact I|split; [lia|exact A]]].
    apply (app_inv_tail ds). rewrite E', <- !app_assoc. reflexivity.
  - intros (x & k & g & -> & I & L1 & A). exists (text_i (lower k) ++ [Run anyc 1 (Some 6)] ++ text ds ++ many blank ++ [End]), x, (k ++ g ++ ds), [].
    split; [apply in_map_iff; exists (lower k); auto|]. split; [rewrite app_nil_r, <- !app_assoc; reflexivity|].
    apply fits_app. exists k, (g ++ ds). split; [reflexivity|]. split; [apply fits_text_i; reflexivity|]. apply fits_app. exists g, ds. split; [reflexivity|].
    split; [cbn; exists g, []; rewrite app_nil_r; split; [reflexivity|]; split; [exact A|]; split; [lia|]; split; [lia|reflexivity]|]. apply fits_app. exists ds, []. rewrite app_nil_r. split; [reflexivity|]. split; [apply fits_text; reflexivity|].
    cbn. exists [], []. split; [reflexivity|]. split; [intros c []|]. split; [lia|]. split; [exact Logic.I|]. cbn. auto.
Qed.
End Number.
