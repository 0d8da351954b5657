(** What the Bayes plugin reports about tokens: theorems for C203 to C206. *)
From Coq Require Import Reals Lra Sorting.Permutation.
From Verif Require Import PyStr PyDict Model_BayesScan Spec_BayesScan Model_BayesReport Spec_BayesReport Proofs_BayesReport.

(** ** C203 *)
(** The numbers of new, hammy, neutral and spammy tokens are never negative and add up
    to the number of tokens of the message. *)
Theorem C203_sum : forall fixed3 float_str int_str py_int set_order ul ub ig hp hp' mins minh ns nn msgtokens rows touch tags,
  incl (map r_token rows) (dkeys msgtokens) ->
  let l := fst (scan_locals ul ub ig hp mins minh ns nn msgtokens rows touch) in
  check_end fixed3 float_str int_str py_int set_order hp' l = Some tags ->
  exists new ham neutral spam : Z, (0 <= new /\ 0 <= ham /\ 0 <= neutral /\ 0 <= spam /\ new + ham + neutral + spam = l_count l)%Z /\
    (l_count l = 0 \/ l_count l = Z.of_nat (length msgtokens))%Z /\
    dget ($"TOKENSUMMARY") tags = Some (counts_text int_str new ham neutral spam) /\
    dget ($"BAYESTCHAMMY") tags = Some (int_str ham) /\ dget ($"BAYESTCSPAMMY") tags = Some (int_str spam).
Proof.
  intros fixed3 float_str int_str py_int set_order ul ub ig hp hp' mins minh ns nn msgtokens rows touch tags H l He.
  destruct (scan_consistent ul ub ig hp mins minh ns nn msgtokens rows touch H) as (C1 & C2). fold l in C1, C2.
  unfold check_end in He. destruct (bayes_report_make_list _ _ _ _ _ _ _ _ _) as [h|]; [|discriminate].
  destruct (bayes_report_make_list _ _ _ _ _ _ _ _ _) as [s|]; [|discriminate]. injection He as <-.
  exists (l_count l - l_learned l)%Z, (Z.of_nat (length (l_hammy l))), (l_learned l - Z.of_nat (length (l_hammy l)) - Z.of_nat (length (l_spammy l)))%Z, (Z.of_nat (length (l_spammy l))).
  split; [lia|]. split; [|repeat split; reflexivity].
  unfold l, scan_locals. destruct ul; [|left; reflexivity]. destruct ig; [left; reflexivity|]. destruct ub; [|left; reflexivity]. cbn [negb].
  destruct (ns <? mins)%Z; [left; reflexivity|]. destruct (nn <? minh)%Z; [left; reflexivity|]. destruct (compute_probs hp ns nn rows); [|left; reflexivity].
  destruct (assign rows l0) as [|p d]; [left; reflexivity|]. right. destruct (used (p :: d)); [|destruct touch]; reflexivity.
Qed.
Print Assumptions C203_sum.
(** With at most 150 known tokens they are what they are called: hammy and spammy are
    the known tokens whose probability is far from 1/2, neutral the other known ones.
    Missing: messages with more known tokens. *)
Theorem C203_kinds_partial : forall fixed3 float_str int_str py_int set_order hp hp' mins minh ns nn msgtokens rows tags,
  NoDup (map r_token rows) -> length rows <= 150 -> ns <> 0%Z -> nn <> 0%Z -> (mins <= ns)%Z -> (minh <= nn)%Z ->
  let known := own_probs hp ns nn rows in
  known <> [] ->
  check_end fixed3 float_str int_str py_int set_order hp' (fst (scan_locals true true false hp mins minh ns nn msgtokens rows true)) = Some tags ->
  dget ($"TOKENSUMMARY") tags = Some (counts_text int_str (Z.of_nat (length msgtokens) - Z.of_nat (length known))
    (how_many hammy_prob known) (Z.of_nat (length known) - how_many hammy_prob known - how_many spammy_prob known) (how_many spammy_prob known)).
Proof.
  intros fixed3 float_str int_str py_int set_order hp hp' mins minh ns nn msgtokens rows tags H1 H2 H3 H4 H5 H6 known H7 He.
  destruct (scan_counts hp mins minh ns nn msgtokens rows true H1 H2 H3 H4 H5 H6 H7) as (A & B & C & D). fold known in A, B, C, D.
  set (l := fst _) in *. unfold check_end in He. destruct (bayes_report_make_list _ _ _ _ _ _ _ _ _) as [h|]; [|discriminate].
  destruct (bayes_report_make_list _ _ _ _ _ _ _ _ _) as [s|]; [|discriminate]. injection He as <-.
  change (dget _ _) with (Some (summary int_str l)). unfold summary, counts_text. rewrite A, B, C, D. reflexivity.
Qed.
Print Assumptions C203_kinds_partial.
(** With 150 known tokens that say nothing, every other known token is counted as
    neutral too, even one that was in fifty ham messages and never in spam. *)
Definition many_rows : list row := map (fun i => mkRow [N.of_nat i] 1 1 0) (seq 0 150) ++ [mkRow [200%N] 0 50 0].
Definition many_words : dict str := map (fun r => (r_token r, r_token r)) many_rows.
Theorem C203_kinds_refuted :
  let l := fst (scan_locals true true false true 0 0 200 200 many_words many_rows true) in
  how_many hammy_prob (own_probs true 200 200 many_rows) = 1%Z /\ l_learned l = 151%Z /\ l_hammy l = [] /\ l_spammy l = [].
Proof. vm_compute. repeat split; reflexivity. Qed.
Print Assumptions C203_kinds_refuted.
Definition num (z : Z) : str := if (z =? 0)%Z then $"0" else if (z =? 1)%Z then $"1" else if (z =? 2)%Z then $"2" else $"many".
Definition dot3 (_ : Q) : str := $"0.002".
Definition same (l : list str) : list str := l.
Definition five (s : str) : option Z := if streqb s ($"5") then Some 5%Z else None.
Definition few_rows : list row := [mkRow ($"a") 0 9 0; mkRow ($"b") 4 4 0].
Definition few_words : dict str := [($"a", $"alpha"); ($"b", $"beta"); ($"c", $"gamma")].
Example C203_case : exists tags,
  check_end dot3 num num five same true (fst (scan_locals true true false true 0 0 200 200 few_words few_rows true)) = Some tags /\
  incl (map r_token few_rows) (dkeys few_words) /\ NoDup (map r_token few_rows) /\ own_probs true 200 200 few_rows <> [] /\
  dget ($"TOKENSUMMARY") tags = Some ($"Tokens new, 1; hammy, 1; neutral, 1; spammy, 0.").
Proof.
  assert (N : NoDup (map r_token few_rows)) by (repeat constructor; vm_compute; intuition congruence).
  assert (K : own_probs true 200 200 few_rows <> []) by (vm_compute; discriminate).
  destruct (check_end dot3 num num five same true (fst (scan_locals true true false true 0 0 200 200 few_words few_rows true))) as [tags|] eqn:E.
  2:{ exfalso. destruct (end_ok dot3 num num five same true (fst (scan_locals true true false true 0 0 200 200 few_words few_rows true)) eq_refl
        (scan_corpus _ _ _ _ _ _ _ _ _ _)) as (h & s & A & B). unfold check_end in E. rewrite A, B in E. discriminate. }
  exists tags. split; [reflexivity|]. split; [intros x; vm_compute; tauto|]. split; [exact N|]. split; [exact K|].
  rewrite (C203_kinds_partial dot3 num num five same true true 0 0 200 200 few_words few_rows tags N ltac:(cbn; lia) ltac:(discriminate) ltac:(discriminate)
    ltac:(discriminate) ltac:(discriminate) K E).
  vm_compute. reflexivity.
Qed.

(** ** C204 *)
(** A hammy token: with fewer additional spam messages than the distance it stays
    hammy; a millionth of a message more than the distance is enough. *)
Theorem C204_hammy : forall (hapaxes : bool) (Ns Nn ns nn : Z),
  (0 < Ns)%Z -> (0 < Nn)%Z -> (0 <= ns)%Z -> (0 <= nn)%Z -> ((if hapaxes then 1 else 2) <= ns + nn)%Z ->
  let p := chance prior Ns Nn (IZR ns) (IZR nn) in
  let d := declassification_distance hapaxes Ns Nn ns nn p in
  hammy_chance p ->
  (1 <= d)%Z /\ (forall k, (0 <= k < d)%Z -> hammy_chance (chance prior Ns Nn (IZR (ns + k)) (IZR nn))) /\
  ~ hammy_chance (chance prior Ns Nn (IZR (ns + d) + / 10 ^ 6) (IZR nn)).
Proof. intros. apply distance_hammy; assumption. Qed.
Print Assumptions C204_hammy.
(** A spammy token: with fewer additional ham messages than the distance it stays
    spammy.  Missing: that the distance is enough. *)
Theorem C204_spammy_partial : forall (hapaxes : bool) (Ns Nn ns nn : Z),
  (0 < Ns)%Z -> (0 < Nn)%Z -> (0 <= ns)%Z -> (0 <= nn)%Z -> ((if hapaxes then 1 else 2) <= ns + nn)%Z ->
  let p := chance prior Ns Nn (IZR ns) (IZR nn) in
  let d := declassification_distance hapaxes Ns Nn ns nn p in
  spammy_chance p ->
  (1 <= d)%Z /\ (forall k, (0 <= k < d)%Z -> spammy_chance (chance prior Ns Nn (IZR ns) (IZR (nn + k)))) /\
  ~ spammy_chance (chance (1 - prior) Ns Nn (IZR ns) (IZR (nn + d) + / 10 ^ 6)).
Proof. intros hapaxes Ns Nn ns nn H1 H2 H3 H4 H5 p d H. destruct (distance_spammy hapaxes Ns Nn ns nn H1 H2 H3 H4 H5 H) as (A & B & C & _). auto. Qed.
Print Assumptions C204_spammy_partial.
(** It is not: the equation solved is the one for the prior 1 - 0.538.  Three spam
    messages, 100 ham messages, the token in one spam message: the distance is 6, but
    with six ham messages the token is still spammy. *)
Theorem C204_spammy_refuted :
  let d := declassification_distance true 3 100 1 0 (chance prior 3 100 1 0) in
  spammy_chance (chance prior 3 100 1 0) /\ d = 6%Z /\ spammy_chance (chance prior 3 100 1 (0 + 6)).
Proof. exact distance_short. Qed.
Print Assumptions C204_spammy_refuted.
Theorem C204_neutral : forall (hapaxes : bool) (Ns Nn ns nn : Z),
  (0 < Ns)%Z -> (0 < Nn)%Z -> (0 <= ns)%Z -> (0 <= nn)%Z -> ((if hapaxes then 1 else 2) <= ns + nn)%Z ->
  let p := chance prior Ns Nn (IZR ns) (IZR nn) in
  ~ hammy_chance p -> ~ spammy_chance p -> declassification_distance hapaxes Ns Nn ns nn p = 0%Z.
Proof. intros. apply distance_neutral; assumption. Qed.
Print Assumptions C204_neutral.
Example C204_case : hammy_chance (chance prior 200 300 (IZR 0) (IZR 9)) /\ spammy_chance (chance prior 200 300 (IZR 7) (IZR 0)) /\
  ~ hammy_chance (chance prior 200 300 (IZR 4) (IZR 6)) /\ ~ spammy_chance (chance prior 200 300 (IZR 4) (IZR 6)).
Proof. unfold hammy_chance, spammy_chance, chance, prior. repeat split; lra. Qed.

(** ** C205 *)
Section Lists.
Variables (fixed3 : Q -> str) (float_str int_str : Z -> str) (py_int : str -> option Z) (set_order : list str -> list str).
Hypothesis order : forall l, Permutation (set_order l) l.
Hypothesis fiveI : py_int ($"5") = Some 5%Z.
Let report := bayes_report_make_list fixed3 float_str int_str py_int set_order.

(** The list in the headers has a line for every token of the list, none twice, and
    nothing else. *)
Lemma C205_list_in : forall hp ns nh l, l <> [] -> exists lines,
  report hp (Some (ns, nh)) l None = Some (join ($", ") lines) /\ NoDup lines /\
  forall x, In x lines <-> exists t, In t l /\
    x = token_line (fixed3 (t_prob t)) (float_str (declassification_distance hp ns nh (t_spam t) (t_ham t) (Q2R (t_prob t)))) (t_word t).
Proof.
  intros hp ns nh l H. eexists. split; [apply report_default; [exact H | exact fiveI]|]. split.
  - eapply Permutation_NoDup; [symmetry; apply order | apply NoDup_nodup].
  - intros x. split.
    + intros Hx. apply (Permutation_in _ (order _)) in Hx. apply nodup_In, in_map_iff in Hx. destruct Hx as (t & <- & Ht). exists t. split; [exact Ht | reflexivity].
    + intros (t & Ht & ->). apply (Permutation_in _ (Permutation_sym (order _))). apply nodup_In, in_map_iff. exists t. split; [reflexivity | exact Ht].
Qed.
(** The limit has no effect: with the limit 1 all tokens are listed. *)
Lemma C205_limit_in : forall hp ns nh l limit n, l <> [] -> ~ In 44%N limit -> py_int limit = Some n -> n <> 0%Z -> NoDup (map t_word l) ->
  exists lines, report hp (Some (ns, nh)) l (Some (limit ++ $",short,")) = Some (join ($", ") lines) /\ Permutation lines (map t_word l).
Proof.
  intros hp ns nh l limit n H Hc Hi Hn Hd. eexists. split; [apply (report_short _ _ _ _ _ _ _ _ _ _ n); assumption|].
  rewrite order. rewrite nodup_fixed_point by exact Hd. reflexivity.
Qed.
End Lists.
Theorem C205_list : forall fixed3 float_str int_str py_int set_order,
  (forall l, Permutation (set_order l) l) -> py_int ($"5") = Some 5%Z ->
  forall hp ns nh l, l <> [] -> exists lines,
  bayes_report_make_list fixed3 float_str int_str py_int set_order hp (Some (ns, nh)) l None = Some (join ($", ") lines) /\ NoDup lines /\
  forall x, In x lines <-> exists t, In t l /\
    x = token_line (fixed3 (t_prob t)) (float_str (declassification_distance hp ns nh (t_spam t) (t_ham t) (Q2R (t_prob t)))) (t_word t).
Proof. exact C205_list_in. Qed.
Print Assumptions C205_list.
Theorem C205_limit_refuted : forall fixed3 float_str int_str py_int set_order,
  (forall l, Permutation (set_order l) l) ->
  forall hp ns nh l limit n, l <> [] -> ~ In 44%N limit -> py_int limit = Some n -> n <> 0%Z -> NoDup (map t_word l) ->
  exists lines, bayes_report_make_list fixed3 float_str int_str py_int set_order hp (Some (ns, nh)) l (Some (limit ++ $",short,")) = Some (join ($", ") lines) /\
    Permutation lines (map t_word l).
Proof. exact C205_limit_in. Qed.
Print Assumptions C205_limit_refuted.
(** The two long formats always fail: they name fields that are not passed. *)
Theorem C205_long_refuted : forall fixed3 float_str int_str py_int set_order hp ns nh t r,
  py_int ($"5") = Some 5%Z ->
  bayes_report_make_list fixed3 float_str int_str py_int set_order hp (Some (ns, nh)) (t :: r) (Some ($"5,long,")) = None /\
  bayes_report_make_list fixed3 float_str int_str py_int set_order hp (Some (ns, nh)) (t :: r) (Some ($"5,Long,")) = None.
Proof.
  intros fixed3 float_str int_str py_int set_order hp ns nh t r H. unfold bayes_report_make_list.
  assert (A : match $"5,long," with c :: r0 => c :: r0 | [] => $"5,," end = $"5,long,") by reflexivity.
  assert (B : match $"5,Long," with c :: r0 => c :: r0 | [] => $"5,," end = $"5,Long,") by reflexivity.
  rewrite A, B. change (split_char 44%N ($"5,long,")) with [$"5"; $"long"; []]. change (split_char 44%N ($"5,Long,")) with [$"5"; $"Long"; []].
  cbv iota. rewrite H. cbn [length]. change (Datatypes.S (length r)) with (length (t :: r)). rewrite min_zero by discriminate.
  assert (X : forall f, (f = $"long" \/ f = $"Long") -> exists g, dget f formats = Some g /\ format_with (token_args fixed3 float_str int_str hp ns nh t) g = None).
  { intros f Hf. destruct (args_get fixed3 float_str int_str hp ns nh t) as (_ & _ & _ & A'). destruct Hf as [-> | ->]; (eexists; split; [reflexivity|]);
    apply (format_missing _ ($"a")); try exact A'; cbn [In]; tauto. }
  destruct (X ($"long") (or_introl eq_refl)) as (g & G1 & G2). destruct (X ($"Long") (or_intror eq_refl)) as (g' & G1' & G2').
  rewrite G1, G1'. cbn [map all_some]. split; [change ($"long") with (108%N :: $"ong") | change ($"Long") with (76%N :: $"ong")]; cbv iota; rewrite ?G2, ?G2'; reflexivity.
Qed.
Print Assumptions C205_long_refuted.
(** The tags can be made after every scan in which the access times could be updated. *)
Theorem C205_tags_partial : forall fixed3 float_str int_str py_int set_order ul ub ig hp hp' mins minh ns nn msgtokens rows,
  py_int ($"5") = Some 5%Z ->
  exists tags, check_end fixed3 float_str int_str py_int set_order hp' (fst (scan_locals ul ub ig hp mins minh ns nn msgtokens rows true)) = Some tags.
Proof.
  intros. unfold check_end.
  destruct (end_ok fixed3 float_str int_str py_int set_order hp' (fst (scan_locals ul ub ig hp mins minh ns nn msgtokens rows true)) H (scan_corpus _ _ _ _ _ _ _ _ _ _)) as (h & s & A & B).
  rewrite A, B. eexists. reflexivity.
Qed.
Print Assumptions C205_tags_partial.
(** When they could not be updated, the rule fails and making the tags fails as well,
    and with it the whole check. *)
Theorem C205_tags_refuted : forall fixed3 float_str int_str py_int set_order ul ub ig hp hp' mins minh ns nn msgtokens rows,
  py_int ($"5") = Some 5%Z -> ns <> 0%Z -> nn <> 0%Z ->
  let r := scan_locals ul ub ig hp mins minh ns nn msgtokens rows false in
  snd r = true -> check_end fixed3 float_str int_str py_int set_order hp' (fst r) = None.
Proof.
  intros fixed3 float_str int_str py_int set_order ul ub ig hp hp' mins minh ns nn msgtokens rows Hi H1 H2 r Hr.
  destruct (scan_failed ul ub ig hp mins minh ns nn msgtokens rows H1 H2 Hr) as (C & D). fold r in C, D. unfold check_end. rewrite C.
  assert (X : forall l, l <> [] -> bayes_report_make_list fixed3 float_str int_str py_int set_order hp' None l None = None).
  { intros l Hl. unfold bayes_report_make_list. destruct l as [|x l0]; [contradiction|]. change (split_char 44%N ($"5,,")) with [$"5"; []; []]. cbv iota.
    rewrite Hi. rewrite min_zero by discriminate. reflexivity. }
  destruct D as [D | D]; rewrite (X _ D); [reflexivity|]. destruct (bayes_report_make_list _ _ _ _ _ _ _ _ _); reflexivity.
Qed.
Print Assumptions C205_tags_refuted.
Example C205_case : snd (scan_locals true true false true 0 0 200 200 few_words few_rows false) = true.
Proof. vm_compute. reflexivity. Qed.

(** ** C206 *)
(** Entries that look like addresses or parts of them: the message is ignored exactly
    if some part of one of its addresses reads like an entry, where a dot stands for
    any character.  Missing: that the whole address must be meant, and other
    entries. *)
Theorem C206_listed_partial : forall senders recipients ignore_from ignore_to,
  Forall address_entry ignore_from -> Forall address_entry ignore_to ->
  exists b, ignore_message senders recipients ignore_from ignore_to = Some b /\
    (b = true <-> part_listed ignore_from senders \/ part_listed ignore_to recipients).
Proof.
  intros s r f t Hf Ht. unfold ignore_message. destruct (list_ok f s Hf) as (b & -> & Hb). destruct (list_ok t r Ht) as (b' & -> & Hb').
  exists (b || b'). split; [reflexivity|]. rewrite orb_true_iff, Hb, Hb'. reflexivity.
Qed.
Print Assumptions C206_listed_partial.
(** Somebody else's address that contains the listed one is ignored as well. *)
Theorem C206_whole_refuted : ignore_message [$"not-boss@example.com.evil.org"] [] [$"boss@example.com"] [] = Some true /\
  ignore_message [$"boss@exampleXcom"] [] [$"boss@example.com"] [] = Some true.
Proof. split; vm_compute; reflexivity. Qed.
Print Assumptions C206_whole_refuted.
(** An entry with a star at the beginning makes the check of every message with a
    sender fail. *)
Theorem C206_star_refuted : forall a senders recipients e ignore_from ignore_to,
  ignore_message (a :: senders) recipients (($"*" ++ e) :: ignore_from) ignore_to = None.
Proof.
  intros. unfold ignore_message. cbn [check_address_in_list any_entry]. change ($"*" ++ e) with (42%N :: e). rewrite star_raises. reflexivity.
Qed.
Print Assumptions C206_star_refuted.
Example C206_case : Forall address_entry [$"boss@example.com"; $"lists.example.org"] /\
  ignore_message [$"a@b.com"; $"news@lists.example.org"] [$"me@here.net"] [$"boss@example.com"; $"lists.example.org"] [] = Some true /\
  ignore_message [$"a@b.com"] [$"me@here.net"] [$"boss@example.com"] [] = Some false.
Proof.
  split; [|split; vm_compute; reflexivity].
  match goal with |- Forall _ ?l => let v := eval vm_compute in l in change l with v end. unfold address_entry.
  repeat (apply Forall_cons || apply Forall_nil); unfold entry_char; lia.
Qed.
