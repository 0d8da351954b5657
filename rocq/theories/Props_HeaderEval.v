(** The claims about the header rules. *)
From Coq Require Import Lia Permutation QArith.
From Verif Require Import PyStr PyDict Model_Files Spec_Files Model_HeaderEval Spec_HeaderEval Proofs_HeaderEval.
Open Scope nat_scope.

(** C111 *)
(** The charset rule hits exactly when a decodable Subject or From header has a part with a
    charset that is not acceptable. *)
Theorem C111_faraway ok_locales parts subject from : restricted ok_locales ->
  (faraway ok_locales parts subject from = true <->
   exists h l c, In h (subject ++ from) /\ parts h = Some l /\ In c l /\ ~ acceptable ok_locales c).
Proof. apply faraway_iff. Qed.
Print Assumptions C111_faraway.
(** The rule reads exactly these two headers of the message, by names without regard to case. *)
Theorem C111_message ok_locales parts h : restricted ok_locales ->
  (check_faraway parts ok_locales h = true <->
   exists n v l c, (n = $"subject" \/ n = $"from") /\ (exists values, dget n (h_raw h) = Some values /\ In v values) /\
     parts v = Some l /\ In c l /\ ~ acceptable ok_locales c).
Proof.
  intros R. unfold check_faraway. rewrite (faraway_iff _ _ _ _ R). unfold raw_of.
  change (lower ($"Subject")) with ($"subject"). change (lower ($"From")) with ($"from"). split.
  - intros (v & l & c & I & P & Q). apply in_app_or in I as [I | I].
    + exists ($"subject"), v, l, c. split; [auto|]. split; [|auto]. destruct (dget ($"subject") (h_raw h)) as [x|]; [eauto | destruct I].
    + exists ($"from"), v, l, c. split; [auto|]. split; [|auto]. destruct (dget ($"from") (h_raw h)) as [x|]; [eauto | destruct I].
  - intros (n & v & l & c & N & (x & E & I) & P & Q). exists v, l, c. split; [|auto]. apply in_or_app.
    destruct N as [-> | ->]; rewrite E; auto.
Qed.
Print Assumptions C111_message.
Theorem C111_unrestricted ok_locales parts subject from : ~ restricted ok_locales -> faraway ok_locales parts subject from = false.
Proof. apply faraway_free. Qed.
Print Assumptions C111_unrestricted.
(** But a header that is plain ASCII text has a part without charset, which is not
    acceptable: with any restriction every ordinary message hits. *)
Theorem C111_plain_refuted ok_locales parts subject from h l : restricted ok_locales ->
  In h (subject ++ from) -> parts h = Some l -> In [] l -> faraway ok_locales parts subject from = true.
Proof.
  intros R H P I. apply faraway_iff; [exact R|]. exists h, l, []. repeat split; try assumption. apply plain_unacceptable.
Qed.
Print Assumptions C111_plain_refuted.
(** Case and punctuation of a charset name do not matter. *)
Theorem C111_names ok_locales a b subject from : same_name a b ->
  faraway ok_locales (fun _ => Some [a]) subject from = faraway ok_locales (fun _ => Some [b]) subject from.
Proof. intros H. unfold faraway. cbn [existsb]. now rewrite (same_ok a b _ H). Qed.
Print Assumptions C111_names.
(** The usual charsets of a language are accepted wherever it is among the locales. *)
Theorem C111_languages l c ok_locales h : In (l, c) common_charsets -> (exists w r, In w (words ok_locales) /\ w = l ++ r) ->
  faraway ok_locales (fun _ => Some [c]) [h] [] = false.
Proof.
  intros H W. pose proof (proj2 (ok_iff c ok_locales) (common_ok l c ok_locales H W)) as K. unfold faraway.
  destruct ok_locales; [reflexivity|]. destruct (streqb _ _); [reflexivity|]. cbn [app existsb]. rewrite K. reflexivity.
Qed.
Print Assumptions C111_languages.
Example C111_example :
  restricted ($"en ru") /\ ~ restricted ($"ALL") /\
  faraway ($"en ru") (fun _ => Some [$"koi8-r"]) [$"s"] [] = false /\
  faraway ($"en ja") (fun _ => Some [$"koi8-r"]) [$"s"] [] = true /\
  faraway ($"en") (fun _ => Some [[]]) [$"Hello"] [] = true.
Proof. repeat split; try (vm_compute; reflexivity); try discriminate. intros [_ H]. apply H. reflexivity. Qed.

(** C112 *)
Definition id_decode (s : str) : str := s.
Definition ascii_up (c : char) : bool := N.leb 65 c && N.leb c 90.
Definition ascii_low (c : char) : bool := N.leb 97 c && N.leb c 122.
Definition no_parts (s : str) : option (list str) := None.
(** Without an illegal character rule for "ALL", each header rule answers as if it were the
    only one. *)
Theorem C112_independent_partial decode up low parts raw qs : Forall not_all qs ->
  hanswers decode up low parts qs (message raw) = map (fun q => fst (hask decode up low parts q (message raw))) qs.
Proof. apply hanswers_message. Qed.
Print Assumptions C112_independent_partial.
(** After one with "ALL" the Subject and From headers are gone for all later rules. *)
Theorem C112_all_deletes decode up low parts ratio count raw rest :
  (forall n, lower n = $"subject" \/ lower n = $"from" ->
     raw_of (snd (hask decode up low parts (HIllegal ($"ALL") ratio count) (message raw))) n = []) /\
  exists b l, hanswers decode up low parts (HIllegal ($"ALL") ratio count :: HCaps :: rest) (message raw) = b :: false :: l.
Proof.
  split; [|apply caps_after_all]. intros n H. cbn [hask]. unfold raw_of. destruct (all_drops ratio count raw) as [A B].
  destruct H as [-> | ->]; [rewrite A | rewrite B]; reflexivity.
Qed.
Print Assumptions C112_all_deletes.
Definition shouting : dict (list str) := [($"subject", [$"RE: BUY THIS NOW"])].
Theorem C112_independent_refuted : exists raw q1 q2,
  hanswers id_decode ascii_up ascii_low no_parts [q1; q2] (message raw) <>
  map (fun q => fst (hask id_decode ascii_up ascii_low no_parts q (message raw))) [q1; q2].
Proof. exists shouting, (HIllegal ($"ALL") (1#2) 1), HCaps. vm_compute. discriminate. Qed.
Print Assumptions C112_independent_refuted.
Example C112_example :
  Forall not_all [HIllegal ($"Subject") (1#2) 1; HCaps; HMissingTo] /\
  hanswers id_decode ascii_up ascii_low no_parts [HIllegal ($"Subject") (1#2) 1; HCaps; HMissingTo] (message shouting) = [false; true; true].
Proof. split; [repeat constructor; discriminate | vm_compute; reflexivity]. Qed.

(** C113 *)
(** The illegal character rule for a header: the characters that count are at least [ratio]
    of all and at least [count]. *)
Theorem C113_illegal_chars header ratio count raw n : header <> $"ALL" ->
  illegal_count (streqb (lower header) ($"subject")) (concat (raw_of (message raw) header)) n ->
  (fst (check_illegal_chars header ratio count (message raw)) = true <-> too_many ratio count (concat (raw_of (message raw) header)) n).
Proof.
  intros NA H. unfold check_illegal_chars. destruct (streqb_spec header ($"ALL")); [contradiction|]. apply illegal_iff, H.
Qed.
Print Assumptions C113_illegal_chars.
(** With "ALL" it is about every header except Subject and From. *)
Theorem C113_all ratio count raw n : let s := concat (map (fun e => concat (snd e)) (filter (fun e => negb (mem_str (lower (fst e)) [$"subject"; $"from"])) raw)) in
  n = Z.of_nat (non_ascii s) ->
  (fst (check_illegal_chars ($"ALL") ratio count (message raw)) = true <-> too_many ratio count s n).
Proof.
  intros s ->. apply (illegal_iff ratio count false s). right. split; [|reflexivity]. intros [K _]. discriminate.
Qed.
Print Assumptions C113_all.
(** Control characters are named by the rule's description but do not count. *)
Theorem C113_control_refuted header ratio count raw : header <> $"ALL" -> (0 < ratio)%Q ->
  Forall (fun c => N.lt c 32) (concat (raw_of (message raw) header)) ->
  fst (check_illegal_chars header ratio count (message raw)) = false.
Proof.
  intros NA P F. destruct (fst (check_illegal_chars header ratio count (message raw))) eqn:E; [|reflexivity]. exfalso.
  set (s := concat (raw_of (message raw) header)) in *.
  assert (Z0 : non_ascii s = 0).
  { unfold non_ascii. clear E. induction s as [|c s IH]; [reflexivity|]. inversion F; subst. cbn [filter]. destruct (N.leb_spec 128 c); [lia | apply IH; assumption]. }
  assert (NO : ~ one_sign s).
  { intros (c & Hc & Hs & _). rewrite Forall_forall in F. specialize (F c Hs). destruct Hc as [<- | [<- | [<- | []]]]; lia. }
  assert (C : illegal_count (streqb (lower header) ($"subject")) s 0%Z) by (right; split; [tauto | rewrite Z0; reflexivity]).
  apply (C113_illegal_chars header ratio count raw 0%Z NA C) in E as (NE & Q1 & _). fold s in NE, Q1.
  assert (L : (0 < inject_Z (Z.of_nat (length s)))%Q) by (change 0%Q with (inject_Z 0); rewrite <- Zlt_Qlt; clear - NE; clearbody s; destruct s; [congruence | cbn [length]; lia]).
  apply (Qlt_not_le _ _ (Qmult_lt_0_compat _ _ P L)), Q1.
Qed.
Print Assumptions C113_control_refuted.
Example C113_example :
  illegal_count true ([163%N; 163%N] ++ $"10") 1 /\
  fst (check_illegal_chars ($"Subject") (1#4) 1 (message [($"subject", [[163%N; 163%N] ++ $"10"])])) = true /\
  fst (check_illegal_chars ($"Subject") (1#4) 2 (message [($"subject", [[163%N; 163%N] ++ $"10"])])) = false /\
  fst (check_illegal_chars ($"ALL") (1#4) 1 (message [($"subject", [[163%N]]); ($"to", [[233%N]])])) = true.
Proof.
  split; [|repeat split; vm_compute; reflexivity]. left. split; [reflexivity|]. split; [|reflexivity]. exists 163%N.
  split; [right; left; reflexivity|]. split; [left; reflexivity|]. intros d [<- | [<- | [<- | []]]] Hs; vm_compute in Hs; try reflexivity; intuition discriminate.
Qed.

(** C114 *)
Theorem C114_sorted recipients :
  fst (task recipients TSorted tocc0) = true <-> recipients <> [] /\ in_order recipients.
Proof.
  rewrite <- first_sorted. cbn [task]. destruct (sorted_recipients recipients tocc0) as [[[|]|] t]; cbn; split; congruence.
Qed.
Print Assumptions C114_sorted.
(** For recipients without neighbouring repeats, at least five, the answer depends on the
    similarity, which does not depend on their order and is at most 2. *)
Theorem C114_similar minr maxr recipients : no_neighbours recipients -> 5 <= length recipients ->
  (fst (task recipients (TSimilar minr maxr) tocc0) = true <->
   (match minr with Some m => m < similarity recipients | None => True end)%Q /\ (match maxr with Some m => similarity recipients < m | None => True end)%Q) /\
  (0 <= similarity recipients <= 2)%Q /\ forall other, Permutation recipients other -> similarity other = similarity recipients.
Proof.
  intros N L. split; [exact (similar_exact minr maxr recipients N L)|]. split; [apply similarity_bounds; lia|].
  intros other P. symmetry. apply similarity_perm, P.
Qed.
Print Assumptions C114_similar.
(** The similarity: twice the number of pairs with alike users or near hosts, over n(n-1). *)
Theorem C114_similarity recipients : exists same close, pairs_number alike recipients same /\ pairs_number near recipients close /\
  (similarity recipients == inject_Z (Z.of_nat (2 * (same + close))) / inject_Z (Z.of_nat (length recipients * (length recipients - 1))))%Q.
Proof. apply similarity_exact. Qed.
Print Assumptions C114_similarity.
(** Asked in any order, the rules answer as alone — for at least five recipients. *)
Theorem C114_independent_partial recipients qs : 5 <= length (distinct_neighbours recipients) ->
  tanswers recipients qs tocc0 = map (fun q => fst (task recipients q tocc0)) qs.
Proof. apply tanswers_alone. Qed.
Print Assumptions C114_independent_partial.
Theorem C114_independent_refuted : exists recipients q,
  tanswers recipients [q; q] tocc0 <> map (fun q => fst (task recipients q tocc0)) [q; q].
Proof. exists [$"a@b.c"], (TSimilar None (Some (1#2))). vm_compute. discriminate. Qed.
Print Assumptions C114_independent_refuted.
(** Similarity is not a share: users and hosts are counted separately. *)
Theorem C114_share_refuted : exists recipients, no_neighbours recipients /\ 5 <= length recipients /\ (1 < similarity recipients)%Q.
Proof.
  exists [$"sales@aa.com"; $"sales@ab.com"; $"sales@ac.com"; $"sales@aad.com"; $"sales@aae.com"].
  split; [cbn; intuition discriminate|]. split; [cbn; lia | vm_compute; reflexivity].
Qed.
Print Assumptions C114_share_refuted.
Example C114_example :
  no_neighbours [$"a@x.com"; $"b@x.com"; $"c@x.com"; $"d@x.com"; $"e@y.com"] /\
  tanswers [$"a@x.com"; $"b@x.com"; $"c@x.com"; $"d@x.com"; $"e@y.com"] [TSorted; TSimilar (Some (1#2)) None; TSimilar None (Some (1#2))] tocc0 = [true; false; true].
Proof. split; [cbn; intuition discriminate | vm_compute; reflexivity]. Qed.

(** C115 *)
(** For a message whose dates can be read, the date rules answer in any order as alone, and
    the shifted-date rule looks at the smallest non-zero difference, in hours. *)
Theorem C115_shifted_partial minv maxv m ts date : well_dated m ts date ->
  exists z, smallest_shift ts date z /\ (fst (check_for_shifted_date minv maxv m dates0) = true <-> in_range minv maxv (z / 3600)).
Proof. apply shifted_exact. Qed.
Print Assumptions C115_shifted_partial.
Theorem C115_independent_partial delta m ts date qs : well_dated m ts date ->
  danswers delta m qs dates0 = map (fun q => fst (dask delta m q dates0)) qs.
Proof. apply danswers_alone. Qed.
Print Assumptions C115_independent_partial.
(** A relay whose time is exactly the Date is left out: a message is "shifted" by a day
    although a relay agrees with its Date. *)
Theorem C115_agreeing_refuted : exists m ts date, well_dated m ts date /\ In date ts /\
  fst (check_for_shifted_date (Some 24%Z) None m dates0) = true.
Proof.
  exists {| d_resent := []; d_date := [Time 100000]; d_received := [Time 100000; Time 190000] |}, [100000; 190000]%Z, 100000%Z.
  split; [split; [exists []; reflexivity|split; [exists []; reflexivity|reflexivity]]|]. split; [left; reflexivity | vm_compute; reflexivity].
Qed.
Print Assumptions C115_agreeing_refuted.
(** With a date that cannot be read the first rule does not hit and a later one takes the
    difference for zero. *)
Theorem C115_unreadable_refuted delta : exists m q, danswers delta m [q; q] dates0 <> map (fun q => fst (dask delta m q dates0)) [q; q].
Proof.
  exists {| d_resent := []; d_date := [Fails]; d_received := [] |}, (DShifted None (Some 6%Z)). vm_compute. discriminate.
Qed.
Print Assumptions C115_unreadable_refuted.
(** The age of a message without Date depends on whether another rule has run before. *)
Theorem C115_undated_refuted delta : exists m q1 q2, m = {| d_resent := []; d_date := []; d_received := [] |} /\
  danswers delta m [q1; q2] dates0 = [true; false] /\ danswers delta m [q2] dates0 = [true].
Proof. eexists. exists (DShifted None None), (DWithin None None). split; [reflexivity|]. split; reflexivity. Qed.
Print Assumptions C115_undated_refuted.
Definition day_late : dmsg := {| d_resent := [Time 50]; d_date := [Time 100000; Fails]; d_received := [Time 190000; Time 200000] |}.
Example C115_example :
  well_dated day_late [190000; 200000]%Z 100000%Z /\
  danswers (fun _ => (0, 0)%Z) day_late [DShifted (Some 24%Z) (Some 48%Z); DShifted (Some 48%Z) None] dates0 = [true; false].
Proof. split; [split; [exists [50%Z]; reflexivity|split; [eexists; reflexivity|reflexivity]] | vm_compute; reflexivity]. Qed.

(** C116 *)
(** The age of a message is counted from the middle of its times; only the months beyond
    whole years count. *)
Theorem C116_months_partial delta minv maxv m ts date : well_dated m ts date ->
  exists z, middle (ts ++ [date]) z /\ (fst (received_within_months delta minv maxv m dates0) = true <-> in_range minv maxv (snd (delta z))).
Proof. apply months_exact. Qed.
Print Assumptions C116_months_partial.
(** So no message, however old, is a year old or older, whatever was asked before. *)
Theorem C116_year_refuted delta k maxv m s : (forall z, snd (delta z) < 12)%Z -> (12 <= k)%Z ->
  fst (received_within_months delta (Some k) maxv m s) = false.
Proof. apply months_year. Qed.
Print Assumptions C116_year_refuted.
Definition of_seconds (z : Z) : Z * Z := let months := ((1000000000 - z) / 2592000)%Z in ((months / 12)%Z, (months mod 12)%Z).
Example C116_example :
  (forall z, snd (of_seconds z) < 12)%Z /\
  fst (of_seconds 100000) = 32%Z /\
  danswers of_seconds day_late [DWithin (Some 12%Z) None; DWithin (Some 1%Z) (Some 2%Z)] dates0 = [false; true].
Proof. split; [intros z; apply Z.mod_pos_bound; lia | split; vm_compute; reflexivity]. Qed.

(** C117 *)
(** The header count rule counts different values. *)
Theorem C117_count_partial header minr maxr raw :
  fst (hask id_decode ascii_up ascii_low no_parts (HCount header minr maxr) (message raw)) = true <->
  exists l, NoDup l /\ (forall x, In x l <-> In x (raw_of (message raw) header)) /\ (minr <= Z.of_nat (length l) <= maxr)%Z.
Proof. apply count_iff. Qed.
Print Assumptions C117_count_partial.
Theorem C117_count_refuted : exists raw header,
  length (raw_of (message raw) header) = 3 /\ check_header_count_range header 2 999 (message raw) = false.
Proof. exists [($"from", [$"a"; $"a"; $"a"])], ($"From"). split; vm_compute; reflexivity. Qed.
Print Assumptions C117_count_refuted.
(** The all-caps rule *)
Theorem C117_all_caps decode up low parts raw :
  fst (hask decode up low parts HCaps (message raw)) = true <->
  exists h rest, In h (raw_of (message raw) ($"Subject")) /\ without_notation (decode h) rest /\
    10 <= length (strip rest) /\ length (words (strip rest)) <> 1 /\ shouted up low (strip rest).
Proof. apply caps_iff. Qed.
Print Assumptions C117_all_caps.
(** The message has neither recipient header. *)
Theorem C117_missing_to decode up low parts raw : NoDup (dkeys raw) ->
  (fst (hask decode up low parts HMissingTo (message raw)) = true <->
   forall n values, In (n, values) raw -> n = $"to" \/ n = $"apparently-to" -> values = []).
Proof. apply missing_to_iff. Qed.
Print Assumptions C117_missing_to.
(** Different domains in the sender address and the From header *)
Theorem C117_domains_partial from envfrom : check_equal_from_domains from envfrom = true ->
  envfrom <> [] /\ concat from <> [] /\ lower (after_at envfrom) <> lower (after_at (concat from)).
Proof. apply equal_hit. Qed.
Print Assumptions C117_domains_partial.
Theorem C117_domains_refuted : exists from envfrom, envfrom <> [] /\ concat from <> [] /\
  lower (after_at envfrom) <> lower (after_at (concat from)) /\ check_equal_from_domains from envfrom = false.
Proof. exists [$"a@mybank.com"], ($"b@bank.com"). repeat split; try discriminate. Qed.
Print Assumptions C117_domains_refuted.
Example C117_example :
  fst (hask id_decode ascii_up ascii_low no_parts (HCount ($"From") 1 1) (message [($"from", [$"a"; $"a"])])) = true /\
  fst (hask id_decode ascii_up ascii_low no_parts HCaps (message shouting)) = true /\
  without_notation ($"RE: BUY THIS NOW") ($" BUY THIS NOW") /\
  check_equal_from_domains [$"a@bank.com"] ($"b@spam.com") = true.
Proof.
  repeat split; try (vm_compute; reflexivity). left. exists ($"RE:"), ($" BUY THIS NOW"). repeat split. left. reflexivity.
Qed.
