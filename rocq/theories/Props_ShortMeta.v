(** C07, C09, C244.  Meta rules and short-circuiting together.  The rules that are not meta rules only look at the message:
    [look n x] is what the rule [n] says of a message with content [x].  [kind] tells which rules are meta rules.  Fuel
    stands for the depth of calls; any amount from [enough] on gives the same. *)
From Verif Require Import PyStr PyDict Model_Rules Spec_Rules Model_Meta Spec_Meta Model_ShortMeta Spec_ShortMeta Proofs_Rules Proofs_Meta Proofs_ShortMeta.

(** C244. For every rule left after loading there is exactly one list of rules whose results are needed to match it. *)
Theorem C244_needed :
  forall (X : Type) (order : list str -> list str) (kind : str -> mrule) (rs : ruleset X) (t : mtables) (done : list str)
         (look : str -> X -> outcome) (x : X) (n : str),
    enumerates order -> well_keyed (rs_checked rs) -> well_keyed (rs_not_checked rs) ->
    (forall k, In k (dkeys (rs_checked rs)) -> ~ In k (dkeys (rs_not_checked rs))) ->
    call_postparsing order (classes kind rs) = Some (t, done) -> defined t n ->
    exists l, asks t (fun s => look s x) n l /\ forall l', asks t (fun s => look s x) n l' -> l' = l.
Proof.
  intros X order kind rs t done look x n Ho Hc Hn Hd Hl Hdef.
  destruct (asks_exist order Ho kind rs t done look Hc Hn Hd Hl x n) as [l H]; [apply mget_defined; exact Hdef|].
  exists l. split; [exact H|]. intros l' H'. exact (asks_fun _ _ _ _ H l' H').
Qed.
Print Assumptions C244_needed.

(** C244. Without short-circuiting every checked rule says what it gives (for meta rules that is C10) and leaves the message
    alone. *)
Theorem C244_plain :
  forall (X : Type) (order : list str -> list str) (kind : str -> mrule) (rs : ruleset X) (t : mtables) (done : list str)
         (look : str -> X -> outcome) (spam_score ham_score : Q) (x : X),
    enumerates order -> well_keyed (rs_checked rs) -> well_keyed (rs_not_checked rs) ->
    (forall k, In k (dkeys (rs_checked rs)) -> ~ In k (dkeys (rs_not_checked rs))) ->
    call_postparsing order (classes kind rs) = Some (t, done) ->
    (forall n r, get_rule rs n false = Some r -> kind n = RBase -> reads_only r (look n) /\ forall x, look n x <> Stops) ->
    exists enough, forall fuel, enough <= fuel -> forall n r, In (n, r) (in_force spam_score ham_score [] rs t fuel (rs_checked rs)) ->
      forall m, m_ext m = x -> exists o, r_match r m = (m, o) /\ gives t (fun s => look s x) n o.
Proof.
  intros X order kind rs t done look sp ha x Ho Hc Hn Hd Hl Hr.
  destruct (vals_exist order Ho kind rs t done look Hc Hn Hd Hl Hr x) as (val & Hv & _).
  destruct (plain_calls order Ho kind rs t done look Hc Hn Hd Hl Hr x sp ha (dkeys (rs_checked rs)) val Hv) as [f0 H0].
  exists f0. intros f Hf n r Hin m Hm. apply in_flat_map in Hin as [[n' r'] [Hin' H]]. cbn [fst snd] in H.
  destruct (dget n' (t_checked t)) as [k|] eqn:Ek; [|destruct H]. destruct H as [H|[]]. injection H as <- <-. cbn [bound r_match].
  assert (Hm' : mget t n' <> None) by (apply checked_mget; congruence).
  rewrite (H0 f Hf n' (in_map fst _ _ Hin') Hm' m Hm). exists (val n'). split; [reflexivity|apply Hv, Hm'].
Qed.
Print Assumptions C244_plain.

(** C244. If no short-circuited rule that is needed for a checked rule is true of the message, short-circuiting changes
    nothing. *)
Theorem C244_no_change :
  forall (X : Type) (order : list str -> list str) (kind : str -> mrule) (rs : ruleset X) (t : mtables) (done : list str)
         (look : str -> X -> outcome) (spam_score ham_score : Q) (configs : list str) (m : msg X),
    enumerates order -> well_keyed (rs_checked rs) -> well_keyed (rs_not_checked rs) ->
    (forall k, In k (dkeys (rs_checked rs)) -> ~ In k (dkeys (rs_not_checked rs))) ->
    call_postparsing order (classes kind rs) = Some (t, done) ->
    (forall n r, get_rule rs n false = Some r -> kind n = RBase -> reads_only r (look n) /\ forall x, look n x <> Stops) ->
    let base := fun s => look s (m_ext m) in
    (forall n l, In n (dkeys (rs_checked rs)) -> asks t base n l -> Forall (fun s => ~ ends t base configs s) l) ->
    exists enough, forall fuel, enough <= fuel ->
      match_loop (in_force spam_score ham_score configs rs t fuel (rs_checked rs)) m =
      match_loop (in_force spam_score ham_score [] rs t fuel (rs_checked rs)) m.
Proof.
  intros X order kind rs t done look sp ha configs m Ho Hc Hn Hd Hl Hr base H.
  exact (unchanged order Ho kind rs t done look Hc Hn Hd Hl Hr sp ha configs (rs_checked rs) m H).
Qed.
Print Assumptions C244_no_change.

(** C244. Otherwise the check ends at the first short-circuited rule [s] that is needed and true, be it a checked rule, a
    rule that is only mentioned, or a rule whose turn would come later: the checked rules before the one [n] it was needed
    for count as without short-circuiting, [n] and all later rules are not recorded, and [s] is recorded with its own
    score and the bonus of its type. *)
Theorem C244_stops :
  forall (X : Type) (order : list str -> list str) (kind : str -> mrule) (rs : ruleset X) (t : mtables) (done : list str)
         (look : str -> X -> outcome) (spam_score ham_score : Q) (configs : list str) (m : msg X)
         (before : dict (rule X)) (n : str) (r : rule X) (after : dict (rule X)) (l1 : list str) (s : str) (l2 : list str)
         (ty : sctype) (v : value) (q : rule X),
    enumerates order -> well_keyed (rs_checked rs) -> well_keyed (rs_not_checked rs) ->
    (forall k, In k (dkeys (rs_checked rs)) -> ~ In k (dkeys (rs_not_checked rs))) ->
    call_postparsing order (classes kind rs) = Some (t, done) ->
    (forall n r, get_rule rs n false = Some r -> kind n = RBase -> reads_only r (look n) /\ forall x, look n x <> Stops) ->
    let base := fun s => look s (m_ext m) in
    rs_checked rs = before ++ (n, r) :: after -> In n (dkeys (t_checked t)) ->
    (forall n' l, In n' (dkeys before) -> asks t base n' l -> Forall (fun s => ~ ends t base configs s) l) ->
    asks t base n (l1 ++ s :: l2) -> Forall (fun s => ~ ends t base configs s) l1 ->
    sc_setting configs s = Some ty -> gives t base s (Returns v) -> truthy v = true -> get_rule rs s false = Some q ->
    exists enough, forall fuel, enough <= fuel ->
      let '(so_far, stopped_before) := match_loop (in_force spam_score ham_score [] rs t fuel before) m in
      let '(m', stopped) := match_loop (in_force spam_score ham_score configs rs t fuel (rs_checked rs)) m in
      stopped_before = false /\ stopped = true /\
      m_score m' == m_score so_far + r_score q + sc_bonus ty spam_score ham_score /\
      m_checked m' = dset s v (m_checked so_far) /\ m_descs m' = m_descs so_far /\ m_ext m' = m_ext so_far /\
      dget ($"SCRULE") (m_tags m') = Some s /\ dget ($"SCTYPE") (m_tags m') = Some (sctype_name ty).
Proof.
  intros X order kind rs t done look sp ha configs m before n r after l1 s l2 ty v q Ho Hc Hn Hd Hl Hr base Hsp Hin Hbe Ha Hl1 Hsc Hg Ht Hq.
  destruct (stops_there order Ho kind rs t done look Hc Hn Hd Hl Hr sp ha configs m before n r after l1 s l2 ty v q Hsp Hin Hbe Ha Hl1 Hsc Hg Ht Hq) as [f1 H1].
  destruct (vals_exist order Ho kind rs t done look Hc Hn Hd Hl Hr (m_ext m)) as (val & Hv & Hns).
  destruct (plain_calls order Ho kind rs t done look Hc Hn Hd Hl Hr (m_ext m) sp ha (dkeys before) val Hv) as [f2 H2].
  exists (f1 + f2). intros f Hf. specialize (H1 f ltac:(lia)). cbv zeta in H1. rewrite H1.
  destruct (loop_plain (m_ext m) sp ha rs t val f before m eq_refl) as [_ Hs].
  { intros n' Hin' Hk. apply checked_mget in Hk. split; [apply Hns, Hk|]. intros m' Hm'. apply H2; [lia|exact Hin'|exact Hk|exact Hm']. }
  destruct (match_loop (in_force sp ha [] rs t f before) m) as [m1 st]. cbn [fst snd] in *.
  unfold sc_call. rewrite Ht. cbn [fst m_score m_checked m_descs m_tags m_ext].
  repeat split; try reflexivity; try exact Hs.
  - destruct ty; cbn [sc_bonus]; ring.
  - rewrite dget_dset_other by (vm_compute; discriminate). rewrite dget_dset_other by (vm_compute; discriminate). apply dget_dset_same.
  - rewrite dget_dset_other by (vm_compute; discriminate). apply dget_dset_same.
Qed.
Print Assumptions C244_stops.

(** C244. One of the two always is the case. *)
Theorem C244_either :
  forall (X : Type) (order : list str -> list str) (kind : str -> mrule) (rs : ruleset X) (t : mtables) (done : list str)
         (look : str -> X -> outcome) (configs : list str) (x : X),
    enumerates order -> well_keyed (rs_checked rs) -> well_keyed (rs_not_checked rs) ->
    (forall k, In k (dkeys (rs_checked rs)) -> ~ In k (dkeys (rs_not_checked rs))) ->
    call_postparsing order (classes kind rs) = Some (t, done) ->
    (forall n r, get_rule rs n false = Some r -> kind n = RBase -> reads_only r (look n) /\ forall x, look n x <> Stops) ->
    let base := fun s => look s x in
    (forall n l, In n (dkeys (rs_checked rs)) -> asks t base n l -> Forall (fun s => ~ ends t base configs s) l) \/
    (exists before n r after l1 s l2 ty v q,
       rs_checked rs = before ++ (n, r) :: after /\ In n (dkeys (t_checked t)) /\
       (forall n' l, In n' (dkeys before) -> asks t base n' l -> Forall (fun s => ~ ends t base configs s) l) /\
       asks t base n (l1 ++ s :: l2) /\ Forall (fun s => ~ ends t base configs s) l1 /\
       sc_setting configs s = Some ty /\ gives t base s (Returns v) /\ truthy v = true /\ get_rule rs s false = Some q).
Proof.
  intros X order kind rs t done look configs x Ho Hc Hn Hd Hl Hr base.
  apply (quiet_or_not order Ho kind rs t done look Hc Hn Hd Hl Hr x configs (rs_checked rs)).
  intros n Hin Hm. destruct (proj1 (mget_defined t n) Hm) as [H|H]; [exact H|exfalso].
  apply (Hd n Hin). destruct (load_sub order _ t done Hl) as [_ H2]. apply in_map_iff in H as [e [<- He]].
  apply H2 in He. rewrite <- (classes_keys kind). apply in_map. exact He.
Qed.
Print Assumptions C244_either.

(** A mail for the examples is a text; rules look for a word in it. *)
Definition finds (word : string) : str -> outcome := fun x => Returns (VBool (contains (of_string word) x)).
Definition a_rule (name : string) (score : Q) (f : str -> outcome) : str * rule str :=
  (of_string name, mkRule (of_string name) [] [score] score (of_string name) 0 [] None (fun m => (m, f (m_ext m)))).
Definition shop_rules : ruleset str :=
  mkRS [a_rule "EARLY" 1 (finds "offer"); a_rule "BOTH" 3 (fun _ => Raises); a_rule "CHEAP" 2 (finds "cheap"); a_rule "LATE" 4 (finds "buy")]
       [a_rule "__PILL" 0 (finds "pill")].
Definition shop_kind (n : str) : mrule := if streqb n ($"BOTH") then RMeta ($"__PILL && !CHEAP || CHEAP") else RBase.
Definition shop_look (n : str) : str -> outcome :=
  if streqb n ($"EARLY") then finds "offer" else if streqb n ($"CHEAP") then finds "cheap"
  else if streqb n ($"LATE") then finds "buy" else finds "pill".
Definition shop_mail : msg str := fresh_msg ($"an offer: buy cheap pills").

(** C09 for rule sets with meta rules. It is false that the score is that of the hits before the short-circuited rule plus
    its own: BOTH comes before CHEAP and is true of the mail, but asks for CHEAP, which ends the check before BOTH is
    recorded.  It is also false that a short-circuited sub-rule leaves the others alone. *)
Theorem C09_meta_rules_refuted :
  exists (rs : ruleset str) (kind : str -> mrule) (t : mtables) (done : list str) (m : msg str),
    call_postparsing (fun names => names) (classes kind rs) = Some (t, done) /\
    (forall fuel, 3 <= fuel ->
       let plain := in_force 0 0 [] rs t fuel (rs_checked rs) in
       hit_names (fst (match_loop plain m)) = [$"EARLY"; $"BOTH"; $"CHEAP"; $"LATE"] /\ m_score (fst (match_loop plain m)) == 10 /\
       let short := in_force 0 0 [$"CHEAP on"] rs t fuel (rs_checked rs) in
       hit_names (fst (match_loop short m)) = [$"EARLY"; $"CHEAP"] /\ m_score (fst (match_loop short m)) == 3 /\
       let hidden := in_force 100 0 [$"__PILL spam"] rs t fuel (rs_checked rs) in
       hit_names (fst (match_loop hidden m)) = [$"EARLY"; $"__PILL"] /\ m_score (fst (match_loop hidden m)) == 101).
Proof.
  exists shop_rules, shop_kind. eexists. eexists. exists shop_mail. split; [vm_compute; reflexivity|].
  intros fuel Hf. destruct fuel as [|[|[|fuel]]]; try lia. cbv zeta. repeat split; vm_compute; reflexivity.
Qed.
Print Assumptions C09_meta_rules_refuted.

(** C07 with short-circuiting. A short-circuited sub-rule that a meta rule asks for is listed as a hit and brings its bonus
    into the score. *)
Theorem C07_short_circuit_refuted :
  exists (rs : ruleset str) (kind : str -> mrule) (t : mtables) (done : list str) (m : msg str) (sub : str),
    call_postparsing (fun names => names) (classes kind rs) = Some (t, done) /\ startswith ($"__") sub = true /\
    (forall fuel, 3 <= fuel ->
       let hidden := in_force 100 0 [sub ++ $" spam"] rs t fuel (rs_checked rs) in
       hit_names (fst (match_loop hidden m)) = [$"EARLY"; sub] /\ m_score (fst (match_loop hidden m)) == 1 + 100).
Proof.
  exists shop_rules, shop_kind. eexists. eexists. exists shop_mail, ($"__PILL"). split; [vm_compute; reflexivity|]. split; [reflexivity|].
  intros fuel Hf. destruct fuel as [|[|[|fuel]]]; try lia. cbv zeta. split; vm_compute; reflexivity.
Qed.
Print Assumptions C07_short_circuit_refuted.

(** The hypotheses of the theorems of C244 are met by these rules; BOTH needs __PILL, CHEAP and CHEAP once more. *)
Example C244_case :
  enumerates (fun l => l) /\ well_keyed (rs_checked shop_rules) /\ well_keyed (rs_not_checked shop_rules) /\
  (forall k, In k (dkeys (rs_checked shop_rules)) -> ~ In k (dkeys (rs_not_checked shop_rules))) /\
  (forall n r, get_rule shop_rules n false = Some r -> shop_kind n = RBase -> reads_only r (shop_look n) /\ forall x, shop_look n x <> Stops) /\
  exists t done, call_postparsing (fun names => names) (classes shop_kind shop_rules) = Some (t, done) /\
    let base := fun s => shop_look s (m_ext shop_mail) in
    asks t base ($"BOTH") [$"__PILL"; $"CHEAP"; $"CHEAP"; $"BOTH"] /\
    asks t base ($"EARLY") [$"EARLY"] /\ ~ ends t base [$"CHEAP on"] ($"EARLY") /\ ~ ends t base [$"CHEAP on"] ($"__PILL") /\
    ends t base [$"CHEAP on"] ($"CHEAP") /\ sc_setting [$"CHEAP on"] ($"CHEAP") = Some SC_on /\ gives t base ($"CHEAP") (Returns (VBool true)).
Proof.
  split; [intros l s; reflexivity|].
  split; [split; [repeat constructor; vm_compute; intuition discriminate|repeat constructor]|].
  split; [split; [repeat constructor; vm_compute; intuition discriminate|repeat constructor]|].
  split; [intros k H1 H2; vm_compute in H1, H2; intuition (subst; discriminate)|].
  split.
  - intros n r Hg Hk. unfold get_rule in Hg.
    assert (H : In (n, r) (rs_checked shop_rules ++ rs_not_checked shop_rules)).
    { apply in_or_app. destruct (dget n (rs_checked shop_rules)) as [q|] eqn:Eq; [left|right]; apply dget_In; congruence. }
    cbn [shop_rules rs_checked rs_not_checked a_rule app In] in H.
    destruct H as [H|[H|[H|[H|[H|[]]]]]]; injection H as <- <-; try (vm_compute in Hk; discriminate Hk);
      (split; [intros m; reflexivity|intros x; vm_compute; discriminate]).
  - eexists; eexists. split; [vm_compute; reflexivity|]. cbv zeta.
    split; [|split; [|split; [|split; [|split; [|split]]]]].
    + replace [$"__PILL"; $"CHEAP"; $"CHEAP"; $"BOTH"]
        with (visits (fun s => shop_look s (m_ext shop_mail)) (fun s => [s])
                (EBin OOr (EBin OAnd (EName ($"__PILL")) (ENot (EName ($"CHEAP")))) (EName ($"CHEAP"))) ++ [$"BOTH"]) by (vm_compute; reflexivity).
      refine (asks_meta _ _ _ _ _ (fun s => shop_look s (m_ext shop_mail)) (fun s => [s]) _ _ _ _); [vm_compute; reflexivity|vm_compute; reflexivity| |].
      * intros s Hs. vm_compute in Hs. destruct Hs as [<-|[<-|[<-|[]]]]; exists 1; vm_compute; reflexivity.
      * intros s Hs. vm_compute in Hs. destruct Hs as [<-|[<-|[<-|[]]]]; constructor; vm_compute; reflexivity.
    + constructor. vm_compute. reflexivity.
    + intros [H _]. apply H. vm_compute. reflexivity.
    + intros [H _]. apply H. vm_compute. reflexivity.
    + split; [vm_compute; discriminate|]. exists (VBool true). split; [exists 1; vm_compute; reflexivity|reflexivity].
    + vm_compute. reflexivity.
    + exists 1. vm_compute. reflexivity.
Qed.
