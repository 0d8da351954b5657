(** Proofs about the envelope sender that a Received header states. *)
From Verif Require Import PyStr Regexp Proofs_Regexp Model_Received Spec_Received Proofs_Received Proofs_ReceivedIp Proofs_Handover Proofs_ReceivedFields.
From Verif Require Model_Relays.

Section Sender.
Variable udigit uword : char -> bool.
Notation ways := (ways udigit uword).

(** A greedy run of a class [w ++ v] before something that matches after [w] and not later. *)
Lemma class_run ci neg l (G : state -> list state) : forall w n b v x k st',
  Forall (fun c => class_in udigit uword ci neg l c = true) (w ++ v) ->
  match x with c :: _ => class_in udigit uword ci neg l c = false | [] => True end -> length (w ++ v) <= n ->
  (forall u z, v = u ++ z -> u <> [] -> G (mkS (rev u ++ rev w ++ b) (z ++ x) k) = []) ->
  (exists m, G (mkS (rev w ++ b) (v ++ x) k) = st' :: m) ->
  exists m, flat_map G (repeats (ways (Chr ci neg l)) true n 0 None (mkS b (w ++ v ++ x) k)) = st' :: m.
Proof.
  assert (One : forall n b c r k, class_in udigit uword ci neg l c = true -> repeats (ways (Chr ci neg l)) true (S n) 0 None (mkS b (c :: r) k) =
     repeats (ways (Chr ci neg l)) true n 0 None (mkS (c :: b) r k) ++ [mkS b (c :: r) k]).
  { intros n b c r k H. cbn [repeats]. rewrite ways_chr by exact H. cbn [filter]. unfold progress at 1. cbn [s_after length].
    replace (length r =? S (length r)) with false by (symmetry; apply Nat.eqb_neq; lia). cbn [negb flat_map app]. rewrite app_nil_r. reflexivity. }
  assert (Stop : forall n b x k, match x with c :: _ => class_in udigit uword ci neg l c = false | [] => True end ->
     repeats (ways (Chr ci neg l)) true n 0 None (mkS b x k) = [mkS b x k]).
  { intros n b x k Hx. destruct n as [|n]; [reflexivity|]. cbn [repeats].
    assert (E : ways (Chr ci neg l) (mkS b x k) = []) by (cbn [Regexp.ways]; unfold step; cbn [s_after]; destruct x as [|c x]; [reflexivity|]; rewrite Hx; reflexivity).
    rewrite E. reflexivity. }
  assert (Z : forall v n b x k, Forall (fun c => class_in udigit uword ci neg l c = true) v ->
    match x with c :: _ => class_in udigit uword ci neg l c = false | [] => True end -> length v <= n ->
    (forall u z, v = u ++ z -> G (mkS (rev u ++ b) (z ++ x) k) = []) ->
    flat_map G (repeats (ways (Chr ci neg l)) true n 0 None (mkS b (v ++ x) k)) = []).
  { induction v as [|c v IH]; intros n b x k Hv Hx Hn Hno.
    - pose proof (Hno [] [] eq_refl) as H0. cbn [rev app] in *. rewrite Stop by exact Hx. cbn [flat_map]. rewrite H0. reflexivity.
    - cbn [length] in Hn. destruct n as [|n]; [lia|]. inversion Hv as [|? ? Hc Hv']; subst. cbn [app]. rewrite One by exact Hc.
      pose proof (Hno [] (c :: v) eq_refl) as H0. cbn [rev app] in H0. rewrite flat_map_app. cbn [flat_map]. rewrite H0, IH; [reflexivity|exact Hv'|exact Hx|lia|].
      intros u z ->. specialize (Hno (c :: u) z eq_refl). cbn [rev] in Hno. rewrite <- app_assoc in Hno. exact Hno. }
  induction w as [|c w IH]; intros n b v x k st' Hw Hx Hn Hno [m0 Hf].
  - cbn [app rev] in *. destruct v as [|c v].
    + cbn [app] in *. rewrite Stop by exact Hx. cbn [flat_map]. rewrite Hf. cbn. eauto.
    + cbn [length] in Hn. destruct n as [|n]; [lia|]. inversion Hw as [|? ? Hc Hv']; subst. cbn [app] in *. rewrite One by exact Hc.
      rewrite flat_map_app, Z; [|exact Hv'|exact Hx|lia|].
      * cbn [flat_map app]. rewrite Hf. cbn. eauto.
      * intros u z ->. specialize (Hno (c :: u) z eq_refl ltac:(discriminate)). cbn [rev] in Hno. rewrite <- app_assoc in Hno. exact Hno.
  - cbn [app length] in *. destruct n as [|n]; [lia|]. inversion Hw as [|? ? Hc Hv']; subst. rewrite One by exact Hc.
    rewrite flat_map_app. destruct (IH n (c :: b) v x k st') as [m Hm]; auto.
    + lia.
    + intros u z E' Hu. specialize (Hno u z E' Hu). cbn [rev] in Hno. rewrite <- app_assoc in Hno. exact Hno.
    + exists m0. cbn [rev] in Hf. rewrite <- app_assoc in Hf. exact Hf.
    + rewrite Hm. cbn [app]. eauto.
Qed.
Definition NS : re := Chr false false [INotSpace].
(** [(\S+)\b]: up to the last boundary of a word *)
Lemma word_boundary w b v x : w <> [] -> no_blank (w ++ v) -> match x with c :: _ => is_space c = true | [] => True end ->
  (forall u z, v = u ++ z -> u <> [] -> xorb (word_at uword (rev u ++ rev w ++ b)) (word_at uword (z ++ x)) = false) ->
  xorb (word_at uword (rev w ++ b)) (word_at uword (v ++ x)) = true ->
  first udigit uword (Cat (Grp 1 (Rep true 1 None NS)) (Wordb false)) (mkS b (w ++ v ++ x) []) (mkS (rev w ++ b) (v ++ x) [(1, w)]).
Proof.
  intros Hne Hb Hx Hno Hyes. unfold first. destruct w as [|c w]; [congruence|].
  assert (F : Forall (fun c => class_in udigit uword false false [INotSpace] c = true) ((c :: w) ++ v)) by (apply ns_word, Hb).
  cbn [app] in F. inversion F as [|? ? Hc F']; subst.
  cbn [Regexp.ways]. set (st0 := mkS b ((c :: w) ++ v ++ x) []).
  set (G := fun st' => guard (xorb false (xorb (word_at uword (s_before st')) (word_at uword (s_after st')))) (mkS (s_before st') (s_after st') ((1, consumed st0 st') :: s_caps st'))).
  assert (E : forall l, flat_map (fun st => guard (xorb false (xorb (word_at uword (s_before st)) (word_at uword (s_after st)))) st)
      (map (fun st' => mkS (s_before st') (s_after st') ((1, consumed st0 st') :: s_caps st')) l) = flat_map G l).
  { induction l as [|a l IH]; [reflexivity|]. cbn [map flat_map]. rewrite IH. reflexivity. }
  rewrite E. unfold st0 at 1 2. cbn [s_after app length Nat.add].
  assert (R : forall n, repeats (step (class_in udigit uword false false [INotSpace])) true (S n) 1 None (mkS b (c :: w ++ v ++ x) []) =
    repeats (ways (Chr false false [INotSpace])) true n 0 None (mkS (c :: b) (w ++ v ++ x) [])).
  { intros n. change (repeats (step (class_in udigit uword false false [INotSpace])) true (S n) 1 None (mkS b (c :: w ++ v ++ x) [])) with
      (flat_map (repeats (ways (Chr false false [INotSpace])) true n 0 None) (ways (Chr false false [INotSpace]) (mkS b (c :: w ++ v ++ x) []))).
    rewrite ways_chr by exact Hc. cbn [flat_map]. apply app_nil_r. }
  rewrite R.
  apply (class_run false false [INotSpace] G w _ (c :: b) v x []).
  - exact F'.
  - destruct x as [|d x]; [exact I|]. unfold class_in. cbn. rewrite Hx. reflexivity.
  - rewrite !app_length. cbn [length]. rewrite ?app_length. lia.
  - intros u z Ev Hu. unfold G. cbn [s_before s_after]. specialize (Hno u z Ev Hu). cbn [rev] in Hno. rewrite <- !app_assoc in Hno. cbn [app] in Hno.
    rewrite Hno. reflexivity.
  - exists []. unfold G. cbn [s_before s_after s_caps]. cbn [rev] in Hyes. rewrite <- !app_assoc in Hyes. cbn [app] in Hyes. rewrite Hyes.
    assert (C : consumed st0 (mkS (rev w ++ c :: b) (v ++ x) []) = c :: w).
    { apply ext_consumed. split; [reflexivity|]. cbn [s_before rev]. rewrite <- app_assoc. reflexivity. }
    rewrite C. cbn [rev]. rewrite <- app_assoc. reflexivity.
Qed.

Definition ENV_MARK : re := Eval vm_compute in match drop_cat 1 ENVFROM_RE with Cat m _ => m | r => r end.
Lemma env_shape : ENVFROM_RE = Cat (Rep false 0 None Dot) (Cat ENV_MARK (Cat (Grp 1 (Rep true 1 None NS)) (Wordb false))).
Proof. reflexivity. Qed.
Ltac text_first' :=
  first [ apply lit_first | apply first_chr; reflexivity | eapply first_cat; [text_first'|text_first'] | apply first_alt_l; text_first'
        | apply first_alt_r; [reflexivity|text_first'] | apply opt_first; reflexivity | exists []; apply opt_none; reflexivity ].
Definition ENV_A : re := Eval vm_compute in match ENV_MARK with Alt a _ => a | r => r end.
Definition ENV_B : re := Eval vm_compute in match ENV_MARK with Alt _ b => b | r => r end.
Lemma mark_text st st' : In st' (ways ENV_MARK st) ->
  exists m y, In m [$"return-path"; $"envelope-sender"; $"envelope-from"] /\ s_after st = m ++ y.
Proof.
  change ENV_MARK with (Alt ENV_A ENV_B). intros H.
  assert (K : exists r, In st' (ways r st) /\ forall p, In p (lead false r) -> exists m z, In m [$"return-path"; $"envelope-sender"; $"envelope-from"] /\ p = m ++ z).
  { change (In st' (ways ENV_A st ++ ways ENV_B st)) in H. apply in_app_or in H as [H|H]; [exists ENV_A|exists ENV_B]; (split; [exact H|]); intros p Hp; vm_compute in Hp.
    - destruct Hp as [<-|[<-|[]]]; exists ($"return-path"); [exists []|exists [58%N]]; (split; [left; reflexivity|reflexivity]).
    - destruct Hp as [<-|[<-|[]]]; [exists ($"envelope-sender"), []|exists ($"envelope-from"), []]; (split; [|reflexivity]); [right; left|do 2 right; left]; reflexivity. }
  destruct K as (r & I & L). destruct (ways_ext _ _ _ _ _ I) as [w X]. destruct (lead_ok udigit uword false r _ _ _ I X) as (p & t & -> & Hp).
  cbn [norm] in Hp. destruct (L p Hp) as (m & z & Hm & ->). exists m, (z ++ t ++ s_after st'). split; [exact Hm|].
  destruct X as [X _]. rewrite X, <- !app_assoc. reflexivity.
Qed.
Lemma mark_first mark b t : In mark sender_marks -> first udigit uword ENV_MARK (mkS b (mark ++ $"<" ++ t) []) (mkS (rev mark ++ b) ($"<" ++ t) []).
Proof.
  intros H. unfold ENV_MARK. vm_compute in H. change ($"<" ++ t) with (60%N :: t).
  repeat (destruct H as [<-|H]; [cbn [app rev]; text_first'|]); destruct H.
Qed.
Lemma alnum_word c : ascii_alnum c -> is_w uword c = true.
Proof.
  intros H. unfold is_w. assert (L : N.ltb c 128 = true) by (apply N.ltb_lt; unfold ascii_alnum in H; lia). rewrite L.
  unfold ascii_alnum in H. destruct H as [[A B]|[[A B]|[A B]]]; apply N.leb_le in A, B; rewrite A, B; cbn; rewrite ?orb_true_r; reflexivity.
Qed.
Lemma sender_group a h : tidy h -> states_sender a h -> exists st, m_ udigit uword ENVFROM_RE h = Some st /\ g_ 1 st = $"<" ++ a.
Proof.
  intros Ht (pre & mark & tail & rest & E & Hm & Htl & Hr & Hb & (x & c & Ea & Hc) & Hbr & Hf).
  pose proof (tidy_newline h Ht) as NL.
  assert (Tb : no_blank tail). { intros d Hd. apply Htl in Hd. vm_compute in Hd. repeat (destruct Hd as [<-|Hd]; [reflexivity|]). destruct Hd. }
  assert (Tw : forall d, In d tail -> is_w uword d = false). { intros d Hd. apply Htl in Hd. vm_compute in Hd. repeat (destruct Hd as [<-|Hd]; [reflexivity|]). destruct Hd. }
  assert (Rw : word_at uword rest = false) by (destruct Hr as [->|[t ->]]; reflexivity).
  assert (Tr : forall u z, tail = u ++ z -> word_at uword (z ++ rest) = false).
  { intros u z Ez. destruct z as [|d z]; [exact Rw|]. cbn. apply Tw. rewrite Ez. apply in_or_app. right. left. reflexivity. }
  assert (F : first udigit uword (Cat (Grp 1 (Rep true 1 None NS)) (Wordb false)) (mkS (rev mark ++ rev pre ++ []) (($"<" ++ a) ++ ($">" ++ tail) ++ rest) [])
     (mkS (rev ($"<" ++ a) ++ rev mark ++ rev pre ++ []) (($">" ++ tail) ++ rest) [(1, $"<" ++ a)])).
  { apply word_boundary.
    - discriminate.
    - intros d Hd. apply in_app_or in Hd as [Hd|Hd]; apply in_app_or in Hd as [Hd|Hd].
      + vm_compute in Hd. destruct Hd as [<-|[]]. reflexivity.
      + apply Hb, Hd.
      + vm_compute in Hd. destruct Hd as [<-|[]]. reflexivity.
      + apply Tb, Hd.
    - destruct Hr as [->|[t ->]]; [exact I|reflexivity].
    - intros u z Ev Hu. destruct u as [|d u]; [congruence|]. change ($">" ++ tail) with (62%N :: tail) in Ev. injection Ev as <- Ev.
      rewrite (Tr u z Ev). assert (Q : forall b, word_at uword (rev (62%N :: u) ++ b) = false).
      { intros b. cbn [rev]. destruct (rev u) as [|e r] eqn:Er; [reflexivity|]. cbn. apply Tw. rewrite Ev. apply in_or_app. left. apply in_rev. rewrite Er. left. reflexivity. }
      rewrite Q. reflexivity.
    - assert (Q : rev ($"<" ++ a) = c :: rev ($"<" ++ x)) by (rewrite Ea, app_assoc, rev_app_distr; reflexivity). rewrite Q. change (xorb (is_w uword c) false = true). rewrite (alnum_word c Hc). reflexivity. }
  eexists. split.
  - apply match_first. rewrite env_shape, E. apply lazy_first.
    + intros I. apply NL. rewrite E. apply in_or_app. left. exact I.
    + intros u d v Ev. destruct (ways (Cat ENV_MARK _) _) as [|s l] eqn:Wk; [reflexivity|]. exfalso.
      assert (I : In s (ways (Cat ENV_MARK (Cat (Grp 1 (Rep true 1 None NS)) (Wordb false))) (mkS (rev u ++ []) (d :: v ++ mark ++ $"<" ++ a ++ $">" ++ tail ++ rest) []))) by (rewrite Wk; left; reflexivity).
      remember (Cat (Grp 1 (Rep true 1 None NS)) (Wordb false)) as K eqn:EK. change (In s (flat_map (ways K) (ways ENV_MARK (mkS (rev u ++ []) (d :: v ++ mark ++ $"<" ++ a ++ $">" ++ tail ++ rest) [])))) in I.
      apply in_flat_map in I as (s1 & I & _). apply mark_text in I as (m & y & Im & Ey). cbn [s_after] in Ey.
      assert (L : length pre <= length u). { apply (Hf m u y Im). rewrite E, Ev, <- app_assoc. cbn [app]. rewrite Ey. reflexivity. }
      rewrite Ev, app_length in L. cbn [length] in L. lia.
    + eapply first_cat; [apply mark_first, Hm|]. rewrite <- !app_assoc in F. exact F.
  - reflexivity.
Qed.
Lemma sender_strip a : a <> [] -> (forall c, In c ($"<>[]") -> ~ In c a) -> strip_chars ($"><[]") ($"<" ++ a) = a.
Proof.
  intros Hne H.
  assert (N : forall c, In c a -> mem_char c ($"><[]") = false).
  { intros c Hc. destruct (mem_char c ($"><[]")) eqn:E; [|reflexivity]. exfalso. apply mem_char_In in E. apply (H c); [|exact Hc].
    vm_compute in E. vm_compute. tauto. }
  assert (S : strip_chars ($"><[]") a = a) by (apply strip_p_none, N).
  rewrite <- S at 2. unfold strip_chars, strip_p, lstrip_p. change ($"<" ++ a) with (60%N :: a). cbn [drop_while]. change (mem_char 60 ($"><[]")) with true. reflexivity.
Qed.
Lemma sender_plain a h : tidy h -> states_sender a h -> ~ In 61%N a -> get_envfrom udigit uword h = a.
Proof.
  intros Ht Hs Hn. destruct (sender_group a h Ht Hs) as (st & M & G). destruct Hs as (pre & mark & tail & rest & _ & _ & _ & _ & _ & (x & c & Ea & _) & Hbr & _).
  unfold get_envfrom. rewrite M, G, (sender_strip a); [|intros ->; destruct x; discriminate|exact Hbr]. apply rsplit1_None in Hn. rewrite Hn. reflexivity.
Qed.
Lemma sender_cut x y h : tidy h -> states_sender (x ++ $"=" ++ y) h -> ~ In 61%N y -> get_envfrom udigit uword h = y.
Proof.
  intros Ht Hs Hn. destruct (sender_group _ h Ht Hs) as (st & M & G). destruct Hs as (pre & mark & tail & rest & _ & _ & _ & _ & _ & _ & Hbr & _).
  unfold get_envfrom. rewrite M, G, sender_strip; [|destruct x; discriminate|exact Hbr].
  pose proof (proj2 (rsplit1_Some 61%N (x ++ $"=" ++ y) x y) (conj eq_refl Hn)) as ->. reflexivity.
Qed.
End Sender.
