(** Proofs about the conversion of Perl expressions. *)
From Verif Require Import PyStr PyDict Model_Rules Model_Headers Spec_Headers Proofs_Headers Spec_Perl.

(** ** One result *)
Lemma rewritten_one (here : str -> str -> str -> Prop) : (forall s o r o' r', here s o r -> here s o' r' -> o = o' /\ r = r') -> (forall o r, ~ here [] o r) ->
  forall s a, rewritten here s a -> forall b, rewritten here s b -> a = b.
Proof.
  intros F N s a H. induction H as [|s o r a Hh H IH|c s a Hn H IH]; intros b Hb.
  - inversion Hb as [|s' o r a' Hh H|]; subst; [reflexivity | exfalso; eapply N; eassumption].
  - inversion Hb as [|s' o' r' b' Hh' H'|c s' b' Hn' H']; subst.
    + exfalso; eapply N; eassumption.
    + destruct (F _ _ _ _ _ Hh Hh') as [-> ->]. f_equal. apply IH. assumption.
    + exfalso; eapply Hn'; eassumption.
  - inversion Hb as [|s' o' r' b' Hh' H'|c' s' b' Hn' H']; subst.
    + exfalso; eapply Hn; eassumption.
    + f_equal. apply IH. assumption.
Qed.
Lemma local_no_colon fl : local_flags fl -> ~ In 58%N fl.
Proof.
  intros [H|[t [-> H]]] K.
  - apply H in K. apply mem_char_In in K. discriminate K.
  - apply in_app_iff in K. destruct K as [K|K]; [apply mem_char_In in K; discriminate K|].
    apply H in K. apply mem_char_In in K. discriminate K.
Qed.
Lemma first_colon a q a' q' : ~ In 58%N a -> ~ In 58%N a' -> a ++ 58%N :: q = a' ++ 58%N :: q' -> q = q'.
Proof.
  revert a'. induction a as [|c a IH]; intros [|c' a'] N N' E; cbn [app] in E.
  - injection E as ->. reflexivity.
  - injection E as E1 _. exfalso. apply N'. left. congruence.
  - injection E as E1 _. exfalso. apply N. left. congruence.
  - injection E as _ E. apply (IH a'); [intros K; apply N; right; exact K | intros K; apply N'; right; exact K | exact E].
Qed.
Lemma flags_one s o r o' r' : flags_dropped s o r -> flags_dropped s o' r' -> o = o' /\ r = r'.
Proof.
  intros (fl & q & L & -> & -> & ->) (fl' & q' & L' & E & -> & ->). split; [reflexivity|].
  change ($"(?") with [40; 63]%N in E. change ($":") with [58%N] in *. cbn [app] in E. injection E as E.
  cbn [app]. f_equal. exact (first_colon _ _ _ _ (local_no_colon _ L) (local_no_colon _ L') E).
Qed.
Lemma boundary_one s o r o' r' : boundary_grouped s o r -> boundary_grouped s o' r' -> o = o' /\ r = r'.
Proof.
  intros (b & q & L & -> & -> & ->) (b' & q' & L' & E & -> & ->).
  change ($"\") with [92%N] in E. change ($"?") with [63%N] in *. cbn [app] in E. injection E as -> ->. split; reflexivity.
Qed.
Lemma group_one s o r o' r' : group_plain s o r -> group_plain s o' r' -> o = o' /\ r = r'.
Proof. intros [-> ->] [E ->]. split; [reflexivity|]. exact (app_inv_head _ _ _ E). Qed.
Lemma converted_one s a b : converted s a -> converted s b -> a = b.
Proof.
  intros (x & y & H1 & H2 & H3) (x' & y' & H1' & H2' & H3').
  assert (x = x') as <-.
  { refine (rewritten_one _ flags_one _ _ _ H1 _ H1'). intros o r (fl & q & _ & E & _). discriminate E. }
  assert (y = y') as <-.
  { refine (rewritten_one _ boundary_one _ _ _ H2 _ H2'). intros o r (c & q & _ & E & _). discriminate E. }
  refine (rewritten_one _ group_one _ _ _ H3 _ H3'). intros o r [E _]. discriminate E.
Qed.

(** ** The three functions *)
Lemma m58 {A} (r : str) (x y : A) : match r with 58%N :: _ => x | _ => y end = match r with c :: _ => if N.eqb c 58 then x else y | [] => y end.
Proof. destruct r as [|c r]; [reflexivity|]. destruct c as [|p]; [reflexivity|]. do 6 (destruct p as [p|p|]; try reflexivity). Qed.
Lemma m94 {A} (r : str) (f : str -> A) (y : A) : match r with 94%N :: t => f t | _ => y end = match r with c :: t => if N.eqb c 94 then f t else y | [] => y end.
Proof. destruct r as [|c r]; [reflexivity|]. destruct c as [|p]; [reflexivity|]. do 7 (destruct p as [p|p|]; try reflexivity). Qed.
Lemma drop_ext_cases s :
  (exists fl q, local_flags fl /\ s = fl ++ 58%N :: q /\ drop_ext s = 58%N :: q) \/
  ((forall fl q, local_flags fl -> s <> fl ++ 58%N :: q) /\ drop_ext s = s).
Proof.
  unfold drop_ext. cbv zeta. rewrite m58, (m94 s (fun s' => match drop_while (fun c => mem_char c ($"?^alupimsx")) s' with 58%N :: _ => drop_while (fun c => mem_char c ($"?^alupimsx")) s' | _ => s end)).
  destruct (drop_while_suffix (fun c => mem_char c ($"adlupimsx-")) s) as [a [E Ha]].
  pose proof (drop_while_head (fun c => mem_char c ($"adlupimsx-")) s) as Hh.
  set (r := drop_while (fun c => mem_char c ($"adlupimsx-")) s) in *. clearbody r.
  rewrite forallb_forall in Ha.
  assert (NOT1 : (forall q, r <> 58%N :: q) -> forall fl q, (forall c, In c fl -> In c ($"adlupimsx-")) -> s <> fl ++ 58%N :: q).
  { intros N fl q Hf Es. assert (r = 58%N :: q) as Er; [|exact (N _ Er)].
    clear N. revert fl s E Es Hf. induction a as [|x a IH]; intros fl s E Es Hf.
    - cbn [app] in E. subst s. destruct fl as [|y fl]; [exact Es|]. exfalso.
      assert (mem_char y ($"adlupimsx-") = true) by (apply mem_char_In, Hf; left; reflexivity).
      rewrite (Hh y (fl ++ 58%N :: q)) in H by exact Es. discriminate.
    - destruct fl as [|y fl].
      + exfalso. rewrite E in Es. cbn [app] in Es. injection Es as -> _. specialize (Ha 58%N (or_introl eq_refl)). discriminate Ha.
      + rewrite E in Es. cbn [app] in Es. injection Es as _ Es.
        apply (IH (fun c Hc => Ha c (or_intror Hc)) fl (a ++ r)); [reflexivity | exact Es | intros c Hc; apply Hf; right; exact Hc]. }
  assert (ONE : forall q, r = 58%N :: q -> exists fl q0, local_flags fl /\ s = fl ++ 58%N :: q0 /\ 58%N :: q = 58%N :: q0).
  { intros q ->. exists a, q. split; [|split; [exact E | reflexivity]]. left. intros c Hc. apply mem_char_In, Ha, Hc. }
  assert (TWO : (forall q, r <> 58%N :: q) ->
    (exists fl q, local_flags fl /\ s = fl ++ 58%N :: q /\
       match s with c :: t => if N.eqb c 94 then match drop_while (fun c => mem_char c ($"?^alupimsx")) t with 58%N :: _ => drop_while (fun c => mem_char c ($"?^alupimsx")) t | _ => s end else s | [] => s end = 58%N :: q) \/
    ((forall fl q, local_flags fl -> s <> fl ++ 58%N :: q) /\
       match s with c :: t => if N.eqb c 94 then match drop_while (fun c => mem_char c ($"?^alupimsx")) t with 58%N :: _ => drop_while (fun c => mem_char c ($"?^alupimsx")) t | _ => s end else s | [] => s end = s)).
  { intros Nr. specialize (NOT1 Nr). clear ONE Hh E Ha Nr. destruct s as [|c t].
    - right. split; [|reflexivity]. intros fl q _ K. destruct fl; discriminate K.
    - destruct (N.eqb_spec c 94) as [->|Nc].
      + rewrite m58. destruct (drop_while_suffix (fun c => mem_char c ($"?^alupimsx")) t) as [a' [E' Ha']].
        pose proof (drop_while_head (fun c => mem_char c ($"?^alupimsx")) t) as Hh'.
        set (r' := drop_while (fun c => mem_char c ($"?^alupimsx")) t) in *. clearbody r'. rewrite forallb_forall in Ha'.
        assert (NOT2 : (forall q, r' <> 58%N :: q) -> forall fl q, local_flags fl -> 94%N :: t <> fl ++ 58%N :: q).
        { intros N fl q [L|[u [-> L]]] Es; [exact (NOT1 fl q L Es)|]. change ($"^") with [94%N] in Es. cbn [app] in Es. injection Es as Es.
          assert (r' = 58%N :: q) as Er; [|exact (N _ Er)]. clear N NOT1.
          revert u t E' Es L. induction a' as [|x a' IH]; intros u t E' Es L.
          - cbn [app] in E'. subst t. destruct u as [|y u]; [exact Es|]. exfalso.
            assert (mem_char y ($"?^alupimsx") = true) by (apply mem_char_In, L; left; reflexivity).
            rewrite (Hh' y (u ++ 58%N :: q)) in H by exact Es. discriminate.
          - destruct u as [|y u].
            + exfalso. rewrite E' in Es. cbn [app] in Es. injection Es as -> _. specialize (Ha' 58%N (or_introl eq_refl)). discriminate Ha'.
            + rewrite E' in Es. cbn [app] in Es. injection Es as _ Es.
              apply (IH (fun c Hc => Ha' c (or_intror Hc)) u (a' ++ r')); [reflexivity | exact Es | intros c Hc; apply L; right; exact Hc]. }
        destruct r' as [|x q]; [right; split; [apply NOT2; discriminate | reflexivity]|].
        destruct (N.eqb_spec x 58) as [->|Nx].
        * left. exists (94%N :: a'), q. split; [|split; [rewrite E'; reflexivity | reflexivity]].
          right. exists a'. split; [reflexivity|]. intros c Hc. apply mem_char_In, Ha', Hc.
        * right. split; [|reflexivity]. apply NOT2. intros q' K. injection K as K _. contradiction.
      + right. split; [|reflexivity]. intros fl q [L|[u [-> L]]] Es; [exact (NOT1 fl q L Es)|].
        change ($"^") with [94%N] in Es. cbn [app] in Es. injection Es as Es _. contradiction. }
  destruct r as [|x q]; [apply TWO; discriminate|].
  destruct (N.eqb_spec x 58) as [->|Nx]; [left; exact (ONE q eq_refl)|].
  apply TWO. intros q' K. injection K as K _. contradiction.
Qed.
Lemma conv1_skip s k : conv1_aux s k = conv1_aux (skipn k s) 0.
Proof. revert k. induction s as [|c s IH]; intros [|k]; try reflexivity. cbn [conv1_aux skipn]. apply IH. Qed.
Lemma conv1_rewritten_n n s : length s <= n -> rewritten flags_dropped s (conv1 s).
Proof.
  unfold conv1. revert s. induction n as [|n IH]; intros [|c s] L; cbn [length] in L; [constructor | lia | constructor |].
  destruct s as [|d s].
  - cbn [conv1_aux]. apply rw_next; [|constructor]. intros o r (fl & q & _ & E & _). discriminate E.
  - cbn [length] in L. destruct (N.eqb_spec c 40) as [->|Nc].
    + destruct (N.eqb_spec d 63) as [->|Nd].
      * cbn [conv1_aux]. rewrite !N.eqb_refl. cbn [andb].
        destruct (drop_ext_cases s) as [(fl & q & Lf & E & D)|[N D]]; rewrite D.
        -- apply (rw_here _ _ ($"(?") (58%N :: q)); [exists fl, q; repeat split; [exact Lf | rewrite E; reflexivity]|].
           rewrite conv1_skip. replace (skipn (length s - length (58%N :: q)) s) with (58%N :: q).
           2: { rewrite E, app_length, Nat.add_sub, skipn_app, skipn_all, Nat.sub_diag. reflexivity. }
           apply IH. apply (f_equal (@length _)) in E. rewrite app_length in E. lia.
        -- rewrite Nat.sub_diag. apply rw_next.
           { intros o r (fl & q & Lf & E & _). change ($"(?") with [40; 63]%N in E. change ($":") with [58%N] in E. cbn [app] in E. injection E as E. exact (N fl q Lf E). }
           apply rw_next; [|apply IH; lia]. intros o r (fl & q & _ & E & _). discriminate E.
      * change (conv1_aux (40%N :: d :: s) 0) with (if N.eqb 40 40 && N.eqb d 63 then 40%N :: d :: conv1_aux s (length s - length (drop_ext s)) else 40%N :: conv1_aux (d :: s) 0).
        rewrite (proj2 (N.eqb_neq d 63) Nd), andb_false_r. apply rw_next; [|apply IH; cbn [length]; lia].
        intros o r (fl & q & _ & E & _). change ($"(?") with [40; 63]%N in E. cbn [app] in E. injection E as E _. contradiction.
    + change (conv1_aux (c :: d :: s) 0) with (if N.eqb c 40 && N.eqb d 63 then c :: d :: conv1_aux s (length s - length (drop_ext s)) else c :: conv1_aux (d :: s) 0).
      rewrite (proj2 (N.eqb_neq c 40) Nc). cbn [andb]. apply rw_next; [|apply IH; cbn [length]; lia].
      intros o r (fl & q & _ & E & _). change ($"(?") with [40; 63]%N in E. cbn [app] in E. injection E as E _. contradiction.
Qed.
Lemma conv2_step c d e s : conv2 (c :: d :: e :: s) =
  if N.eqb c 92 && (N.eqb d 98 || N.eqb d 66) && N.eqb e 63 then 40%N :: c :: d :: 41%N :: conv2 (e :: s) else c :: conv2 (d :: e :: s).
Proof. reflexivity. Qed.
Lemma conv2_rewritten_n n s : length s <= n -> rewritten boundary_grouped s (conv2 s).
Proof.
  revert s. induction n as [|n IH]; intros [|c s] L; cbn [length] in L; [constructor | lia | constructor |].
  assert (SHORT : forall x y, rewritten boundary_grouped [x; y] [x; y]).
  { intros x y. apply rw_next; [|apply rw_next; [|constructor]]; intros o r (b & q & _ & E & _); discriminate E. }
  destruct s as [|d [|e s]]; [apply rw_next; [|constructor]; intros o r (b & q & _ & E & _); discriminate E | apply SHORT |].
  cbn [length] in L. rewrite conv2_step. destruct (N.eqb c 92 && (N.eqb d 98 || N.eqb d 66) && N.eqb e 63) eqn:B.
  - apply andb_true_iff in B. destruct B as [B Be]. apply andb_true_iff in B. destruct B as [Bc Bd].
    apply N.eqb_eq in Be. apply N.eqb_eq in Bc. subst. apply (rw_here _ _ (40%N :: 92%N :: d :: [41%N]) (63%N :: s)); [|apply IH; cbn [length]; lia].
    exists d, s. split; [|split; [reflexivity | split; reflexivity]]. apply orb_true_iff in Bd. rewrite !N.eqb_eq in Bd. destruct Bd as [->| ->]; vm_compute; tauto.
  - apply rw_next; [|apply IH; cbn [length]; lia]. intros o r (b & q & Hb & E & _).
    change ($"\") with [92%N] in E. change ($"?") with [63%N] in E. cbn [app] in E. injection E as -> -> -> _.
    change ($"bB") with [98; 66]%N in Hb. cbn [In] in Hb. destruct Hb as [<-|[<-|[]]]; discriminate B.
Qed.
Lemma conv3_step c d e s : conv3 (c :: d :: e :: s) =
  if N.eqb c 40 && N.eqb d 63 && N.eqb e 62 then c :: d :: 58%N :: conv3 s else c :: conv3 (d :: e :: s).
Proof. reflexivity. Qed.
Lemma conv3_rewritten_n n s : length s <= n -> rewritten group_plain s (conv3 s).
Proof.
  revert s. induction n as [|n IH]; intros [|c s] L; cbn [length] in L; [constructor | lia | constructor |].
  destruct s as [|d [|e s]].
  - apply rw_next; [|constructor]. intros o r [E _]. discriminate E.
  - apply rw_next; [|apply rw_next; [|constructor]]; intros o r [E _]; discriminate E.
  - cbn [length] in L. rewrite conv3_step. destruct (N.eqb c 40 && N.eqb d 63 && N.eqb e 62) eqn:B.
    + apply andb_true_iff in B. destruct B as [B Be]. apply andb_true_iff in B. destruct B as [Bc Bd].
      apply N.eqb_eq in Be. apply N.eqb_eq in Bc. apply N.eqb_eq in Bd. subst.
      apply (rw_here _ _ [40; 63; 58]%N s); [split; reflexivity | apply IH; lia].
    + apply rw_next; [|apply IH; cbn [length]; lia]. intros o r [E _]. change ($"(?>") with [40; 63; 62]%N in E. cbn [app] in E. injection E as -> -> -> _. discriminate B.
Qed.
Lemma conv_converted s : converted s (conv3 (conv2 (conv1 s))).
Proof.
  exists (conv1 s), (conv2 (conv1 s)). split; [apply (conv1_rewritten_n (length s)); lia|].
  split; [apply (conv2_rewritten_n (length (conv1 s))); lia | apply (conv3_rewritten_n (length (conv2 (conv1 s)))); lia].
Qed.
