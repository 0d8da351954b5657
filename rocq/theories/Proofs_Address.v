(** Reading back address headers that are written properly. *)
From Verif Require Import PyStr PyAddr Spec_Address.

(** ** Characters *)
Lemma mem_char_false : forall c l, ~ In c l -> mem_char c l = false.
Proof. intros c l H. destruct (mem_char c l) eqn:E; [|reflexivity]. apply mem_char_In in E. contradiction. Qed.
Lemma mem_char_true : forall c l, In c l -> mem_char c l = true.
Proof. intros c l H. now apply mem_char_In. Qed.
Lemma ordinary_facts : forall c, ordinary c ->
  mem_char c fws = false /\ mem_char c lws = false /\ mem_char c phraseends = false /\
  N.eqb c 40 = false /\ N.eqb c 34 = false /\ N.eqb c 91 = false /\ N.eqb c 64 = false /\ N.eqb c 92 = false /\
  N.eqb c 62 = false /\ N.eqb c 58 = false /\ N.eqb c 41 = false /\ N.eqb c 44 = false /\
  (c <> 46%N -> mem_char c atomends = false).
Proof.
  intros c [Hs Hn].
  assert (Hw : ~ In c fws).
  { intros Hi. cbn in Hi. destruct Hi as [<-|[<-|[<-|[<-|[]]]]]; vm_compute in Hs; discriminate. }
  assert (Hx : forall x, In x ($"()<>@,:;""\[]") -> N.eqb c x = false).
  { intros x Hx. destruct (N.eqb_spec c x) as [->|]; [contradiction|reflexivity]. }
  assert (Ha : c <> 46%N -> ~ In c atomends).
  { intros H46 Hi. unfold atomends in Hi. apply in_app_or in Hi. destruct Hi as [Hi|Hi]; [|contradiction].
    apply Hn. vm_compute in Hi |- *. repeat (destruct Hi as [Hi|Hi]; [subst c; tauto|]). contradiction. }
  repeat split; try (apply Hx; vm_compute; tauto).
  - now apply mem_char_false.
  - apply mem_char_false. intros Hi. apply Hw. vm_compute in *. tauto.
  - apply mem_char_false. unfold phraseends. intros Hi. apply filter_In in Hi. destruct Hi as [Hi H46].
    destruct (N.eqb_spec c 46); [discriminate|]. now apply Ha.
  - intros H46. now apply mem_char_false, Ha.
Qed.

(** ** Pieces *)
(** where a piece ends: nothing left, or a character of the list *)
Definition ends_at (l : str) (k : str) : Prop := match k with [] => True | c :: _ => In c l end.

Lemma getatom_spec : forall ends a k, Forall (fun c => mem_char c ends = false) a -> ends_at ends k ->
  getatom ends (a ++ k) = (a, k).
Proof.
  intros ends a k Ha Hk. induction Ha as [|c a Hc Ha IH].
  - destruct k as [|c k]; [reflexivity|]. cbn in Hk. cbn [app getatom]. now rewrite (mem_char_true _ _ Hk).
  - cbn [app getatom]. now rewrite Hc, IH.
Qed.

Lemma delimited_written : forall t k, ~ In 13%N t -> delimited [34; 13]%N false (escaped t ++ 34%N :: k) = (t, k).
Proof.
  induction t as [|c t IH]; intros k H; [reflexivity|].
  assert (Ht : ~ In 13%N t) by (intros Hi; apply H; now right).
  assert (Hc : c <> 13%N) by (intros ->; apply H; now left).
  cbn [escaped flat_map]. destruct (N.eqb_spec c 34) as [->|H34].
  - cbn. fold (escaped t). rewrite <- ?app_assoc. cbn [app]. now rewrite IH.
  - destruct (N.eqb_spec c 92) as [->|H92].
    + cbn. fold (escaped t). now rewrite IH.
    + cbn [orb app delimited mem_char existsb].
      destruct (N.eqb_spec c 34); [congruence|]. destruct (N.eqb_spec c 13); [congruence|].
      destruct (N.eqb_spec c 92); [congruence|]. cbn [orb]. fold (escaped t). now rewrite IH.
Qed.
Lemma quote_escaped : forall t, quote t = escaped t.
Proof.
  intros t. unfold quote, escaped. apply flat_map_ext. intros c. now rewrite orb_comm.
Qed.

Lemma comment_plain : forall lim r k, good_remark r -> getcomment lim (r ++ 41%N :: k) = Some (r, k).
Proof.
  intros lim r k. unfold getcomment, good_remark. induction r as [|c r IH]; intros H; [reflexivity|].
  assert (Hc := H c (or_introl eq_refl)).
  assert (Hx : forall x, In x ($"(),""\" ++ [13%N]) -> N.eqb c x = false).
  { intros x Hx. destruct (N.eqb_spec c x) as [->|]; [contradiction|reflexivity]. }
  cbn [app comment]. rewrite (Hx 41%N), (Hx 13%N), (Hx 40%N), (Hx 92%N) by (vm_compute; tauto). cbn [orb].
  now rewrite IH by (intros x Hi; apply H; now right).
Qed.

(** where nothing is skipped *)
Definition solid (k : str) : Prop := match k with [] => True | c :: _ => ~ In c fws /\ c <> 40%N end.
Lemma goto_solid : forall lim cl k f, length k <= f -> solid k -> gotonext_loop f lim cl k = Some ([], cl, k).
Proof.
  intros lim cl k f Hf Hk. destruct k as [|c k]; [destruct f; reflexivity|].
  destruct f as [|f]; [cbn in Hf; lia|]. destruct Hk as [H1 H2]. cbn [gotonext_loop].
  rewrite (mem_char_false _ _ H1). now destruct (N.eqb_spec c 40).
Qed.
Lemma gotonext_solid : forall lim cl k, solid k -> gotonext lim cl k = Some ([], cl, k).
Proof. intros. now apply goto_solid. Qed.
Lemma gotonext_space : forall lim cl k, solid k -> gotonext lim cl (32%N :: k) = Some ([32%N], cl, k).
Proof.
  intros lim cl k Hk. unfold gotonext. cbn [length gotonext_loop]. change (mem_char 32 fws) with true.
  rewrite goto_solid by auto. reflexivity.
Qed.
Lemma gotonext_spaces : forall lim cl k, solid k ->
  gotonext lim cl k = Some ([], cl, k) /\ gotonext lim cl (32%N :: k) = Some ([32%N], cl, k).
Proof. split; [now apply gotonext_solid|now apply gotonext_space]. Qed.

(** ** The words of a name *)
Lemma word_text_nonempty : forall w, good_word w -> word_text w <> [].
Proof. intros [t|t] H; [exact (proj1 H)|discriminate]. Qed.
Lemma word_text_solid : forall w k, good_word w -> solid (word_text w ++ k).
Proof.
  intros [t|t] k H; cbn [word_text].
  - destruct H as [H0 H]. destruct t as [|c t]; [contradiction|]. inversion H as [|? ? Hc _]; subst.
    apply ordinary_facts in Hc. destruct Hc as (F & _ & _ & H40 & _). cbn [app solid]. split.
    + intros Hi. apply mem_char_true in Hi. congruence.
    + now apply N.eqb_neq.
  - cbn. split; [intuition discriminate|discriminate].
Qed.

(** what ends a phrase *)
Definition phrase_end (k : str) : Prop :=
  match k with [] => True | c :: _ => In c phraseends /\ c <> 34%N /\ c <> 40%N /\ ~ In c fws end.

Lemma phrase_stop : forall lim cl k f, length k <= f -> phrase_end k -> phrase_loop f lim cl k = Some ([], cl, k).
Proof.
  intros lim cl k f Hf Hk. destruct k as [|c k]; [destruct f; reflexivity|].
  destruct f as [|f]; [cbn in Hf; lia|]. destruct Hk as (H1 & H2 & H3 & H4). cbn [phrase_loop].
  rewrite (mem_char_false _ _ H4), (mem_char_true _ _ H1).
  apply N.eqb_neq in H2, H3. now rewrite H2, H3.
Qed.
Lemma phrase_space : forall lim cl k f, phrase_loop (S f) lim cl (32%N :: k) = phrase_loop f lim cl k.
Proof. reflexivity. Qed.
(** One word, followed by something that ends it. *)
Lemma phrase_word : forall lim cl w k f res, good_word w -> ends_at (phraseends) k ->
  length (word_text w ++ k) <= f ->
  (forall f', length k <= f' -> f' < f -> phrase_loop f' lim cl k = Some res) ->
  phrase_loop f lim cl (word_text w ++ k) =
    (let '(pl, cl', rest) := res in Some (word_meaning w :: pl, cl', rest)).
Proof.
  intros lim cl w k f [[pl cl'] rest] Hw Hk Hf IH. destruct f as [|f].
  { destruct (word_text w) as [|c t] eqn:E; [now apply word_text_nonempty in Hw|cbn in Hf; lia]. }
  rewrite app_length in Hf.
  destruct w as [t|t]; cbn [word_text word_meaning] in *.
  - destruct Hw as [H0 H]. destruct t as [|c t]; [contradiction|].
    assert (Ha : getatom phraseends ((c :: t) ++ k) = (c :: t, k)).
    { apply getatom_spec; [|exact Hk]. eapply Forall_impl; [|exact H]. intros x Hx. now apply ordinary_facts. }
    inversion H as [|? ? Hc _]; subst. apply ordinary_facts in Hc.
    destruct Hc as (F & _ & P & H40 & H34 & _). cbn [app] in *. cbn [phrase_loop]. rewrite F, H34, H40, P.
    rewrite Ha, IH; [reflexivity| |]; cbn [length] in Hf; lia.
  - cbn [app] in *. cbn [phrase_loop]. change (mem_char 34 fws) with false. change (N.eqb 34 34) with true. cbv iota.
    unfold getquote. rewrite <- app_assoc. cbn [app]. rewrite delimited_written by exact Hw.
    cbn [length] in Hf. rewrite app_length in Hf. cbn [length] in Hf. rewrite IH; [reflexivity| |]; lia.
Qed.
Lemma phrase_words : forall lim cl ws w k f, good_word w -> Forall good_word ws ->
  phrase_end k \/ (exists k', k = 32%N :: k' /\ phrase_end k') ->
  length (words_text w ws ++ k) <= f ->
  phrase_loop f lim cl (words_text w ws ++ k) =
    Some (map word_meaning (w :: ws), cl, match k with 32%N :: k' => k' | _ => k end).
Proof.
  intros lim cl. induction ws as [|w' ws IH]; intros w k f Hw Hws Hk Hf.
  - unfold words_text in *. cbn [map join] in *.
    assert (He : ends_at phraseends k).
    { destruct Hk as [Hk|[k' [-> Hk]]].
      - destruct k as [|c k]; [exact Logic.I|]. exact (proj1 Hk).
      - vm_compute. tauto. }
    rewrite (phrase_word lim cl w k f ([], cl, match k with 32%N :: k' => k' | _ => k end)); auto.
    intros f' H1 H2. destruct Hk as [Hk|[k' [-> Hk]]].
    + rewrite phrase_stop by auto. do 3 f_equal. destruct k as [|c k]; [reflexivity|].
      destruct (N.eq_dec c 32) as [->|Hc].
      * destruct Hk as (_ & _ & _ & Hk). exfalso. apply Hk. now left.
      * destruct c as [|p]; [reflexivity|]. do 6 (destruct p as [p|p|]; try reflexivity). contradiction.
    + destruct f' as [|f']; [cbn in H1; lia|]. rewrite phrase_space. apply phrase_stop; [cbn in H1; lia|exact Hk].
  - assert (E : words_text w (w' :: ws) = word_text w ++ 32%N :: words_text w' ws) by reflexivity.
    rewrite E in *. rewrite <- app_assoc in *. cbn [app] in *. inversion Hws as [|? ? Hw' Hws']; subst.
    rewrite (phrase_word lim cl w _ f (map word_meaning (w' :: ws), cl, match k with 32%N :: k' => k' | _ => k end)); auto.
    + vm_compute. tauto.
    + intros f' H1 H2. destruct f' as [|f']; [cbn in H1; lia|]. rewrite phrase_space. apply IH; auto. cbn [length] in H1. lia.
Qed.

(** ** Addresses *)
Lemma strip_solid : forall c t, is_space c = false -> strip (c :: t) <> [].
Proof.
  intros c t H E. unfold strip, strip_p, lstrip_p, rstrip_p in E. cbn [drop_while] in E. rewrite H in E.
  assert (E' : drop_while is_space (rev (c :: t)) = []) by (rewrite <- (rev_involutive (drop_while _ _)), E; reflexivity).
  cbn [rev] in E'. clear E. induction (rev t) as [|x l IH]; cbn in E'.
  - rewrite H in E'. discriminate.
  - destruct (is_space x); [auto|discriminate].
Qed.
Definition no_blank_last (l : list str) : Prop := match l with [] => True | x :: _ => strip x <> [] end.
Lemma pop_keep : forall l, no_blank_last l -> pop_blank l = l.
Proof. intros [|x l] H; [reflexivity|]. cbn in *. destruct (strip x); [contradiction|reflexivity]. Qed.

Lemma span_dot : forall a, Forall ordinary a ->
  exists p q, a = p ++ q /\ Forall (fun c => ordinary c /\ c <> 46%N) p /\ (q = [] \/ exists q', q = 46%N :: q').
Proof.
  intros a H. induction H as [|c a Hc Ha IH].
  - exists [], []. auto.
  - destruct (N.eq_dec c 46) as [->|Hn].
    + exists [], (46%N :: a). split; [reflexivity|]. split; [constructor|right; eauto].
    + destruct IH as (p & q & -> & Hp & Hq). exists (c :: p), q. repeat split; auto.
Qed.

Definition addr_end (k : str) : Prop :=
  match k with [] => True | c :: _ => In c atomends /\ c <> 46%N /\ c <> 34%N /\ ~ In c fws /\ c <> 40%N end.
Lemma addr_end_solid : forall k, addr_end k -> solid k.
Proof. intros [|c k] H; [exact Logic.I|]. vm_compute in *. tauto. Qed.
Lemma addr_end_ends : forall k, addr_end k -> ends_at atomends k.
Proof. intros [|c k] H; [exact Logic.I|]. vm_compute in *. tauto. Qed.

Lemma addrspec_atoms : forall n a, length a <= n -> Forall ordinary a ->
  forall lim cl l k f, addr_end k -> no_blank_last l -> length (a ++ k) <= f ->
  exists l', addrspec_loop f lim l cl (a ++ k) = Some (l', cl, k) /\ concat (rev l') = concat (rev l) ++ a.
Proof.
  induction n as [|n IH]; intros a Hn Ha lim cl l k f Hk Hl Hf.
  - destruct a; [|cbn in Hn; lia]. cbn [app] in *. exists l. rewrite app_nil_r. split; [|reflexivity].
    destruct k as [|c k]; [destruct f; reflexivity|]. destruct f as [|f]; [cbn in Hf; lia|].
    destruct Hk as (H1 & H2 & H3 & _). cbn [addrspec_loop]. apply N.eqb_neq in H2, H3. rewrite H2, H3.
    rewrite (mem_char_true _ _ H1). now rewrite pop_keep.
  - destruct a as [|c a].
    { apply (IH []); auto. cbn. lia. }
    destruct f as [|f]; [cbn in Hf; lia|].
    destruct (N.eq_dec c 46) as [->|H46].
    + inversion Ha as [|? ? _ Ha']; subst. cbn [app addrspec_loop]. change (N.eqb 46 46) with true. cbv iota.
      rewrite gotonext_solid.
      * rewrite pop_keep by exact Hl.
        destruct (IH a) with (lim := lim) (cl := cl) (l := [46%N] :: l) (k := k) (f := f) as (l' & E1 & E2); auto.
        -- cbn in Hn. lia.
        -- vm_compute. discriminate.
        -- cbn in Hf. lia.
        -- exists l'. split; [exact E1|]. rewrite E2. cbn [rev]. rewrite concat_app. cbn [concat]. rewrite <- !app_assoc. reflexivity.
      * destruct a as [|x a]; [now apply addr_end_solid|]. inversion Ha' as [|? ? Hx _]; subst.
        apply ordinary_facts in Hx. destruct Hx as (F & _ & _ & H40 & _). cbn [app solid]. split.
        -- intros Hi. apply mem_char_true in Hi. congruence.
        -- now apply N.eqb_neq.
    + destruct (span_dot (c :: a) Ha) as (p & q & E & Hp & Hq).
      destruct p as [|c' p].
      { cbn in E. destruct Hq as [->|[q' ->]]; congruence. }
      assert (c' = c) by (cbn in E; congruence). subst c'.
      assert (Hg : getatom atomends ((c :: p) ++ q ++ k) = (c :: p, q ++ k)).
      { apply getatom_spec.
        - eapply Forall_impl; [|exact Hp]. intros x [Hx Hx']. now apply ordinary_facts.
        - destruct Hq as [->|[q' ->]]; [now apply addr_end_ends|vm_compute; tauto]. }
      rewrite E, <- app_assoc. cbn [app] in Hg |- *. cbn [addrspec_loop].
      assert (Hc : ordinary c) by (now inversion Ha). pose proof (ordinary_facts _ Hc) as (F & _ & _ & H40 & H34 & _ & _ & _ & _ & _ & _ & _ & HA).
      specialize (HA H46). assert (H46' := H46). apply N.eqb_neq in H46'. rewrite H46', H34, HA, Hg.
      assert (Hq' : Forall ordinary q).
      { rewrite E in Ha. apply Forall_app in Ha. tauto. }
      assert (Hlen : length (c :: a) = length (c :: p) + length q) by (rewrite E, app_length; reflexivity).
      rewrite gotonext_solid.
      * destruct (IH q) with (lim := lim) (cl := cl) (l := (c :: p) :: l) (k := k) (f := f) as (l' & E1 & E2); auto.
        -- cbn in Hn, Hlen. lia.
        -- cbn [no_blank_last]. apply strip_solid. exact (proj1 Hc).
        -- rewrite app_length in *. cbn in Hf, Hlen. lia.
        -- exists l'. split; [exact E1|]. rewrite E2. cbn [rev]. rewrite concat_app. cbn [concat]. rewrite app_nil_r, <- app_assoc. reflexivity.
      * destruct Hq as [->|[q' ->]]; [now apply addr_end_solid|]. vm_compute. intuition discriminate.
Qed.

Lemma at_addr_end : forall k, addr_end (64%N :: k).
Proof. intros k. vm_compute. intuition discriminate. Qed.
(** The part before the at sign. *)
Lemma addrspec_local : forall lim cl a k f, good_address a -> length (word_text (local a) ++ 64%N :: k) <= f ->
  exists l', addrspec_loop f lim [] cl (word_text (local a) ++ 64%N :: k) = Some (l', cl, 64%N :: k) /\
             concat (rev l') = word_text (local a).
Proof.
  intros lim cl [w d] k f [Hw _] Hf. cbn [local] in *. destruct w as [t|t]; cbn [word_text] in *.
  - destruct Hw as [_ Hw]. apply (addrspec_atoms (length t) t); auto. apply at_addr_end. exact Logic.I.
  - destruct f as [|f]; [cbn in Hf; lia|]. destruct Hw as [Hw _].
    rewrite <- !app_assoc in *. cbn [app] in *. cbn [addrspec_loop]. change (N.eqb 34 46) with false. change (N.eqb 34 34) with true.
    cbv iota. unfold getquote. rewrite delimited_written by exact Hw.
    rewrite gotonext_solid by (vm_compute; intuition discriminate).
    rewrite quote_escaped. destruct f as [|f]; [cbn in Hf; rewrite app_length in Hf; cbn in Hf; lia|].
    cbn [addrspec_loop]. change (N.eqb 64 46) with false. change (N.eqb 64 34) with false. change (mem_char 64 atomends) with true.
    cbv iota. eexists. split; [rewrite pop_keep|].
    + reflexivity.
    + cbn [no_blank_last app]. now apply strip_solid.
    + cbn [rev concat app]. now rewrite app_nil_r.
Qed.

(** The domain. *)
Lemma domain_atoms : forall n a, length a <= n -> Forall ordinary a ->
  forall lim cl k f d cl' rest, ends_at atomends k -> length (a ++ k) <= f ->
  (forall f', length k <= f' -> domain_loop f' lim cl k = Some (d, cl', rest)) ->
  domain_loop f lim cl (a ++ k) = Some (option_map (app a) d, cl', rest).
Proof.
  induction n as [|n IH]; intros a Hn Ha lim cl k f d cl' rest Hk Hf Hd.
  - destruct a; [|cbn in Hn; lia]. cbn [app] in *. rewrite Hd by exact Hf. destruct d; reflexivity.
  - destruct a as [|c a].
    { cbn [app] in *. rewrite Hd by exact Hf. destruct d; reflexivity. }
    destruct f as [|f]; [cbn in Hf; lia|]. assert (Hc : ordinary c) by (now inversion Ha).
    pose proof (ordinary_facts _ Hc) as (F & L & _ & H40 & H34 & H91 & H64 & _ & _ & _ & _ & _ & HA).
    destruct (N.eq_dec c 46) as [->|H46].
    + inversion Ha as [|? ? _ Ha']; subst. cbn [app]. cbn [domain_loop]. rewrite L, H40, H91. change (N.eqb 46 46) with true. cbv iota.
      rewrite (IH a) with (d := d) (cl' := cl') (rest := rest); auto; [destruct d; reflexivity| |]; cbn in Hn, Hf; lia.
    + destruct (span_dot (c :: a) Ha) as (p & q & E & Hp & Hq).
      destruct p as [|c' p].
      { cbn in E. destruct Hq as [->|[q' ->]]; congruence. }
      assert (c' = c) by (cbn in E; congruence). subst c'.
      assert (Hg : getatom atomends ((c :: p) ++ q ++ k) = (c :: p, q ++ k)).
      { apply getatom_spec.
        - eapply Forall_impl; [|exact Hp]. intros x [Hx Hx']. now apply ordinary_facts.
        - destruct Hq as [->|[q' ->]]; [exact Hk|vm_compute; tauto]. }
      assert (Hq' : Forall ordinary q).
      { rewrite E in Ha. apply Forall_app in Ha. tauto. }
      assert (Hlen : length (c :: a) = length (c :: p) + length q) by (rewrite E, app_length; reflexivity).
      specialize (HA H46). assert (H46' := H46). apply N.eqb_neq in H46'.
      rewrite E, <- app_assoc. cbn [app] in Hg |- *. cbn [domain_loop]. rewrite L, H40, H91, H46', H64, HA, Hg.
      rewrite (IH q) with (d := d) (cl' := cl') (rest := rest); auto.
      * destruct d as [d|]; cbn [option_map]; [|reflexivity]. rewrite app_assoc. reflexivity.
      * cbn in Hn, Hlen. lia.
      * rewrite app_length in *. cbn in Hf, Hlen. lia.
Qed.
Definition domain_end (k : str) : Prop :=
  match k with [] => True | c :: _ => In c atomends /\ ~ In c lws /\ c <> 40%N /\ c <> 91%N /\ c <> 46%N /\ c <> 64%N end.
Lemma domain_stop : forall lim cl k f, length k <= f -> domain_end k -> domain_loop f lim cl k = Some (Some [], cl, k).
Proof.
  intros lim cl k f Hf Hk. destruct k as [|c k]; [destruct f; reflexivity|].
  destruct f as [|f]; [cbn in Hf; lia|]. destruct Hk as (H1 & H2 & H3 & H4 & H5 & H6). cbn [domain_loop].
  apply N.eqb_neq in H3, H4, H5, H6. rewrite (mem_char_false _ _ H2), (mem_char_true _ _ H1), H3, H4, H5, H6. reflexivity.
Qed.
Lemma domain_space : forall lim cl k f d cl' rest, length (32%N :: k) <= f ->
  (forall f', length k <= f' -> domain_loop f' lim cl k = Some (d, cl', rest)) ->
  domain_loop f lim cl (32%N :: k) = Some (d, cl', rest).
Proof. intros lim cl k f d cl' rest Hf H. destruct f as [|f]; [cbn in Hf; lia|]. cbn [domain_loop]. apply H. cbn in Hf. lia. Qed.
Lemma domain_comment : forall lim cl r k f d cl' rest, good_remark r -> length (40%N :: r ++ 41%N :: k) <= f ->
  (forall f', length k <= f' -> domain_loop f' lim (cl ++ [r]) k = Some (d, cl', rest)) ->
  domain_loop f lim cl (40%N :: r ++ 41%N :: k) = Some (d, cl', rest).
Proof.
  intros lim cl r k f d cl' rest Hr Hf H. destruct f as [|f]; [cbn in Hf; lia|]. cbn [domain_loop].
  change (mem_char 40 lws) with false. change (N.eqb 40 40) with true. cbv iota. rewrite comment_plain by exact Hr.
  apply H. cbn in Hf. rewrite app_length in Hf. cbn in Hf. lia.
Qed.

Lemma good_domain_solid : forall d k, good_atom d -> solid (d ++ k).
Proof. intros d k H. exact (word_text_solid (Atom d) k H). Qed.
Lemma local_solid : forall a k, good_address a -> solid (word_text (local a) ++ k).
Proof.
  intros [w d] k [H _]. cbn [local] in *. apply word_text_solid. destruct w; vm_compute in *; tauto.
Qed.

(** What follows an address: what the domain parser makes of it. *)
Lemma getaddrspec_spec : forall lim cl a k cl' rest, good_address a -> ends_at atomends k ->
  (forall f', length k <= f' -> domain_loop f' lim cl k = Some (Some [], cl', rest)) ->
  getaddrspec lim cl (address_text a ++ k) = Some (address_text a, cl', rest).
Proof.
  intros lim cl a k cl' rest Ha Hk Hd. unfold getaddrspec, address_text. rewrite <- !app_assoc.
  change ($"@" ++ domain a ++ k) with (64%N :: domain a ++ k).
  rewrite gotonext_solid by (now apply local_solid).
  destruct (addrspec_local lim cl a (domain a ++ k) _ Ha (Nat.le_refl _)) as (l' & E1 & E2). rewrite E1.
  change (N.eqb 64 64) with true. cbv iota. destruct Ha as [_ Hdom]. rewrite gotonext_solid by (now apply good_domain_solid).
  unfold getdomain. rewrite (domain_atoms (length (domain a)) (domain a)) with (d := Some []) (cl' := cl') (rest := rest); auto.
  2: exact (proj2 Hdom).
  cbn [option_map]. rewrite app_nil_r. destruct (domain a) as [|c d] eqn:E; [now destruct Hdom|]. rewrite E2. reflexivity.
Qed.

(** ** One mailbox, followed by a comma, a semicolon or nothing *)
Definition list_end (k : str) : Prop := match k with [] => True | c :: _ => c = 44%N \/ c = 59%N end.
Definition past_comma (k : str) : str := match k with c :: r => if N.eqb c 44 then r else k | [] => [] end.
Lemma after_end : forall lim l k, list_end k -> after_address lim l k = Some (l, past_comma k).
Proof.
  intros lim l k H. unfold after_address. rewrite gotonext_solid.
  - destruct k as [|c k]; [reflexivity|]. cbn. now destruct (N.eqb c 44).
  - destruct k as [|c k]; [exact Logic.I|]. destruct H as [-> | ->]; vm_compute; intuition discriminate.
Qed.
Lemma after_space_end : forall lim l k, list_end k -> after_address lim l (32%N :: k) = Some (l, past_comma k).
Proof.
  intros lim l k H. unfold after_address. rewrite gotonext_space.
  - destruct k as [|c k]; [reflexivity|]. cbn. now destruct (N.eqb c 44).
  - destruct k as [|c k]; [exact Logic.I|]. destruct H as [-> | ->]; vm_compute; intuition discriminate.
Qed.
Lemma list_end_phrase : forall k, list_end k -> phrase_end k.
Proof. intros [|c k] H; [exact Logic.I|]. destruct H as [-> | ->]; vm_compute; intuition discriminate. Qed.
Lemma list_end_domain : forall k, list_end k -> domain_end k.
Proof. intros [|c k] H; [exact Logic.I|]. destruct H as [-> | ->]; vm_compute; intuition discriminate. Qed.
Lemma list_end_atom : forall k, list_end k -> ends_at atomends k.
Proof. intros [|c k] H; [exact Logic.I|]. destruct H as [-> | ->]; vm_compute; tauto. Qed.

(** The phrase parser sees the part before the at sign as a word. *)
Lemma phrase_local : forall lim cl a k, good_address a ->
  getphraselist lim cl (word_text (local a) ++ 64%N :: k) = Some ([word_meaning (local a)], cl, 64%N :: k).
Proof.
  intros lim cl a k Ha. unfold getphraselist.
  assert (Hw : good_word (local a)) by (destruct Ha as [H _]; destruct (local a); vm_compute in *; tauto).
  pose proof (phrase_words lim cl [] (local a) (64%N :: k) (length (word_text (local a) ++ 64%N :: k)) Hw (Forall_nil _)) as P.
  unfold words_text in P. cbn [map join] in P. apply P; [|apply Nat.le_refl]. left. vm_compute. intuition discriminate.
Qed.

Definition pair_of (m : mailbox) : str * str := (mailbox_name m, mailbox_address m).

Lemma getaddress_unfold : forall lim s, getaddress lim s =
  match gotonext lim [] s with
  | None => None
  | Some (_, cl0, s0) =>
      match getphraselist lim cl0 s0 with
      | None => None
      | Some (pl, cl1, s1) =>
          match gotonext lim cl1 s1 with
          | None => None
          | Some (_, cl, s2) =>
              let only := match pl with [] => [] | p :: _ => [(join [32%N] cl, p)] end in
              match s2 with
              | [] => after_address lim only []
              | c :: r =>
                  if N.eqb c 46 || N.eqb c 64 then
                    match getaddrspec lim cl s0 with
                    | None => None
                    | Some (a, cl', s3) => after_address lim [(join [32%N] cl', a)] s3
                    end
                  else if N.eqb c 58 then
                    match lim with
                    | O => None
                    | S l =>
                        match group_loop (getaddress l) (length r) lim r with
                        | None => None
                        | Some (g, s3) => after_address lim g s3
                        end
                    end
                  else if N.eqb c 60 then
                    match getrouteaddr lim cl r with
                    | None => None
                    | Some (a, cl', s3) =>
                        let name := join [32%N] pl in
                        after_address lim
                          [(match cl' with [] => name | _ => name ++ $" (" ++ join [32%N] cl' ++ $")" end, a)] s3
                    end
                  else
                    match pl with
                    | _ :: _ => after_address lim only s2
                    | [] => after_address lim [] (if mem_char c specials then r else s2)
                    end
              end
          end
      end
  end.
Proof. intros [|lim] s; reflexivity. Qed.

(** An address alone, followed by anything that ends the domain. *)
Lemma getaddress_bare : forall lim a k cl' rest, good_address a -> ends_at atomends k ->
  (forall f', length k <= f' -> domain_loop f' lim [] k = Some (Some [], cl', rest)) ->
  getaddress lim (address_text a ++ k) = after_address lim [(join [32%N] cl', address_text a)] rest.
Proof.
  intros lim a k cl' rest Ha Hk Hd. rewrite getaddress_unfold.
  assert (E : address_text a ++ k = word_text (local a) ++ 64%N :: domain a ++ k).
  { unfold address_text. rewrite <- !app_assoc. reflexivity. }
  rewrite E, gotonext_solid by (now apply local_solid). rewrite phrase_local by exact Ha.
  rewrite gotonext_solid by (vm_compute; intuition discriminate). cbn zeta.
  change (N.eqb 64 46 || N.eqb 64 64) with true. cbv iota. rewrite <- E.
  rewrite (getaddrspec_spec lim [] a k cl' rest) by auto. reflexivity.
Qed.
(** An address in angle brackets, with the name before it. *)
Lemma route_spec : forall lim cl a k, good_address a -> getrouteaddr lim cl (address_text a ++ 62%N :: k) = Some (address_text a, cl, k).
Proof.
  intros lim cl a k Ha. unfold getrouteaddr.
  assert (Hs : solid (address_text a ++ 62%N :: k)).
  { unfold address_text. rewrite <- !app_assoc. now apply local_solid. }
  rewrite gotonext_solid by exact Hs.
  assert (Hc : exists c r, address_text a ++ 62%N :: k = c :: r /\ N.eqb c 62 = false /\ N.eqb c 64 = false /\ N.eqb c 58 = false).
  { unfold address_text. destruct a as [w d]. destruct Ha as [Hw _]. cbn [local domain] in *. destruct w as [t|t]; cbn [word_text] in *.
    - destruct Hw as [H0 Hw]. destruct t as [|c t]; [contradiction|]. inversion Hw as [|? ? Hc _]; subst.
      apply ordinary_facts in Hc. exists c, (((t ++ $"@" ++ d)) ++ 62%N :: k). cbn [app]. intuition.
    - eexists 34%N, _. split; [reflexivity|]. auto. }
  destruct Hc as (c & r & E & H62 & H64 & H58).
  pose proof (getaddrspec_spec lim cl a (62%N :: k) cl (62%N :: k) Ha) as P. rewrite E in *.
  cbn [length Nat.mul Nat.add]. cbn [route_loop]. rewrite H62, H64, H58. cbn [orb]. rewrite P; [reflexivity| |].
  - vm_compute. tauto.
  - intros f' Hf. apply domain_stop; [exact Hf|]. vm_compute. intuition discriminate.
Qed.

Lemma words_solid : forall w ws k, good_word w -> solid (words_text w ws ++ k).
Proof.
  intros w [|w' ws] k Hw; unfold words_text; cbn [map join]; [now apply word_text_solid|].
  rewrite <- app_assoc. now apply word_text_solid.
Qed.
Lemma getaddress_named : forall lim w ws a k, good_word w -> Forall good_word ws -> good_address a ->
  getaddress lim (words_text w ws ++ $" <" ++ address_text a ++ $">" ++ k) =
  after_address lim [(join ($" ") (map word_meaning (w :: ws)), address_text a)] k.
Proof.
  intros lim w ws a k Hw Hws Ha. rewrite getaddress_unfold.
  change ($" <" ++ address_text a ++ $">" ++ k) with (32%N :: 60%N :: address_text a ++ 62%N :: k).
  rewrite gotonext_solid by (now apply words_solid). unfold getphraselist.
  rewrite phrase_words; auto.
  2: { right. eexists. split; [reflexivity|]. vm_compute. intuition discriminate. }
  rewrite gotonext_solid by (vm_compute; intuition discriminate). cbn zeta.
  change (N.eqb 60 46 || N.eqb 60 64) with false. change (N.eqb 60 58) with false. change (N.eqb 60 60) with true. cbv iota.
  rewrite route_spec by exact Ha. reflexivity.
Qed.

Lemma mailbox_read : forall lim m k, good_mailbox m -> list_end k ->
  getaddress lim (mailbox_text m ++ k) = Some ([pair_of m], past_comma k).
Proof.
  intros lim [a|a r|w ws a] k Hm Hk; cbn [mailbox_text good_mailbox] in *.
  - rewrite (getaddress_bare lim a k [] k); auto.
    + now rewrite after_end.
    + now apply list_end_atom.
    + intros f' Hf. apply domain_stop; [exact Hf|]. now apply list_end_domain.
  - destruct Hm as [Ha Hr]. rewrite <- !app_assoc.
    rewrite (getaddress_bare lim a _ [r] k); auto.
    + now rewrite after_end.
    + vm_compute. tauto.
    + intros f' Hf. change ($" (" ++ r ++ $")" ++ k) with (32%N :: 40%N :: r ++ 41%N :: k) in *.
      apply domain_space; [exact Hf|]. intros f'' Hf'. apply domain_comment; [exact Hr|exact Hf'|].
      intros f3 Hf3. apply domain_stop; [exact Hf3|]. now apply list_end_domain.
  - destruct Hm as (Hw & Hws & Ha). rewrite <- !app_assoc. rewrite getaddress_named by auto. now rewrite after_end.
Qed.
Lemma mailbox_solid : forall m k, good_mailbox m -> solid (mailbox_text m ++ k).
Proof.
  intros [a|a r|w ws a] k Hm; cbn [mailbox_text good_mailbox] in *.
  - unfold address_text. rewrite <- !app_assoc. now apply local_solid.
  - destruct Hm. unfold address_text. rewrite <- !app_assoc. now apply local_solid.
  - destruct Hm as (Hw & _). rewrite <- !app_assoc. now apply words_solid.
Qed.
Lemma getaddress_skip : forall lim k, solid k -> getaddress lim (32%N :: k) = getaddress lim k.
Proof. intros lim k Hk. rewrite !getaddress_unfold. now rewrite gotonext_space, gotonext_solid. Qed.

(** ** Groups *)
Lemma mailbox_nonempty : forall m, good_mailbox m -> mailbox_text m <> [].
Proof.
  intros m Hm E. destruct m as [a|a r|w ws a]; cbn in *.
  - unfold address_text in E. apply app_eq_nil in E. destruct E as [_ E]. discriminate.
  - unfold address_text in E. rewrite <- app_assoc in E. apply app_eq_nil in E. destruct E as [_ E]. discriminate.
  - apply app_eq_nil in E. destruct E as [_ E]. discriminate.
Qed.
Lemma mailbox_head : forall m k, good_mailbox m -> exists c r, mailbox_text m ++ k = c :: r /\ N.eqb c 59 = false.
Proof.
  assert (Hl : forall w k, good_word w -> exists c r, word_text w ++ k = c :: r /\ N.eqb c 59 = false).
  { intros [t|t] k Hw; cbn [word_text].
    - destruct Hw as [H0 Hw]. destruct t as [|c t]; [contradiction|]. inversion Hw as [|? ? Hc _]; subst.
      exists c, (t ++ k). split; [reflexivity|]. apply N.eqb_neq. intros ->. destruct Hc as [_ Hc]. apply Hc. vm_compute. tauto.
    - eexists 34%N, _. split; reflexivity. }
  assert (Ha : forall a, good_address a -> good_word (local a)).
  { intros [w d] [H _]. destruct w; vm_compute in *; tauto. }
  intros [a|a r|w ws a] k Hm; cbn [mailbox_text good_mailbox] in *.
  - unfold address_text. rewrite <- !app_assoc. auto.
  - destruct Hm. unfold address_text. rewrite <- !app_assoc. auto.
  - destruct Hm as (Hw & _). unfold words_text. destruct ws; cbn [map join]; rewrite <- !app_assoc; auto.
Qed.
Lemma group_read : forall lim gl ms k f, Forall good_mailbox ms ->
  forall sp, sp = [] \/ sp = [32%N] -> length (sp ++ join ($", ") (map mailbox_text ms) ++ 59%N :: k) <= f ->
  group_loop (getaddress gl) f lim (sp ++ join ($", ") (map mailbox_text ms) ++ 59%N :: k) = Some (map pair_of ms, k).
Proof.
  intros lim gl ms k. induction ms as [|m ms IH]; intros f Hms sp Hsp Hf.
  - cbn [map join app] in *. destruct f as [|f]; [rewrite app_length in Hf; cbn in Hf; lia|].
    destruct Hsp as [-> | ->]; cbn [app].
    + cbn [group_loop]. rewrite gotonext_solid by (vm_compute; intuition discriminate). reflexivity.
    + cbn [group_loop]. rewrite gotonext_space by (vm_compute; intuition discriminate). reflexivity.
  - inversion Hms as [|? ? Hm Hms']; subst.
    assert (E : exists sp' ms', (join ($", ") (map mailbox_text (m :: ms)) ++ 59%N :: k = mailbox_text m ++ sp' /\
                list_end sp' /\ past_comma sp' = ms' /\
                (ms' = 32%N :: join ($", ") (map mailbox_text ms) ++ 59%N :: k \/ (ms = [] /\ ms' = 59%N :: k)))).
    { destruct ms as [|m' ms]; cbn [map join].
      - exists (59%N :: k), (59%N :: k). vm_compute. tauto.
      - exists (44%N :: 32%N :: join ($", ") (map mailbox_text (m' :: ms)) ++ 59%N :: k). eexists.
        split; [rewrite <- !app_assoc; reflexivity|]. split; [vm_compute; tauto|]. split; [reflexivity|]. left. reflexivity. }
    destruct E as (sp' & ms' & E & Hend & Hpast & Hms2). rewrite E in *.
    pose proof (mailbox_nonempty m Hm) as Hne.
    assert (Hlen : length ms' <= length sp').
    { subst ms'. destruct sp' as [|c sp']; [cbn; lia|]. cbn. destruct (N.eqb c 44); cbn; lia. }
    destruct f as [|f].
    { rewrite !app_length in Hf. destruct (mailbox_text m); [contradiction|cbn in Hf; lia]. }
    assert (Hgo : forall s0, gotonext lim [] (sp ++ mailbox_text m ++ sp') = Some (s0, [], mailbox_text m ++ sp') ->
      group_loop (getaddress gl) (S f) lim (sp ++ mailbox_text m ++ sp') = Some (map pair_of (m :: ms), k)).
    { intros s0 G. destruct (mailbox_head m sp' Hm) as (c & r & E2 & H59).
      assert (Hr : group_loop (getaddress gl) f lim ms' = Some (map pair_of ms, k)).
      { assert (Hlf : length ms' <= f).
        { rewrite !app_length in Hf. destruct (mailbox_text m); [contradiction|cbn in Hf; lia]. }
        destruct Hms2 as [Hms2|[-> Hms2]]; rewrite Hms2 in *.
        - apply (IH f Hms' [32%N]); [auto|exact Hlf].
        - apply (IH f Hms' []); [auto|exact Hlf]. }
      assert (HS : sp ++ mailbox_text m ++ sp' <> []).
      { rewrite E2. destruct sp; discriminate. }
      destruct (sp ++ mailbox_text m ++ sp') as [|x y] eqn:Exy; [contradiction|].
      cbn [group_loop]. rewrite G. rewrite E2, H59, <- E2. rewrite mailbox_read by auto. rewrite Hpast, Hr. reflexivity. }
    destruct Hsp as [-> | ->].
    + apply (Hgo []). cbn [app]. rewrite gotonext_solid; [reflexivity|]. now apply mailbox_solid.
    + apply (Hgo [32%N]). cbn [app]. rewrite gotonext_space; [reflexivity|]. now apply mailbox_solid.
Qed.

(** ** Headers *)
Definition read_entry (e : entry) : list (str * str) := map pair_of (mailboxes e).
Definition levels (es : list entry) : nat := if existsb (fun e => match e with Group _ _ _ => true | _ => false end) es then 1 else 0.

Lemma entry_read : forall lim e k, good_entry e -> (match e with Group _ _ _ => 1 <= lim | _ => True end) -> list_end k ->
  getaddress lim (entry_text e ++ k) = Some (read_entry e, past_comma k).
Proof.
  intros lim [m|w ws ms] k He Hl Hk; cbn [entry_text good_entry] in *.
  - now apply mailbox_read.
  - destruct He as (Hw & Hws & Hms). rewrite <- !app_assoc. rewrite getaddress_unfold.
    rewrite gotonext_solid by (now apply words_solid). unfold getphraselist.
    change ($": " ++ join ($", ") (map mailbox_text ms) ++ $";" ++ k)
      with (58%N :: [32%N] ++ join ($", ") (map mailbox_text ms) ++ 59%N :: k).
    rewrite phrase_words; auto.
    2: { left. vm_compute. intuition discriminate. }
    rewrite gotonext_solid by (vm_compute; intuition discriminate). cbn zeta.
    change (N.eqb 58 46 || N.eqb 58 64) with false. change (N.eqb 58 58) with true. cbv iota.
    destruct lim as [|l]; [lia|].
    rewrite (group_read (S l) l ms k _ Hms [32%N]); [|auto|apply Nat.le_refl]. now rewrite after_end.
Qed.
Lemma entry_solid : forall e k, good_entry e -> solid (entry_text e ++ k).
Proof.
  intros [m|w ws ms] k He; cbn [entry_text good_entry] in *; [now apply mailbox_solid|].
  rewrite <- !app_assoc. apply words_solid. tauto.
Qed.
Lemma entry_nonempty : forall e, good_entry e -> entry_text e <> [].
Proof.
  intros [m|w ws ms] He; cbn [entry_text good_entry] in *; [now apply mailbox_nonempty|].
  intros E. apply app_eq_nil in E. destruct E as [_ E]. discriminate.
Qed.

(** what the parser returns for an entry: an empty pair for an empty group *)
Definition pairs_read (e : entry) : list (str * str) := match read_entry e with [] => [([], [])] | l => l end.

Lemma header_read : forall lim es, Forall good_entry es -> levels es <= lim ->
  getaddrlist lim (header_text es) = Some (flat_map pairs_read es).
Proof.
  intros lim es Hes Hl. unfold getaddrlist, header_text.
  assert (G : forall f sp, sp = [] \/ sp = [32%N] -> es <> [] -> length (sp ++ join ($", ") (map entry_text es)) <= f ->
     addrlist_loop f lim (sp ++ join ($", ") (map entry_text es)) = Some (flat_map pairs_read es)).
  { induction es as [|e es IH]; intros f sp Hsp Hne Hf; [contradiction|]. clear Hne.
    inversion Hes as [|? ? He Hes']; subst.
    assert (Hle : match e with Group _ _ _ => 1 <= lim | _ => True end).
    { destruct e; [exact Logic.I|]. cbn in Hl. exact Hl. }
    assert (Hl' : levels es <= lim).
    { unfold levels in *. cbn [existsb] in Hl. destruct (existsb _ es); [|lia]. rewrite orb_true_r in Hl. exact Hl. }
    pose proof (entry_nonempty e He) as Hen.
    destruct f as [|f].
    { destruct es; cbn [map join] in Hf; rewrite !app_length in Hf; destruct (entry_text e); try contradiction; cbn in Hf; lia. }
    assert (E : exists k, join ($", ") (map entry_text (e :: es)) = entry_text e ++ k /\ list_end k /\
      ((es = [] /\ k = []) \/ (es <> [] /\ k = 44%N :: 32%N :: join ($", ") (map entry_text es)))).
    { destruct es as [|e' es]; cbn [map join].
      - exists []. rewrite app_nil_r. split; [reflexivity|]. split; [exact Logic.I|]. left. auto.
      - eexists. split; [reflexivity|]. split; [left; reflexivity|]. right. split; [discriminate|reflexivity]. }
    destruct E as (k & E & Hk & Hk'). rewrite E in *.
    assert (Hread : getaddress lim (sp ++ entry_text e ++ k) = Some (read_entry e, past_comma k)).
    { destruct Hsp as [-> | ->]; cbn [app]; [|rewrite getaddress_skip by (now apply entry_solid)]; now apply entry_read. }
    assert (Hnn : sp ++ entry_text e ++ k <> []).
    { intros E0. apply app_eq_nil in E0. destruct E0 as [_ E0]. apply app_eq_nil in E0. tauto. }
    destruct (sp ++ entry_text e ++ k) as [|x y] eqn:Exy; [contradiction|].
    cbn [addrlist_loop]. rewrite Hread. cbn [flat_map].
    destruct Hk' as [[-> ->]|[Hnes ->]].
    - cbn [past_comma]. destruct f; cbn [addrlist_loop flat_map]; rewrite !app_nil_r; unfold pairs_read; destruct (read_entry e); reflexivity.
    - cbn [past_comma]. change (N.eqb 44 44) with true. cbv iota.
      assert (Hlen : length (32%N :: join ($", ") (map entry_text es)) <= f).
      { rewrite <- Exy, !app_length in Hf. destruct (entry_text e); [contradiction|]. cbn in Hf |- *. lia. }
      pose proof (IH Hes' Hl' f [32%N]) as IHf. cbn [app] in IHf. rewrite IHf; auto. unfold pairs_read at 2. destruct (read_entry e); reflexivity. }
  destruct es as [|e es]; [reflexivity|]. apply (G _ []); auto. discriminate.
Qed.
