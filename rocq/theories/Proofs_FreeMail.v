(** Proofs about the free mail rules. *)
From Coq Require Import Lia Permutation.
From Coq Require Import Sorting.Sorted.
From Verif Require Import PyStr Model_Files Spec_Files Proofs_Files Spec_Wlbl Model_FreeMail Spec_FreeMail.

Lemma gmatch_iff e : forall s, ~ In 10%N s -> gmatch e s = true <-> fits e s.
Proof.
  unfold fits. induction e as [|c e IH]; intros s Hn; cbn [gmatch like].
  - destruct s as [|d [|? ?]]; [split; reflexivity | | split; discriminate]. split; [|discriminate].
    intros H. apply N.eqb_eq in H as ->. exfalso. apply Hn. left. reflexivity.
  - destruct (N.eqb c 42).
    + induction s as [|d s IHs].
      * rewrite orb_false_r, IH by (intros []). split.
        -- intros H. exists [], []. split; [reflexivity|]. split; [exact H | intros []].
        -- intros (a & b & E & H & _). symmetry in E. apply app_eq_nil in E as [-> ->]. exact H.
      * rewrite orb_true_iff, IH, andb_true_iff, IHs; [| |exact Hn].
        2:{ intros H. apply Hn. right. exact H. }
        rewrite negb_true_iff, N.eqb_neq. split.
        -- intros [H | [Hd (a & b & -> & H & Ha)]].
           ++ exists [], (d :: s). split; [reflexivity|]. split; [exact H | intros []].
           ++ exists (d :: a), b. split; [reflexivity|]. split; [exact H|]. intros [E | E]; [congruence | exact (Ha E)].
        -- intros ([|x a] & b & E & H & Ha); [left; cbn in E; subst b; exact H|]. right. injection E as <- ->. split.
           ++ intros ->. apply Ha. left. reflexivity.
           ++ exists a, b. split; [reflexivity|]. split; [exact H|]. intros K. apply Ha. right. exact K.
    + destruct (N.eqb c 63).
      * destruct s as [|d s].
        -- split; [discriminate|]. intros (a & b & E & _ & L). symmetry in E. apply app_eq_nil in E as [-> _]. discriminate.
        -- rewrite andb_true_iff, negb_true_iff, N.eqb_neq, IH by (intros H; apply Hn; right; exact H). split.
           ++ intros [_ H]. exists [d], s. split; [reflexivity|]. split; [exact H | reflexivity].
           ++ intros (a & b & E & H & L). destruct a as [|x [|? ?]]; try discriminate. injection E as <- <-. split; [|exact H].
              intros ->. apply Hn. left. reflexivity.
      * destruct s as [|d s].
        -- split; [discriminate|]. intros (a & b & E & _ & ->). discriminate.
        -- rewrite andb_true_iff, N.eqb_eq, IH by (intros H; apply Hn; right; exact H). split.
           ++ intros [-> H]. exists [d], s. auto.
           ++ intros (a & b & E & H & ->). injection E as -> ->. auto.
Qed.
Lemma at_search_none f s : ~ In 64%N s -> at_search f s = false.
Proof.
  induction s as [|c s IH]; intros H; [reflexivity|]. cbn [at_search]. rewrite IH by (intros K; apply H; right; exact K).
  destruct (N.eqb_spec c 64) as [-> | _]; [exfalso; apply H; left; reflexivity | reflexivity].
Qed.
Lemma at_search_one f u d : ~ In 64%N u -> ~ In 64%N d -> at_search f (u ++ 64%N :: d) = f d.
Proof.
  intros Hu Hd. induction u as [|c u IH]; cbn [app at_search].
  - rewrite at_search_none by exact Hd. rewrite orb_false_r. reflexivity.
  - destruct (N.eqb_spec c 64) as [-> | _]; [exfalso; apply Hu; left; reflexivity|]. cbn [andb orb]. apply IH. intros K. apply Hu. right. exact K.
Qed.

Lemma filter_all {A} (f : A -> bool) l : (forall x, In x l -> f x = true) -> filter f l = l.
Proof. induction l as [|x l IH]; intros H; [reflexivity|]. cbn. rewrite (H x (or_introl eq_refl)), IH; [reflexivity|]. intros y Hy. apply H. right. exact Hy. Qed.
Lemma valid_good d : valid_domain d = true <-> good_domain d.
Proof.
  assert (C : forall c, domain_char c = true <-> (97 <= c <= 122)%N \/ (48 <= c <= 57)%N \/ In c ($".*?-")).
  { intros c. unfold domain_char. rewrite !orb_true_iff, !andb_true_iff, !N.leb_le, !N.eqb_eq. change ($".*?-") with [46%N; 42%N; 63%N; 45%N]. cbn [In]. intuition. }
  unfold valid_domain, good_domain. destruct d as [|c d].
  - split; [discriminate | intros [H _]; congruence].
  - rewrite forallb_forall. split.
    + intros H. split; [discriminate|]. intros x Hx. apply C, H, Hx.
    + intros [_ H] x Hx. apply C, H, Hx.
Qed.
Lemma started_plain domains s : plain_domains domains -> started domains s ->
  fd_list s = domains /\ (forall e, (match fd_wild s with Some l => In e l | None => False end) <-> In e domains /\ In 42%N e).
Proof.
  intros P0 H. assert (P : forall d, In d domains -> valid_domain d = true) by (intros d Hd; apply valid_good, P0, Hd). clear P0.
  induction H as [|s H [IH1 IH2]]; cbn [check_start_domains fd_list fd_wild].
  - split; [apply filter_all, P|]. intros e. pose proof (filter_In (mem_char 42%N) e domains) as F. rewrite mem_char_In in F.
    destruct (filter (mem_char 42%N) domains); [cbn in F; exact F | exact F].
  - rewrite IH1. split; [apply filter_all, P|]. intros e. pose proof (filter_In (mem_char 42%N) e domains) as F. rewrite mem_char_In in F.
    destruct (filter (mem_char 42%N) domains) eqn:E; [apply IH2 | exact F].
Qed.

Section Plugin.
Variable other : str -> str -> bool.
Variable role : str -> bool.
Variable whitelist domains : list str.
Variable s : fdomains.
Hypothesis HP : plain_domains domains.
Hypothesis HS : started domains s.
Let free := freemail role whitelist domains.
Let isf := is_freemail other role whitelist s.

Lemma wild_iff u d : ~ In 64%N u -> ~ In 64%N d -> ~ In 10%N d ->
  (wild_match other s (u ++ 64%N :: d) = true <-> exists e, In e domains /\ In 42%N e /\ fits e d).
Proof.
  intros Hu Hd Hn. destruct (started_plain domains s HP HS) as [_ W]. unfold wild_match.
  destruct (fd_wild s) as [l|].
  - rewrite existsb_exists. split.
    + intros (e & He & M). apply W in He as [He Hs]. rewrite (proj2 (valid_good e) (HP e He)), at_search_one in M by assumption. apply gmatch_iff in M; [|exact Hn]. exists e. auto.
    + intros (e & He & Hs & M). exists e. split; [apply W; auto|]. rewrite (proj2 (valid_good e) (HP e He)), at_search_one by assumption. apply gmatch_iff; assumption.
  - split; [discriminate|]. intros (e & He & Hs & _). destruct (proj2 (W e) (conj He Hs)).
Qed.
Lemma isf_exact a : address a -> exists b, isf a = Some b /\ (b = true <-> free a).
Proof.
  intros (u & d & -> & Hu & Hd & Hn). change ($"@") with [64%N]. cbn [app]. unfold isf, is_freemail.
  assert (SP : split_char 64%N (u ++ 64%N :: d) = [u; d]).
  { change (u ++ 64%N :: d) with (join [64%N] [u; d]). apply split_char_join; [discriminate|]. repeat constructor; assumption. }
  destruct (u ++ 64%N :: d) as [|x y] eqn:E; [destruct u; discriminate|]. rewrite <- E in *. rewrite SP.
  eexists. split; [reflexivity|]. unfold free, freemail.
  assert (U : forall u' d', mailbox (u ++ 64%N :: d) u' d' -> u' = u /\ d' = d).
  { intros u' d' (E2 & Hu' & Hd' & _). change ($"@") with [64%N] in E2. cbn [app] in E2.
    assert (SP2 : split_char 64%N (u' ++ 64%N :: d') = [u'; d']).
    { change (u' ++ 64%N :: d') with (join [64%N] [u'; d']). apply split_char_join; [discriminate|]. repeat constructor; assumption. }
    rewrite <- E2, SP in SP2. injection SP2 as -> ->. auto. }
  assert (M : mailbox (u ++ 64%N :: d) u d) by (repeat split; assumption).
  destruct (mem_str (u ++ 64%N :: d) whitelist) eqn:W1.
  { split; [discriminate|]. intros (u' & d' & _ & N1 & _). apply mem_str_In in W1. contradiction. }
  destruct (mem_str d whitelist) eqn:W2.
  { split; [discriminate|]. intros (u' & d' & M' & _ & N2 & _). apply U in M' as [-> ->]. apply mem_str_In in W2. contradiction. }
  destruct (role (u ++ 64%N :: d)) eqn:R.
  { split; [discriminate|]. intros (u' & d' & _ & _ & _ & R' & _). congruence. }
  destruct (started_plain domains s HP HS) as [L _]. rewrite orb_true_iff, mem_str_In, L, (wild_iff u d Hu Hd Hn). unfold free_domain. split.
  - intros H. exists u, d. split; [exact M|]. split; [intros K; apply mem_str_In in K; congruence|]. split; [intros K; apply mem_str_In in K; congruence|]. auto.
  - intros (u' & d' & M' & _ & _ & _ & H). apply U in M' as [-> ->]. exact H.
Qed.
Lemma isf_true a : address a -> (isf a = Some true <-> free a).
Proof. intros A. destruct (isf_exact a A) as (b & -> & H). rewrite <- H. split; [intros E; injection E; auto | intros ->; reflexivity]. Qed.
Lemma isf_nil : isf [] = Some false. Proof. reflexivity. Qed.
Lemma free_nil : ~ free [].
Proof. intros (u & d & (E & _) & _). destruct u; discriminate. Qed.
Lemma isf_maybe a : a = [] \/ address a -> exists b, isf a = Some b /\ (b = true <-> free a).
Proof.
  intros [-> | A]; [|apply isf_exact, A]. exists false. split; [reflexivity|]. split; [discriminate|]. intros H. destruct (free_nil H).
Qed.

(** ** Senders *)
Lemma leb_before a : forall b, str_leb a b = true <-> before a b.
Proof.
  induction a as [|x a IH]; intros [|y b]; cbn [str_leb].
  - split; [intros _; constructor | reflexivity].
  - split; [intros _; constructor | reflexivity].
  - split; [discriminate | intros H; inversion H].
  - destruct (N.ltb_spec x y) as [L | L].
    + split; [intros _; constructor; exact L | reflexivity].
    + destruct (N.eqb_spec x y) as [-> | NE].
      * rewrite IH. split; [intros H; apply before_same, H|]. intros H. inversion H; subst; [lia | assumption].
      * split; [discriminate|]. intros H. inversion H; subst; [lia | congruence].
Qed.
Lemma from_loop_iff check l : (forall a, In a l -> address a) -> StronglySorted (fun a b => str_leb a b = true) l ->
  (from_loop other role whitelist s check l = true <->
   exists a, first_free free l a /\ match check with None => True | Some f => f a = true end).
Proof.
  induction l as [|a l IH]; intros A SS; cbn [from_loop].
  - split; [discriminate|]. intros (a & ([] & _) & _).
  - inversion SS as [|? ? SS' FA]; subst. destruct (isf_exact a (A a (or_introl eq_refl))) as (b & E & H). unfold isf in E. rewrite E.
    destruct b.
    + assert (FF : first_free free (a :: l) a).
      { split; [left; reflexivity|]. split; [apply H; reflexivity|]. intros b [<- | Hb] _; apply leb_before.
        - clear. induction a as [|x a IH]; [reflexivity|]. cbn. rewrite N.ltb_irrefl, N.eqb_refl. exact IH.
        - rewrite Forall_forall in FA. apply FA, Hb. }
      split.
      * intros K. exists a. split; [exact FF|]. destruct check; [exact K | exact I].
      * intros (a' & (Hin & F' & B) & K). assert (a' = a).
        { assert (B1 : before a' a) by (apply B; [left; reflexivity | apply H; reflexivity]).
          assert (B2 : before a a') by (apply FF; assumption).
          clear - B1 B2. revert a' B1 B2. induction a as [|x a IH]; intros a' B1 B2; inversion B1; subst; try reflexivity; inversion B2; subst; try lia.
          f_equal. apply IH; assumption. }
        subst a'. destruct check; [exact K | reflexivity].
    + rewrite IH; [|intros x Hx; apply A; right; exact Hx | exact SS']. split; intros (a' & (Hin & F' & B) & K); exists a'; (split; [|exact K]).
      * split; [right; exact Hin|]. split; [exact F'|]. intros b [<- | Hb] Fb; [apply H in Fb; discriminate | apply B; assumption].
      * destruct Hin as [<- | Hin]; [apply H in F'; discriminate|]. split; [exact Hin|]. split; [exact F'|]. intros b Hb Fb. apply B; [right; exact Hb | exact Fb].
Qed.
Lemma header_iff check l : (forall a, In a l -> address a) ->
  (check_freemail_header other role whitelist s check l = true <->
   exists a, leading_free free l a /\ match check with None => True | Some f => f a = true end).
Proof.
  unfold check_freemail_header. induction l as [|a l IH]; intros A; cbn [from_loop].
  - split; [discriminate|]. intros (a & (l1 & l2 & E & _) & _). destruct l1; discriminate.
  - destruct (isf_exact a (A a (or_introl eq_refl))) as (b & E & H). unfold isf in E. rewrite E. destruct b.
    + split.
      * intros K. exists a. split; [exists [], l; split; [reflexivity|]; split; [apply H; reflexivity | intros ? []]|].
        destruct check; [exact K | exact I].
      * intros (a' & (l1 & l2 & E' & F' & N) & K). destruct l1 as [|x l1]; injection E' as <- E'.
        -- destruct check; [exact K | reflexivity].
        -- exfalso. apply (N a (or_introl eq_refl)). apply H. reflexivity.
    + rewrite IH by (intros x Hx; apply A; right; exact Hx). split; intros (a' & (l1 & l2 & E' & F' & N) & K); exists a'; (split; [|exact K]).
      * exists (a :: l1), l2. split; [rewrite E'; reflexivity|]. split; [exact F'|]. intros b [<- | Hb]; [intros Q; apply H in Q; discriminate | apply N, Hb].
      * destruct l1 as [|x l1]; injection E' as -> E'; [apply H in F'; discriminate|]. exists l1, l2. split; [exact E'|]. split; [exact F'|].
        intros b Hb. apply N. right. exact Hb.
Qed.
Lemma sorted_leb l : StronglySorted (fun a b => str_leb a b = true) (sorted l).
Proof.
  pose proof (sorted_order l) as H. unfold in_order in H. induction H as [|a r H IH F]; constructor; [exact IH|].
  eapply Forall_impl; [|exact F]. intros b Hb. apply str_leb_le. exact Hb.
Qed.
Lemma from_iff check l : (forall a, In a l -> address a) ->
  (check_freemail_from other role whitelist s check l = true <->
   exists a, first_free free l a /\ match check with None => True | Some f => f a = true end).
Proof.
  intros A. unfold check_freemail_from. assert (I : forall x, In x (sorted (nodup (list_eq_dec N.eq_dec) l)) <-> In x l).
  { intros x. rewrite sorted_In. apply nodup_In. }
  rewrite from_loop_iff; [|intros a Ha; apply A, I, Ha | apply sorted_leb]. unfold first_free.
  split; intros (a & (H1 & H2 & H3) & K); exists a; (split; [|exact K]); (split; [apply I, H1|]); (split; [exact H2|]); intros b Hb; apply H3, I, Hb.
Qed.
Lemma first_free_exists l : (forall a, In a l -> address a) -> (exists a, In a l /\ free a) -> exists a, first_free free l a.
Proof.
  intros A (a & Ha & Fa). induction l as [|x l IH]; [destruct Ha|].
  assert (T : forall y, before y y) by (induction y; constructor; assumption).
  assert (TO : forall a b, before a b \/ before b a).
  { clear. induction a as [|x a IH]; intros [|y b]; try (left; constructor; fail); try (right; constructor; fail).
    destruct (N.lt_trichotomy x y) as [L | [-> | L]]; [left; constructor; exact L | | right; constructor; exact L].
    destruct (IH b); [left | right]; apply before_same; assumption. }
  assert (TR : forall a b c, before a b -> before b c -> before a c).
  { clear. intros a b c H. revert c. induction H as [b | x a y b L | x a b H IH]; intros c K; [constructor| |].
    - inversion K; subst; [constructor; lia | constructor; assumption].
    - inversion K; subst; [constructor; assumption | apply before_same, IH; assumption]. }
  destruct (isf_exact x (A x (or_introl eq_refl))) as (bx & _ & Hx).
  destruct (existsb (fun y => match isf y with Some true => true | _ => false end) l) eqn:E.
  - apply existsb_exists in E as (y & Hy & Fy). assert (Fy' : free y).
    { apply isf_true; [apply A; right; exact Hy|]. destruct (isf y) as [[|]|]; congruence. }
    assert (IH' : exists z, first_free free l z).
    { clear IH. revert A y Hy Fy Fy'. clear - T TO TR HP HS. intros A. 
      assert (G : forall l0, (forall z, In z l0 -> address z) -> (exists z, In z l0 /\ free z) -> exists z, first_free free l0 z).
      { induction l0 as [|w l0 IH0]; intros A0 (z & Hz & Fz); [destruct Hz|].
        destruct (isf_exact w (A0 w (or_introl eq_refl))) as (bw & _ & Hw). destruct bw.
        - destruct (existsb (fun y => match isf y with Some true => true | _ => false end) l0) eqn:E0.
          + apply existsb_exists in E0 as (y & Hy & Fy). destruct IH0 as (m & M1 & M2 & M3); [intros q Hq; apply A0; right; exact Hq| |].
            * exists y. split; [exact Hy|]. apply isf_true; [apply A0; right; exact Hy|]. destruct (isf y) as [[|]|]; congruence.
            * destruct (TO w m) as [B | B].
              -- exists w. split; [left; reflexivity|]. split; [apply Hw; reflexivity|]. intros q [<- | Hq] Fq; [apply T|]. exact (TR _ _ _ B (M3 q Hq Fq)).
              -- exists m. split; [right; exact M1|]. split; [exact M2|]. intros q [<- | Hq] Fq; [exact B | apply M3; assumption].
          + exists w. split; [left; reflexivity|]. split; [apply Hw; reflexivity|]. intros q [<- | Hq] Fq; [apply T|].
            exfalso. assert (K : existsb (fun y => match isf y with Some true => true | _ => false end) l0 = true).
            { apply existsb_exists. exists q. split; [exact Hq|]. apply isf_true in Fq; [rewrite Fq; reflexivity | apply A0; right; exact Hq]. }
            congruence.
        - destruct IH0 as (m & M1 & M2 & M3); [intros q Hq; apply A0; right; exact Hq| |].
          + destruct Hz as [<- | Hz]; [apply Hw in Fz; discriminate | exists z; auto].
          + exists m. split; [right; exact M1|]. split; [exact M2|]. intros q [<- | Hq] Fq; [apply Hw in Fq; discriminate | apply M3; assumption]. }
      intros y Hy _ Fy. apply G; [intros z Hz; apply A; right; exact Hz | exists y; auto]. }
    destruct IH' as (m & M1 & M2 & M3). destruct bx.
    + destruct (TO x m) as [B | B].
      * exists x. split; [left; reflexivity|]. split; [apply Hx; reflexivity|]. intros q [<- | Hq] Fq; [apply T|]. exact (TR _ _ _ B (M3 q Hq Fq)).
      * exists m. split; [right; exact M1|]. split; [exact M2|]. intros q [<- | Hq] Fq; [exact B | apply M3; assumption].
    + exists m. split; [right; exact M1|]. split; [exact M2|]. intros q [<- | Hq] Fq; [apply Hx in Fq; discriminate | apply M3; assumption].
  - assert (NL : forall q, In q l -> ~ free q).
    { intros q Hq Fq. assert (K : existsb (fun y => match isf y with Some true => true | _ => false end) l = true).
      { apply existsb_exists. exists q. split; [exact Hq|]. apply isf_true in Fq; [rewrite Fq; reflexivity | apply A; right; exact Hq]. }
      congruence. }
    destruct Ha as [<- | Ha]; [|destruct (NL a Ha Fa)]. exists x. split; [left; reflexivity|]. split; [exact Fa|]. intros q [<- | Hq] Fq; [apply T | destruct (NL q Hq Fq)].
Qed.

(** ** Body *)
Definition isb (a : str) : bool := match isf a with Some b => b | None => false end.
Lemma isb_free a : address a -> (isb a = true <-> free a).
Proof. intros A. unfold isb. destruct (isf_exact a A) as (b & -> & H). exact H. Qed.
Lemma free_ones_exact max body : (forall a, In a body -> address a) -> forall acc, length acc < max \/ body = [] ->
  free_ones other role whitelist s max body (length acc) acc =
  if Nat.ltb (length (acc ++ filter isb body)) max || match body with [] => true | _ => false end then Some (acc ++ filter isb body) else None.
Proof.
  induction body as [|e body IH]; intros A acc H; cbn [free_ones].
  - cbn [filter]. rewrite app_nil_r, orb_true_r. reflexivity.
  - destruct H as [H | H]; [|discriminate]. destruct (isf_exact e (A e (or_introl eq_refl))) as (b & E & _).
    assert (B : isb e = b) by (unfold isb; rewrite E; reflexivity). unfold isf in E. rewrite E. cbn [filter]. rewrite B, orb_false_r.
    destruct b.
    + destruct (Nat.leb_spec max (S (length acc))) as [L | L].
      * destruct (Nat.ltb_spec (length (acc ++ e :: filter isb body)) max) as [K | K]; [|reflexivity]. rewrite app_length in K. cbn [length] in K. lia.
      * replace (S (length acc)) with (length (acc ++ [e])) by (rewrite app_length; cbn; lia).
        rewrite IH; [|intros x Hx; apply A; right; exact Hx | left; rewrite app_length; cbn; lia]. rewrite <- app_assoc. cbn [app].
        destruct body as [|e2 body2]; [|rewrite orb_false_r; reflexivity]. cbn [filter]. rewrite orb_true_r.
        destruct (Nat.ltb_spec (length (acc ++ [e])) max) as [K | K]; [reflexivity|]. rewrite app_length in K. cbn in K. lia.
    + destruct (Nat.leb_spec max (length acc)) as [L | L]; [lia|].
      rewrite IH; [|intros x Hx; apply A; right; exact Hx | left; exact H].
      destruct body as [|e2 body2]; [|rewrite orb_false_r; reflexivity]. cbn [filter]. rewrite orb_true_r, app_nil_r.
      apply Nat.ltb_lt in H. rewrite H. reflexivity.
Qed.
Lemma free_ones_zero body : body <> [] -> (forall a, In a body -> address a) -> free_ones other role whitelist s 0 body 0 [] = None.
Proof.
  intros NE A. destruct body as [|e l]; [congruence|]. cbn [free_ones]. destruct (isf_exact e (A e (or_introl eq_refl))) as (b & E & _).
  unfold isf in E. rewrite E. reflexivity.
Qed.
Lemma filter_free body : (forall a, In a body -> address a) -> forall a, In a (filter isb body) <-> In a body /\ free a.
Proof. intros A a. rewrite filter_In. split; intros [H K]; (split; [exact H|]); apply isb_free in K; try exact K; apply A, H. Qed.
Lemma parse_body_exact me mf skip body : (forall a, In a body -> address a) -> NoDup body ->
  (looked_at free me mf skip body /\ parse_body other role whitelist s me mf skip body = Some (filter isb body)) \/
  (~ looked_at free me mf skip body /\ parse_body other role whitelist s me mf skip body = None).
Proof.
  intros A ND. unfold parse_body, looked_at. destruct (Nat.leb_spec me (length body)) as [L | L], skip; cbn [andb].
  1: { right. split; [intros [H _]; specialize (H eq_refl); lia | reflexivity]. }
  all: assert (G : (body = [] \/ (exists f, (forall a, In a f <-> In a body /\ free a) /\ NoDup f /\ length f < mf)) /\ free_ones other role whitelist s mf body 0 [] = Some (filter isb body) \/
    ~ (body = [] \/ (exists f, (forall a, In a f <-> In a body /\ free a) /\ NoDup f /\ length f < mf)) /\ free_ones other role whitelist s mf body 0 [] = None).
  1,3,5: destruct body as [|e l] eqn:EB; [left; split; [left; reflexivity | reflexivity]|]; rewrite <- EB in *;
    destruct mf as [|mf];
    [ right; split; [intros [K | (f & _ & _ & K)]; [congruence | lia] | apply free_ones_zero; [congruence | exact A]]
    | pose proof (free_ones_exact (S mf) body A [] (or_introl (Nat.lt_0_succ mf))) as FE; cbn [length app] in FE; rewrite FE;
      destruct (Nat.ltb_spec (length (filter isb body)) (S mf)) as [K | K];
      [ left; split; [right; exists (filter isb body); split; [apply filter_free, A | split; [apply NoDup_filter, ND | exact K]] | rewrite orb_true_l; reflexivity]
      | right; rewrite EB; rewrite <- EB; split;
        [ intros [Q | (f & F1 & F2 & F3)]; [congruence|]; apply (Nat.lt_irrefl (length (filter isb body)));
          apply Nat.le_lt_trans with (length f); [|lia]; apply NoDup_incl_length; [apply NoDup_filter, ND | intros x Hx; apply F1, filter_free; assumption]
        | rewrite EB; reflexivity ] ] ].
  all: destruct G as [[G1 G2] | [G1 G2]]; rewrite G2; [left | right]; (split; [|reflexivity]); [split; [intros; try lia; try discriminate | exact G1] | intros [_ Q]; exact (G1 Q)].
Qed.
Lemma body_exact me mf skip check body : (forall a, In a body -> address a) -> NoDup body ->
  (fst (check_freemail_body other role whitelist s me mf skip check body None) = true <->
   looked_at free me mf skip body /\ exists a, In a body /\ free a /\ match check with None => True | Some f => f a = true end).
Proof.
  intros A ND. unfold check_freemail_body, parsed_body. destruct body as [|e l] eqn:EB.
  - split; [discriminate|]. intros (_ & a & [] & _).
  - rewrite <- EB in *. destruct (parse_body_exact me mf skip body A ND) as [[L ->] | [L ->]]; cbn [fst].
    + destruct check as [f|].
      * rewrite existsb_exists. split.
        -- intros (a & Ha & F). apply filter_free in Ha as [H1 H2]; [|exact A]. split; [exact L|]. exists a. auto.
        -- intros (_ & a & H1 & H2 & H3). exists a. split; [apply filter_free; auto | exact H3].
      * split.
        -- destruct (filter isb body) as [|a r] eqn:EF; [discriminate|]. intros _. split; [exact L|]. exists a.
           assert (Ha : In a (filter isb body)) by (rewrite EF; left; reflexivity). apply filter_free in Ha as [H1 H2]; [auto | exact A].
        -- intros (_ & a & H1 & H2 & _). assert (Ha : In a (filter isb body)) by (apply filter_free; auto). destruct (filter isb body); [destruct Ha | reflexivity].
    + split; [discriminate|]. intros [K _]. contradiction.
Qed.
(** What a rule keeps does not change what the next one says. *)
Definition kept_ok me mf skip body (kept : option (list str)) : Prop :=
  kept = None \/ kept = parse_body other role whitelist s me mf skip body.
Lemma parsed_kept me mf skip body kept : kept_ok me mf skip body kept ->
  parsed_body other role whitelist s me mf skip body kept = parse_body other role whitelist s me mf skip body.
Proof. intros [-> | ->]; unfold parsed_body; [reflexivity|]. destruct (parse_body _ _ _ _ _ _ _ _); reflexivity. Qed.
Lemma body_kept me mf skip check body kept : kept_ok me mf skip body kept ->
  fst (check_freemail_body other role whitelist s me mf skip check body kept) = fst (check_freemail_body other role whitelist s me mf skip check body None) /\
  kept_ok me mf skip body (snd (check_freemail_body other role whitelist s me mf skip check body kept)).
Proof.
  intros K. unfold check_freemail_body. destruct body as [|e l]; [split; [reflexivity | exact K]|].
  rewrite (parsed_kept _ _ _ _ kept K), (parsed_kept _ _ _ _ None (or_introl eq_refl)).
  destruct (parse_body _ _ _ _ _ _ _ _) eqn:E; cbn [fst snd]; split; try reflexivity; [right; rewrite E; reflexivity | exact K].
Qed.
Lemma replyto_kept me mf skip bulk m from rt body kept : kept_ok me mf skip body kept ->
  fst (check_freemail_replyto other role whitelist s me mf skip bulk m from rt body kept) = fst (check_freemail_replyto other role whitelist s me mf skip bulk m from rt body None) /\
  kept_ok me mf skip body (snd (check_freemail_replyto other role whitelist s me mf skip bulk m from rt body kept)).
Proof.
  intros K. unfold check_freemail_replyto. destruct bulk; [split; [reflexivity | exact K]|].
  destruct (is_freemail other role whitelist s from) as [ff|]; [|split; [reflexivity | exact K]].
  destruct (is_freemail other role whitelist s rt) as [rf|]; [|split; [reflexivity | exact K]].
  destruct (ff && rf && negb (streqb from rt)); [split; [reflexivity | exact K]|].
  rewrite (parsed_kept _ _ _ _ kept K), (parsed_kept _ _ _ _ None (or_introl eq_refl)).
  destruct (match m with ReplyTo => negb rf | Reply => _ end); [split; [reflexivity | exact K]|].
  destruct (parse_body _ _ _ _ _ _ _ _) eqn:E; cbn [fst snd]; split; try reflexivity; [right; rewrite E; reflexivity | exact K].
Qed.

(** One rule after the other *)
Lemma answers_kept me mf skip body qs : forall kept, kept_ok me mf skip body kept ->
  answers other role whitelist s me mf skip body qs kept = map (fun q => fst (ask other role whitelist s me mf skip body q None)) qs.
Proof.
  induction qs as [|q qs IH]; intros kept K; [reflexivity|]. cbn [answers map].
  assert (G : fst (ask other role whitelist s me mf skip body q kept) = fst (ask other role whitelist s me mf skip body q None) /\ kept_ok me mf skip body (snd (ask other role whitelist s me mf skip body q kept))).
  { destruct q; [apply body_kept, K | apply replyto_kept, K]. }
  destruct G as [-> G]. rewrite (IH _ G). reflexivity.
Qed.

(** ** Reply-To *)
Lemma other_free me mf skip body check : (forall a, In a body -> address a) -> NoDup body ->
  ((match parse_body other role whitelist s me mf skip body with None => false | Some l => existsb (fun e => negb (streqb e check)) l end) = true <->
   looked_at free me mf skip body /\ exists a, In a body /\ free a /\ a <> check).
Proof.
  intros A ND. destruct (parse_body_exact me mf skip body A ND) as [[L ->] | [L ->]].
  - rewrite existsb_exists. split.
    + intros (a & Ha & F). apply filter_free in Ha as [H1 H2]; [|exact A]. split; [exact L|]. exists a. repeat split; try assumption.
      apply negb_true_iff in F. intros ->. destruct (streqb_spec check check); congruence.
    + intros (_ & a & H1 & H2 & H3). exists a. split; [apply filter_free; auto|]. destruct (streqb_spec a check); [contradiction | reflexivity].
  - split; [discriminate|]. intros [K _]. contradiction.
Qed.
Lemma replyto_exact me mf skip from rt body : from = [] \/ address from -> rt = [] \/ address rt ->
  (forall a, In a body -> address a) -> NoDup body ->
  (fst (check_freemail_replyto other role whitelist s me mf skip false ReplyTo from rt body None) = true <->
   free rt /\ ((free from /\ from <> rt) \/ (looked_at free me mf skip body /\ exists a, In a body /\ free a /\ a <> rt))).
Proof.
  intros AF AR A ND. unfold check_freemail_replyto. destruct (isf_maybe from AF) as (ff & EF & HF). destruct (isf_maybe rt AR) as (rf & ER & HR).
  unfold isf in EF, ER. rewrite EF, ER. pose proof (other_free me mf skip body rt A ND) as O. unfold parsed_body.
  destruct (streqb_spec from rt) as [EQ | NE], ff, rf; cbn [andb negb fst]; try (destruct (parse_body other role whitelist s me mf skip body); cbn [fst]; rewrite O; intuition congruence); intuition congruence.
Qed.
Lemma reply_exact me mf skip from rt body : from = [] \/ address from -> rt = [] \/ address rt ->
  (forall a, In a body -> address a) -> NoDup body ->
  (fst (check_freemail_replyto other role whitelist s me mf skip false Reply from rt body None) = true <->
   free from /\
   ((free rt /\ from <> rt) \/
    (looked_at free me mf skip body /\ (rt = [] \/ rt = from) /\ exists a, In a body /\ free a /\ a <> from))).
Proof.
  intros AF AR A ND. unfold check_freemail_replyto. destruct (isf_maybe from AF) as (ff & EF & HF). destruct (isf_maybe rt AR) as (rf & ER & HR).
  unfold isf in EF, ER. rewrite EF, ER. pose proof (other_free me mf skip body from A ND) as O. unfold parsed_body.
  assert (NR : rt = [] -> rf = false). { intros E. destruct rf; [|reflexivity]. exfalso. apply free_nil. rewrite <- E. apply HR. reflexivity. }
  destruct (streqb_spec from rt) as [EQ | NE].
  - subst rt. rewrite EF in ER. injection ER as <-. destruct ff; cbn [andb negb orb fst].
    + rewrite orb_false_r, andb_false_r. cbn [orb]. destruct (parse_body other role whitelist s me mf skip body); cbn [fst]; rewrite O; intuition congruence.
    + rewrite orb_true_r. cbn [fst]. intuition congruence.
  - destruct ff, rf; cbn [andb negb orb fst]; [intuition congruence | | |].
    + rewrite orb_false_r, andb_true_r. destruct rt as [|c r] eqn:ERT; cbn [negb].
      * destruct (parse_body other role whitelist s me mf skip body); cbn [fst]; rewrite O; intuition congruence.
      * cbn [fst]. split; [discriminate|]. intros (_ & [[K _] | (_ & [K | K] & _)]); [apply HR in K; discriminate | discriminate | congruence].
    + rewrite orb_true_r. cbn [fst]. split; [discriminate|]. intros [K _]. apply HF in K. discriminate.
    + rewrite orb_true_r. cbn [fst]. split; [discriminate|]. intros [K _]. apply HF in K. discriminate.
Qed.
End Plugin.

Lemma answers_alone other role whitelist s me mf skip body qs :
  answers other role whitelist s me mf skip body qs None = map (fun q => fst (ask other role whitelist s me mf skip body q None)) qs.
Proof. apply answers_kept. left. reflexivity. Qed.
Lemma split_char_none c x : ~ In c x -> split_char c x = [x].
Proof. intros H. apply (split_char_join c [x]); [discriminate|]. repeat constructor. exact H. Qed.
Lemma sorted_least x l : (forall a, In a l -> str_leb x a = true) -> exists r, sorted (x :: l) = x :: r.
Proof.
  intros H. pose proof (sorted_perm (x :: l)) as P. pose proof (sorted_leb (x :: l)) as S.
  destruct (sorted (x :: l)) as [|y r] eqn:E; [exfalso; exact (Permutation_nil_cons P)|]. exists r. f_equal.
  inversion S as [|? ? _ F]; subst. rewrite Forall_forall in F.
  assert (Iy : In y (x :: l)) by (apply sorted_In; rewrite E; left; reflexivity).
  assert (Ix : In x (y :: r)) by (rewrite <- E; apply sorted_In; left; reflexivity).
  destruct Ix as [-> | Ix]; [reflexivity|]. destruct Iy as [-> | Iy]; [reflexivity|].
  specialize (F x Ix). specialize (H y Iy). apply leb_before in F, H. revert F H. clear. revert x. induction y as [|a y IH]; intros x F H; inversion H; subst; try reflexivity; inversion F; subst; try lia.
  f_equal. apply IH; assumption.
Qed.
Lemma from_no_at other role whitelist s check x l :
  x <> [] -> ~ In 64%N x -> (forall a, In a l -> str_leb x a = true /\ a <> x) ->
  check_freemail_from other role whitelist s check (x :: l) = false.
Proof.
  intros NE NA H. unfold check_freemail_from. cbn [nodup].
  destruct (in_dec (list_eq_dec N.eq_dec) x l) as [I | I]; [destruct (H x I); congruence|].
  destruct (sorted_least x (nodup (list_eq_dec N.eq_dec) l)) as (r & ->); [intros a Ha; apply nodup_In in Ha; apply (H a Ha)|].
  cbn [from_loop]. unfold is_freemail. rewrite (split_char_none 64%N x NA). destruct x; [congruence | reflexivity].
Qed.
