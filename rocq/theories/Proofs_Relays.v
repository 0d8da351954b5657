(** Proofs about the relay analysis. *)
From Verif Require Import PyStr Model_Net Model_Relays Spec_Relays.

Section R.
Variable ip_address : str -> option addr.
Variable is_private : addr -> bool.
Variable nw : nets.
Notation step := (relay_step ip_address is_private nw).
Notation loop := (relay_loop ip_address is_private nw).
Notation parse := (parse_relays ip_address is_private nw).

Lemma loop_app a b n st : loop n (a ++ b) st =
  match loop n a st with Some st' => loop (n + length a) b st' | None => None end.
Proof.
  revert n st; induction a as [|r a IH]; intros n st; cbn [app relay_loop length].
  - rewrite Nat.add_0_r. reflexivity.
  - destruct (step n r st); [|reflexivity]. rewrite IH, Nat.add_succ_r. reflexivity.
Qed.

Definition inv (st : rstate) : Prop :=
  let W := filter has_address (received st) in
  trusted_relays st ++ untrusted_relays st = W /\ internal_relays st ++ external_relays st = W /\
  (exists b, trusted_relays st = internal_relays st ++ b) /\
  (s_trusted st = true -> untrusted_relays st = []) /\ (s_internal st = true -> external_relays st = []) /\
  (s_internal st = true -> s_trusted st = true).

Lemma judge_mono st a ii it im au t i m mk : judge is_private nw st a ii it im au = (t, i, m, mk) ->
  (s_internal st = true -> s_trusted st = true) ->
  (t = true -> s_trusted st = true) /\ (i = true -> s_internal st = true) /\ (i = true -> t = true).
Proof.
  unfold judge. intros H Hi.
  destruct (s_trusted st) eqn:Et, (s_internal st) eqn:Ei, (s_msa st), (configured nw), it, au, ii, im, (is_private a);
    cbn in H; inversion H; subst; try (specialize (Hi eq_refl)); repeat split; auto; discriminate.
Qed.

Lemma step_inv n r st st' : step n r st = Some st' -> inv st -> inv st'.
Proof.
  unfold relay_step. intros H (HT & HI & (b & Hb) & HtU & HiE & Hit).
  destruct (nonempty (rl_ip r)) eqn:En.
  - destruct (ip_address (rl_ip r)) as [a|]; [|discriminate].
    destruct (contains_addr (n_internal nw) a) as [ii|], (contains_addr (n_trusted nw) a) as [it|],
      (contains_addr (n_msa nw) a) as [im|]; try discriminate.
    destruct (judge is_private nw st a ii it im (nonempty (rl_auth r))) as [[[t i] m] mk] eqn:Ej.
    destruct (judge_mono _ _ _ _ _ _ _ _ _ _ Ej Hit) as (Mt & Mi & Mit).
    inversion H; subst; clear H. set (r' := set_marks mk (Some i) r).
    unfold inv; cbn [received trusted_relays untrusted_relays internal_relays external_relays s_trusted s_internal].
    assert (Hf : filter has_address (received st ++ [r']) = filter has_address (received st) ++ [r']).
    { rewrite filter_app. cbn [filter]. change (has_address r') with (nonempty (rl_ip r)). rewrite En. reflexivity. }
    rewrite Hf. split; [|split; [|split; [|split; [|split]]]].
    + destruct t; [|rewrite <- HT, app_assoc; reflexivity]. rewrite HtU by auto. rewrite <- HT, HtU by auto.
      rewrite !app_nil_r. reflexivity.
    + destruct i; [|rewrite <- HI, app_assoc; reflexivity]. rewrite HiE by auto. rewrite <- HI, HiE by auto.
      rewrite !app_nil_r. reflexivity.
    + destruct i.
      * assert (Ht : t = true) by auto. subst t. exists []. rewrite app_nil_r. f_equal.
        rewrite HtU in HT by auto. rewrite HiE in HI by auto. rewrite app_nil_r in HT, HI. congruence.
      * destruct t; [exists (b ++ [r']); rewrite Hb, app_assoc; reflexivity|exists b; exact Hb].
    + intros ->. auto.
    + intros ->. auto.
    + auto.
  - inversion H; subst; clear H. unfold inv; cbn [received trusted_relays untrusted_relays internal_relays external_relays s_trusted s_internal].
    assert (Hf : forall r', rl_ip r' = rl_ip r -> filter has_address (received st ++ [r']) = filter has_address (received st)).
    { intros r' E. rewrite filter_app. cbn [filter]. unfold has_address at 2. rewrite E, En. apply app_nil_r. }
    rewrite Hf by reflexivity. repeat (split; [eauto|]). exact Hit.
Qed.

Lemma loop_inv l : forall n st st', loop n l st = Some st' -> inv st -> inv st'.
Proof.
  induction l as [|r l IH]; cbn [relay_loop]; intros n st st' H Hi; [inversion H; subst; exact Hi|].
  destruct (step n r st) as [st1|] eqn:E; [|discriminate]. eapply IH; [exact H|]. eapply step_inv; eassumption.
Qed.
Lemma inv0 : inv rstate0.
Proof. unfold inv; cbn. split; [reflexivity|]. split; [reflexivity|]. split; [exists []; reflexivity|]. auto. Qed.

Lemma step_received n r st st' : step n r st = Some st' ->
  exists r', received st' = received st ++ [r'] /\ unmark r' = unmark r.
Proof.
  unfold relay_step. intros H. destruct (nonempty (rl_ip r)).
  - destruct (ip_address (rl_ip r)) as [a0|]; [|discriminate].
    destruct (contains_addr (n_internal nw) a0), (contains_addr (n_trusted nw) a0), (contains_addr (n_msa nw) a0); try discriminate.
    destruct (judge _ _ _ _ _ _ _ _) as [[[t i] m] mk]. inversion H; subst. eexists; split; reflexivity.
  - inversion H; subst. eexists; split; reflexivity.
Qed.
Lemma loop_received l : forall n st st', loop n l st = Some st' ->
  map unmark (received st') = map unmark (received st) ++ map unmark l.
Proof.
  induction l as [|r l IH]; cbn [relay_loop]; intros n st st' H; [inversion H; subst; symmetry; apply app_nil_r|].
  destruct (step n r st) as [st1|] eqn:E; [|discriminate]. apply IH in H. rewrite H.
  apply step_received in E as (r' & -> & Eu). rewrite map_app, <- app_assoc. cbn [map app]. rewrite Eu. reflexivity.
Qed.

Lemma partition l st : parse l = Some st ->
  map unmark (received st) = map unmark l /\
  trusted_relays st ++ untrusted_relays st = filter has_address (received st) /\
  internal_relays st ++ external_relays st = filter has_address (received st) /\
  exists between, trusted_relays st = internal_relays st ++ between.
Proof.
  intros H. pose proof (loop_received _ _ _ _ H) as Hr. pose proof (loop_inv _ _ _ _ H inv0) as (H1 & H2 & H3 & _).
  repeat split; assumption.
Qed.

(** Nothing changes any more after the first untrusted relay. *)
Lemma closed_step n r st st' : step n r st = Some st' -> s_trusted st = false -> s_internal st = false ->
  s_trusted st' = false /\ s_internal st' = false /\ trusted_relays st' = trusted_relays st /\ internal_relays st' = internal_relays st.
Proof.
  unfold relay_step, judge. intros H Ht Hi. rewrite Ht, Hi in H. destruct (nonempty (rl_ip r)).
  - destruct (ip_address (rl_ip r)) as [a0|]; [|discriminate].
    destruct (contains_addr (n_internal nw) a0), (contains_addr (n_trusted nw) a0), (contains_addr (n_msa nw) a0); try discriminate.
    cbn [andb negb] in H. inversion H; subst. cbn. auto.
  - inversion H; subst. cbn. auto.
Qed.
Lemma closed_loop l : forall n st st', loop n l st = Some st' -> s_trusted st = false -> s_internal st = false ->
  trusted_relays st' = trusted_relays st /\ internal_relays st' = internal_relays st.
Proof.
  induction l as [|r l IH]; cbn [relay_loop]; intros n st st' H Ht Hi; [inversion H; subst; auto|].
  destruct (step n r st) as [st1|] eqn:E; [|discriminate].
  destruct (closed_step _ _ _ _ E Ht Hi) as (H1 & H2 & H3 & H4).
  destruct (IH _ _ _ H H1 H2) as [-> ->]. auto.
Qed.

Lemma step_no_msa n r st st' : step n r st = Some st' -> ~ is_msa ip_address nw r -> s_msa st' = s_msa st.
Proof.
  unfold relay_step. intros H Hn. destruct (nonempty (rl_ip r)) eqn:En.
  - destruct (ip_address (rl_ip r)) as [a|] eqn:Ea; [|discriminate].
    destruct (contains_addr (n_internal nw) a), (contains_addr (n_trusted nw) a), (contains_addr (n_msa nw) a) as [im|] eqn:Em; try discriminate.
    assert (im = false).
    { destruct im; [|reflexivity]. exfalso. apply Hn. exists a. split; [intros E; rewrite E in En; discriminate|auto]. }
    subst im. unfold judge in H.
    repeat match type of H with context [if ?x then _ else _] => destruct x end; inversion H; subst; reflexivity.
  - inversion H; subst. reflexivity.
Qed.
Lemma loop_no_msa l : forall n st st', loop n l st = Some st' -> Forall (fun r => ~ is_msa ip_address nw r) l -> s_msa st' = s_msa st.
Proof.
  induction l as [|r l IH]; cbn [relay_loop]; intros n st st' H Hf; [inversion H; subst; auto|].
  inversion Hf; subst. destruct (step n r st) as [st1|] eqn:E; [|discriminate].
  rewrite (IH _ _ _ H) by assumption. eapply step_no_msa; eassumption.
Qed.

Lemma outside_step n r st st' a : step n r st = Some st' -> inv st -> s_msa st = false ->
  rl_ip r <> [] -> ip_address (rl_ip r) = Some a -> rl_auth r = [] -> outside is_private nw a ->
  s_trusted st' = false /\ s_internal st' = false /\ trusted_relays st' = trusted_relays st /\ internal_relays st' = internal_relays st.
Proof.
  unfold relay_step, outside. intros H Hinv Hm Hne Ha Hau Ho.
  destruct (rl_ip r) as [|c ip] eqn:Eip; [contradiction|]. cbn [nonempty] in H. rewrite Ha in H.
  destruct Hinv as (_ & _ & _ & _ & _ & Hit).
  destruct (contains_addr (n_internal nw) a), (contains_addr (n_trusted nw) a) as [it|], (contains_addr (n_msa nw) a); try discriminate.
  rewrite Hau in H. cbn [nonempty] in H. unfold judge in H. rewrite Hm in H.
  assert (s_trusted st = false -> s_internal st = false).
  { intros E. destruct (s_internal st); [|reflexivity]. specialize (Hit eq_refl). congruence. }
  destruct (configured nw).
  - inversion Ho; subst it. cbn [negb andb] in H. destruct (s_trusted st); cbn [andb] in H; inversion H; subst; cbn; auto.
    rewrite H0 by reflexivity. auto.
  - rewrite Ho in H. cbn [negb andb] in H. destruct (s_trusted st); cbn [andb] in H; inversion H; subst; cbn; auto.
    rewrite H0 by reflexivity. auto.
Qed.

Lemma forged pre r suf a st0 st :
  parse pre = Some st0 -> Forall (fun p => ~ is_msa ip_address nw p) pre ->
  rl_ip r <> [] -> ip_address (rl_ip r) = Some a -> rl_auth r = [] -> outside is_private nw a ->
  parse (pre ++ r :: suf) = Some st ->
  trusted_relays st = trusted_relays st0 /\ internal_relays st = internal_relays st0.
Proof.
  unfold parse_relays. intros Hp Hm Hne Ha Hau Ho H. rewrite loop_app, Hp in H. cbn [relay_loop] in H.
  destruct (step (0 + length pre) r st0) as [st1|] eqn:E; [|discriminate].
  destruct (outside_step _ _ _ _ a E) as (H1 & H2 & H3 & H4); auto.
  { eapply loop_inv; [exact Hp|apply inv0]. }
  { rewrite (loop_no_msa _ _ _ _ Hp Hm). reflexivity. }
  destruct (closed_loop _ _ _ _ H H1 H2) as [-> ->]. auto.
Qed.

(** The indexes. *)
Lemma last_app_in {A} (l : list A) x : nth_error (l ++ [x]) (length l) = Some x.
Proof. rewrite nth_error_app2, Nat.sub_diag by lia. reflexivity. Qed.

Definition idx (st : rstate) : Prop :=
  (forall r q, trusted_relays st = q ++ [r] -> nth_error (received st) (last_trusted_index st) = Some r) /\
  (forall r q, internal_relays st = q ++ [r] -> nth_error (received st) (last_internal_index st) = Some r).
Lemma nth_error_snoc {A} (l : list A) x n y : nth_error l n = Some y -> nth_error (l ++ [x]) n = Some y.
Proof. intros H. rewrite nth_error_app1; [exact H|]. apply nth_error_Some. congruence. Qed.
Lemma step_idx r st st' : step (length (received st)) r st = Some st' -> idx st -> idx st' /\ length (received st') = S (length (received st)).
Proof.
  unfold relay_step. intros H [H1 H2]. destruct (nonempty (rl_ip r)).
  - destruct (ip_address (rl_ip r)) as [a0|]; [|discriminate].
    destruct (contains_addr (n_internal nw) a0), (contains_addr (n_trusted nw) a0), (contains_addr (n_msa nw) a0); try discriminate.
    destruct (judge _ _ _ _ _ _ _ _) as [[[t i] m] mk]. inversion H; subst. cbn [received]. split.
    2:{ rewrite app_length. cbn. lia. }
    unfold idx; cbn [received trusted_relays internal_relays last_trusted_index last_internal_index]. split.
    + intros r0 q Hq. destruct t.
      * apply app_inj_tail in Hq as [_ <-]. apply last_app_in.
      * apply nth_error_snoc. eapply H1; exact Hq.
    + intros r0 q Hq. destruct i.
      * apply app_inj_tail in Hq as [_ <-]. apply last_app_in.
      * apply nth_error_snoc. eapply H2; exact Hq.
  - inversion H; subst. cbn [received]. split; [|rewrite app_length; cbn; lia].
    unfold idx; cbn [received trusted_relays internal_relays last_trusted_index last_internal_index].
    split; intros r0 q Hq; apply nth_error_snoc; eauto.
Qed.
Lemma loop_idx l : forall n st st', n = length (received st) -> loop n l st = Some st' -> idx st -> idx st'.
Proof.
  induction l as [|r l IH]; cbn [relay_loop]; intros n st st' Hn H Hi; [inversion H; subst; exact Hi|].
  destruct (step n r st) as [st1|] eqn:E; [|discriminate]. subst n.
  destruct (step_idx _ _ _ E Hi) as [Hi' Hl]. eapply IH; [|exact H|exact Hi']. symmetry. exact Hl.
Qed.
Lemma indexes l st : parse l = Some st -> idx st.
Proof.
  intros H. eapply loop_idx; [|exact H|]; [reflexivity|]. split; intros r q Hq; destruct q; discriminate.
Qed.

(** Marks. *)
Lemma step_marks n r st st' : step n r st = Some st' -> inv st ->
  Forall (fun r => rl_intl r = Some true) (internal_relays st) /\ Forall (fun r => rl_intl r = Some false) (external_relays st) ->
  Forall (fun r => rl_intl r = Some true) (internal_relays st') /\ Forall (fun r => rl_intl r = Some false) (external_relays st').
Proof.
  unfold relay_step. intros H _ [H1 H2]. destruct (nonempty (rl_ip r)).
  - destruct (ip_address (rl_ip r)) as [a0|]; [|discriminate].
    destruct (contains_addr (n_internal nw) a0), (contains_addr (n_trusted nw) a0), (contains_addr (n_msa nw) a0); try discriminate.
    destruct (judge _ _ _ _ _ _ _ _) as [[[t i] m] mk]. inversion H; subst. cbn.
    destruct i; (split; [try exact H1|try exact H2]); apply Forall_app; split; auto.
  - inversion H; subst. auto.
Qed.
Lemma marks_loop l : forall n st st', loop n l st = Some st' -> inv st ->
  Forall (fun r => rl_intl r = Some true) (internal_relays st) /\ Forall (fun r => rl_intl r = Some false) (external_relays st) ->
  Forall (fun r => rl_intl r = Some true) (internal_relays st') /\ Forall (fun r => rl_intl r = Some false) (external_relays st').
Proof.
  induction l as [|r l IH]; cbn [relay_loop]; intros n st st' H Hi Hm; [inversion H; subst; exact Hm|].
  destruct (step n r st) as [st1|] eqn:E; [|discriminate].
  eapply IH; [exact H|eapply step_inv; eassumption|eapply step_marks; eassumption].
Qed.
Lemma marks l st : parse l = Some st ->
  Forall (fun r => rl_intl r = Some true) (internal_relays st) /\ Forall (fun r => rl_intl r = Some false) (external_relays st).
Proof. intros H. eapply marks_loop; [exact H|apply inv0|split; constructor]. Qed.

(** After an MSA relay everything is trusted. *)
Lemma msa_open_step n r st st' : step n r st = Some st' -> s_trusted st = true -> s_msa st = true ->
  s_trusted st' = true /\ s_msa st' = true /\ untrusted_relays st' = untrusted_relays st.
Proof.
  unfold relay_step, judge. intros H Ht Hm. rewrite Ht, Hm in H. destruct (nonempty (rl_ip r)).
  - destruct (ip_address (rl_ip r)) as [a0|]; [|discriminate].
    destruct (contains_addr (n_internal nw) a0), (contains_addr (n_trusted nw) a0), (contains_addr (n_msa nw) a0); try discriminate.
    cbn [andb negb] in H. inversion H; subst. cbn. auto.
  - inversion H; subst. cbn. auto.
Qed.
Lemma msa_open l : forall n st st', loop n l st = Some st' -> s_trusted st = true -> s_msa st = true ->
  untrusted_relays st' = untrusted_relays st.
Proof.
  induction l as [|r l IH]; cbn [relay_loop]; intros n st st' H Ht Hi; [inversion H; subst; auto|].
  destruct (step n r st) as [st1|] eqn:E; [|discriminate].
  destruct (msa_open_step _ _ _ _ E Ht Hi) as (H1 & H2 & H3). rewrite (IH _ _ _ H H1 H2). exact H3.
Qed.
Lemma after_msa pre r suf a st0 st :
  parse pre = Some st0 -> untrusted_relays st0 = [] -> Forall (fun p => ~ is_msa ip_address nw p) pre ->
  rl_ip r <> [] -> ip_address (rl_ip r) = Some a -> contains_addr (n_msa nw) a = Some true ->
  configured nw = true -> contains_addr (n_trusted nw) a = Some true \/ rl_auth r <> [] ->
  s_trusted st0 = true ->
  parse (pre ++ r :: suf) = Some st -> untrusted_relays st = [].
Proof.
  unfold parse_relays. intros Hp Hu Hm Hne Ha Him Hc Hok Ht H. rewrite loop_app, Hp in H. cbn [relay_loop] in H.
  destruct (step (0 + length pre) r st0) as [st1|] eqn:E; [|discriminate].
  assert (Hs : s_trusted st1 = true /\ s_msa st1 = true /\ untrusted_relays st1 = untrusted_relays st0).
  { unfold relay_step in E. destruct (rl_ip r) as [|c ip] eqn:Eip; [contradiction|]. cbn [nonempty] in E.
    rewrite Ha, Him in E. destruct (contains_addr (n_internal nw) a), (contains_addr (n_trusted nw) a) as [it|]; try discriminate.
    unfold judge in E. rewrite Ht, (loop_no_msa _ _ _ _ Hp Hm), Hc in E. cbn [rstate0 s_msa negb andb] in E.
    destruct Hok as [Hok|Hok].
    - inversion Hok; subst it. cbn [negb andb] in E. inversion E; subst; cbn; auto.
    - destruct (rl_auth r); [contradiction|]. cbn [nonempty negb andb] in E. rewrite andb_false_r in E.
      inversion E; subst; cbn; auto. }
  destruct Hs as (H1 & H2 & H3). rewrite (msa_open _ _ _ _ H H1 H2), H3. exact Hu.
Qed.

(** Failures. *)
Definition bad_relay (r : relay) : Prop :=
  rl_ip r <> [] /\
  (ip_address (rl_ip r) = None \/
   exists a, ip_address (rl_ip r) = Some a /\
     (contains_addr (n_internal nw) a = None \/ contains_addr (n_trusted nw) a = None \/ contains_addr (n_msa nw) a = None)).
Lemma step_fails n r st : step n r st = None <-> bad_relay r.
Proof.
  unfold relay_step, bad_relay. destruct (rl_ip r) as [|c ip]; cbn [nonempty].
  { split; [discriminate|intros [H _]; contradiction]. }
  destruct (ip_address (c :: ip)) as [a|].
  - destruct (contains_addr (n_internal nw) a) as [ii|] eqn:E1.
    2:{ split; [|reflexivity]. intros _. split; [discriminate|]. right. exists a. auto. }
    destruct (contains_addr (n_trusted nw) a) as [it|] eqn:E2.
    2:{ split; [|reflexivity]. intros _. split; [discriminate|]. right. exists a. auto. }
    destruct (contains_addr (n_msa nw) a) as [im|] eqn:E3.
    2:{ split; [|reflexivity]. intros _. split; [discriminate|]. right. exists a. auto. }
    destruct (judge _ _ _ _ _ _ _ _) as [[[t i] m] mk]. split; [discriminate|].
    intros (_ & [H|(a' & Ha & [H|[H|H]])]); [discriminate| | |]; inversion Ha; subst; congruence.
  - split; [|reflexivity]. intros _. split; [discriminate|auto].
Qed.
Lemma loop_fails l : forall n st, loop n l st = None <-> exists r, In r l /\ bad_relay r.
Proof.
  induction l as [|r l IH]; intros n st; cbn [relay_loop].
  - split; [discriminate|intros (r & [] & _)].
  - destruct (step n r st) as [st1|] eqn:E.
    + rewrite IH. split; [intros (x & Hx & Hb); exists x; split; [right|]; assumption|].
      intros (x & [<-|Hx] & Hb); [|eauto]. apply (step_fails n r st) in Hb. congruence.
    + split; [|reflexivity]. intros _. exists r. split; [left; reflexivity|]. apply (step_fails n r st). exact E.
Qed.

(** The sender. *)
Lemma external_prefix pre suf st0 st : parse pre = Some st0 -> parse (pre ++ suf) = Some st ->
  exists q, external_relays st = external_relays st0 ++ q.
Proof.
  unfold parse_relays. intros Hp H. rewrite loop_app, Hp in H. clear Hp. revert H. generalize (0 + length pre).
  revert st0 st. induction suf as [|r suf IH]; intros st0 st n H; cbn [relay_loop] in H.
  - inversion H; subst. exists []. symmetry. apply app_nil_r.
  - destruct (step n r st0) as [st1|] eqn:E; [|discriminate].
    destruct (IH _ _ _ H) as [q Hq]. rewrite Hq.
    assert (exists q1, external_relays st1 = external_relays st0 ++ q1) as [q1 ->].
    { unfold relay_step in E. destruct (nonempty (rl_ip r)).
      - destruct (ip_address (rl_ip r)) as [a0|]; [|discriminate].
        destruct (contains_addr (n_internal nw) a0), (contains_addr (n_trusted nw) a0), (contains_addr (n_msa nw) a0); try discriminate.
        destruct (judge _ _ _ _ _ _ _ _) as [[[t i] m] mk]. inversion E; subst. cbn.
        destruct i; [exists []; symmetry; apply app_nil_r|eexists; reflexivity].
      - inversion E; subst. exists []; symmetry; apply app_nil_r. }
    exists (q1 ++ q). symmetry. apply app_assoc.
Qed.

Lemma strip_nil : strip [] = [].
Proof. reflexivity. Qed.

Lemma sender_external always hs get pre suf st0 st r q :
  parse pre = Some st0 -> external_relays st0 = r :: q -> parse (pre ++ suf) = Some st ->
  parse_sender always hs get st = strip (rl_envfrom r).
Proof.
  intros Hp He H. destruct (external_prefix _ _ _ _ Hp H) as [q' Hq]. unfold parse_sender. rewrite Hq, He. cbn [app].
  destruct (rl_envfrom r); reflexivity.
Qed.

Lemma no_external_no_untrusted l st : parse l = Some st -> external_relays st = [] -> untrusted_relays st = [] /\ trusted_relays st = internal_relays st.
Proof.
  intros H He. destruct (partition _ _ H) as (_ & H1 & H2 & (b & Hb)). rewrite He, app_nil_r in H2.
  rewrite Hb, <- H2, <- app_assoc in H1. rewrite <- (app_nil_r (internal_relays st)) in H1 at 2. apply app_inv_head in H1.
  apply app_eq_nil in H1 as [-> ->]. rewrite app_nil_r in Hb. auto.
Qed.

Lemma sender_all_internal hs get l st : parse l = Some st -> external_relays st = [] ->
  let headers := match hs with [] => default_sender_headers | _ => hs end in
  (forall always, (forall r, In r (trusted_relays st) -> rl_envfrom r = []) -> parse_sender always hs get st = sender_from_headers get headers) /\
  parse_sender true hs get st = sender_from_headers get headers /\
  (forall q r, filter has_address (received st) = q ++ [r] -> rl_envfrom r <> [] -> parse_sender false hs get st = strip (rl_envfrom r)).
Proof.
  intros H He headers. destruct (no_external_no_untrusted _ _ H He) as [Hu Ht].
  destruct (partition _ _ H) as (_ & H1 & _ & _). rewrite Hu, app_nil_r in H1.
  unfold parse_sender. rewrite He, Hu. fold headers. split; [|split].
  - intros always Hall. destruct (rev (trusted_relays st)) as [|r rr] eqn:Er; [reflexivity|].
    rewrite (Hall r); [rewrite andb_false_r; reflexivity|]. apply in_rev. rewrite Er. left; reflexivity.
  - destruct (rev (trusted_relays st)); reflexivity.
  - intros q r Hq Hne. rewrite <- H1 in Hq. rewrite Hq, rev_app_distr. cbn [rev app].
    destruct (rl_envfrom r); [contradiction|reflexivity].
Qed.
End R.

Lemma sender_headers_spec get hs :
  (forall a, In a (map (fun h => hd [] (get h)) hs) -> a = []) /\ sender_from_headers get hs = [] \/
  exists before h after, hs = before ++ h :: after /\ (forall h', In h' before -> hd [] (get h') = []) /\
    hd [] (get h) <> [] /\ sender_from_headers get hs = strip (hd [] (get h)).
Proof.
  induction hs as [|h hs IH]; [left; split; [intros a []|reflexivity]|].
  assert (Hcase : (hd [] (get h) = [] /\ sender_from_headers get (h :: hs) = sender_from_headers get hs) \/
                  (hd [] (get h) <> [] /\ sender_from_headers get (h :: hs) = strip (hd [] (get h)))).
  { cbn [sender_from_headers]. destruct (get h) as [|[|c a] rest]; cbn [hd nonempty]; auto. right. split; [discriminate|reflexivity]. }
  destruct Hcase as [[Hh E]|[Hh E]].
  - rewrite E. destruct IH as [[H1 H2]|(b & h' & aft & -> & H1 & H2 & H3)].
    + left. split; [|exact H2]. cbn [map]. intros x [<-|Hx]; [exact Hh|auto].
    + right. exists (h :: b), h', aft. split; [reflexivity|]. split; [|auto]. intros x [<-|Hx]; [exact Hh|auto].
  - right. exists [], h, hs. split; [reflexivity|]. split; [intros x []|]. split; [exact Hh|exact E].
Qed.

(** Untrusted addresses. *)
Lemma header_ips_spec ip l ips : header_ips ip l = Some ips <-> Forall2 (fun r a => ip (rl_ip r) = Some a) l ips.
Proof.
  revert ips; induction l as [|r l IH]; intros ips; cbn [header_ips].
  - split; [intros H; inversion H; constructor|intros H; inversion H; reflexivity].
  - split.
    + destruct (ip (rl_ip r)) eqn:E; [|discriminate]. destruct (header_ips ip l) as [rest|]; [|discriminate].
      intros H; inversion H; subst. constructor; [exact E|]. apply IH. reflexivity.
    + intros H; inversion H as [|? a ? rest Ha Hr]; subst. rewrite Ha. apply IH in Hr. rewrite Hr. reflexivity.
Qed.
Lemma not_in_spec l ips out : not_in l ips = Some out ->
  (forall a, In a ips -> contains_addr l a <> None) /\
  out = filter (fun a => match contains_addr l a with Some false => true | _ => false end) ips.
Proof.
  revert out; induction ips as [|a ips IH]; cbn [not_in]; intros out H.
  - inversion H. split; [intros a []|reflexivity].
  - destruct (contains_addr l a) as [b|] eqn:E; [|discriminate]. destruct (not_in l ips) as [rest|]; [|discriminate].
    destruct (IH rest eq_refl) as [H1 H2]. split.
    + intros x [<-|Hx]; [congruence|auto].
    + cbn [filter]. rewrite E. destruct b; inversion H; subst; reflexivity.
Qed.

(** ** The address of a Received header *)
Section G.
Variable find_ips : str -> list str.
Variable private_re : str -> bool.
Lemma fold_last ips acc : fold_left (fun acc i => if private_re i then acc else i) ips acc =
  last (filter (fun i => negb (private_re i)) ips) acc.
Proof.
  revert acc; induction ips as [|i ips IH]; intros acc; cbn [fold_left filter]; [reflexivity|].
  rewrite IH. destruct (private_re i); cbn [negb]; [reflexivity|].
  destruct (filter (fun i0 => negb (private_re i0)) ips) as [|x l]; [reflexivity|].
  change (last (x :: l) i = last (x :: l) acc). clear IH. revert x. induction l as [|y l IH]; intros x; [reflexivity|exact (IH y)].
Qed.
Lemma filter_all_len {A} (p : A -> bool) l : length (filter p l) = length l -> forallb p l = true.
Proof.
  induction l as [|x l IH]; cbn [filter forallb]; [reflexivity|]. destruct (p x); cbn [length andb].
  - intros H. apply IH. lia.
  - intros H. assert (length (filter p l) <= length l); [|lia]. clear. induction l as [|y l IH]; cbn; [lia|].
    destruct (p y); cbn; lia.
Qed.
Lemma forallb_filter_id {A} (p : A -> bool) l : forallb p l = true -> filter p l = l.
Proof. induction l as [|x l IH]; cbn; [reflexivity|]. intros H. apply andb_true_iff in H as [-> H]. f_equal. auto. Qed.
Lemma get_ip_front front header :
  (header = front /\ split1_sub ($" by ") header = None) \/ (exists rest, split1_sub ($" by ") header = Some (front, rest)) ->
  let found := map clean_ip (find_ips front) in
  (found = [] -> get_ip find_ips private_re header = []) /\
  (forall before i after, found = before ++ i :: after -> private_re i = false -> (forall x, In x after -> private_re x = true) ->
     get_ip find_ips private_re header = i) /\
  (forall i rest, found = i :: rest -> (forall x, In x found -> private_re x = true) -> get_ip find_ips private_re header = i).
Proof.
  intros Hf found. unfold get_ip.
  assert (E : match split1_sub ($" by ") header with Some (a, _) => a | None => header end = front).
  { destruct Hf as [[-> ->]|[rest ->]]; reflexivity. }
  rewrite E. fold found. rewrite fold_last. split; [|split].
  - intros ->. reflexivity.
  - intros before i after Hd Hi Ha.
    destruct (length (filter private_re found) =? length found) eqn:El.
    + exfalso. apply Nat.eqb_eq, filter_all_len in El. rewrite forallb_forall in El.
      rewrite El in Hi; [discriminate|]. rewrite Hd. apply in_app_iff. right. left. reflexivity.
    + rewrite andb_false_r. rewrite Hd, filter_app. cbn [filter]. rewrite Hi. cbn [negb].
      assert (filter (fun i0 => negb (private_re i0)) after = []) as ->.
      { clear -Ha. induction after as [|x l IH]; [reflexivity|]. cbn [filter]. rewrite (Ha x) by (left; reflexivity). cbn [negb].
        apply IH. intros y Hy. apply Ha. right; exact Hy. }
      rewrite last_last. reflexivity.
  - intros i rest Hd Hall. assert (Hb : forallb private_re found = true) by (apply forallb_forall; exact Hall).
    rewrite (forallb_filter_id _ _ Hb), Nat.eqb_refl, Hd. reflexivity.
Qed.
End G.

(** ** Authentication *)
Lemma auth_from_text (R : auth_re) h : (forall x, ar_with R x <> Some []) ->
  contains ($"authenticated") h = true -> contains ($" by mx.google.com with ESMTPS id ") h = false -> get_auth R h <> [].
Proof.
  intros HR Ha Hg. unfold get_auth. rewrite Ha, Hg.
  destruct (if contains ($" by ") h then ar_with R h else None) as [a|] eqn:E.
  - destruct (contains ($" by ") h); [|discriminate]. intros ->. exact (HR h E).
  - destruct (ar_postfix R h); [discriminate|]. destruct (contains ($"SquirrelMail authenticated ") h); [discriminate|].
    destruct (ar_as R h); discriminate.
Qed.

(** ** First occurrences *)
Lemma split1_sub_none p s : contains p s = false -> split1_sub p s = None.
Proof.
  intros H. assert (Hn : ~ exists a b, s = a ++ p ++ b) by (rewrite <- contains_app; congruence). clear H.
  induction s as [|x s IH]; cbn [split1_sub].
  - destruct (startswith p []) eqn:E; [|reflexivity]. exfalso. apply startswith_app in E as [t E]. apply Hn. exists [], t. exact E.
  - destruct (startswith p (x :: s)) eqn:E.
    + exfalso. apply startswith_app in E as [t E]. apply Hn. exists [], t. exact E.
    + rewrite IH; [reflexivity|]. intros (a & b & Hs). apply Hn. exists (x :: a), b. rewrite Hs. reflexivity.
Qed.
Lemma split1_sub_first p a b : (forall x y, a ++ p ++ b = x ++ p ++ y -> length a <= length x) ->
  split1_sub p (a ++ p ++ b) = Some (a, b).
Proof.
  induction a as [|c a IH]; intros Hmin.
  - cbn [app]. assert (E : startswith p (p ++ b) = true) by (apply startswith_app; eauto).
    assert (Hd : skipn (length p) (p ++ b) = b) by (rewrite skipn_app, skipn_all, Nat.sub_diag; reflexivity).
    destruct (p ++ b) as [|x s]; cbn [split1_sub]; rewrite E, Hd; reflexivity.
  - cbn [app split1_sub]. destruct (startswith p (c :: a ++ p ++ b)) eqn:E.
    + exfalso. apply startswith_app in E as [t E]. specialize (Hmin [] t E). cbn in Hmin. lia.
    + rewrite IH; [reflexivity|]. intros x y Hxy. specialize (Hmin (c :: x) y). cbn [app length] in Hmin.
      rewrite Hxy in Hmin. specialize (Hmin eq_refl). lia.
Qed.

Lemma get_ip_spec find_ips private_re header front :
  before_by header front ->
  let found := map clean_ip (find_ips front) in
  (found = [] -> get_ip find_ips private_re header = []) /\
  (forall before i after, found = before ++ i :: after -> private_re i = false ->
     (forall x, In x after -> private_re x = true) -> get_ip find_ips private_re header = i) /\
  (forall i rest, found = i :: rest -> (forall x, In x found -> private_re x = true) ->
     get_ip find_ips private_re header = i).
Proof.
  intros Hb. apply get_ip_front. destruct Hb as [[H1 H2]|(rest & -> & Hmin)].
  - left. split; [symmetry; exact H2|]. apply split1_sub_none. exact H1.
  - right. exists rest. apply split1_sub_first. exact Hmin.
Qed.

Lemma untrusted_ips_spec ip_address nw l :
  (forall r, In r l -> exists a b, ip_address (rl_ip r) = Some a /\ contains_addr (n_trusted nw) a = Some b) ->
  exists ips, Forall2 (fun r a => ip_address (rl_ip r) = Some a) l ips /\
    untrusted_ips ip_address nw l =
    Some (filter (fun a => match contains_addr (n_trusted nw) a with Some false => true | _ => false end) ips).
Proof.
  intros H. assert (Hex : exists ips, Forall2 (fun r a => ip_address (rl_ip r) = Some a) l ips /\
    (forall a, In a ips -> exists b, contains_addr (n_trusted nw) a = Some b)).
  { induction l as [|r l IH]; [exists []; split; [constructor|intros a []]|].
    destruct IH as (ips & H1 & H2); [intros x Hx; apply H; right; exact Hx|].
    destruct (H r) as (a & b & Ha & Hb); [left; reflexivity|]. exists (a :: ips). split; [constructor; assumption|].
    intros x [<-|Hx]; eauto. }
  destruct Hex as (ips & H1 & H2). exists ips. split; [exact H1|]. unfold untrusted_ips.
  rewrite (proj2 (header_ips_spec _ _ _) H1). clear H1 H. induction ips as [|a ips IH]; [reflexivity|].
  cbn [not_in filter]. destruct (H2 a) as [b Hb]; [left; reflexivity|]. rewrite Hb, IH by (intros x Hx; apply H2; right; exact Hx).
  destruct b; reflexivity.
Qed.

Lemma untrusted_ips_fails ip_address nw l r :
  ip_address [] = None -> In r l -> rl_ip r = [] -> untrusted_ips ip_address nw l = None.
Proof.
  intros Hn Hi Hr. unfold untrusted_ips. destruct (header_ips ip_address l) as [ips|] eqn:E; [|reflexivity]. exfalso.
  apply header_ips_spec in E. induction E as [|x a l ips Hx HF IH]; [destruct Hi|].
  destruct Hi as [->|Hi]; [rewrite Hr, Hn in Hx; discriminate|auto].
Qed.

Lemma auth_word_trusted (R : auth_re) a b nw ip_address is_private ip x st r :
  (forall h, ar_with R h <> Some []) ->
  let header := a ++ $"authenticated" ++ b in
  contains ($" by mx.google.com with ESMTPS id ") header = false ->
  rl_ip r = ip -> ip <> [] -> rl_auth r = get_auth R header -> ip_address ip = Some x -> outside is_private nw x ->
  parse_relays ip_address is_private nw [r] = Some st -> map rl_ip (trusted_relays st) = [ip].
Proof.
  intros HR header Hg Hip Hne Hau Hx Ho H.
  assert (Hc : contains ($"authenticated") header = true) by (apply contains_app; eexists _, _; reflexivity).
  pose proof (auth_from_text R header HR Hc Hg) as Hn. rewrite <- Hau in Hn.
  unfold parse_relays in H. cbn [relay_loop] in H. unfold relay_step in H. rewrite Hip in H.
  destruct ip as [|c ip]; [contradiction|]. cbn [nonempty] in H. rewrite Hx in H.
  destruct (contains_addr (n_internal nw) x), (contains_addr (n_trusted nw) x), (contains_addr (n_msa nw) x); try discriminate.
  destruct (rl_auth r) as [|c' au]; [contradiction|]. cbn [nonempty] in H. unfold judge in H. cbn [rstate0 s_trusted s_msa s_internal] in H.
  destruct (configured nw); cbn [negb andb] in H; rewrite ?andb_false_r in H; inversion H; subst; cbn [trusted_relays app map];
    cbn; rewrite Hip; reflexivity.
Qed.

(** ** Written forms of addresses, and the tags *)
Lemma startswith_self p s : startswith p (p ++ s) = true.
Proof. induction p as [|x p IH]; [reflexivity|]. change (N.eqb x x && startswith p (p ++ s) = true). rewrite N.eqb_refl. exact IH. Qed.
Lemma replace_skip p r : forall q s, replace_aux p r (q ++ s) (length q) = replace_aux p r s 0.
Proof.
  induction q as [|x q IH]; intros s; [reflexivity|]. cbn [app length replace_aux]. exact (IH s).
Qed.
Lemma replace_lead x p s : replace (x :: p) [] ((x :: p) ++ s) = replace (x :: p) [] s.
Proof.
  unfold replace. cbn [app replace_aux]. change (x :: p ++ s) with ((x :: p) ++ s). rewrite startswith_self.
  cbn [app length]. rewrite Nat.sub_succ, Nat.sub_0_r. apply replace_skip.
Qed.
Lemma replace_absent x p r s : ~ In x s -> replace (x :: p) r s = s.
Proof.
  unfold replace. induction s as [|y s IH]; intros H; [reflexivity|]. cbn [replace_aux].
  assert (E : startswith (x :: p) (y :: s) = false).
  { change (N.eqb x y && startswith p s = false). destruct (N.eqb_spec x y) as [-> | _]; [exfalso; apply H; left; reflexivity|]. reflexivity. }
  rewrite E. f_equal. apply IH. intros Hi. apply H. right. exact Hi.
Qed.
Lemma strip_p_wrapped (p : char -> bool) o x m y c :
  forallb p o = true -> forallb p c = true -> p x = false -> p y = false ->
  strip_p p (o ++ (x :: m ++ [y]) ++ c) = x :: m ++ [y].
Proof.
  intros Ho Hc Hx Hy. unfold strip_p, lstrip_p, rstrip_p. rewrite drop_while_app_all by exact Ho. cbn [app drop_while]. rewrite Hx.
  change (x :: (m ++ [y]) ++ c) with ((x :: m ++ [y]) ++ c). rewrite rev_app_distr.
  rewrite drop_while_app_all by (rewrite forallb_forall in *; intros z Hz; apply Hc, in_rev, Hz).
  change (x :: m ++ [y]) with ((x :: m) ++ [y]). rewrite rev_app_distr. cbn [rev app drop_while]. rewrite Hy.
  cbn [rev]. rewrite rev_app_distr, rev_involutive. reflexivity.
Qed.

Lemma dotted_lower a : (forall c, In c a -> is_digit c = true \/ c = 46%N) -> lower a = a.
Proof.
  intros H. unfold lower. rewrite <- map_id. apply map_ext_in. intros c Hc. unfold lower_char.
  destruct (H c Hc) as [D | ->]; [|reflexivity]. unfold is_digit in D. apply andb_true_iff in D. rewrite !N.leb_le in D.
  destruct (N.leb_spec 65 c); [lia|]. reflexivity.
Qed.

Lemma clean_ip_written o pre a c :
  Forall (fun x => In x ($"[ ]();" ++ [10%N])) o -> Forall (fun x => In x ($"[ ]();" ++ [10%N])) c ->
  In (lower pre) [[]; $"ipv6:"; $"::ffff:"; $"ipv6:::ffff:"] ->
  a <> [] -> (forall x, In x a -> is_digit x = true \/ x = 46%N) ->
  clean_ip (o ++ pre ++ a ++ c) = a.
Proof.
  intros Ho Hc Hp Hne Ha.
  assert (W : forall l, Forall (fun x => In x ($"[ ]();" ++ [10%N])) l -> forallb (fun x => mem_char x ($"[ ]();" ++ [10%N])) l = true).
  { intros l Hl. rewrite Forall_forall in Hl. apply forallb_forall. intros x Hx. apply mem_char_In. exact (Hl x Hx). }
  assert (NW : forall x, is_digit x = true \/ x = 46%N -> mem_char x ($"[ ]();" ++ [10%N]) = false).
  { intros x [D | ->]; [|reflexivity]. destruct (mem_char x ($"[ ]();" ++ [10%N])) eqn:E; [|reflexivity]. exfalso.
    apply mem_char_In in E. vm_compute in E. unfold is_digit in D. apply andb_true_iff in D. rewrite !N.leb_le in D.
    repeat (destruct E as [<- | E]; [lia|]). destruct E. }
  assert (NI : forall x, is_digit x = true \/ x = 46%N -> x <> 105%N /\ x <> 58%N).
  { intros x [D | ->]; [|split; discriminate]. unfold is_digit in D. apply andb_true_iff in D. rewrite !N.leb_le in D. lia. }
  assert (S : strip_chars ($"[ ]();" ++ [10%N]) (o ++ (pre ++ a) ++ c) = pre ++ a).
  { unfold strip_chars. destruct (exists_last Hne) as (m & y & Ey).
    assert (Hy : mem_char y ($"[ ]();" ++ [10%N]) = false) by (apply NW, Ha; rewrite Ey; apply in_or_app; right; left; reflexivity).
    destruct pre as [|x pre].
    - cbn [app]. destruct a as [|x a]; [congruence|]. destruct m as [|z m].
      + cbn [app] in Ey. injection Ey as -> ->. change [y] with ([y] : str).
        unfold strip_p, lstrip_p, rstrip_p. rewrite drop_while_app_all by (apply W, Ho). cbn [app drop_while]. rewrite Hy.
        change (y :: c) with ([y] ++ c). rewrite rev_app_distr, drop_while_app_all by (rewrite forallb_forall; intros z Hz; apply (proj1 (forallb_forall _ _) (W c Hc)), in_rev, Hz).
        cbn [rev app drop_while]. rewrite Hy. reflexivity.
      + cbn [app] in Ey. injection Ey as -> ->. apply strip_p_wrapped; [apply W, Ho | apply W, Hc | | exact Hy].
        apply NW, Ha. left. reflexivity.
    - rewrite Ey. cbn [app]. rewrite app_assoc. apply strip_p_wrapped; [apply W, Ho | apply W, Hc | | exact Hy].
      destruct Hp as [Hp | [Hp | [Hp | [Hp | []]]]]; [discriminate | | |]; unfold lower in Hp; cbn [map] in Hp;
        apply (f_equal (hd 0%N)) in Hp; vm_compute in Hp;
        destruct (mem_char x ($"[ ]();" ++ [10%N])) eqn:E; try reflexivity; exfalso; apply mem_char_In in E; vm_compute in E;
        repeat (destruct E as [<- | E]; [discriminate Hp|]); exact E. }
  unfold clean_ip. rewrite app_assoc, app_assoc, <- (app_assoc o pre a), <- app_assoc. rewrite S. unfold lower at 2. rewrite map_app. fold (lower pre) (lower a). rewrite (dotted_lower a Ha).
  assert (I1 : ~ In 105%N a) by (intros Hi; exact (proj1 (NI _ (Ha _ Hi)) eq_refl)).
  assert (I2 : ~ In 58%N a) by (intros Hi; exact (proj2 (NI _ (Ha _ Hi)) eq_refl)).
  change ($"ipv6:") with (105%N :: $"pv6:"). change ($"::ffff:") with (58%N :: $":ffff:").
  destruct Hp as [<- | [<- | [<- | [<- | []]]]].
  - cbn [app]. rewrite (replace_absent 105) by exact I1. rewrite (dotted_lower a Ha). apply replace_absent, I2.
  - change ($"ipv6:") with (105%N :: $"pv6:"). rewrite (replace_lead 105), (replace_absent 105) by exact I1. rewrite (dotted_lower a Ha). apply replace_absent, I2.
  - rewrite (replace_absent 105).
    + unfold lower. rewrite map_app. change (map lower_char ($"::ffff:")) with (58%N :: $":ffff:"). fold (lower a). rewrite (dotted_lower a Ha), replace_lead. apply replace_absent, I2.
    + intros Hi. apply in_app_or in Hi. destruct Hi as [Hi | Hi]; [vm_compute in Hi; intuition discriminate | exact (I1 Hi)].
  - change ($"ipv6:::ffff:" ++ a) with ((105%N :: $"pv6:") ++ ($"::ffff:" ++ a)). rewrite (replace_lead 105), (replace_absent 105).
    + unfold lower. rewrite map_app. change (map lower_char ($"::ffff:")) with (58%N :: $":ffff:"). fold (lower a). rewrite (dotted_lower a Ha), replace_lead. apply replace_absent, I2.
    + intros Hi. apply in_app_or in Hi. destruct Hi as [Hi | Hi]; [vm_compute in Hi; intuition discriminate | exact (I1 Hi)].
Qed.

(** No mark of authentication in the header. *)
Lemma no_auth (R : auth_re) h :
  ar_with R h = None -> ar_postfix R h = false -> contains ($"authenticated") h = false -> ar_gmx R h = None ->
  ar_communigate R h = false -> (ar_cipher R h = None \/ contains ($" by mx.google.com with ESMTPS id ") h = false) -> get_auth R h = [].
Proof.
  intros H1 H2 H3 H4 H5 H6. unfold get_auth. rewrite H1, H2, H3, H4, H5.
  destruct (contains ($" by ") h);
    (destruct (contains ($" by mx.google.com with ESMTPS id ") h);
     [destruct H6 as [-> | H6]; [reflexivity | discriminate] |
      destruct (contains ($"SquirrelMail authenticated ") h) eqn:E; [|reflexivity];
      apply contains_app in E; destruct E as (u & v & ->);
      exfalso; enough (contains ($"authenticated") (u ++ $"SquirrelMail authenticated " ++ v) = true) by congruence;
      apply contains_app; exists (u ++ $"SquirrelMail "), ($" " ++ v); rewrite <- app_assoc; reflexivity]).
Qed.

Lemma relay_text_fields r :
  (forall f, In f [rl_ip r; rl_rdns r; rl_helo r; rl_by r; rl_ident r; rl_envfrom r; rl_id r; rl_auth r] -> ~ In 32%N f) ->
  split_char 32 (relay_text r) =
    [$"["; $"ip=" ++ rl_ip r; $"rdns=" ++ rl_rdns r; $"helo=" ++ rl_helo r; $"by=" ++ rl_by r; $"ident=" ++ rl_ident r;
     $"envfrom=" ++ rl_envfrom r; $"intl=" ++ bit (match rl_intl r with Some b => b | None => false end);
     $"id=" ++ rl_id r; $"auth=" ++ rl_auth r; $"msa=" ++ bit (rl_msa r); $"]"].
Proof.
  intros H. match goal with |- _ = ?l => replace (relay_text r) with (join [32%N] l) end; [apply split_char_join|].
  - discriminate.
  - assert (G : forall p f, ~ In 32%N p -> ~ In 32%N f -> ~ In 32%N (p ++ f)) by (intros p f Hp Hf Hi; apply in_app_or in Hi; tauto).
    assert (B : forall b, ~ In 32%N (bit b)) by (intros [|] [E | []]; discriminate).
    repeat apply Forall_cons; try apply Forall_nil;
      try (apply G; [vm_compute; intuition discriminate|]; first [apply B | apply H; cbn [In]; tauto]);
      vm_compute; intuition discriminate.
  - unfold relay_text. cbn [join]. rewrite <- !app_assoc. reflexivity.
Qed.

(** The last relay with an address, unless it is internal. *)
Lemma last_external_spec ip_address is_private nw l st r q :
  parse_relays ip_address is_private nw l = Some st -> filter has_address (received st) = q ++ [r] ->
  last_external st = match rl_intl r with Some true => None | _ => Some r end.
Proof.
  intros H Hr. destruct (partition _ _ _ _ _ H) as (_ & _ & Hp & _). destruct (marks _ _ _ _ _ H) as [Hi He].
  unfold last_external. rewrite Hr in Hp. destruct (rev (external_relays st)) as [|x m] eqn:E.
  - assert (E' : external_relays st = []) by (rewrite <- (rev_involutive (external_relays st)), E; reflexivity).
    rewrite E', app_nil_r in Hp. rewrite Hp in Hi. apply Forall_app in Hi. destruct Hi as [_ Hi]. inversion Hi as [|? ? Hx _]; subst. rewrite Hx. reflexivity.
  - assert (E' : external_relays st = rev m ++ [x]) by (rewrite <- (rev_involutive (external_relays st)), E; reflexivity).
    rewrite E', app_assoc in Hp. apply app_inj_tail in Hp. destruct Hp as [_ ->]. rewrite E' in He. apply Forall_app in He.
    destruct He as [_ He]. inversion He as [|? ? Hx _]; subst. rewrite Hx. reflexivity.
Qed.
