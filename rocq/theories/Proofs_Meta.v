(** Proofs about meta rules: parsing of what is written, evaluation, loading. *)
From Verif Require Import PyStr PyDict Model_Rules Model_Meta Spec_Meta.

(** ** The parser *)

Lemma pe_mono : forall f lhs m ts r, pe f lhs m ts = Some r -> forall g, f <= g -> pe g lhs m ts = Some r.
Proof.
  induction f as [|f IH]; intros lhs m ts r H g Hg; [discriminate|].
  destruct g as [|g]; [lia|]. assert (Hfg : f <= g) by lia. cbn [pe] in H |- *.
  destruct lhs as [[e c]|].
  - destruct ts as [|t ts]; [exact H|]. destruct (tok_op t) as [o|]; [|exact H].
    destruct (m <? op_bp o); [|exact H]. destruct (c && is_cmp o); [exact H|].
    destruct (pe f None (op_bp o) ts) as [[e2 ts2]|] eqn:E; [|discriminate].
    rewrite (IH _ _ _ _ E g Hfg). exact (IH _ _ _ _ H g Hfg).
  - destruct ts as [|t ts]; [discriminate|].
    destruct t; try discriminate.
    + exact (IH _ _ _ _ H g Hfg).
    + exact (IH _ _ _ _ H g Hfg).
    + destruct (3 <? m); [exact H|].
      destruct (pe f None 3 ts) as [[e2 ts2]|] eqn:E; [|discriminate].
      rewrite (IH _ _ _ _ E g Hfg). exact (IH _ _ _ _ H g Hfg).
    + destruct (pe f None 0 ts) as [[e2 ts2]|] eqn:E; [|discriminate].
      rewrite (IH _ _ _ _ E g Hfg). destruct ts2 as [|[] ts2]; try discriminate.
      exact (IH _ _ _ _ H g Hfg).
    + destruct (pe f None 7 ts) as [[e2 ts2]|] eqn:E; [|discriminate].
      rewrite (IH _ _ _ _ E g Hfg). exact (IH _ _ _ _ H g Hfg).
Qed.

(** What is left is shorter. *)
Lemma pe_shorter : forall f lhs m ts e ts', pe f lhs m ts = Some (e, ts') -> length ts' <= length ts.
Proof.
  induction f as [|f IH]; intros lhs m ts e ts' H; [discriminate|]. cbn [pe] in H.
  destruct lhs as [[e0 c]|].
  - destruct ts as [|t ts]; [inversion H; subst; simpl; lia|].
    destruct (tok_op t) as [o|]; [|inversion H; subst; simpl; lia].
    destruct (m <? op_bp o); [|inversion H; subst; simpl; lia].
    destruct (c && is_cmp o); [discriminate|].
    destruct (pe f None (op_bp o) ts) as [[e2 ts2]|] eqn:E; [|discriminate].
    apply IH in E. apply IH in H. simpl. lia.
  - destruct ts as [|t ts]; [discriminate|].
    destruct t; try discriminate.
    + apply IH in H. simpl; lia.
    + apply IH in H. simpl; lia.
    + destruct (3 <? m); [discriminate|].
      destruct (pe f None 3 ts) as [[e2 ts2]|] eqn:E; [|discriminate].
      apply IH in E. apply IH in H. simpl; lia.
    + destruct (pe f None 0 ts) as [[e2 ts2]|] eqn:E; [|discriminate].
      destruct ts2 as [|[] ts2]; try discriminate.
      apply IH in E. apply IH in H. simpl in *; lia.
    + destruct (pe f None 7 ts) as [[e2 ts2]|] eqn:E; [|discriminate].
      apply IH in E. apply IH in H. simpl; lia.
Qed.

(** One more unit of fuel than tokens is always enough. *)
Lemma pe_enough : forall f lhs m ts r, pe f lhs m ts = Some r ->
  forall g, length ts < g -> pe g lhs m ts = Some r.
Proof.
  induction f as [|f IH]; intros lhs m ts r H g Hg; [discriminate|].
  destruct g as [|g]; [lia|]. cbn [pe] in H |- *.
  destruct lhs as [[e c]|].
  - destruct ts as [|t ts]; [exact H|]. simpl in Hg. destruct (tok_op t) as [o|]; [|exact H].
    destruct (m <? op_bp o); [|exact H]. destruct (c && is_cmp o); [exact H|].
    destruct (pe f None (op_bp o) ts) as [[e2 ts2]|] eqn:E; [|discriminate].
    rewrite (IH _ _ _ _ E g ltac:(lia)). apply (IH _ _ _ _ H). apply pe_shorter in E. lia.
  - destruct ts as [|t ts]; [discriminate|]. simpl in Hg.
    destruct t; try discriminate.
    + apply (IH _ _ _ _ H); lia.
    + apply (IH _ _ _ _ H); lia.
    + destruct (3 <? m); [exact H|].
      destruct (pe f None 3 ts) as [[e2 ts2]|] eqn:E; [|discriminate].
      rewrite (IH _ _ _ _ E g ltac:(lia)). apply (IH _ _ _ _ H). apply pe_shorter in E. lia.
    + destruct (pe f None 0 ts) as [[e2 ts2]|] eqn:E; [|discriminate].
      rewrite (IH _ _ _ _ E g ltac:(lia)). destruct ts2 as [|[] ts2]; try discriminate.
      apply (IH _ _ _ _ H). apply pe_shorter in E. simpl in E; lia.
    + destruct (pe f None 7 ts) as [[e2 ts2]|] eqn:E; [|discriminate].
      rewrite (IH _ _ _ _ E g ltac:(lia)). apply (IH _ _ _ _ H). apply pe_shorter in E. lia.
Qed.

Definition head_ok (k : nat) (rest : list mtok) : Prop :=
  match rest with
  | t :: _ => match tok_op t with
              | Some o => op_bp o <= S k /\ (is_cmp o = true -> 4 <= k)
              | None => True
              end
  | [] => True
  end.

Lemma tok_op_tok : forall o, tok_op (op_tok o) = Some o.
Proof. destruct o; reflexivity. Qed.
Lemma strength_bp : forall o, strength o = op_bp o.
Proof. destruct o; reflexivity. Qed.
Lemma bp_pos : forall o, 1 <= op_bp o <= 6 /\ op_bp o <> 3.
Proof. destruct o; simpl; lia. Qed.

(** Stopping: an operand followed by something weaker. *)
Lemma pe_stop : forall f e c m rest, head_ok m rest ->
  (forall o ts, rest = op_tok o :: ts -> op_bp o <= m) ->
  pe (S f) (Some (e, c)) m rest = Some (e, rest).
Proof.
  intros f e c m rest _ H. cbn [pe]. destruct rest as [|t ts]; [reflexivity|].
  destruct (tok_op t) as [o|] eqn:E; [|reflexivity].
  assert (Ht : t = op_tok o) by (destruct t; inversion E; subst; reflexivity). subst t.
  specialize (H o ts eq_refl). destruct (Nat.ltb_spec m (op_bp o)); [lia|reflexivity].
Qed.

Lemma flag_irrelevant : forall f e m rest,
  (forall o ts, rest = op_tok o :: ts -> is_cmp o = false) ->
  pe f (Some (e, true)) m rest = pe f (Some (e, false)) m rest.
Proof.
  intros [|f] e m rest H; [reflexivity|]. cbn [pe]. destruct rest as [|t ts]; [reflexivity|].
  destruct (tok_op t) as [o|] eqn:E; [|reflexivity].
  assert (Ht : t = op_tok o) by (destruct t; inversion E; subst; reflexivity). subst t.
  rewrite (H o ts eq_refl), andb_false_r. reflexivity.
Qed.

Lemma pe_written : forall e k m rest r f,
  m <= k -> head_ok k rest ->
  pe f (Some (e, false)) m rest = Some r ->
  exists f', pe f' None m (written k e ++ rest) = Some r.
Proof.
  induction e as [s|d|o a IHa b IHb|a IHa|a IHa]; intros k m rest r f Hm Hh H.
  - exists (S f). exact H.
  - exists (S f). exact H.
  - (* the unparenthesised form, at any level below its strength *)
    assert (Hbare : forall k m rest r f, m <= k -> k < strength o -> head_ok k rest ->
              pe f (Some (EBin o a b, false)) m rest = Some r ->
              exists f', pe f' None m ((written (if strength o =? 4 then 4 else strength o - 1) a
                                        ++ op_tok o :: written (strength o) b) ++ rest) = Some r).
    { clear k m rest r f Hm Hh H. intros k m rest r f Hm Hk Hh H.
      rewrite strength_bp in *. pose proof (bp_pos o) as Hbp.
      assert (Hrest : forall o' ts, rest = op_tok o' :: ts -> op_bp o' <= op_bp o).
      { intros o' ts ->. simpl in Hh. rewrite tok_op_tok in Hh. lia. }
      assert (Hflag : pe f (Some (EBin o a b, is_cmp o)) m rest = Some r).
      { destruct (is_cmp o) eqn:Ec; [|exact H]. rewrite flag_irrelevant; [exact H|].
        intros o' ts ->. simpl in Hh. rewrite tok_op_tok in Hh. destruct (is_cmp o') eqn:Eo; [|reflexivity].
        destruct Hh as [_ Hh]. specialize (Hh eq_refl). unfold is_cmp in Ec. apply Nat.eqb_eq in Ec. lia. }
      assert (Hb : exists f1, pe f1 None (op_bp o) (written (op_bp o) b ++ rest) = Some (b, rest)).
      { apply (IHb (op_bp o) (op_bp o) rest (b, rest) 1); [lia| |].
        - destruct rest as [|t ts]; [exact I|]. unfold head_ok. destruct (tok_op t) as [o'|] eqn:E; [|exact I].
          assert (Ht : t = op_tok o') by (destruct t; inversion E; subst; reflexivity). subst t.
          specialize (Hrest o' ts eq_refl). split; [lia|]. intros Hc. unfold is_cmp in Hc. apply Nat.eqb_eq in Hc. lia.
        - apply pe_stop; [|exact Hrest].
          destruct rest as [|t ts]; [exact I|]. unfold head_ok. destruct (tok_op t) as [o'|] eqn:E; [|exact I].
          assert (Ht : t = op_tok o') by (destruct t; inversion E; subst; reflexivity). subst t.
          specialize (Hrest o' ts eq_refl). split; [lia|]. intros Hc. unfold is_cmp in Hc. apply Nat.eqb_eq in Hc. lia. }
      destruct Hb as [f1 Hb].
      rewrite <- app_assoc. cbn [app].
      set (kl := if op_bp o =? 4 then 4 else op_bp o - 1).
      assert (Hkl : k <= kl /\ op_bp o <= S kl /\ (is_cmp o = true -> 4 <= kl)).
      { unfold kl, is_cmp. destruct (Nat.eqb_spec (op_bp o) 4); split; try lia; split; try lia; discriminate. }
      apply (IHa kl m (op_tok o :: written (op_bp o) b ++ rest) r (S (Nat.max f f1))); [lia| |].
      { simpl. rewrite tok_op_tok. split; [lia|apply Hkl]. }
      cbn [pe]. rewrite tok_op_tok.
      destruct (Nat.ltb_spec m (op_bp o)); [|lia]. cbn [andb].
      rewrite (pe_mono _ _ _ _ _ Hb (Nat.max f f1)) by lia.
      apply (pe_mono _ _ _ _ _ Hflag). lia. }
    cbn [written]. unfold paren. destruct (Nat.leb_spec (strength o) k) as [Hp|Hp].
    + destruct (Hbare 0 0 (TRp :: rest) (EBin o a b, TRp :: rest) 1) as [f1 H1].
      { lia. } { rewrite strength_bp. pose proof (bp_pos o). lia. } { exact I. } { reflexivity. }
      exists (S (Nat.max f f1)).
      replace ((TLp :: (written (if strength o =? 4 then 4 else strength o - 1) a ++ op_tok o :: written (strength o) b) ++ [TRp]) ++ rest)
        with (TLp :: ((written (if strength o =? 4 then 4 else strength o - 1) a ++ op_tok o :: written (strength o) b) ++ TRp :: rest))
        by (cbn [app]; rewrite <- !app_assoc; reflexivity).
      cbn [pe]. rewrite (pe_mono _ _ _ _ _ H1) by lia. apply (pe_mono _ _ _ _ _ H). lia.
    + apply (Hbare k m rest r f); auto.
  - assert (Hbare : forall k m rest r f, m <= k -> k <= 2 -> head_ok k rest ->
              pe f (Some (ENot a, false)) m rest = Some r ->
              exists f', pe f' None m ((TNot :: written 3 a) ++ rest) = Some r).
    { clear k m rest r f Hm Hh H. intros k m rest r f Hm Hk Hh H.
      assert (Hrest : forall o' ts, rest = op_tok o' :: ts -> op_bp o' <= 3).
      { intros o' ts ->. simpl in Hh. rewrite tok_op_tok in Hh. lia. }
      assert (Hh3 : head_ok 3 rest).
      { destruct rest as [|t ts]; [exact I|]. unfold head_ok. destruct (tok_op t) as [o'|] eqn:E; [|exact I].
        assert (Ht : t = op_tok o') by (destruct t; inversion E; subst; reflexivity). subst t.
        specialize (Hrest o' ts eq_refl). split; [lia|]. intros Hc. unfold is_cmp in Hc. apply Nat.eqb_eq in Hc. lia. }
      destruct (IHa 3 3 rest (a, rest) 1 ltac:(lia) Hh3 (pe_stop 0 a false 3 rest Hh3 Hrest)) as [f1 H1].
      exists (S (Nat.max f f1)). cbn [app pe]. destruct (Nat.ltb_spec 3 m); [lia|].
      rewrite (pe_mono _ _ _ _ _ H1) by lia. apply (pe_mono _ _ _ _ _ H). lia. }
    cbn [written]. unfold paren. destruct (Nat.ltb_spec 2 k) as [Hp|Hp].
    + destruct (Hbare 0 0 (TRp :: rest) (ENot a, TRp :: rest) 1) as [f1 H1].
      { lia. } { lia. } { exact I. } { reflexivity. }
      exists (S (Nat.max f f1)).
      replace ((TLp :: (TNot :: written 3 a) ++ [TRp]) ++ rest) with (TLp :: ((TNot :: written 3 a) ++ TRp :: rest))
        by (cbn [app]; rewrite <- !app_assoc; reflexivity).
      cbn [pe]. fold pe. rewrite (pe_mono _ _ _ _ _ H1) by lia. apply (pe_mono _ _ _ _ _ H). lia.
    + apply (Hbare k m rest r f); auto.
  - assert (Hrest : forall o' ts, rest = op_tok o' :: ts -> op_bp o' <= 7).
    { intros o' ts _. pose proof (bp_pos o'). lia. }
    assert (Hh7 : head_ok 7 rest).
    { destruct rest as [|t ts]; [exact I|]. unfold head_ok. destruct (tok_op t) as [o'|] eqn:E; [|exact I].
      pose proof (bp_pos o'). lia. }
    destruct (IHa 7 7 rest (a, rest) 1 ltac:(lia) Hh7 (pe_stop 0 a false 7 rest Hh7 Hrest)) as [f1 H1].
    exists (S (Nat.max f f1)). cbn [written app pe].
    rewrite (pe_mono _ _ _ _ _ H1) by lia. apply (pe_mono _ _ _ _ _ H). lia.
Qed.

Lemma parse_written : forall e, parse (written 0 e) = Some e.
Proof.
  intros e. destruct (pe_written e 0 0 [] (e, []) 1 ltac:(lia) I eq_refl) as [f H].
  rewrite app_nil_r in H. unfold parse. rewrite (pe_enough _ _ _ _ _ H) by lia. reflexivity.
Qed.

(** ** The lexer *)

Definition starter (t : mtok) : bool :=
  match t with TName _ | TNum _ | TLp | TNot | TMinus => true | _ => false end.
Definition ender (t : mtok) : bool :=
  match t with TName _ | TNum _ | TRp => true | _ => false end.
Definition isop (t : mtok) : bool := match tok_op t with Some _ => true | None => false end.
Definition adj (x y : mtok) : bool := if ender x then isop y || match y with TRp => true | _ => false end else starter y.
Definition tok_good (t : mtok) : bool :=
  match t with TName s => name_ok s | TNum d => num_ok d | _ => true end.
Fixpoint good (ts : list mtok) : bool :=
  match ts with
  | [] => false
  | [t] => ender t
  | t :: ((u :: _) as r) => adj t u && good r
  end.

Lemma good_app : forall a b u, good a = true -> good (u :: b) = true -> adj (last a TRp) u = true ->
  good (a ++ u :: b) = true.
Proof.
  induction a as [|t a IH]; intros b u Ha Hb Hadj; [discriminate|].
  destruct a as [|t2 a].
  - cbn [last app] in *. change (adj t u && good (u :: b) = true). rewrite Hadj, Hb. reflexivity.
  - change (adj t t2 && good ((t2 :: a) ++ u :: b) = true).
    change (adj t t2 && good (t2 :: a) = true) in Ha. apply andb_true_iff in Ha as [H1 H2].
    rewrite H1. cbn [andb]. apply IH; auto.
Qed.

Lemma good_last : forall a, good a = true -> ender (last a TRp) = true.
Proof.
  induction a as [|t a IH]; intros H; [discriminate|]. destruct a as [|u a]; [exact H|].
  change (adj t u && good (u :: a) = true) in H. apply andb_true_iff in H as [_ H]. exact (IH H).
Qed.
Lemma good_cons : forall t u r, adj t u = true -> good (u :: r) = true -> good (t :: u :: r) = true.
Proof. intros t u r H1 H2. change (adj t u && good (u :: r) = true). rewrite H1, H2. reflexivity. Qed.

Lemma op_tok_ender : forall o, ender (op_tok o) = false.
Proof. destruct o; reflexivity. Qed.
Lemma op_tok_isop : forall o, isop (op_tok o) = true.
Proof. destruct o; reflexivity. Qed.

Lemma good_paren : forall b ts, good ts = true -> (exists t r, ts = t :: r /\ starter t = true) ->
  good (paren b ts) = true /\ exists t r, paren b ts = t :: r /\ starter t = true.
Proof.
  intros [|] ts Hg [t [r [E Hs]]]; simpl paren; [|split; eauto].
  split; [|eexists; eexists; split; reflexivity].
  subst ts. cbn [app]. apply good_cons; [exact Hs|].
  change (t :: r ++ [TRp]) with ((t :: r) ++ [TRp]).
  apply good_app; [exact Hg|reflexivity|].
  unfold adj. rewrite (good_last _ Hg). reflexivity.
Qed.

Lemma written_good : forall e k, proper e ->
  good (written k e) = true /\ (exists t r, written k e = t :: r /\ starter t = true) /\
  forallb tok_good (written k e) = true.
Proof.
  assert (Hpar : forall b ts, forallb tok_good (paren b ts) = forallb tok_good ts).
  { intros [|] ts; [|reflexivity]. simpl. rewrite forallb_app. simpl. now rewrite andb_true_r. }
  induction e as [s|d|o a IHa b IHb|a IHa|a IHa]; intros k Hp; cbn [written].
  - split; [reflexivity|]. split; [eexists; eexists; split; reflexivity|]. simpl in *. now rewrite Hp.
  - split; [reflexivity|]. split; [eexists; eexists; split; reflexivity|]. simpl in *. now rewrite Hp.
  - destruct Hp as [Hpa Hpb].
    destruct (IHa (if strength o =? 4 then 4 else strength o - 1) Hpa) as (Ga & (ta & ra & Ea & Sa) & Fa).
    destruct (IHb (strength o) Hpb) as (Gb & (tb & rb & Eb & Sb) & Fb).
    rewrite Hpar. rewrite forallb_app. cbn [forallb]. rewrite Fa, Fb.
    assert (tok_good (op_tok o) = true) as -> by (destruct o; reflexivity).
    match goal with |- context[paren ?b ?ts] => destruct (good_paren b ts) as [H1 H2] end.
    + apply good_app; [exact Ga| |].
      * rewrite Eb. apply good_cons; [|rewrite Eb in Gb; exact Gb]. unfold adj. rewrite op_tok_ender. exact Sb.
      * unfold adj. rewrite (good_last _ Ga), op_tok_isop. reflexivity.
    + rewrite Ea. eexists; eexists; split; [reflexivity|exact Sa].
    + split; [exact H1|]. split; [exact H2|reflexivity].
  - destruct (IHa 3 Hp) as (Ga & (ta & ra & Ea & Sa) & Fa). rewrite Hpar. cbn [forallb]. rewrite Fa.
    match goal with |- context[paren ?b ?ts] => destruct (good_paren b ts) as [H1 H2] end.
    + rewrite Ea. apply good_cons; [exact Sa|]. rewrite Ea in Ga; exact Ga.
    + eexists; eexists; split; reflexivity.
    + split; [exact H1|]. split; [exact H2|reflexivity].
  - destruct (IHa 7 Hp) as (Ga & (ta & ra & Ea & Sa) & Fa). cbn [forallb]. rewrite Fa.
    split; [|split; [eexists; eexists; split; reflexivity|reflexivity]].
    rewrite Ea. apply good_cons; [exact Sa|]. rewrite Ea in Ga; exact Ga.
Qed.

Lemma space_not_word : forall c, is_space c = true -> is_word c = false.
Proof.
  intros c H. unfold is_space, is_word, is_alpha_, is_digit in *.
  repeat match goal with
         | |- context[N.leb ?a ?b] => destruct (N.leb_spec a b)
         | |- context[N.eqb ?a ?b] => destruct (N.eqb_spec a b)
         end; simpl; try reflexivity; exfalso; subst;
  repeat (apply orb_prop in H; destruct H as [H|H]);
  try (apply andb_true_iff in H as [H ?]); repeat match goal with
  | H : N.leb _ _ = true |- _ => apply N.leb_le in H
  | H : N.eqb _ _ = true |- _ => apply N.eqb_eq in H end; try lia; try discriminate.
Qed.

Lemma oapp_nil : forall x, oapp (Some []) x = x.
Proof. intros [x|]; reflexivity. Qed.
Lemma oapp_assoc : forall a b c, oapp a (oapp b c) = oapp (oapp a b) c.
Proof. intros [a|] [b|] [c|]; simpl; try reflexivity. now rewrite app_assoc. Qed.

(** Text that does not start with a word character ends the current word. *)
Lemma lex_break : forall s cur, match s with [] => True | c :: _ => is_word c = false end ->
  lex_from s cur = oapp (flush cur) (lex_from s []).
Proof.
  intros [|c s] cur H.
  - simpl. destruct (flush cur) as [l|]; [|reflexivity]. simpl. now rewrite app_nil_r.
  - cbn [lex_from]. rewrite H. cbn [flush]. rewrite oapp_nil. reflexivity.
Qed.

Lemma lex_blanks : forall b s, forallb is_space b = true -> lex_from (b ++ s) [] = lex_from s [].
Proof.
  induction b as [|c b IH]; intros s H; [reflexivity|]. simpl in H. apply andb_true_iff in H as [H1 H2].
  cbn [app lex_from]. rewrite (space_not_word c H1), H1. cbn [flush]. rewrite oapp_nil. auto.
Qed.

Lemma lex_word : forall w s cur, forallb is_word w = true -> lex_from (w ++ s) cur = lex_from s (cur ++ w).
Proof.
  induction w as [|c w IH]; intros s cur H; [now rewrite app_nil_r|].
  simpl in H. apply andb_true_iff in H as [H1 H2]. cbn [app lex_from]. rewrite H1, IH by exact H2.
  rewrite <- app_assoc. reflexivity.
Qed.

Lemma spell_head : forall ts sp, all_blank sp -> 
  match spell sp ts with
  | [] => ts = []  \/ exists t r, ts = t :: r /\ tok_text t = []
  | c :: _ => is_space c = true \/ exists t r, ts = t :: r /\ match tok_text t with [] => True | d :: _ => c = d end
  end.
Proof.
  intros ts sp Hb.
  assert (Hhd : forallb is_space (hd [] sp) = true).
  { destruct sp; [reflexivity|]. inversion Hb; assumption. }
  destruct ts as [|t ts]; cbn [spell]; destruct (hd [] sp) as [|c b].
  - left; reflexivity.
  - left. simpl in Hhd. apply andb_true_iff in Hhd. apply Hhd.
  - cbn [app]. destruct (tok_text t) as [|d x] eqn:E; cbn [app].
    + destruct (spell (tl sp) ts); right; exists t, ts; rewrite E; auto.
    + right. exists t, ts. rewrite E. auto.
  - left. simpl in Hhd. apply andb_true_iff in Hhd. apply Hhd.
Qed.

Lemma name_ok_word : forall s, name_ok s = true -> s <> [] /\ forallb is_word s = true.
Proof.
  intros [|c s] H; [discriminate|]. unfold name_ok in H.
  apply andb_true_iff in H as [H _]. apply andb_true_iff in H as [_ H]. split; [discriminate|exact H].
Qed.
Lemma num_ok_word : forall s, num_ok s = true -> s <> [] /\ forallb is_word s = true.
Proof.
  intros [|c s] H; [discriminate|]. unfold num_ok in H. apply andb_true_iff in H as [H _].
  split; [discriminate|]. rewrite forallb_forall in *. intros x Hx. unfold is_word. rewrite (H x Hx). apply orb_true_r.
Qed.
Lemma num_not_name : forall s, num_ok s = true -> name_ok s = false.
Proof.
  intros [|c s] H; [discriminate|]. unfold num_ok in H. apply andb_true_iff in H as [H _].
  simpl in H. apply andb_true_iff in H as [H _]. unfold name_ok, is_alpha_. unfold is_digit in H.
  apply andb_true_iff in H as [H1 H2]. apply N.leb_le in H1, H2.
  destruct (N.leb_spec 65 c), (N.leb_spec 97 c), (N.eqb_spec c 95); try lia; reflexivity.
Qed.

Definition starts_nonword (s : str) : Prop := match s with [] => True | c :: _ => is_word c = false end.

Lemma tok_text_op_nonword : forall t d x, (isop t = true \/ t = TRp) -> tok_text t = d :: x -> is_word d = false.
Proof.
  intros t d x H E. destruct t; destruct H as [H|H]; try discriminate; inversion E; subst; reflexivity.
Qed.

Lemma spell_nil_not : forall ts sp, good ts = true -> forallb tok_good ts = true -> all_blank sp -> spell sp ts <> [].
Proof.
  intros ts sp Hg Hf Hb E. pose proof (spell_head ts sp Hb) as H. rewrite E in H.
  destruct H as [->|[t [r [-> Ht]]]]; [discriminate|].
  simpl in Hf. apply andb_true_iff in Hf as [Hf _]. destruct t; try discriminate; simpl in Ht; subst; discriminate.
Qed.

(** First character of a spelt list starting with a starter: not "=". *)
Lemma spell_starter_head : forall t ts sp, starter t = true -> tok_good t = true -> all_blank sp ->
  exists c s, spell sp (t :: ts) = c :: s /\ N.eqb c 61 = false.
Proof.
  intros t ts sp Hs Hg Hb. pose proof (spell_head (t :: ts) sp Hb) as H.
  destruct (spell sp (t :: ts)) as [|c s] eqn:E.
  - destruct H as [H|[t' [r [H1 H2]]]]; [discriminate|]. inversion H1; subst.
    destruct t'; try discriminate; simpl in H2; subst; discriminate.
  - exists c, s. split; [reflexivity|]. destruct H as [H|[t' [r [H1 H2]]]].
    + destruct (N.eqb_spec c 61); [subst; discriminate|reflexivity].
    + inversion H1; subst t' r. 
      assert (Hw : forall w, forallb is_word w = true -> w <> [] -> match w with [] => True | d :: _ => c = d end -> N.eqb c 61 = false).
      { intros [|d w] Hw Hn Hc; [congruence|]. subst d. simpl in Hw. apply andb_true_iff in Hw as [Hw _].
        destruct (N.eqb_spec c 61); [subst; discriminate|reflexivity]. }
      destruct t; try discriminate; simpl in H2; try (subst c; reflexivity).
      * destruct (name_ok_word _ Hg) as [Hn Hww]. apply (Hw s0); auto.
      * destruct (num_ok_word _ Hg) as [Hn Hww]. apply (Hw digits); auto.
Qed.

Lemma lex_spell : forall ts sp, good ts = true -> forallb tok_good ts = true -> all_blank sp ->
  lex (spell sp ts) = Some ts.
Proof.
  unfold lex. induction ts as [|t ts IH]; intros sp Hg Hf Hb; [discriminate|].
  assert (Hhd : forallb is_space (hd [] sp) = true).
  { destruct sp; [reflexivity|]. inversion Hb; assumption. }
  assert (Htl : all_blank (tl sp)).
  { destruct sp; [constructor|]. inversion Hb; assumption. }
  simpl in Hf. apply andb_true_iff in Hf as [Hft Hf].
  cbn [spell]. rewrite lex_blanks by exact Hhd.
  assert (Hrest : lex_from (spell (tl sp) ts) [] = Some ts).
  { destruct ts as [|u ts].
    - cbn [spell]. rewrite <- (app_nil_r (hd [] (tl sp))). rewrite lex_blanks; [reflexivity|].
      destruct (tl sp); [reflexivity|]. inversion Htl; assumption.
    - change (adj t u && good (u :: ts) = true) in Hg. apply andb_true_iff in Hg as [_ Hg].
      apply IH; auto. }
  assert (Hword : forall w, flush w = Some [t] -> forallb is_word w = true -> ender t = true ->
             tok_text t = w -> lex_from (tok_text t ++ spell (tl sp) ts) [] = Some (t :: ts)).
  { intros w Hfl Hw He ->. rewrite lex_word by exact Hw. cbn [app].
    rewrite lex_break.
    - rewrite Hfl, Hrest. reflexivity.
    - pose proof (spell_head ts (tl sp) Htl) as Hsh.
      destruct (spell (tl sp) ts) as [|c s]; [exact I|]. destruct Hsh as [Hsh|[u [r [-> Hu]]]].
      + apply space_not_word; exact Hsh.
      + change (adj t u && good (u :: r) = true) in Hg. apply andb_true_iff in Hg as [Hadj _].
        unfold adj in Hadj. rewrite He in Hadj.
        destruct (tok_text u) as [|d x] eqn:Eu.
        * exfalso. destruct u; try discriminate.
        * subst d. apply (tok_text_op_nonword u c x); [|exact Eu].
          apply orb_prop in Hadj. destruct Hadj as [Hadj|Hadj]; [left; exact Hadj|right].
          destruct u; try discriminate; reflexivity. }
  assert (Hlt : starter t = false -> ender t = false -> exists c s, spell (tl sp) ts = c :: s /\ N.eqb c 61 = false).
  { intros _ He. destruct ts as [|u ts].
    - simpl in Hg. congruence.
    - change (adj t u && good (u :: ts) = true) in Hg. apply andb_true_iff in Hg as [Hadj _].
      unfold adj in Hadj. rewrite He in Hadj. simpl in Hf. apply andb_true_iff in Hf as [Hfu _].
      apply spell_starter_head; auto. }
  destruct t.
  - simpl in Hft. destruct (name_ok_word _ Hft) as [Hn Hw]. apply (Hword s); auto.
    unfold flush. rewrite Hft. destruct s; [congruence|reflexivity].
  - simpl in Hft. destruct (num_ok_word _ Hft) as [Hn Hw]. apply (Hword digits); auto.
    unfold flush. rewrite (num_not_name _ Hft), Hft. destruct digits; [congruence|reflexivity].
  - change (lex_from (tok_text TAnd ++ spell (tl sp) ts) []) with (oapp (Some []) (oapp (Some [TAnd]) (lex_from (spell (tl sp) ts) []))).
    rewrite Hrest; reflexivity.
  - change (lex_from (tok_text TOr ++ spell (tl sp) ts) []) with (oapp (Some []) (oapp (Some [TOr]) (lex_from (spell (tl sp) ts) []))).
    rewrite Hrest; reflexivity.
  - change (lex_from (tok_text TNot ++ spell (tl sp) ts) []) with (oapp (Some []) (oapp (Some [TNot]) (lex_from (spell (tl sp) ts) []))).
    rewrite Hrest; reflexivity.
  - change (lex_from (tok_text TLp ++ spell (tl sp) ts) []) with (oapp (Some []) (oapp (Some [TLp]) (lex_from (spell (tl sp) ts) []))).
    rewrite Hrest; reflexivity.
  - change (lex_from (tok_text TRp ++ spell (tl sp) ts) []) with (oapp (Some []) (oapp (Some [TRp]) (lex_from (spell (tl sp) ts) []))).
    rewrite Hrest; reflexivity.
  - change (lex_from (tok_text TPlus ++ spell (tl sp) ts) []) with (oapp (Some []) (oapp (Some [TPlus]) (lex_from (spell (tl sp) ts) []))).
    rewrite Hrest; reflexivity.
  - change (lex_from (tok_text TMinus ++ spell (tl sp) ts) []) with (oapp (Some []) (oapp (Some [TMinus]) (lex_from (spell (tl sp) ts) []))).
    rewrite Hrest; reflexivity.
  - change (lex_from (tok_text TMul ++ spell (tl sp) ts) []) with (oapp (Some []) (oapp (Some [TMul]) (lex_from (spell (tl sp) ts) []))).
    rewrite Hrest; reflexivity.
  - destruct (Hlt eq_refl eq_refl) as [c [s [Es Ec]]]. rewrite Es in *.
    change (lex_from (tok_text TLt ++ c :: s) []) with
      (oapp (Some []) (if N.eqb c 61 then oapp (Some [TLe]) (lex_from s []) else oapp (Some [TLt]) (lex_from (c :: s) []))).
    rewrite Ec, Hrest. reflexivity.
  - destruct (Hlt eq_refl eq_refl) as [c [s [Es Ec]]]. rewrite Es in *.
    change (lex_from (tok_text TGt ++ c :: s) []) with
      (oapp (Some []) (if N.eqb c 61 then oapp (Some [TGe]) (lex_from s []) else oapp (Some [TGt]) (lex_from (c :: s) []))).
    rewrite Ec, Hrest. reflexivity.
  - change (lex_from (tok_text TLe ++ spell (tl sp) ts) []) with (oapp (Some []) (oapp (Some [TLe]) (lex_from (spell (tl sp) ts) []))).
    rewrite Hrest; reflexivity.
  - change (lex_from (tok_text TGe ++ spell (tl sp) ts) []) with (oapp (Some []) (oapp (Some [TGe]) (lex_from (spell (tl sp) ts) []))).
    rewrite Hrest; reflexivity.
  - change (lex_from (tok_text TEq ++ spell (tl sp) ts) []) with (oapp (Some []) (oapp (Some [TEq]) (lex_from (spell (tl sp) ts) []))).
    rewrite Hrest; reflexivity.
Qed.

(** What is written is what is compiled. *)
Lemma compile_writes : forall text e, writes text e -> compile_text text = Some e.
Proof.
  intros text e (Hp & sp & Hb & ->). destruct (written_good e 0 Hp) as (Hg & _ & Hf).
  unfold compile_text. rewrite (lex_spell _ _ Hg Hf Hb). apply parse_written.
Qed.

(** ** Evaluation *)

Lemma digits_fold : forall d acc, forallb is_digit d = true ->
  digits_val acc d = Some (fold_left (fun acc c => 10 * acc + Z.of_N (c - 48))%Z d acc).
Proof.
  induction d as [|c d IH]; intros acc H; [reflexivity|]. simpl in H. apply andb_true_iff in H as [H1 H2].
  cbn [digits_val fold_left]. rewrite H1. apply IH; exact H2.
Qed.

Lemma value_num : forall v q, value_is v q -> exists x, num_of v = Some x /\ x == q.
Proof. intros [|b|x|s] q H; simpl in H; try contradiction; eexists; split; try reflexivity; exact H. Qed.

Lemma value_truthy : forall v q, value_is v q -> truthy v = negb (is_zero q).
Proof.
  intros [|b|x|s] q H; simpl in H; try contradiction; simpl; unfold is_zero.
  - destruct b; simpl in H; destruct (Qeq_bool q 0) eqn:E; try reflexivity; exfalso.
    + apply Qeq_bool_iff in E. rewrite E in H. discriminate.
    + rewrite <- H in E. discriminate.
  - f_equal. destruct (Qeq_bool x 0) eqn:E1, (Qeq_bool q 0) eqn:E2; try reflexivity; exfalso.
    + apply Qeq_bool_iff in E1. rewrite H in E1. apply Qeq_bool_iff in E1. congruence.
    + apply Qeq_bool_iff in E2. rewrite <- H in E2. apply Qeq_bool_iff in E2. congruence.
Qed.

Lemma Qle_bool_comp : forall a b c d, a == b -> c == d -> Qle_bool a c = Qle_bool b d.
Proof.
  intros a b c d H1 H2. destruct (Qle_bool a c) eqn:E1, (Qle_bool b d) eqn:E2; try reflexivity; exfalso.
  - apply Qle_bool_iff in E1. rewrite H1, H2 in E1. apply Qle_bool_iff in E1. congruence.
  - apply Qle_bool_iff in E2. rewrite <- H1, <- H2 in E2. apply Qle_bool_iff in E2. congruence.
Qed.
Lemma Qeq_bool_comp2 : forall a b c d, a == b -> c == d -> Qeq_bool a c = Qeq_bool b d.
Proof.
  intros a b c d H1 H2. destruct (Qeq_bool a c) eqn:E1, (Qeq_bool b d) eqn:E2; try reflexivity; exfalso.
  - apply Qeq_bool_iff in E1. rewrite H1, H2 in E1. apply Qeq_bool_iff in E1. congruence.
  - apply Qeq_bool_iff in E2. rewrite <- H1, <- H2 in E2. apply Qeq_bool_iff in E2. congruence.
Qed.
Lemma Qlt_bool_neg : forall a b, Qlt_bool a b = negb (Qle_bool b a).
Proof.
  intros a b. unfold Qlt_bool. destruct (Qle_bool a b) eqn:E1, (Qeq_bool a b) eqn:E2, (Qle_bool b a) eqn:E3; try reflexivity; exfalso.
  - apply Qeq_bool_iff in E2. assert (b <= a)%Q by (rewrite E2; apply Qle_refl). apply Qle_bool_iff in H. congruence.
  - apply Qle_bool_iff in E1, E3. assert (a == b) by (apply Qle_antisym; assumption). apply Qeq_bool_iff in H. congruence.
  - apply Qeq_bool_iff in E2. assert (b <= a)%Q by (rewrite E2; apply Qle_refl). apply Qle_bool_iff in H. congruence.
  - destruct (Qlt_le_dec a b) as [H|H]; [apply Qlt_le_weak in H|]; apply Qle_bool_iff in H; congruence.
Qed.

Lemma eval_worth : forall res w e, proper e ->
  (forall s, In s (expr_names e) -> exists v, res s = Returns v /\ value_is v (w s)) ->
  exists v, py_eval res e = Returns v /\ value_is v (worth w e).
Proof.
  intros res w. induction e as [s|d|o a IHa b IHb|a IHa|a IHa]; intros Hp Hn.
  - apply Hn. left; reflexivity.
  - simpl in Hp. cbn [py_eval]. unfold nat_val. destruct d as [|c d]; [discriminate|].
    unfold num_ok in Hp. apply andb_true_iff in Hp as [Hp _].
    rewrite digits_fold by exact Hp. eexists; split; [reflexivity|]. apply Qeq_refl.
  - destruct Hp as [Hpa Hpb].
    destruct (IHa Hpa) as [va [Ea Va]]; [intros s Hs; apply Hn; apply in_or_app; auto|].
    destruct (IHb Hpb) as [vb [Eb Vb]]; [intros s Hs; apply Hn; apply in_or_app; auto|].
    destruct (value_num _ _ Va) as [x [Ex Hx]]. destruct (value_num _ _ Vb) as [y [Ey Hy]].
    destruct o; cbn [py_eval worth]; rewrite Ea; try rewrite Eb; unfold arith; rewrite ?Ex, ?Ey.
    + rewrite (value_truthy _ _ Va). destruct (is_zero (worth w a)); simpl; eauto.
    + rewrite (value_truthy _ _ Va). destruct (is_zero (worth w a)); simpl; eauto.
    + eexists; split; [reflexivity|]. simpl. rewrite Hx, Hy. reflexivity.
    + eexists; split; [reflexivity|]. simpl. rewrite Hx, Hy. reflexivity.
    + eexists; split; [reflexivity|]. simpl. rewrite Hx, Hy. reflexivity.
    + eexists; split; [reflexivity|]. unfold value_is. rewrite Qlt_bool_neg, (Qle_bool_comp _ _ _ _ Hy Hx). reflexivity.
    + eexists; split; [reflexivity|]. unfold value_is. rewrite Qlt_bool_neg, (Qle_bool_comp _ _ _ _ Hx Hy). reflexivity.
    + eexists; split; [reflexivity|]. unfold value_is. rewrite (Qle_bool_comp _ _ _ _ Hx Hy). reflexivity.
    + eexists; split; [reflexivity|]. unfold value_is. rewrite (Qle_bool_comp _ _ _ _ Hy Hx). reflexivity.
    + eexists; split; [reflexivity|]. unfold value_is. rewrite (Qeq_bool_comp2 _ _ _ _ Hx Hy). reflexivity.
  - destruct (IHa Hp Hn) as [v [E V]]. cbn [py_eval worth]. rewrite E. eexists; split; [reflexivity|].
    unfold value_is. rewrite (value_truthy _ _ V), negb_involutive. reflexivity.
  - destruct (IHa Hp Hn) as [v [E V]]. cbn [py_eval worth]. rewrite E.
    destruct (value_num _ _ V) as [x [Ex Hx]]. rewrite Ex. eexists; split; [reflexivity|].
    simpl. rewrite Hx. reflexivity.
Qed.

Lemma eval_ext : forall r1 r2 e, (forall s, In s (expr_names e) -> r1 s = r2 s) -> py_eval r1 e = py_eval r2 e.
Proof.
  intros r1 r2. induction e as [s|d|o a IHa b IHb|a IHa|a IHa]; intros H; cbn [py_eval].
  - apply H; left; reflexivity.
  - reflexivity.
  - rewrite IHa by (intros s Hs; apply H; apply in_or_app; auto).
    rewrite IHb by (intros s Hs; apply H; apply in_or_app; auto). reflexivity.
  - rewrite IHa by exact H. reflexivity.
  - rewrite IHa by exact H. reflexivity.
Qed.

(** ** Matching *)

Lemma mmatch_mono : forall t base f n o, mmatch t base f n = Some o ->
  forall g, f <= g -> mmatch t base g n = Some o.
Proof.
  intros t base. induction f as [|f IH]; intros n o H g Hg; [discriminate|].
  destruct g as [|g]; [lia|]. cbn [mmatch] in *. destruct (mget t n) as [[|text]|]; [exact H| |discriminate].
  destruct (compile_text text) as [e|]; [|discriminate].
  destruct (forallb _ (expr_names e)) eqn:E; [|discriminate].
  rewrite forallb_forall in E.
  assert (Hs : forall s, In s (expr_names e) -> mmatch t base g s = mmatch t base f s /\ mmatch t base f s <> None).
  { intros s Hs. specialize (E s Hs). destruct (mmatch t base f s) as [os|] eqn:Es; [|discriminate].
    rewrite (IH s os Es g ltac:(lia)). split; congruence. }
  assert (forallb (fun s => match mmatch t base g s with Some _ => true | None => false end) (expr_names e) = true) as ->.
  { apply forallb_forall. intros s Hin. destruct (Hs s Hin) as [-> Hne]. destruct (mmatch t base f s); congruence. }
  rewrite <- H. f_equal. apply eval_ext. intros s Hin. destruct (Hs s Hin) as [-> _]. reflexivity.
Qed.

Lemma gives_fun : forall t base n o1 o2, gives t base n o1 -> gives t base n o2 -> o1 = o2.
Proof.
  intros t base n o1 o2 [f1 H1] [f2 H2].
  pose proof (mmatch_mono _ _ _ _ _ H1 (f1 + f2) ltac:(lia)).
  pose proof (mmatch_mono _ _ _ _ _ H2 (f1 + f2) ltac:(lia)). congruence.
Qed.

Lemma gives_meta : forall t base n text e res,
  mget t n = Some (RMeta text) -> compile_text text = Some e ->
  (forall s, In s (expr_names e) -> gives t base s (res s)) ->
  gives t base n (py_eval res e).
Proof.
  intros t base n text e res Hg Hc Hs.
  assert (Hf : forall l, (forall s, In s l -> gives t base s (res s)) ->
             exists f, forall s, In s l -> mmatch t base f s = Some (res s)).
  { clear. induction l as [|s l IH]; intros H; [exists 0; intros s []|].
    destruct IH as [f1 H1]; [intros s' Hs'; apply H; right; exact Hs'|].
    destruct (H s (or_introl eq_refl)) as [f2 H2]. exists (f1 + f2). intros s' [<-|Hs'].
    - apply (mmatch_mono _ _ _ _ _ H2); lia.
    - apply (mmatch_mono _ _ _ _ _ (H1 s' Hs')); lia. }
  destruct (Hf _ Hs) as [f Hf']. exists (S f). cbn [mmatch]. rewrite Hg, Hc.
  assert (forallb (fun s => match mmatch t base f s with Some _ => true | None => false end) (expr_names e) = true) as ->.
  { apply forallb_forall. intros s Hin. rewrite (Hf' s Hin). reflexivity. }
  f_equal. apply eval_ext. intros s Hin. rewrite (Hf' s Hin). reflexivity.
Qed.

(** ** Loading *)

Lemma mget_defined : forall t n, mget t n <> None <-> defined t n.
Proof.
  intros t n. unfold mget, defined. split.
  - intros H. destruct (dget n (t_checked t)) eqn:E.
    + left. apply dhas_In. unfold dhas. rewrite E. reflexivity.
    + right. apply dhas_In. unfold dhas. destruct (dget n (t_not_checked t)); congruence.
  - intros [H|H]; apply dhas_In in H; unfold dhas in H.
    + destruct (dget n (t_checked t)); congruence.
    + destruct (dget n (t_checked t)); [congruence|]. destruct (dget n (t_not_checked t)); congruence.
Qed.

Fixpoint ranked (t : mtables) (done : list str) : Prop :=
  match done with
  | [] => True
  | n :: d => (exists text e, mget t n = Some (RMeta text) /\ compile_text text = Some e /\
                 forall s, In s (expr_names e) -> mget t s = Some RBase \/ In s d) /\ ranked t d
  end.

Lemma ranked_In : forall t done n, ranked t done -> In n done ->
  exists text e, mget t n = Some (RMeta text) /\ compile_text text = Some e /\
    forall s, In s (expr_names e) -> mget t s = Some RBase \/ In s done.
Proof.
  induction done as [|x done IH]; intros n Hr Hi; [destruct Hi|]. destruct Hr as [Hx Hr].
  destruct Hi as [<-|Hi].
  - destruct Hx as (text & e & H1 & H2 & H3). exists text, e. split; [exact H1|]. split; [exact H2|].
    intros s Hs. destruct (H3 s Hs); [left; assumption|right; right; assumption].
  - destruct (IH n Hr Hi) as (text & e & H1 & H2 & H3). exists text, e. split; [exact H1|]. split; [exact H2|].
    intros s Hs. destruct (H3 s Hs); [left; assumption|right; right; assumption].
Qed.

Lemma base_acc : forall t n, mget t n = Some RBase -> Acc (fun s n => mentions t n s) n.
Proof. intros t n H. constructor. intros s (text & e & H1 & _). congruence. Qed.

Lemma ranked_acc : forall t done n, ranked t done -> In n done -> Acc (fun s n => mentions t n s) n.
Proof.
  induction done as [|x done IH]; intros n Hr Hi; [destruct Hi|]. destruct Hr as [Hx Hr].
  destruct Hi as [<-|Hi]; [|auto].
  destruct Hx as (text & e & H1 & H2 & H3). constructor. intros s (text' & e' & H1' & H2' & H3').
  rewrite H1 in H1'; inversion H1'; subst text'. rewrite H2 in H2'; inversion H2'; subst e'.
  destruct (H3 s H3') as [Hb|Hd]; [apply base_acc; exact Hb|apply IH; assumption].
Qed.

Inductive reach (t : mtables) : str -> str -> Prop :=
| reach1 : forall a b, mentions t a b -> reach t a b
| reachS : forall a b c, mentions t a b -> reach t b c -> reach t a c.

Lemma reach_trans : forall t a b c, reach t a b -> reach t b c -> reach t a c.
Proof. intros t a b c H. induction H; intros Hc; [eapply reachS; eauto|eapply reachS; eauto]. Qed.

Lemma acc_no_cycle : forall t n, Acc (fun s n => mentions t n s) n -> ~ reach t n n.
Proof.
  intros t n H. induction H as [n _ IH]. intros Hr. inversion Hr; subst.
  - apply (IH n H). exact Hr.
  - apply (IH b H). eapply reach_trans; [exact H0|]. apply reach1; exact H.
Qed.

Section LoadProofs.
Variable order : list str -> list str.
Hypothesis Horder : enumerates order.

(** The loop over references, as a definition of its own. *)
Fixpoint pp_refs (left' : nat) (t : mtables) (n : str) (l : list str) (done : list str) : ppres :=
  match l with
  | [] => PPok (n :: done)
  | s :: l' =>
      match mget t s with
      | None => PPinvalid done
      | Some rs => match pp order left' t s rs done with
                   | PPok done' => pp_refs left' t n l' done'
                   | err => err
                   end
      end
  end.

Lemma pp_meta : forall left' t n text done,
  pp order (S left') t n (RMeta text) done =
  if mem_str n done then PPok done
  else match compile_text text with
       | None => PPsyntax
       | Some e => pp_refs left' t n (order (expr_names e)) done
       end.
Proof.
  intros left' t n text done. cbn [pp]. destruct (mem_str n done); [reflexivity|].
  destruct (compile_text text) as [e|]; [|reflexivity].
  generalize (order (expr_names e)) as l. intros l. revert done.
  induction l as [|s l IH]; intros done; [reflexivity|]. cbn [pp_refs].
  destruct (mget t s) as [rs|]; [|reflexivity]. destruct (pp order left' t s rs done); [apply IH|reflexivity|reflexivity].
Qed.

Lemma pp_inv : forall left t n r done, mget t n = Some r -> ranked t done ->
  match pp order left t n r done with
  | PPok done' => ranked t done' /\ incl done done' /\ (r <> RBase -> In n done') /\
                  forall x, In x done' -> In x done \/ x = n \/ reach t n x
  | PPinvalid done' => ranked t done' /\ incl done done' /\ r <> RBase /\
                  forall x, In x done' -> In x done \/ reach t n x
  | PPsyntax => True
  end.
Proof.
  induction left as [|left IH]; intros t n r done Hg Hr.
  - destruct r as [|text]; cbn [pp].
    + split; [exact Hr|]. split; [intros x Hx; exact Hx|]. split; [congruence|]. auto.
    + split; [exact Hr|]. split; [intros x Hx; exact Hx|]. split; [congruence|]. auto.
  - destruct r as [|text].
    + cbn [pp]. split; [exact Hr|]. split; [intros x Hx; exact Hx|]. split; [congruence|]. auto.
    + rewrite pp_meta. destruct (mem_str n done) eqn:Em.
      { apply mem_str_In in Em. split; [exact Hr|]. split; [intros x Hx; exact Hx|]. split; [auto|]. auto. }
      destruct (compile_text text) as [e|] eqn:Ec; [|exact I].
      (* loop *)
      assert (Hloop : forall l done0, ranked t done0 ->
         (forall s, In s l -> In s (expr_names e)) ->
         (forall s, In s (expr_names e) -> In s l \/ mget t s = Some RBase \/ In s done0) ->
         match pp_refs left t n l done0 with
         | PPok done' => ranked t done' /\ incl done0 done' /\ In n done' /\
                  forall x, In x done' -> In x done0 \/ x = n \/ reach t n x
         | PPinvalid done' => ranked t done' /\ incl done0 done' /\
                  forall x, In x done' -> In x done0 \/ reach t n x
         | PPsyntax => True
         end).
      { induction l as [|s l IHl]; intros done0 Hr0 Hsub Hcov; cbn [pp_refs].
        - split; [|split; [intros x Hx; right; exact Hx|split; [left; reflexivity|]]].
          + split; [|exact Hr0]. exists text, e. split; [exact Hg|]. split; [exact Ec|].
            intros s Hs. destruct (Hcov s Hs) as [[]|H]; exact H.
          + intros x [<-|Hx]; auto.
        - assert (Hment : mentions t n s).
          { exists text, e. split; [exact Hg|]. split; [exact Ec|]. apply Hsub; left; reflexivity. }
          destruct (mget t s) as [rs|] eqn:Es.
          2:{ split; [exact Hr0|]. split; [intros x Hx; exact Hx|auto]. }
          specialize (IH t s rs done0 Es Hr0). destruct (pp order left t s rs done0) as [d1|d1|].
          + destruct IH as (Hr1 & Hi1 & Hs1 & Hx1).
            assert (Hcov1 : forall s0, In s0 (expr_names e) -> In s0 l \/ mget t s0 = Some RBase \/ In s0 d1).
            { intros s0 Hs0. destruct (Hcov s0 Hs0) as [[<-|H]|[H|H]]; auto.
              destruct rs as [|tx]; [right; left; exact Es|]. right; right. apply Hs1; discriminate. }
            specialize (IHl d1 Hr1 (fun s0 H => Hsub s0 (or_intror H)) Hcov1).
            destruct (pp_refs left t n l d1) as [d2|d2|]; [| |exact I].
            * destruct IHl as (A & B & C & D). split; [exact A|]. split; [intros x Hx; apply B, Hi1, Hx|].
              split; [exact C|]. intros x Hx. destruct (D x Hx) as [Hx'|[->|Hx']]; auto.
              destruct (Hx1 x Hx') as [?|[->|?]]; auto.
              -- right; right. apply reach1; exact Hment.
              -- right; right. eapply reachS; eauto.
            * destruct IHl as (A & B & D). split; [exact A|]. split; [intros x Hx; apply B, Hi1, Hx|].
              intros x Hx. destruct (D x Hx) as [Hx'|Hx']; auto.
              destruct (Hx1 x Hx') as [?|[->|?]]; auto.
              -- right. apply reach1; exact Hment.
              -- right. eapply reachS; eauto.
          + destruct IH as (Hr1 & Hi1 & _ & Hx1). split; [exact Hr1|]. split; [exact Hi1|].
            intros x Hx. destruct (Hx1 x Hx) as [?|?]; auto. right. eapply reachS; eauto.
          + exact I. }
      specialize (Hloop (order (expr_names e)) done Hr (fun s H => proj1 (Horder _ s) H)
                    (fun s H => or_introl (proj2 (Horder _ s) H))).
      destruct (pp_refs left t n (order (expr_names e)) done) as [d|d|]; [| |exact I].
      * destruct Hloop as (A & B & C & D). repeat split; auto.
      * destruct Hloop as (A & B & D). repeat split; auto. discriminate.
Qed.

Definition del_from (which : bool) (n : str) (t : mtables) : mtables :=
  if which then mkT (ddel n (t_checked t)) (t_not_checked t)
  else mkT (t_checked t) (ddel n (t_not_checked t)).
Definition table (which : bool) (t : mtables) : dict mrule := if which then t_checked t else t_not_checked t.

Lemma del_ok : forall w n t, tables_ok t -> tables_ok (del_from w n t).
Proof.
  intros w n t (H1 & H2 & H3). destruct w; unfold del_from; repeat split; simpl; auto using ddel_NoDup.
  - intros x Hx Hx'. rewrite ddel_keys in Hx. apply filter_In in Hx as [Hx _]. exact (H3 x Hx Hx').
  - intros x Hx Hx'. rewrite ddel_keys in Hx'. apply filter_In in Hx' as [Hx' _]. exact (H3 x Hx Hx').
Qed.

Lemma mget_table : forall w t n r, tables_ok t -> In (n, r) (table w t) -> mget t n = Some r.
Proof.
  intros w t n r (H1 & H2 & H3) Hi. unfold mget. destruct w; simpl in Hi.
  - rewrite (In_dget _ _ _ H1 Hi). reflexivity.
  - assert (Hn : In n (dkeys (t_not_checked t))) by (unfold dkeys; apply in_map_iff; exists (n, r); auto).
    assert (dget n (t_checked t) = None) as ->.
    { apply dget_None. intros Hc. exact (H3 n Hc Hn). }
    apply In_dget; assumption.
Qed.

Lemma mget_del_other : forall w n x t, x <> n -> mget (del_from w n t) x = mget t x.
Proof.
  intros w n x t Hx. unfold mget, del_from. destruct w; simpl; rewrite dget_ddel_other by congruence; reflexivity.
Qed.

Lemma mget_del_same : forall w n r t, tables_ok t -> In (n, r) (table w t) -> mget (del_from w n t) n = None.
Proof.
  intros w n r t (H1 & H2 & H3) Hi.
  assert (Hn : In n (dkeys (table w t))) by (unfold dkeys; apply in_map_iff; exists (n, r); auto).
  unfold mget, del_from. destruct w; simpl in *; rewrite dget_ddel_same.
  - destruct (dget n (t_not_checked t)) eqn:E; [|reflexivity]. exfalso. apply (H3 n Hn).
    apply dhas_In. unfold dhas. rewrite E. reflexivity.
  - destruct (dget n (t_checked t)) eqn:E; [|reflexivity]. exfalso. apply (H3 n); [|exact Hn].
    apply dhas_In. unfold dhas. rewrite E. reflexivity.
Qed.

Lemma ranked_del : forall w n text t done, ~ In n done -> mget t n = Some (RMeta text) ->
  ranked t done -> ranked (del_from w n t) done.
Proof.
  intros w n text t. induction done as [|x done IH]; intros Hn Hg Hr; [exact I|].
  destruct Hr as [(tx & e & H1 & H2 & H3) Hr]. split.
  - exists tx, e. rewrite mget_del_other by (intros ->; apply Hn; left; reflexivity).
    split; [exact H1|]. split; [exact H2|]. intros s Hs. destruct (H3 s Hs) as [H|H]; [|right; exact H].
    left. rewrite mget_del_other; [exact H|]. intros ->. congruence.
  - apply IH; auto. intros H; apply Hn; right; exact H.
Qed.

Lemma In_ddel : forall V k k2 (v : V) d, In (k2, v) d -> k2 <> k -> In (k2, v) (ddel k d).
Proof.
  intros V k k2 v d Hi Hn. induction d as [|[a b] d IH]; [destruct Hi|]. simpl.
  destruct Hi as [He|Hi].
  - inversion He; subst. destruct (streqb_spec k k2); [congruence|]. left; reflexivity.
  - destruct (negb (streqb k a)); [right|]; auto.
Qed.
Lemma In_ddel_inv : forall V k k2 (v : V) d, In (k2, v) (ddel k d) -> In (k2, v) d /\ k2 <> k.
Proof.
  intros V k k2 v d. induction d as [|[a b] d IH]; simpl; [intros []|].
  destruct (streqb_spec k a) as [->|Hne]; simpl.
  - intros Hi. destruct (IH Hi); auto.
  - intros [He|Hi]; [inversion He; subst; auto|]. destruct (IH Hi); auto.
Qed.

Definition only_drops (t t' : mtables) : Prop :=
  (forall n r, mget t' n = Some r -> mget t n = Some r) /\
  (forall n, mget t n = Some RBase -> mget t' n = Some RBase).

Lemma only_drops_trans : forall a b c, only_drops a b -> only_drops b c -> only_drops a c.
Proof. intros a b c [H1 H2] [H3 H4]. split; auto. Qed.

Lemma pp_items_inv : forall w items t done t' done',
  tables_ok t -> ranked t done -> NoDup (map fst items) ->
  (forall e, In e items -> In e (table w t)) ->
  pp_items order w items t done = Some (t', done') ->
  tables_ok t' /\ ranked t' done' /\ incl done done' /\ only_drops t t' /\
  table (negb w) t' = table (negb w) t /\
  (forall e, In e (table w t') -> In e (table w t)) /\
  (forall n text, In (n, RMeta text) (table w t') -> In (n, RMeta text) items -> In n done').
Proof.
  induction items as [|[n r] items IH]; intros t done t' done' Hok Hr Hnd Hsub H; cbn [pp_items] in H.
  - inversion H; subst. split; [exact Hok|]. split; [exact Hr|]. split; [intros x Hx; exact Hx|].
    split; [split; auto|]. split; [reflexivity|]. split; [auto|]. intros n text _ [].
  - inversion Hnd as [|? ? Hnin Hnd']; subst.
    assert (Hin : In (n, r) (table w t)) by (apply Hsub; left; reflexivity).
    pose proof (mget_table w t n r Hok Hin) as Hg.
    pose proof (pp_inv max_left t n r done Hg Hr) as Hpp.
    destruct (pp order max_left t n r done) as [d1|d1|] eqn:Epp; [| |discriminate].
    + destruct Hpp as (Hr1 & Hi1 & Hm & _).
      destruct (IH t d1 t' done' Hok Hr1 Hnd' (fun e He => Hsub e (or_intror He)) H) as (A & B & C & D & E & F & G).
      split; [exact A|]. split; [exact B|]. split; [intros x Hx; apply C, Hi1, Hx|].
      split; [exact D|]. split; [exact E|]. split; [exact F|].
      intros n0 text0 Hi0 [He|Hi'].
      * inversion He; subst. apply C, Hm; discriminate.
      * eapply G; eauto.
    + destruct Hpp as (Hr1 & Hi1 & Hnb & Hx). destruct r as [|text]; [congruence|].
      assert (Hnd1 : ~ In n d1).
      { intros Hbad. destruct (Hx n Hbad) as [Hd|Hreach].
        - apply mem_str_In in Hd. unfold max_left in Epp. rewrite pp_meta, Hd in Epp. discriminate.
        - exact (acc_no_cycle t n (ranked_acc t d1 n Hr1 Hbad) Hreach). }
      fold (del_from w n t) in H.
      assert (Hsub' : forall e, In e items -> In e (table w (del_from w n t))).
      { intros [k v] He. assert (k <> n).
        { intros ->. apply Hnin. apply in_map_iff. exists (n, v); auto. }
        specialize (Hsub (k, v) (or_intror He)). destruct w; simpl in *; apply In_ddel; auto. }
      destruct (IH (del_from w n t) d1 t' done' (del_ok w n t Hok) (ranked_del w n text t d1 Hnd1 Hg Hr1) Hnd' Hsub' H)
        as (A & B & C & D & E & F & G).
      assert (Hdel : forall e, In e (table w (del_from w n t)) -> In e (table w t) /\ fst e <> n).
      { intros [k v] He. destruct w; simpl in *; apply In_ddel_inv in He; exact He. }
      split; [exact A|]. split; [exact B|]. split; [intros x Hx'; apply C, Hi1, Hx'|].
      split; [|split; [|split]].
      * destruct D as [D1 D2]. split.
        -- intros k rk Hk. specialize (D1 k rk Hk). destruct (str_eq_dec k n) as [->|Hne].
           ++ rewrite (mget_del_same w n (RMeta text) t Hok Hin) in D1. discriminate.
           ++ rewrite mget_del_other in D1 by exact Hne. exact D1.
        -- intros k Hk. apply D2. rewrite mget_del_other; [exact Hk|]. intros ->. congruence.
      * rewrite E. destruct w; reflexivity.
      * intros e He. apply Hdel, F, He.
      * intros n0 text0 Hi0 [He|Hi'].
        -- inversion He; subst. exfalso. apply F in Hi0. apply Hdel in Hi0. destruct Hi0 as [_ Hi0]. apply Hi0; reflexivity.
        -- eapply G; eauto.
Qed.

Lemma load_inv : forall t t' done, tables_ok t -> call_postparsing order t = Some (t', done) ->
  tables_ok t' /\ ranked t' done /\ only_drops t t' /\
  (forall n text, mget t' n = Some (RMeta text) -> In n done).
Proof.
  intros t t' done Hok H. unfold call_postparsing in H.
  destruct (pp_items order true (t_checked t) t []) as [[t1 d1]|] eqn:E1; [|discriminate].
  destruct (pp_items_inv true _ _ [] _ _ Hok I (proj1 Hok) (fun e He => He) E1) as (A & B & _ & D & E & F & G).
  destruct (pp_items_inv false _ _ _ _ _ A B (proj1 (proj2 A)) (fun e He => He) H) as (A' & B' & C' & D' & E' & F' & G').
  split; [exact A'|]. split; [exact B'|]. split; [eapply only_drops_trans; eauto|].
  intros n text Hg. unfold mget in Hg. destruct (dget n (t_checked t')) eqn:Eg.
  - inversion Hg; subst. apply dget_In in Eg. simpl in E'. rewrite E' in Eg. apply C'. eapply G; [exact Eg|].
    apply (F _ Eg).
  - apply dget_In in Hg. eapply G'; [exact Hg|]. apply (F' _ Hg).
Qed.

(** *** Depth *)

Lemma depth_mono : forall t n d, depth_le t n d -> forall d', d <= d' -> depth_le t n d'.
Proof.
  intros t n d H. induction H as [n d H|n d text e H1 H2 H3 IH]; intros d' Hd.
  - apply depth_base; exact H.
  - destruct d' as [|d']; [lia|]. eapply depth_meta; eauto. intros s Hs. apply IH; [exact Hs|lia].
Qed.

Lemma pp_depth : forall d t n r done left, depth_le t n d -> mget t n = Some r -> d <= left ->
  match pp order left t n r done with PPok _ => True | PPinvalid _ => False | PPsyntax => True end.
Proof.
  intros d. induction d as [|d IH]; intros t n r done left Hd Hg Hl.
  - inversion Hd; subst. rewrite H in Hg. inversion Hg; subst. destruct left; exact I.
  - inversion Hd as [? ? Hb|? ? text e H1 H2 H3]; subst.
    + rewrite Hb in Hg. inversion Hg; subst. destruct left; exact I.
    + rewrite H1 in Hg. inversion Hg; subst r. destruct left as [|left]; [lia|].
      rewrite pp_meta. destruct (mem_str n done); [exact I|]. rewrite H2.
      assert (Hl' : forall s, In s (order (expr_names e)) -> depth_le t s d) by (intros s Hs; apply H3, Horder, Hs).
      revert done Hl'. generalize (order (expr_names e)). induction l as [|s l IHl]; intros done Hl'; [exact I|].
      cbn [pp_refs]. assert (Hs : depth_le t s d) by (apply Hl'; left; reflexivity).
      destruct (mget t s) as [rs|] eqn:Es.
      * specialize (IH t s rs done left Hs Es ltac:(lia)).
        destruct (pp order left t s rs done) as [d1|d1|]; [|destruct IH|exact I].
        apply IHl. intros s' Hs'. apply Hl'; right; exact Hs'.
      * inversion Hs; congruence.
Qed.

Lemma depth_del : forall w x t n d, depth_le t n d -> d <= max_left -> ~ depth_le t x max_left ->
  depth_le (del_from w x t) n d.
Proof.
  intros w x t n d H. induction H as [n d H|n d text e H1 H2 H3 IH]; intros Hd Hx.
  - apply depth_base. rewrite mget_del_other; [exact H|]. intros ->. apply Hx, depth_base, H.
  - eapply depth_meta; eauto.
    + rewrite mget_del_other; [exact H1|]. intros ->. apply Hx.
      apply (depth_mono t x (S d)); [|exact Hd]. eapply depth_meta; eauto.
    + intros s Hs. apply IH; [exact Hs|lia|exact Hx].
Qed.

Lemma pp_items_depth : forall w items t done t' done' n d,
  tables_ok t -> NoDup (map fst items) -> (forall e, In e items -> In e (table w t)) ->
  depth_le t n d -> d <= max_left ->
  pp_items order w items t done = Some (t', done') ->
  depth_le t' n d /\ mget t' n = mget t n.
Proof.
  induction items as [|[k r] items IH]; intros t done t' done' n d Hok Hnd Hsub Hd Hle H; cbn [pp_items] in H.
  - inversion H; subst. auto.
  - inversion Hnd as [|? ? Hnin Hnd']; subst.
    assert (Hin : In (k, r) (table w t)) by (apply Hsub; left; reflexivity).
    pose proof (mget_table w t k r Hok Hin) as Hg.
    destruct (pp order max_left t k r done) as [d1|d1|] eqn:Epp; [| |discriminate].
    + apply (IH t d1 t' done' n d); auto. intros e He; apply Hsub; right; exact He.
    + fold (del_from w k t) in H.
      assert (Hk : ~ depth_le t k max_left).
      { intros Hk. pose proof (pp_depth max_left t k r done max_left Hk Hg (le_n _)) as Hp. rewrite Epp in Hp. exact Hp. }
      assert (Hsub' : forall e, In e items -> In e (table w (del_from w k t))).
      { intros [k0 v] He. assert (k0 <> k).
        { intros ->. apply Hnin. apply in_map_iff. exists (k, v); auto. }
        specialize (Hsub (k0, v) (or_intror He)). destruct w; simpl in *; apply In_ddel; auto. }
      destruct (IH (del_from w k t) d1 t' done' n d (del_ok w k t Hok) Hnd' Hsub' (depth_del w k t n d Hd Hle Hk) Hle H) as [A B].
      split; [exact A|]. rewrite B. apply mget_del_other. intros ->. apply Hk. eapply depth_mono; eauto.
Qed.

Lemma pp_no_syntax : forall left t n r done, all_compile t -> mget t n = Some r -> pp order left t n r done <> PPsyntax.
Proof.
  induction left as [|left IH]; intros t n r done Hc Hg; destruct r as [|text]; try (cbn [pp]; discriminate).
  rewrite pp_meta. destruct (mem_str n done); [discriminate|].
  pose proof (Hc n text Hg) as He. destruct (compile_text text) as [e|]; [|congruence].
  revert done. generalize (order (expr_names e)). induction l as [|s l IHl]; intros done; [discriminate|].
  cbn [pp_refs]. destruct (mget t s) as [rs|] eqn:Es; [|discriminate].
  pose proof (IH t s rs done Hc Es) as Hn. destruct (pp order left t s rs done); [apply IHl|discriminate|congruence].
Qed.

Lemma pp_items_total : forall w items t done, tables_ok t -> all_compile t -> NoDup (map fst items) ->
  (forall e, In e items -> In e (table w t)) -> exists t' done', pp_items order w items t done = Some (t', done') /\ all_compile t'.
Proof.
  induction items as [|[k r] items IH]; intros t done Hok Hc Hnd Hsub; cbn [pp_items]; [eauto|].
  inversion Hnd as [|? ? Hnin Hnd']; subst.
  assert (Hin : In (k, r) (table w t)) by (apply Hsub; left; reflexivity).
  pose proof (mget_table w t k r Hok Hin) as Hg.
  pose proof (pp_no_syntax max_left t k r done Hc Hg) as Hns.
  destruct (pp order max_left t k r done) as [d1|d1|]; [| |congruence].
  - apply IH; auto. intros e He; apply Hsub; right; exact He.
  - fold (del_from w k t). apply IH; auto using del_ok.
    + intros n text Hn. destruct (str_eq_dec n k) as [->|Hne].
      * rewrite (mget_del_same w k r t Hok Hin) in Hn. discriminate.
      * rewrite mget_del_other in Hn by exact Hne. exact (Hc n text Hn).
    + intros [k0 v] He. assert (k0 <> k).
      { intros ->. apply Hnin. apply in_map_iff. exists (k, v); auto. }
      specialize (Hsub (k0, v) (or_intror He)). destruct w; simpl in *; apply In_ddel; auto.
Qed.

Lemma load_total : forall t, tables_ok t -> all_compile t -> exists t' done, call_postparsing order t = Some (t', done).
Proof.
  intros t Hok Hc. unfold call_postparsing.
  destruct (pp_items_total true (t_checked t) t [] Hok Hc (proj1 Hok) (fun e He => He)) as (t1 & d1 & E1 & Hc1).
  rewrite E1. destruct (pp_items_inv true _ _ [] _ _ Hok I (proj1 Hok) (fun e He => He) E1) as (A & _).
  destruct (pp_items_total false (t_not_checked t1) t1 d1 A Hc1 (proj1 (proj2 A)) (fun e He => He)) as (t2 & d2 & E2 & _).
  eauto.
Qed.

Lemma load_depth : forall t t' done n, tables_ok t -> call_postparsing order t = Some (t', done) ->
  depth_le t n max_left -> mget t' n = mget t n.
Proof.
  intros t t' done n Hok H Hd. unfold call_postparsing in H.
  destruct (pp_items order true (t_checked t) t []) as [[t1 d1]|] eqn:E1; [|discriminate].
  destruct (pp_items_inv true _ _ [] _ _ Hok I (proj1 Hok) (fun e He => He) E1) as (A & _).
  destruct (pp_items_depth true _ _ _ _ _ n max_left Hok (proj1 Hok) (fun e He => He) Hd (le_n _) E1) as [B1 B2].
  destruct (pp_items_depth false _ _ _ _ _ n max_left A (proj1 (proj2 A)) (fun e He => He) B1 (le_n _) H) as [_ B4].
  congruence.
Qed.

Lemma load_wf : forall t t' done, tables_ok t -> call_postparsing order t = Some (t', done) ->
  (forall n s, mentions t' n s -> defined t' s) /\
  (forall n, Acc (fun s n => mentions t' n s) n) /\
  (forall n text, mget t' n = Some (RMeta text) -> exists e, compile_text text = Some e).
Proof.
  intros t t' done Hok H. destruct (load_inv t t' done Hok H) as (A & B & _ & D).
  split; [|split].
  - intros n s (text & e & H1 & H2 & H3). destruct (ranked_In t' done n B (D n text H1)) as (tx & e' & I1 & I2 & I3).
    assert (tx = text) by congruence. subst. assert (e' = e) by congruence. subst.
    destruct (I3 s H3) as [Hb|Hd].
    + apply mget_defined. congruence.
    + destruct (ranked_In t' done s B Hd) as (tx & e' & J1 & _). apply mget_defined. congruence.
  - intros n. destruct (mget t' n) as [[|text]|] eqn:E.
    + apply base_acc; exact E.
    + exact (ranked_acc t' done n B (D n text E)).
    + constructor. intros s (text & e & H1 & _). congruence.
  - intros n text Hg. destruct (ranked_In t' done n B (D n text Hg)) as (tx & e' & I1 & I2 & I3).
    assert (tx = text) by congruence. subst. eauto.
Qed.

Lemma load_matches : forall t t' done base, tables_ok t -> call_postparsing order t = Some (t', done) ->
  forall n, defined t' n -> exists o, gives t' base n o.
Proof.
  intros t t' done base Hok H. destruct (load_wf t t' done Hok H) as (Hdef & Hacc & Hcomp).
  intros n. induction (Hacc n) as [n _ IH]. intros Hn. apply mget_defined in Hn.
  destruct (mget t' n) as [[|text]|] eqn:E; [| |congruence].
  - exists (base n), 1. cbn [mmatch]. rewrite E. reflexivity.
  - destruct (Hcomp n text E) as [e He].
    assert (Hs : forall s, In s (expr_names e) -> exists o, gives t' base s o).
    { intros s Hs. assert (Hm : mentions t' n s) by (exists text, e; auto).
      apply IH; [exact Hm|]. eapply Hdef; exact Hm. }
    assert (Hres : forall l, (forall s, In s l -> exists o, gives t' base s o) ->
               exists res : str -> outcome, forall s, In s l -> gives t' base s (res s)).
    { clear. induction l as [|s l IHl]; intros Hs; [exists (fun _ => Raises); intros s []|].
      destruct (IHl (fun x Hx => Hs x (or_intror Hx))) as [res Hres].
      destruct (Hs s (or_introl eq_refl)) as [o Ho].
      exists (fun x => if str_eq_dec x s then o else res x). intros x Hx.
      destruct (str_eq_dec x s) as [->|Hne]; [exact Ho|]. destruct Hx as [<-|Hx]; [congruence|]. apply Hres; exact Hx. }
    destruct (Hres _ Hs) as [res Hr]. exists (py_eval res e). eapply gives_meta; eauto.
Qed.
End LoadProofs.
