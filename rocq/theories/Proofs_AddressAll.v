(** Reading addresses from any text: it ends, and what it returns comes from the text. *)
From Verif Require Import PyStr PyAddr Spec_Address Proofs_Address.

(** ** Subsequences *)
Lemma sub_refl : forall s, subsequence s s.
Proof. induction s; constructor; auto. Qed.
Lemma sub_app : forall a s b t, subsequence a s -> subsequence b t -> subsequence (a ++ b) (s ++ t).
Proof.
  intros a s b t H Hb. induction H as [s|c a s _ IH|c a s _ IH]; cbn [app].
  - induction s as [|c s IH]; [exact Hb|]. cbn [app]. now constructor.
  - now constructor.
  - now constructor.
Qed.
Lemma sub_left : forall a s t, subsequence a s -> subsequence a (s ++ t).
Proof. intros a s t H. rewrite <- (app_nil_r a). apply sub_app; [exact H|constructor]. Qed.
Lemma sub_right : forall a s t, subsequence a s -> subsequence a (t ++ s).
Proof. intros a s t H. change a with ([] ++ a). apply sub_app; [constructor|exact H]. Qed.
Lemma sub_trans : forall b s, subsequence b s -> forall a, subsequence a b -> subsequence a s.
Proof.
  intros b s H. induction H as [s|c b s _ IH|c b s _ IH]; intros a Ha.
  - inversion Ha. constructor.
  - inversion Ha; subst; constructor; auto.
  - constructor. auto.
Qed.
Lemma sub_filter : forall p s, subsequence (filter p s) s.
Proof. intros p s. induction s as [|c s IH]; [constructor|]. cbn. destruct (p c); now constructor. Qed.
Lemma sub_marks : forall a s, subsequence a s -> subsequence (without_marks a) s.
Proof. intros a s H. eapply sub_trans; [exact H|]. apply sub_filter. Qed.
Lemma marks_app : forall a b, without_marks (a ++ b) = without_marks a ++ without_marks b.
Proof. intros. apply filter_app. Qed.
Lemma marks_quote : forall q, without_marks (quote q) = without_marks q.
Proof.
  induction q as [|c q IH]; [reflexivity|]. cbn [quote flat_map]. fold (quote q). rewrite marks_app, IH.
  change (c :: q) with ([c] ++ q). rewrite marks_app. f_equal.
  destruct (N.eqb c 92 || N.eqb c 34) eqn:E; [|reflexivity]. apply orb_true_iff in E. destruct E as [E|E]; apply N.eqb_eq in E; subst; reflexivity.
Qed.

(** ** What the parsers leave is the end of what they got *)
Lemma getatom_split : forall ends s, fst (getatom ends s) ++ snd (getatom ends s) = s.
Proof.
  intros ends s. induction s as [|c s IH]; [reflexivity|]. cbn [getatom]. destruct (mem_char c ends); [reflexivity|].
  destruct (getatom ends s) as [a r]. cbn in *. now rewrite IH.
Qed.
Lemma delimited_split : forall ends s esc a r, delimited ends esc s = (a, r) ->
  exists used, s = used ++ r /\ subsequence a used.
Proof.
  intros ends. induction s as [|c s IH]; intros esc a r; cbn [delimited]; intros H.
  - inversion H; subst. exists []. split; [reflexivity|constructor].
  - destruct esc.
    + destruct (delimited ends false s) as [a' r'] eqn:E. inversion H; subst. destruct (IH _ _ _ E) as (u & -> & Hu).
      exists (c :: u). split; [reflexivity|now constructor].
    + destruct (mem_char c ends).
      * inversion H; subst. exists [c]. split; [reflexivity|constructor].
      * destruct (N.eqb c 92).
        -- destruct (IH _ _ _ H) as (u & -> & Hu). exists (c :: u). split; [reflexivity|now constructor].
        -- destruct (delimited ends false s) as [a' r'] eqn:E. inversion H; subst. destruct (IH _ _ _ E) as (u & -> & Hu).
           exists (c :: u). split; [reflexivity|now constructor].
Qed.
Lemma comment_split : forall lim s d esc t r, comment lim d esc s = Some (t, r) -> exists used, s = used ++ r.
Proof.
  intros lim. induction s as [|c s IH]; intros d esc t r; cbn [comment]; intros H.
  - inversion H; subst. now exists [].
  - assert (G : forall d e t' r', comment lim d e s = Some (t', r') -> r' = r -> exists used, c :: s = used ++ r).
    { intros d' e t' r' Hs ->. destruct (IH _ _ _ _ Hs) as (u & ->). now exists (c :: u). }
    destruct esc; [|destruct (N.eqb c 41 || N.eqb c 13); [destruct d|destruct (N.eqb c 40); [destruct (Nat.ltb d lim); [|discriminate]|destruct (N.eqb c 92)]]].
    + destruct (comment lim d false s) as [[t' r']|] eqn:E; cbn in H; [|discriminate]. inversion H; subst. eapply G; eauto.
    + inversion H; subst. now exists [c].
    + eapply G; eauto.
    + eapply G; eauto.
    + eapply G; eauto.
    + destruct (comment lim d false s) as [[t' r']|] eqn:E; cbn in H; [|discriminate]. inversion H; subst. eapply G; eauto.
Qed.
Lemma getcomment_split : forall lim s t r, getcomment lim s = Some (t, r) -> exists used, s = used ++ r.
Proof. intros lim s t r. apply comment_split. Qed.

Lemma goto_split : forall lim f cl s ws cl' r, gotonext_loop f lim cl s = Some (ws, cl', r) ->
  exists used, s = used ++ r /\ subsequence ws used.
Proof.
  intros lim. induction f as [|f IH]; intros cl s ws cl' r; destruct s as [|c s]; cbn [gotonext_loop]; intros H; try discriminate;
    try (inversion H; subst; exists []; split; [reflexivity|constructor]).
  destruct (mem_char c fws).
  - destruct (gotonext_loop f lim cl s) as [[[ws' cl''] r']|] eqn:E; [|discriminate]. inversion H; subst.
    destruct (IH _ _ _ _ _ E) as (u & -> & Hu). exists (c :: u). split; [reflexivity|].
    destruct (N.eqb c 10 || (N.eqb c 13 || false)); now constructor.
  - destruct (N.eqb c 40).
    + destruct (getcomment lim s) as [[t r']|] eqn:E; [|discriminate]. destruct (getcomment_split _ _ _ _ E) as (u & ->).
      destruct (IH _ _ _ _ _ H) as (u' & -> & Hu). exists (c :: u ++ u'). split; [now rewrite app_comm_cons, app_assoc|].
      constructor. now apply sub_right.
    + inversion H; subst. exists []. split; [reflexivity|constructor].
Qed.
Lemma gotonext_split : forall lim cl s ws cl' r, gotonext lim cl s = Some (ws, cl', r) ->
  exists used, s = used ++ r /\ subsequence ws used.
Proof. intros lim cl s ws cl' r. apply goto_split. Qed.

Lemma phrase_split : forall lim f cl s pl cl' r, phrase_loop f lim cl s = Some (pl, cl', r) ->
  exists used, s = used ++ r /\ subsequence (hd [] pl) used.
Proof.
  intros lim. induction f as [|f IH]; intros cl s pl cl' r; destruct s as [|c s]; cbn [phrase_loop]; intros H; try discriminate;
    try (inversion H; subst; exists []; split; [reflexivity|constructor]).
  destruct (mem_char c fws).
  - destruct (IH _ _ _ _ _ H) as (u & -> & Hu). exists (c :: u). split; [reflexivity|now constructor].
  - destruct (N.eqb c 34).
    + destruct (getquote s) as [q rest] eqn:Eq. destruct (delimited_split _ _ _ _ _ Eq) as (u & -> & Hu).
      destruct (phrase_loop f lim cl rest) as [[[pl' cl''] r']|] eqn:E; [|discriminate]. inversion H; subst.
      destruct (IH _ _ _ _ _ E) as (u' & -> & _). exists (c :: u ++ u'). split; [now rewrite app_comm_cons, app_assoc|].
      cbn [hd]. constructor. now apply sub_left.
    + destruct (N.eqb c 40).
      * destruct (getcomment lim s) as [[t rest]|] eqn:E; [|discriminate]. destruct (getcomment_split _ _ _ _ E) as (u & ->).
        destruct (IH _ _ _ _ _ H) as (u' & -> & Hu). exists (c :: u ++ u'). split; [now rewrite app_comm_cons, app_assoc|].
        constructor. now apply sub_right.
      * destruct (mem_char c phraseends).
        -- inversion H; subst. exists []. split; [reflexivity|constructor].
        -- pose proof (getatom_split phraseends (c :: s)) as Ea. destruct (getatom phraseends (c :: s)) as [a rest]. cbn [fst snd] in Ea.
           destruct (phrase_loop f lim cl rest) as [[[pl' cl''] r']|] eqn:E; [|discriminate]. inversion H; subst.
           destruct (IH _ _ _ _ _ E) as (u' & -> & _). exists (a ++ u'). rewrite <- Ea. split; [now rewrite app_assoc|].
           cbn [hd]. apply sub_left, sub_refl.
Qed.

Definition opt_sub (d : option str) (used : str) : Prop := match d with Some t => subsequence (without_marks t) used | None => True end.
Lemma domain_split : forall lim f cl s d cl' r, domain_loop f lim cl s = Some (d, cl', r) ->
  exists used, s = used ++ r /\ opt_sub d used.
Proof.
  intros lim. induction f as [|f IH]; intros cl s d cl' r; destruct s as [|c s]; cbn [domain_loop]; intros H; try discriminate;
    try (inversion H; subst; exists []; split; [reflexivity|constructor]).
  destruct (mem_char c lws).
  { destruct (IH _ _ _ _ _ H) as (u & -> & Hu). exists (c :: u). split; [reflexivity|]. destruct d; [now constructor|exact Logic.I]. }
  destruct (N.eqb c 40).
  { destruct (getcomment lim s) as [[t rest]|] eqn:E; [|discriminate]. destruct (getcomment_split _ _ _ _ E) as (u & ->).
    destruct (IH _ _ _ _ _ H) as (u' & -> & Hu). exists (c :: u ++ u'). split; [now rewrite app_comm_cons, app_assoc|].
    destruct d; [|exact Logic.I]. cbn in *. constructor. now apply sub_right. }
  destruct (N.eqb c 91) eqn:E91.
  { unfold getdomainliteral in H. destruct (delimited [93%N; 13%N] false s) as [t rest] eqn:El.
    destruct (delimited_split _ _ _ _ _ El) as (u & -> & Hu).
    destruct (domain_loop f lim cl rest) as [[[d' cl''] r']|] eqn:E; [|discriminate]. inversion H; subst.
    destruct (IH _ _ _ _ _ E) as (u' & -> & Hu'). exists (c :: u ++ u'). split; [now rewrite app_comm_cons, app_assoc|].
    destruct d' as [d'|]; [|exact Logic.I]. cbn [option_map opt_sub] in *. constructor.
    assert (Em : without_marks (($"[" ++ t ++ $"]") ++ d') = without_marks t ++ without_marks d').
    { rewrite !marks_app. change (without_marks ($"[")) with (@nil char). change (without_marks ($"]")) with (@nil char). cbn [app].
      now rewrite app_nil_r. }
    match goal with |- subsequence (without_marks ?x) _ => change x with (($"[" ++ t ++ $"]") ++ d') end. rewrite Em. apply sub_app; [now apply sub_marks|exact Hu']. }
  destruct (N.eqb c 46) eqn:E46.
  { destruct (domain_loop f lim cl s) as [[[d' cl''] r']|] eqn:E; [|discriminate]. inversion H; subst.
    destruct (IH _ _ _ _ _ E) as (u' & -> & Hu'). exists (c :: u'). split; [reflexivity|].
    destruct d' as [d'|]; [|exact Logic.I]. cbn [option_map opt_sub] in *. change (c :: d') with ([c] ++ d'). change (c :: u') with ([c] ++ u').
    rewrite marks_app. apply sub_app; [apply sub_marks, sub_refl|exact Hu']. }
  destruct (N.eqb c 64). { inversion H; subst. exists []. split; [reflexivity|constructor]. }
  destruct (mem_char c atomends). { inversion H; subst. exists []. split; [reflexivity|constructor]. }
  pose proof (getatom_split atomends (c :: s)) as Ea. destruct (getatom atomends (c :: s)) as [a rest]. cbn [fst snd] in Ea.
  destruct (domain_loop f lim cl rest) as [[[d' cl''] r']|] eqn:E; [|discriminate]. inversion H; subst.
  destruct (IH _ _ _ _ _ E) as (u' & -> & Hu'). exists (a ++ u'). rewrite <- Ea. split; [now rewrite app_assoc|].
  destruct d' as [d'|]; [|exact Logic.I]. cbn [option_map opt_sub] in *. rewrite marks_app. apply sub_app; [apply sub_marks, sub_refl|exact Hu'].
Qed.
Lemma getdomain_split : forall lim cl s d cl' r, getdomain lim cl s = Some (d, cl', r) ->
  exists used, s = used ++ r /\ subsequence (without_marks d) used.
Proof.
  intros lim cl s d cl' r H. unfold getdomain in H. destruct (domain_loop (length s) lim cl s) as [[[[d'|] cl''] r']|] eqn:E; [| |discriminate];
    inversion H; subst; destruct (domain_split _ _ _ _ _ _ _ E) as (u & Es & Hu); exists u; (split; [exact Es|]); [exact Hu|constructor].
Qed.

Lemma pop_sub : forall l u, subsequence (without_marks (concat (rev l))) u -> subsequence (without_marks (concat (rev (pop_blank l)))) u.
Proof.
  intros [|x l] u H; [exact H|]. cbn [pop_blank]. destruct (strip x); [|exact H]. cbn [rev] in H.
  rewrite concat_app, marks_app in H. eapply sub_trans; [exact H|]. apply sub_left, sub_refl.
Qed.
Lemma push_sub : forall x l u v, subsequence (without_marks (concat (rev l))) u -> subsequence (without_marks x) v ->
  subsequence (without_marks (concat (rev (x :: l)))) (u ++ v).
Proof. intros x l u v Hl Hx. cbn [rev]. rewrite concat_app, marks_app. cbn [concat]. rewrite app_nil_r. now apply sub_app. Qed.
Lemma push_blank_sub : forall ws (l : list str) u v, subsequence (without_marks (concat (rev l))) u -> subsequence ws v ->
  subsequence (without_marks (concat (rev (match ws with [] => l | _ => ws :: l end)))) (u ++ v).
Proof. intros ws l u v Hl Hw. destruct ws; [now apply sub_left|]. apply push_sub; [exact Hl|now apply sub_marks]. Qed.

Lemma addrspec_split : forall lim f l cl s l' cl' r U, addrspec_loop f lim l cl s = Some (l', cl', r) ->
  subsequence (without_marks (concat (rev l))) U ->
  exists used, s = used ++ r /\ subsequence (without_marks (concat (rev l'))) (U ++ used).
Proof.
  intros lim. induction f as [|f IH]; intros l cl s l' cl' r U; destruct s as [|c s]; cbn [addrspec_loop]; intros H HU; try discriminate;
    try (inversion H; subst; exists []; rewrite (app_nil_r U); split; [reflexivity|exact HU]).
  destruct (N.eqb c 46).
  { destruct (gotonext lim cl s) as [[[ws cl1] s1]|] eqn:E; [|discriminate]. destruct (gotonext_split _ _ _ _ _ _ E) as (u & -> & Hu).
    destruct (IH _ _ _ _ _ _ (U ++ c :: u) H) as (u' & -> & Hu').
    - apply push_sub; [now apply pop_sub|]. apply sub_marks. constructor. constructor.
    - exists (c :: u ++ u'). split; [now rewrite app_comm_cons, app_assoc|]. rewrite app_comm_cons, app_assoc. exact Hu'. }
  destruct (N.eqb c 34).
  { destruct (getquote s) as [q rest] eqn:Eq. destruct (delimited_split _ _ _ _ _ Eq) as (u & -> & Hu).
    destruct (gotonext lim cl rest) as [[[ws cl1] s1]|] eqn:E; [|discriminate]. destruct (gotonext_split _ _ _ _ _ _ E) as (v & -> & Hv).
    destruct (IH _ _ _ _ _ _ ((U ++ c :: u) ++ v) H) as (u' & -> & Hu').
    - apply push_blank_sub; [|exact Hv]. apply push_sub; [exact HU|]. rewrite !marks_app, marks_quote.
      change (without_marks [34%N]) with (@nil char). cbn [app]. rewrite app_nil_r. constructor. now apply sub_marks.
    - exists (c :: u ++ v ++ u'). split; [cbn [app]; now rewrite !app_assoc|]. rewrite <- !app_assoc in Hu'. exact Hu'. }
  destruct (mem_char c atomends).
  { inversion H; subst. exists []. rewrite app_nil_r. split; [reflexivity|now apply pop_sub]. }
  pose proof (getatom_split atomends (c :: s)) as Ea. destruct (getatom atomends (c :: s)) as [a rest]. cbn [fst snd] in Ea.
  destruct (gotonext lim cl rest) as [[[ws cl1] s1]|] eqn:E; [|discriminate]. destruct (gotonext_split _ _ _ _ _ _ E) as (v & -> & Hv).
  destruct (IH _ _ _ _ _ _ ((U ++ a) ++ v) H) as (u' & -> & Hu').
  - pose proof (push_blank_sub ws (a :: l) (U ++ a) v) as P. destruct ws; apply P; try exact Hv; (apply push_sub; [exact HU|apply sub_marks, sub_refl]).
  - exists (a ++ v ++ u'). rewrite <- Ea. split; [now rewrite !app_assoc|]. rewrite <- !app_assoc in Hu'. exact Hu'.
Qed.
Lemma getaddrspec_split : forall lim cl s a cl' r, getaddrspec lim cl s = Some (a, cl', r) ->
  exists used, s = used ++ r /\ subsequence (without_marks a) used.
Proof.
  intros lim cl s a cl' r H. unfold getaddrspec in H.
  destruct (gotonext lim cl s) as [[[ws cl1] s1]|] eqn:E1; [|discriminate]. destruct (gotonext_split _ _ _ _ _ _ E1) as (u1 & -> & _).
  destruct (addrspec_loop (length s1) lim [] cl1 s1) as [[[l cl2] s2]|] eqn:E2; [|discriminate].
  destruct (addrspec_split _ _ _ _ _ _ _ _ [] E2 (sub_nil _)) as (u2 & -> & H2). cbn [app] in H2.
  assert (G : a = concat (rev l) /\ r = s2 -> exists used, u1 ++ u2 ++ s2 = used ++ r /\ subsequence (without_marks a) used).
  { intros [-> ->]. exists (u1 ++ u2). split; [now rewrite app_assoc|]. now apply sub_right. }
  destruct s2 as [|c s2]; [inversion H; subst; auto|]. destruct (N.eqb c 64) eqn:E64; [|inversion H; subst; auto].
  destruct (gotonext lim cl2 s2) as [[[ws3 cl3] s3]|] eqn:E3; [|discriminate]. destruct (gotonext_split _ _ _ _ _ _ E3) as (u3 & -> & _).
  destruct (getdomain lim cl3 s3) as [[[d cl4] s4]|] eqn:E4; [|discriminate]. destruct (getdomain_split _ _ _ _ _ _ E4) as (u4 & -> & H4).
  exists (u1 ++ u2 ++ c :: u3 ++ u4). apply N.eqb_eq in E64. subst c.
  assert (Hr : r = s4) by (destruct d; inversion H; reflexivity). subst r.
  split; [rewrite <- !app_assoc; cbn [app]; now rewrite <- !app_assoc|].
  destruct d as [|x d]; [inversion H; constructor|].
  assert (Ha : a = concat (rev l) ++ $"@" ++ x :: d) by (inversion H; reflexivity). rewrite Ha.
  apply sub_right. rewrite marks_app. apply sub_app; [exact H2|]. change ($"@" ++ x :: d) with ([64%N] ++ x :: d).
  change (64%N :: u3 ++ u4) with ([64%N] ++ u3 ++ u4). rewrite marks_app. apply sub_app; [apply sub_refl|]. now apply sub_right.
Qed.
Lemma route_split : forall lim f er cl s a cl' r, route_loop f lim er cl s = Some (a, cl', r) ->
  exists used, s = used ++ r /\ subsequence (without_marks a) used.
Proof.
  intros lim. induction f as [|f IH]; intros er cl s a cl' r; destruct s as [|c s]; cbn [route_loop]; intros H; try discriminate;
    try (inversion H; subst; exists []; split; [reflexivity|constructor]).
  destruct er.
  { destruct (getdomain lim cl (c :: s)) as [[[d cl1] s1]|] eqn:E1; [|discriminate]. destruct (getdomain_split _ _ _ _ _ _ E1) as (u1 & -> & _).
    destruct (gotonext lim cl1 s1) as [[[ws cl2] s2]|] eqn:E2; [|discriminate]. destruct (gotonext_split _ _ _ _ _ _ E2) as (u2 & -> & _).
    destruct (IH _ _ _ _ _ _ H) as (u3 & -> & H3). exists (u1 ++ u2 ++ u3). split; [now rewrite !app_assoc|]. now apply sub_right, sub_right. }
  destruct (N.eqb c 62). { inversion H; subst. exists [c]. split; [reflexivity|constructor]. }
  destruct (N.eqb c 64 || N.eqb c 58).
  { destruct (gotonext lim cl s) as [[[ws cl2] s2]|] eqn:E2; [|discriminate]. destruct (gotonext_split _ _ _ _ _ _ E2) as (u2 & -> & _).
    destruct (IH _ _ _ _ _ _ H) as (u3 & -> & H3). exists (c :: u2 ++ u3). split; [now rewrite app_comm_cons, app_assoc|].
    constructor. now apply sub_right. }
  destruct (getaddrspec lim cl (c :: s)) as [[[a' cl1] s1]|] eqn:E; [|discriminate]. inversion H; subst.
  destruct (getaddrspec_split _ _ _ _ _ _ E) as (u & Eu & Hu).
  destruct s1 as [|x s1]; cbn [tl].
  - exists u. auto.
  - exists (u ++ [x]). rewrite <- app_assoc. split; [exact Eu|now apply sub_left].
Qed.
Lemma getrouteaddr_split : forall lim cl s a cl' r, getrouteaddr lim cl s = Some (a, cl', r) ->
  exists used, s = used ++ r /\ subsequence (without_marks a) used.
Proof.
  intros lim cl s a cl' r H. unfold getrouteaddr in H.
  destruct (gotonext lim cl s) as [[[ws cl1] s1]|] eqn:E1; [|discriminate]. destruct (gotonext_split _ _ _ _ _ _ E1) as (u1 & -> & _).
  destruct (route_split _ _ _ _ _ _ _ _ H) as (u & -> & Hu). exists (u1 ++ u). split; [now rewrite app_assoc|now apply sub_right].
Qed.

Definition from_text (l : list (str * str)) (used : str) : Prop := subsequence (without_marks (concat (map snd l))) used.
Lemma from_one : forall n a u, subsequence (without_marks a) u -> from_text [(n, a)] u.
Proof. intros n a u H. unfold from_text. cbn. now rewrite app_nil_r. Qed.
Lemma from_app : forall l l' u u', from_text l u -> from_text l' u' -> from_text (l ++ l') (u ++ u').
Proof. intros l l' u u' H H'. unfold from_text. rewrite map_app, concat_app, marks_app. now apply sub_app. Qed.
Definition reads (ga : str -> option (list (str * str) * str)) : Prop :=
  forall s l r, ga s = Some (l, r) -> exists used, s = used ++ r /\ from_text l used.

Lemma group_split : forall ga lim f, reads ga -> forall s l r, group_loop ga f lim s = Some (l, r) ->
  exists used, s = used ++ r /\ from_text l used.
Proof.
  intros ga lim f Hga. induction f as [|f IH]; intros s l r; destruct s as [|c s]; cbn [group_loop]; intros H; try discriminate;
    try (inversion H; subst; exists []; split; [reflexivity|constructor]).
  destruct (gotonext lim [] (c :: s)) as [[[ws cl1] s1]|] eqn:E1; [|discriminate]. destruct (gotonext_split _ _ _ _ _ _ E1) as (u1 & Eu & _).
  rewrite Eu. clear Eu E1.
  assert (G : match ga s1 with None => None | Some (l0, s2) =>
                match group_loop ga f lim s2 with None => None | Some (l', s3) => Some (l0 ++ l', s3) end end = Some (l, r) ->
              exists used, u1 ++ s1 = used ++ r /\ from_text l used).
  { intros G. destruct (ga s1) as [[l0 s2]|] eqn:E2; [|discriminate]. destruct (Hga _ _ _ E2) as (u2 & -> & H2).
    destruct (group_loop ga f lim s2) as [[l' s3]|] eqn:E3; [|discriminate]. inversion G; subst.
    destruct (IH _ _ _ E3) as (u3 & -> & H3). exists (u1 ++ u2 ++ u3). split; [now rewrite !app_assoc|].
    apply sub_right. now apply from_app. }
  destruct s1 as [|x s1]; [auto|]. destruct (N.eqb x 59); [|auto].
  inversion H; subst. exists (u1 ++ [x]). split; [now rewrite <- app_assoc|constructor].
Qed.
Lemma after_split : forall lim l0 s l r, after_address lim l0 s = Some (l, r) -> l = l0 /\ exists used, s = used ++ r.
Proof.
  intros lim l0 s l r H. unfold after_address in H.
  destruct (gotonext lim [] s) as [[[ws cl1] s1]|] eqn:E1; [|discriminate]. destruct (gotonext_split _ _ _ _ _ _ E1) as (u1 & -> & _).
  destruct s1 as [|c s1]; [inversion H; subst; eauto|]. destruct (N.eqb c 44); inversion H; subst; (split; [reflexivity|]).
  - exists (u1 ++ [c]). now rewrite <- app_assoc.
  - eauto.
Qed.
Lemma after_from : forall lim l0 s l r u s0, after_address lim l0 s = Some (l, r) -> s0 = u ++ s -> from_text l0 u ->
  exists used, s0 = used ++ r /\ from_text l used.
Proof.
  intros lim l0 s l r u s0 H -> Hu. destruct (after_split _ _ _ _ _ H) as (-> & v & ->). exists (u ++ v).
  split; [now rewrite app_assoc|]. now apply sub_left.
Qed.
Lemma getaddress_reads : forall lim, reads (getaddress lim).
Proof.
  induction lim as [lim IHlim] using lt_wf_ind. intros s l r. rewrite getaddress_unfold. intros H.
  destruct (gotonext lim [] s) as [[[ws cl0] s0]|] eqn:E0; [|discriminate]. destruct (gotonext_split _ _ _ _ _ _ E0) as (u0 & -> & _).
  destruct (getphraselist lim cl0 s0) as [[[pl cl1] s1]|] eqn:E1; [|discriminate].
  destruct (phrase_split _ _ _ _ _ _ _ E1) as (u1 & Es0 & H1).
  destruct (gotonext lim cl1 s1) as [[[ws2 cl] s2]|] eqn:E2; [|discriminate]. destruct (gotonext_split _ _ _ _ _ _ E2) as (u2 & Es1 & _).
  cbn zeta in H. set (only := match pl with [] => [] | p :: _ => [(join [32%N] cl, p)] end) in *.
  assert (Honly : from_text only (u0 ++ u1 ++ u2)).
  { unfold only. apply sub_right. destruct pl as [|p pl]; [constructor|]. apply from_one, sub_marks, sub_left. exact H1. }
  assert (Es : u0 ++ s0 = (u0 ++ u1 ++ u2) ++ s2) by (rewrite Es0, Es1; now rewrite !app_assoc).
  destruct s2 as [|c s2].
  { eapply after_from; [exact H| |exact Honly]. exact Es. }
  destruct (N.eqb c 46 || N.eqb c 64).
  { destruct (getaddrspec lim cl s0) as [[[a cl'] s3]|] eqn:E3; [|discriminate]. destruct (getaddrspec_split _ _ _ _ _ _ E3) as (u3 & -> & H3).
    eapply after_from; [exact H|now rewrite app_assoc|]. apply sub_right. now apply from_one. }
  assert (Es' : u0 ++ s0 = (u0 ++ u1 ++ u2 ++ [c]) ++ s2).
  { rewrite Es. rewrite <- !app_assoc. reflexivity. }
  destruct (N.eqb c 58).
  { destruct lim as [|g]; [discriminate|]. destruct (group_loop (getaddress g) (length s2) (S g) s2) as [[gl s3]|] eqn:E3; [|discriminate].
    destruct (group_split _ _ _ (IHlim g (Nat.lt_succ_diag_r g)) _ _ _ E3) as (u3 & -> & H3).
    eapply after_from; [exact H|rewrite Es'; now rewrite app_assoc|]. apply sub_right. exact H3. }
  destruct (N.eqb c 60).
  { destruct (getrouteaddr lim cl s2) as [[[a cl'] s3]|] eqn:E3; [|discriminate]. destruct (getrouteaddr_split _ _ _ _ _ _ E3) as (u3 & -> & H3).
    eapply after_from; [exact H|rewrite Es'; now rewrite app_assoc|]. apply sub_right. now apply from_one. }
  destruct pl as [|p pl].
  - eapply after_from with (u := if mem_char c specials then u0 ++ u1 ++ u2 ++ [c] else u0 ++ u1 ++ u2); [exact H| |constructor].
    destruct (mem_char c specials); auto.
  - eapply after_from; [exact H|exact Es|exact Honly].
Qed.
Lemma addrlist_from : forall lim f s l, addrlist_loop f lim s = Some l -> from_text l s.
Proof.
  intros lim. induction f as [|f IH]; intros s l; destruct s as [|c s]; cbn [addrlist_loop]; intros H; try discriminate;
    try (inversion H; subst; apply sub_nil).
  destruct (getaddress lim (c :: s)) as [[l0 r]|] eqn:E; [|discriminate]. destruct (getaddress_reads _ _ _ _ E) as (u & -> & Hu).
  destruct (addrlist_loop f lim r) as [l'|] eqn:E2; [|discriminate]. inversion H; subst. apply from_app; [|now apply IH].
  destruct l0; [constructor|exact Hu].
Qed.
Lemma addresses_from_text : forall lim strict v l, getaddresses lim strict v = Some l ->
  subsequence (without_marks (concat (map snd l))) v.
Proof.
  intros lim strict v l H. unfold getaddresses in H. destruct strict; [|exact (addrlist_from _ _ _ _ H)].
  destruct (getaddrlist lim (pre_validate v)) as [l0|] eqn:E; [|discriminate].
  destruct (Nat.eqb _ _) eqn:En; inversion H; subst; [|constructor].
  unfold pre_validate in *. destruct (check_parenthesis v).
  - apply addrlist_from in E. unfold from_text in E. eapply sub_trans; [exact E|]. clear.
    unfold post_validate. induction l0 as [|[n a] l0 IH]; [constructor|]. cbn [map concat snd]. rewrite !marks_app.
    apply sub_app; [|exact IH]. destruct (mem_char 91 a); [constructor|apply sub_refl].
  - exfalso. assert (El : l0 = [([], [])]).
    { destruct lim; vm_compute in E; congruence. }
    subst l0. vm_compute in En. discriminate.
Qed.

(** ** It ends *)
Lemma openings_app : forall a b, openings (a ++ b) = openings a + openings b.
Proof. intros a b. unfold openings. now rewrite filter_app, app_length. Qed.
Lemma openings_cons : forall c s, openings (c :: s) = (if N.eqb c 40 || N.eqb c 58 then 1 else 0) + openings s.
Proof. intros c s. unfold openings. cbn [filter]. destruct (N.eqb c 40 || N.eqb c 58); reflexivity. Qed.

Lemma comment_total : forall lim s d esc, d + openings s <= lim -> comment lim d esc s <> None.
Proof.
  intros lim. induction s as [|c s IH]; intros d esc H; cbn [comment]; [discriminate|]. rewrite openings_cons in H.
  assert (G : forall e, comment lim d e s <> None) by (intros e; apply IH; lia).
  destruct esc; [|destruct (N.eqb c 41 || N.eqb c 13); [destruct d|destruct (N.eqb c 40) eqn:E40; [|destruct (N.eqb c 92)]]].
  - specialize (G false). destruct (comment lim d false s); [discriminate|contradiction].
  - discriminate.
  - apply IH. lia.
  - cbn [orb] in H. destruct (Nat.ltb_spec d lim); [|lia]. apply IH. lia.
  - apply G.
  - specialize (G false). destruct (comment lim d false s); [discriminate|contradiction].
Qed.
Ltac some H := match type of H with ?x <> None => destruct x eqn:?; [|contradiction] end.
Lemma getcomment_total : forall lim s, openings s <= lim -> exists t r, getcomment lim s = Some (t, r) /\ length r <= length s /\ openings r <= openings s.
Proof.
  intros lim s H. unfold getcomment. pose proof (comment_total lim s 0 false H) as G.
  destruct (comment lim 0 false s) as [[t r]|] eqn:E; [|contradiction]. destruct (comment_split _ _ _ _ _ _ E) as (u & ->).
  exists t, r. rewrite app_length, openings_app. repeat split; lia.
Qed.
Definition shrinks {A B} (x : option (A * B * str)) (s : str) : Prop :=
  exists a b r, x = Some (a, b, r) /\ length r <= length s /\ openings r <= openings s.
Lemma goto_total : forall lim f cl s, length s <= f -> openings s <= lim -> shrinks (gotonext_loop f lim cl s) s.
Proof.
  intros lim. unfold shrinks. induction f as [|f IH]; intros cl s Hf Ho; destruct s as [|c s]; cbn [gotonext_loop]; try (cbn in Hf; lia);
    try (do 3 eexists; split; [reflexivity|lia]).
  pose proof (openings_cons c s) as Hoc. cbn [length] in *. destruct (mem_char c fws).
  - destruct (IH cl s) as (ws & cl' & r & E & H1 & H2); [lia|lia|]. rewrite E. do 3 eexists. split; [reflexivity|lia].
  - destruct (N.eqb c 40).
    + destruct (getcomment_total lim s) as (t & r & E & H1 & H2); [lia|]. rewrite E.
      destruct (IH (cl ++ [t]) r) as (ws & cl' & r' & E' & H1' & H2'); [lia|lia|]. rewrite E'. do 3 eexists. split; [reflexivity|lia].
    + do 3 eexists. split; [reflexivity|]. cbn [length]. lia.
Qed.
Lemma gotonext_total : forall lim cl s, openings s <= lim -> shrinks (gotonext lim cl s) s.
Proof. intros. now apply goto_total. Qed.
Lemma atom_shrinks : forall ends c s a r, mem_char c ends = false -> getatom ends (c :: s) = (a, r) -> length r <= length s /\ openings r <= openings s.
Proof.
  intros ends c s a r Hc H. cbn [getatom] in H. rewrite Hc in H. pose proof (getatom_split ends s) as Es.
  destruct (getatom ends s) as [a' r']. injection H as <- <-. cbn [fst snd] in Es. rewrite <- Es, app_length, openings_app. lia.
Qed.
Lemma delimited_shrinks : forall ends esc s a r, delimited ends esc s = (a, r) -> length r <= length s /\ openings r <= openings s.
Proof. intros ends esc s a r H. destruct (delimited_split _ _ _ _ _ H) as (u & -> & _). rewrite app_length, openings_app. lia. Qed.
Lemma phrase_total : forall lim f cl s, length s <= f -> openings s <= lim -> shrinks (phrase_loop f lim cl s) s.
Proof.
  intros lim. unfold shrinks. induction f as [|f IH]; intros cl s Hf Ho; destruct s as [|c s]; cbn [phrase_loop]; try (cbn in Hf; lia);
    try (do 3 eexists; split; [reflexivity|lia]).
  pose proof (openings_cons c s) as Hoc. cbn [length] in *. destruct (mem_char c fws).
  { destruct (IH cl s) as (x & y & r & E & H1 & H2); [lia|lia|]. rewrite E. do 3 eexists. split; [reflexivity|lia]. }
  destruct (N.eqb c 34).
  { destruct (getquote s) as [q r] eqn:E. apply delimited_shrinks in E.
    destruct (IH cl r) as (x & y & r' & E' & H1 & H2); [lia|lia|]. rewrite E'. do 3 eexists. split; [reflexivity|lia]. }
  destruct (N.eqb c 40).
  { destruct (getcomment_total lim s) as (t & r & E & H1 & H2); [lia|]. rewrite E.
    destruct (IH (cl ++ [t]) r) as (x & y & r' & E' & H1' & H2'); [lia|lia|]. rewrite E'. do 3 eexists. split; [reflexivity|lia]. }
  destruct (mem_char c phraseends) eqn:Ep.
  { do 3 eexists. split; [reflexivity|]. cbn [length]. lia. }
  destruct (getatom phraseends (c :: s)) as [a r] eqn:E. apply atom_shrinks in E; [|exact Ep].
  destruct (IH cl r) as (x & y & r' & E' & H1 & H2); [lia|lia|]. rewrite E'. do 3 eexists. split; [reflexivity|lia].
Qed.
Lemma domain_total : forall lim f cl s, length s <= f -> openings s <= lim -> shrinks (domain_loop f lim cl s) s.
Proof.
  intros lim. unfold shrinks. induction f as [|f IH]; intros cl s Hf Ho; destruct s as [|c s]; cbn [domain_loop]; try (cbn in Hf; lia);
    try (do 3 eexists; split; [reflexivity|lia]).
  pose proof (openings_cons c s) as Hoc. cbn [length] in *. destruct (mem_char c lws).
  { destruct (IH cl s) as (x & y & r & E & H1 & H2); [lia|lia|]. rewrite E. do 3 eexists. split; [reflexivity|lia]. }
  destruct (N.eqb c 40).
  { destruct (getcomment_total lim s) as (t & r & E & H1 & H2); [lia|]. rewrite E.
    destruct (IH (cl ++ [t]) r) as (x & y & r' & E' & H1' & H2'); [lia|lia|]. rewrite E'. do 3 eexists. split; [reflexivity|lia]. }
  destruct (N.eqb c 91).
  { unfold getdomainliteral. destruct (delimited [93%N; 13%N] false s) as [q r] eqn:E. apply delimited_shrinks in E.
    destruct (IH cl r) as (x & y & r' & E' & H1 & H2); [lia|lia|]. rewrite E'. do 3 eexists. split; [reflexivity|lia]. }
  destruct (N.eqb c 46).
  { destruct (IH cl s) as (x & y & r & E & H1 & H2); [lia|lia|]. rewrite E. do 3 eexists. split; [reflexivity|lia]. }
  destruct (N.eqb c 64). { do 3 eexists. split; [reflexivity|]. cbn [length]. lia. }
  destruct (mem_char c atomends) eqn:Ep. { do 3 eexists. split; [reflexivity|]. cbn [length]. lia. }
  destruct (getatom atomends (c :: s)) as [a r] eqn:E. apply atom_shrinks in E; [|exact Ep].
  destruct (IH cl r) as (x & y & r' & E' & H1 & H2); [lia|lia|]. rewrite E'. do 3 eexists. split; [reflexivity|lia].
Qed.
Lemma getdomain_total : forall lim cl s, openings s <= lim -> shrinks (getdomain lim cl s) s.
Proof.
  intros lim cl s Ho. unfold getdomain. destruct (domain_total lim (length s) cl s (Nat.le_refl _) Ho) as (d & cl' & r & E & H). rewrite E.
  destruct d; do 3 eexists; (split; [reflexivity|exact H]).
Qed.
(** the first step of reading an address takes something, unless there is nothing to take *)
Lemma addrspec_total : forall lim f l cl s, length s <= f -> openings s <= lim ->
  exists l' cl' r, addrspec_loop f lim l cl s = Some (l', cl', r) /\ length r <= length s /\ openings r <= openings s /\
    (match s with c :: _ => mem_char c phraseends = false \/ c = 34%N -> length r < length s | [] => True end).
Proof.
  intros lim. induction f as [|f IH]; intros l cl s Hf Ho; destruct s as [|c s]; cbn [addrspec_loop]; try (cbn in Hf; lia);
    try (do 3 eexists; split; [reflexivity|repeat split; lia]).
  pose proof (openings_cons c s) as Hoc. cbn [length] in *.
  destruct (N.eqb c 46) eqn:E46.
  { destruct (gotonext_total lim cl s) as (ws & cl1 & s1 & E & H1 & H2); [lia|]. rewrite E.
    destruct (IH ([c] :: pop_blank l) cl1 s1) as (x & y & r & E' & H1' & H2' & _); [lia|lia|]. rewrite E'. do 3 eexists. split; [reflexivity|repeat split; lia]. }
  destruct (N.eqb c 34) eqn:E34.
  { destruct (getquote s) as [q r0] eqn:E. apply delimited_shrinks in E.
    destruct (gotonext_total lim cl r0) as (ws & cl1 & s1 & E1 & H1 & H2); [lia|]. rewrite E1.
    match goal with |- context [addrspec_loop f lim ?l2 cl1 s1] => destruct (IH l2 cl1 s1) as (x & y & r & E' & H1' & H2' & _); [lia|lia|] end.
    rewrite E'. do 3 eexists. split; [reflexivity|repeat split; lia]. }
  destruct (mem_char c atomends) eqn:Ea.
  { do 3 eexists. split; [reflexivity|]. cbn [length]. repeat split; try lia. intros [Hp|Hp]; exfalso.
    - assert (Hi : In c atomends) by (now apply mem_char_In).
      assert (In c phraseends). { unfold phraseends. apply filter_In. split; [exact Hi|]. now rewrite E46. }
      apply mem_char_In in H. congruence.
    - subst c. discriminate. }
  destruct (getatom atomends (c :: s)) as [a r0] eqn:E. apply atom_shrinks in E; [|exact Ea].
  destruct (gotonext_total lim cl r0) as (ws & cl1 & s1 & E1 & H1 & H2); [lia|]. rewrite E1.
  match goal with |- context [addrspec_loop f lim ?l2 cl1 s1] => destruct (IH l2 cl1 s1) as (x & y & r & E' & H1' & H2' & _); [lia|lia|] end.
  rewrite E'. do 3 eexists. split; [reflexivity|repeat split; lia].
Qed.
Lemma getaddrspec_total : forall lim cl s, openings s <= lim ->
  exists a cl' r, getaddrspec lim cl s = Some (a, cl', r) /\ length r <= length s /\ openings r <= openings s /\
    (match s with c :: _ => mem_char c phraseends = false \/ c = 34%N \/ c = 64%N -> length r < length s | [] => True end).
Proof.
  intros lim cl s Ho. unfold getaddrspec. destruct (gotonext_total lim cl s Ho) as (ws & cl1 & s1 & E1 & H1 & H2). rewrite E1.
  destruct (addrspec_total lim (length s1) [] cl1 s1) as (l & cl2 & s2 & E2 & H3 & H4 & H5); [lia|lia|]. rewrite E2.
  assert (P : match s with c :: _ => mem_char c phraseends = false \/ c = 34%N \/ c = 64%N ->
                length s2 < length s \/ (exists r, s = s2 /\ s2 = 64%N :: r) | [] => True end).
  { destruct s as [|c s]; [exact Logic.I|]. intros Hc. destruct (Nat.lt_ge_cases (length s1) (length (c :: s))) as [Hlt|Hge]; [left; lia|].
    destruct (gotonext_split _ _ _ _ _ _ E1) as (u & Eu & _).
    assert (u = []). { destruct u; [reflexivity|]. rewrite Eu in Hge. rewrite app_length in Hge. cbn in Hge. lia. }
    subst u. cbn in Eu. subst s1. destruct Hc as [Hc|[Hc|Hc]]; [left; apply H5; auto|left; apply H5; auto|].
    subst c. right. exists s. cbn [length addrspec_loop] in E2. change (N.eqb 64 46) with false in E2. change (N.eqb 64 34) with false in E2.
    change (mem_char 64 atomends) with true in E2. inversion E2. auto. }
  destruct s2 as [|c s2].
  { do 3 eexists. split; [reflexivity|]. split; [cbn; lia|]. split; [cbn; lia|]. destruct s as [|x s]; [exact Logic.I|]. intros Hx. cbn. lia. }
  destruct (N.eqb c 64) eqn:E64.
  - pose proof (openings_cons c s2) as Hoc. cbn [length] in *.
    destruct (gotonext_total lim cl2 s2) as (ws3 & cl3 & s3 & E3 & H6 & H7); [lia|]. rewrite E3.
    destruct (getdomain_total lim cl3 s3) as (d & cl4 & s4 & E4 & H8 & H9); [lia|]. rewrite E4.
    assert (L : length s4 < length s) by lia.
    destruct d; do 3 eexists; (split; [reflexivity|]); (split; [lia|]); (split; [lia|]); destruct s; auto.
  - do 3 eexists. split; [reflexivity|]. split; [lia|]. split; [lia|]. destruct s as [|x s]; [exact Logic.I|]. intros Hx.
    destruct (P Hx) as [?|(r & _ & Er)]; [lia|]. inversion Er; subst. discriminate.
Qed.
Lemma route_total : forall lim f (er : bool) cl s, 2 * length s + (if er then 1 else 0) <= f -> openings s <= lim -> shrinks (route_loop f lim er cl s) s.
Proof.
  intros lim. unfold shrinks. induction f as [|f IH]; intros er cl s Hf Ho; destruct s as [|c s]; cbn [route_loop]; try (cbn in Hf; lia);
    try (do 3 eexists; split; [reflexivity|lia]).
  destruct er.
  { destruct (getdomain_total lim cl (c :: s) Ho) as (d & cl1 & s1 & E1 & H1 & H2). rewrite E1.
    destruct (gotonext_total lim cl1 s1) as (ws & cl2 & s2 & E2 & H3 & H4); [lia|]. rewrite E2.
    destruct (IH false cl2 s2) as (x & y & r & E & H5 & H6); [lia|lia|]. rewrite E. do 3 eexists. split; [reflexivity|lia]. }
  destruct (N.eqb c 62). { do 3 eexists. split; [reflexivity|]. pose proof (openings_cons c s). cbn [length]. lia. }
  destruct (N.eqb c 64 || N.eqb c 58).
  { pose proof (openings_cons c s) as Hoc. cbn [length] in *.
    destruct (gotonext_total lim cl s) as (ws & cl2 & s2 & E2 & H3 & H4); [lia|]. rewrite E2.
    destruct (IH (N.eqb c 64) cl2 s2) as (x & y & r & E & H5 & H6); [destruct (N.eqb c 64); lia|lia|]. rewrite E. do 3 eexists. split; [reflexivity|lia]. }
  destruct (getaddrspec_total lim cl (c :: s) Ho) as (a & cl1 & s1 & E & H1 & H2 & _). rewrite E. do 3 eexists. split; [reflexivity|].
  destruct s1 as [|x s1]; cbn [tl]; [lia|]. rewrite (openings_cons x s1) in H2. cbn [length] in *. lia.
Qed.
Lemma getrouteaddr_total : forall lim cl s, openings s <= lim -> shrinks (getrouteaddr lim cl s) s.
Proof.
  intros lim cl s Ho. unfold getrouteaddr. destruct (gotonext_total lim cl s Ho) as (ws & cl1 & s1 & E1 & H1 & H2). rewrite E1.
  destruct (route_total lim (2 * length s1) false cl1 s1) as (x & y & r & E & H3 & H4); [lia|lia|]. do 3 eexists. split; [exact E|lia].
Qed.
Definition advances (ga : str -> option (list (str * str) * str)) (n : nat) : Prop :=
  forall s, openings s <= n -> exists l r, ga s = Some (l, r) /\ length r <= length s /\ openings r <= openings s /\
    (s <> [] -> length r < length s).
Lemma group_total : forall ga lim n f, advances ga n -> n <= lim -> forall s, length s <= f -> openings s <= n ->
  exists l r, group_loop ga f lim s = Some (l, r) /\ length r <= length s /\ openings r <= openings s.
Proof.
  intros ga lim n f Hga Hn. induction f as [|f IH]; intros s Hf Ho; destruct s as [|c s]; cbn [group_loop]; try (cbn in Hf; lia);
    try (do 2 eexists; split; [reflexivity|lia]).
  destruct (gotonext_total lim [] (c :: s)) as (ws & cl1 & s1 & E1 & H1 & H2); [lia|]. rewrite E1.
  destruct (Hga s1) as (l & r & E & H3 & H4 & H5); [lia|].
  assert (Hr : length r <= f).
  { destruct s1; [cbn in H3; cbn [length] in Hf; lia|]. specialize (H5 ltac:(discriminate)). lia. }
  destruct (IH r) as (l' & r' & E' & H6 & H7); [lia|lia|]. rewrite E, E'.
  destruct s1 as [|x s1]; [do 2 eexists; split; [reflexivity|lia]|].
  destruct (N.eqb x 59); do 2 eexists; (split; [reflexivity|]); [|lia]. rewrite (openings_cons x s1) in H2. cbn [length] in *. lia.
Qed.
Lemma after_total : forall lim l s, openings s <= lim ->
  exists l' r, after_address lim l s = Some (l', r) /\ length r <= length s /\ openings r <= openings s.
Proof.
  intros lim l s Ho. unfold after_address. destruct (gotonext_total lim [] s Ho) as (ws & cl1 & s1 & E1 & H1 & H2). rewrite E1.
  destruct s1 as [|c s1]; [do 2 eexists; split; [reflexivity|lia]|]. destruct (N.eqb c 44); do 2 eexists; (split; [reflexivity|]); [|lia].
  rewrite (openings_cons c s1) in H2. cbn [length] in *. lia.
Qed.

(** the phrase parser stops at once only at a character that ends a phrase *)
Lemma phrase_first : forall lim cl c s pl cl' r, getphraselist lim cl (c :: s) = Some (pl, cl', r) -> solid (c :: s) ->
  length r < length (c :: s) \/ (pl = [] /\ r = c :: s /\ cl' = cl /\ mem_char c phraseends = true /\ c <> 34%N).
Proof.
  intros lim cl c s pl cl' r H [H1 H2]. unfold getphraselist in H. cbn [length phrase_loop] in H.
  rewrite (mem_char_false _ _ H1) in H. apply N.eqb_neq in H2. rewrite H2 in H.
  assert (G : forall rest pl' cl'' r', phrase_loop (length s) lim cl rest = Some (pl', cl'', r') -> length rest <= length s -> length r' < length (c :: s)).
  { intros rest pl' cl'' r' E Hl. destruct (phrase_split _ _ _ _ _ _ _ E) as (u & -> & _). rewrite app_length in Hl. cbn [length]. lia. }
  destruct (N.eqb c 34) eqn:E34.
  - destruct (getquote s) as [q rest] eqn:Eq. apply delimited_shrinks in Eq.
    destruct (phrase_loop (length s) lim cl rest) as [[[pl' cl''] r']|] eqn:E; [|discriminate]. inversion H; subst. left. eapply G; [exact E|lia].
  - destruct (mem_char c phraseends) eqn:Ep.
    + inversion H; subst. right. repeat split; auto. now apply N.eqb_neq.
    + destruct (getatom phraseends (c :: s)) as [a rest] eqn:Ea. apply atom_shrinks in Ea; [|exact Ep].
      destruct (phrase_loop (length s) lim cl rest) as [[[pl' cl''] r']|] eqn:E; [|discriminate]. inversion H; subst. left. eapply G; [exact E|lia].
Qed.
Lemma goto_result_solid : forall lim f cl s ws cl' r, gotonext_loop f lim cl s = Some (ws, cl', r) -> solid r.
Proof.
  intros lim. induction f as [|f IH]; intros cl s ws cl' r; destruct s as [|c s]; cbn [gotonext_loop]; intros H; try discriminate;
    try (inversion H; subst; exact Logic.I).
  destruct (mem_char c fws) eqn:Ef.
  - destruct (gotonext_loop f lim cl s) as [[[ws' cl''] r']|] eqn:E; [|discriminate]. inversion H; subst. eapply IH; eauto.
  - destruct (N.eqb c 40) eqn:E40.
    + destruct (getcomment lim s) as [[t r']|] eqn:E; [|discriminate]. eapply IH; eauto.
    + inversion H; subst. split; [|now apply N.eqb_neq]. intros Hi. apply mem_char_In in Hi. congruence.
Qed.

Lemma phraseends_cases : forall c, In c phraseends ->
  In c fws \/ c = 40%N \/ c = 34%N \/ c = 64%N \/ c = 58%N \/ c = 60%N \/ (In c specials /\ c <> 46%N).
Proof.
  intros c H. unfold phraseends in H. apply filter_In in H. destruct H as [H H46].
  unfold atomends in H. apply in_app_or in H. destruct H as [H|H]; [|tauto].
  do 6 right. split; [exact H|]. intros ->. discriminate.
Qed.
Lemma getaddress_total : forall lim, advances (getaddress lim) lim.
Proof.
  induction lim as [lim IHlim] using lt_wf_ind. intros s Ho. rewrite getaddress_unfold.
  destruct (gotonext_total lim [] s Ho) as (ws & cl0 & s0 & E0 & H1 & H2). rewrite E0.
  destruct (phrase_total lim (length s0) cl0 s0) as (pl & cl1 & s1 & E1 & H3 & H4); [lia|lia|]. unfold getphraselist. rewrite E1.
  destruct (gotonext_total lim cl1 s1) as (ws2 & cl & s2 & E2 & H5 & H6); [lia|]. rewrite E2. cbn zeta.
  set (only := match pl with [] => [] | p :: _ => [(join [32%N] cl, p)] end).
  pose proof (goto_result_solid _ _ _ _ _ _ _ E0) as Hsol.
  assert (Hpos : s <> [] -> s0 = [] \/ length s2 < length s \/
     (exists c r, s0 = c :: r /\ s2 = s0 /\ pl = [] /\ mem_char c phraseends = true /\ c <> 34%N)).
  { intros Hs. destruct s0 as [|c s0']; [auto|]. right.
    destruct (phrase_first _ _ _ _ _ _ _ E1 Hsol) as [Hlt|(Hpl & Hs1 & Hcl & Hc & H34)]; [left; lia|].
    right. exists c, s0'. subst s1 cl1. unfold gotonext in E2. rewrite goto_solid in E2 by auto. inversion E2. auto 6. }
  assert (Hnil : s <> [] -> s0 = [] -> s2 = []).
  { intros Hs ->. cbn in E1. inversion E1; subst. cbn in E2. inversion E2. reflexivity. }
  assert (Hlen0 : s <> [] -> 0 < length s) by (destruct s; [contradiction|cbn; lia]).
  (* the end of every branch *)
  assert (F : forall l s3, length s3 <= length s -> openings s3 <= openings s -> (s <> [] -> length s3 < length s) ->
     exists l' r, after_address lim l s3 = Some (l', r) /\ length r <= length s /\ openings r <= openings s /\ (s <> [] -> length r < length s)).
  { intros l s3 F1 F2 F3. destruct (after_total lim l s3) as (l' & r & E & F4 & F5); [lia|]. exists l', r. repeat split; try lia; [exact E|].
    intros Hs. specialize (F3 Hs). lia. }
  destruct s2 as [|c s2].
  { apply F; [cbn; lia|cbn; lia|]. intros Hs. cbn. auto. }
  assert (Hs0 : s <> [] -> s0 <> []) by (intros Hs E; apply Hnil in E; [discriminate|exact Hs]).
  destruct (N.eqb c 46 || N.eqb c 64) eqn:Eat.
  { destruct (getaddrspec_total lim cl s0) as (a & cl' & s3 & E3 & H7 & H8 & H9); [lia|]. rewrite E3. apply F; [lia|lia|].
    intros Hs. destruct (Hpos Hs) as [Hp|[Hp|Hp]].
    - now apply Hs0 in Hp.
    - destruct s0 as [|x s0']; [cbn in H7; specialize (Hlen0 Hs); lia|].
      destruct (phrase_first _ _ _ _ _ _ _ E1 Hsol) as [Hlt|(Hpl & Hs1 & Hcl & Hc & H34)].
      + assert (mem_char x phraseends = false \/ x = 34%N).
        { destruct (mem_char x phraseends) eqn:Ex; [|auto]. right. destruct (N.eq_dec x 34); [assumption|]. exfalso.
          unfold getphraselist in E1. cbn [length phrase_loop] in E1. destruct Hsol as [S1 S2]. rewrite (mem_char_false _ _ S1), Ex in E1.
          apply N.eqb_neq in n, S2. rewrite n, S2 in E1. inversion E1; subst. lia. }
        assert (length s3 < length (x :: s0')) by (apply H9; tauto). lia.
      + subst s1 cl1. unfold gotonext in E2. rewrite goto_solid in E2 by auto. inversion E2; subst.
        assert (length s3 < length (c :: s2)); [apply H9|lia].
        apply orb_true_iff in Eat. destruct Eat as [Ea|Ea]; apply N.eqb_eq in Ea; subst c; auto.
    - destruct Hp as (x & r & Ex & E22 & Hpl & Hc & H34). subst s0. inversion E22; subst.
      assert (length s3 < length (x :: r)); [apply H9|lia].
      apply orb_true_iff in Eat. destruct Eat as [Ea|Ea]; apply N.eqb_eq in Ea; subst x; auto. }
  assert (Hc1 : openings s2 <= openings s /\ length s2 < length s).
  { rewrite (openings_cons c s2) in H6. cbn [length] in H5. lia. }
  destruct (N.eqb c 58) eqn:E58.
  { rewrite (openings_cons c s2), E58, orb_true_r in H6. destruct lim as [|g]; [lia|].
    destruct (group_total (getaddress g) (S g) g (length s2) (IHlim g (Nat.lt_succ_diag_r g)) ltac:(lia) s2) as (gl & s3 & E3 & H7 & H8); [lia|lia|].
    rewrite E3. apply F; lia. }
  destruct (N.eqb c 60).
  { destruct (getrouteaddr_total lim cl s2) as (a & cl' & s3 & E3 & H7 & H8); [lia|]. rewrite E3. apply F; lia. }
  destruct pl as [|p pl].
  - destruct (mem_char c specials) eqn:Esp; [apply F; lia|].
    apply F; [lia|lia|]. intros Hs. destruct (Hpos Hs) as [Hp|[Hp|Hp]]; [now apply Hs0 in Hp|exact Hp|].
    destruct Hp as (x & r & Ex & E22 & _ & Hc & H34). subst s0. inversion E22; subst. exfalso.
    apply mem_char_In, phraseends_cases in Hc. destruct Hsol as [S1 S2].
    assert (G : In x specials). { destruct Hc as [Hc|[Hc|[Hc|[Hc|[Hc|[Hc|[Hc _]]]]]]]; try contradiction; try congruence; subst; vm_compute; tauto. }
    apply mem_char_In in G. congruence.
  - apply F; [lia|lia|]. intros Hs. destruct (Hpos Hs) as [Hp|[Hp|Hp]]; [now apply Hs0 in Hp|exact Hp|].
    destruct Hp as (x & r & _ & _ & Hpl & _). discriminate.
Qed.
Lemma addrlist_total : forall lim f s, length s <= f -> openings s <= lim -> addrlist_loop f lim s <> None.
Proof.
  intros lim. induction f as [|f IH]; intros s Hf Ho; destruct s as [|c s]; cbn [addrlist_loop]; try discriminate; try (cbn in Hf; lia).
  destruct (getaddress_total lim (c :: s) Ho) as (l & r & E & H1 & H2 & H3). rewrite E. specialize (H3 ltac:(discriminate)).
  specialize (IH r ltac:(lia) ltac:(lia)). destruct (addrlist_loop f lim r); [discriminate|contradiction].
Qed.
Lemma addresses_total : forall lim strict v, openings v <= lim -> 1 <= lim -> exists l, getaddresses lim strict v = Some l.
Proof.
  intros lim strict v Ho H1. unfold getaddresses. destruct strict.
  - assert (Hp : openings (pre_validate v) <= lim).
    { unfold pre_validate. destruct (check_parenthesis v); [exact Ho|]. vm_compute. exact H1. }
    pose proof (addrlist_total lim _ _ (Nat.le_refl _) Hp) as G. unfold getaddrlist. destruct (addrlist_loop _ _ _); [eauto|contradiction].
  - pose proof (addrlist_total lim _ _ (Nat.le_refl _) Ho) as G. unfold getaddrlist. destruct (addrlist_loop _ _ _); [eauto|contradiction].
Qed.
