(** Proofs about meta rules and short-circuiting. *)
From Verif Require Import PyStr PyDict Model_Rules Spec_Rules Proofs_Rules Model_Meta Spec_Meta Proofs_Meta Model_ShortMeta Spec_ShortMeta.

Lemma visits_ext : forall r1 r2 s1 s2 e, (forall s, In s (expr_names e) -> r1 s = r2 s /\ s1 s = s2 s) ->
  visits r1 s1 e = visits r2 s2 e.
Proof.
  intros r1 r2 s1 s2 e. induction e as [s|d|o a IHa b IHb|a IHa|a IHa]; intros H; cbn [visits expr_names] in *.
  - apply (H s). left; reflexivity.
  - reflexivity.
  - assert (Ha : forall s, In s (expr_names a) -> r1 s = r2 s /\ s1 s = s2 s) by (intros s Hs; apply H, in_or_app; left; exact Hs).
    assert (Hb : forall s, In s (expr_names b) -> r1 s = r2 s /\ s1 s = s2 s) by (intros s Hs; apply H, in_or_app; right; exact Hs).
    rewrite (IHa Ha), (IHb Hb), (eval_ext r1 r2 a (fun s Hs => proj1 (Ha s Hs))). reflexivity.
  - apply IHa, H.
  - apply IHa, H.
Qed.

Lemma asks_fun : forall t base n l, asks t base n l -> forall l', asks t base n l' -> l' = l.
Proof.
  intros t base n l H. induction H as [n Hb|n text e res sub Hg Hc Hr Hs IH]; intros l' H'.
  - inversion H'; subst; [reflexivity|congruence].
  - inversion H' as [n0 Hb|n0 text' e' res' sub' Hg' Hc' Hr' Hs']; subst; [congruence|].
    assert (text' = text) by congruence; subst text'. assert (e' = e) by congruence; subst e'.
    f_equal. apply visits_ext. intros s Hin. split.
    + eapply gives_fun; [apply Hr'|apply Hr]; exact Hin.
    + exact (IH s Hin _ (Hs' s Hin)).
Qed.

Lemma choose : forall (A : Type) (d : A) (P : str -> A -> Prop) l, (forall s, In s l -> exists o, P s o) ->
  exists f : str -> A, forall s, In s l -> P s (f s).
Proof.
  intros A d P. induction l as [|s l IHl]; intros Hs; [exists (fun _ => d); intros s []|].
  destruct (IHl (fun x Hx => Hs x (or_intror Hx))) as [f Hf].
  destruct (Hs s (or_introl eq_refl)) as [o Ho].
  exists (fun x => if str_eq_dec x s then o else f x). intros x Hx.
  destruct (str_eq_dec x s) as [->|Hne]; [exact Ho|]. destruct Hx as [<-|Hx]; [congruence|]. apply Hf; exact Hx.
Qed.

Lemma enough_for : forall (P : str -> nat -> Prop) l,
  (forall s, In s l -> exists f0, forall f, f0 <= f -> P s f) -> exists f0, forall f, f0 <= f -> forall s, In s l -> P s f.
Proof.
  intros P. induction l as [|s l IH]; intros H; [exists 0; intros f _ s []|].
  destruct (IH (fun x Hx => H x (or_intror Hx))) as [f1 H1]. destruct (H s (or_introl eq_refl)) as [f2 H2].
  exists (f1 + f2). intros f Hf x [<-|Hx]; [apply H2; lia|apply H1; [lia|exact Hx]].
Qed.

Lemma eval_no_stop : forall res e, (forall s, In s (expr_names e) -> res s <> Stops) -> py_eval res e <> Stops.
Proof.
  intros res e. induction e as [s|d|o a IHa b IHb|a IHa|a IHa]; intros H; cbn [py_eval expr_names] in *.
  - apply H. left; reflexivity.
  - destruct (nat_val d); discriminate.
  - assert (Ha : py_eval res a <> Stops) by (apply IHa; intros s Hs; apply H, in_or_app; left; exact Hs).
    assert (Hb : py_eval res b <> Stops) by (apply IHb; intros s Hs; apply H, in_or_app; right; exact Hs).
    destruct (py_eval res a) as [v| |], (py_eval res b) as [w| |]; try congruence;
      destruct o; cbn [arith]; try destruct (truthy v); try discriminate;
      unfold arith; destruct (num_of v), (num_of w); discriminate.
  - specialize (IHa H). destruct (py_eval res a); congruence.
  - specialize (IHa H). destruct (py_eval res a) as [v| |]; try congruence. destruct (num_of v); discriminate.
Qed.

Lemma gives_no_stop : forall t base, (forall s, mget t s = Some RBase -> base s <> Stops) ->
  forall n o, gives t base n o -> o <> Stops.
Proof.
  intros t base Hb n o [f Hf]. revert n o Hf. induction f as [|f IH]; intros n o Hf; [discriminate|]. cbn [mmatch] in Hf.
  destruct (mget t n) as [[|text]|] eqn:E; [| |discriminate].
  - injection Hf as <-. apply Hb, E.
  - destruct (compile_text text) as [e|]; [|discriminate]. destruct (forallb _ (expr_names e)) eqn:Ef; [|discriminate].
    injection Hf as <-. apply eval_no_stop. intros s Hs. rewrite forallb_forall in Ef. specialize (Ef s Hs).
    destruct (mmatch t base f s) as [os|] eqn:Es; [exact (IH s os Es)|discriminate].
Qed.

Section Trace.
Context {X : Type}.
Variable x : X.
Variable sp ha : Q.
Variable rs : ruleset X.
Variable t : mtables.
Variable look : str -> X -> outcome.
Variable val : str -> outcome.
Hypothesis readers : forall n r, get_rule rs n false = Some r -> mget t n = Some RBase -> reads_only r (look n).
Hypothesis names : forall n r, get_rule rs n false = Some r -> r_name r = n.
Hypothesis present : forall n, mget t n <> None -> exists r, get_rule rs n false = Some r.
Let base := fun s => look s x.
Hypothesis vals : forall n, mget t n <> None -> gives t base n (val n).

Section Configs.
Variable configs : list str.

Definition endsb (s : str) : bool :=
  match sc_setting configs s, val s with Some _, Returns v => truthy v | _, _ => false end.
(** The message after the short-circuited rule [s] stopped the check. *)
Definition stopped (s : str) (m : msg X) : msg X :=
  match get_rule rs s false, sc_setting configs s with
  | Some r, Some ty => fst (sc_call s (r_score r) ty sp ha (fun m => (m, val s)) m)
  | _, _ => m
  end.
Definition after (l : list str) (m : msg X) (o : outcome) : msg X * outcome :=
  match find endsb l with None => (m, o) | Some q => (stopped q m, Stops) end.

Lemma find_app : forall (A : Type) (f : A -> bool) a b, find f (a ++ b) = match find f a with Some q => Some q | None => find f b end.
Proof. intros A f a b. induction a as [|c a IH]; [reflexivity|]. cbn. destruct (f c); [reflexivity|exact IH]. Qed.

Lemma run_visits : forall call sub e m, m_ext m = x ->
  (forall s, In s (expr_names e) -> forall m, m_ext m = x -> call s m = Some (after (sub s) m (val s))) ->
  py_run call e m = Some (after (visits val sub e) m (py_eval val e)).
Proof.
  intros call sub e m Hm. unfold after. induction e as [s|d|o a IHa b IHb|a IHa|a IHa]; intros H; cbn [py_run visits py_eval expr_names] in *.
  - apply H; [left; reflexivity|exact Hm].
  - reflexivity.
  - specialize (IHa (fun s Hs => H s (in_or_app _ _ _ (or_introl Hs)))).
    specialize (IHb (fun s Hs => H s (in_or_app _ _ _ (or_intror Hs)))).
    rewrite IHa. rewrite find_app. destruct (find endsb (visits val sub a)) as [q|]; [destruct o; reflexivity|].
    destruct (py_eval val a) as [v| |]; [|destruct o; reflexivity|destruct o; reflexivity].
    destruct o; cbn [find]; try (destruct (truthy v); cbn [negb find]; try reflexivity; exact IHb);
      rewrite IHb; (destruct (find endsb (visits val sub b)); [reflexivity|]); destruct (py_eval val b); reflexivity.
  - rewrite (IHa H). destruct (find endsb (visits val sub a)) as [q|]; [reflexivity|]. destruct (py_eval val a); reflexivity.
  - rewrite (IHa H). destruct (find endsb (visits val sub a)) as [q|]; [reflexivity|]. destruct (py_eval val a) as [v| |]; reflexivity.
Qed.

Lemma wrap_after : forall r n (m m1 : msg X) o, get_rule rs n false = Some r -> o = val n ->
  r_match (wrapped sp ha configs (bound r (fun _ => (m, o)))) m1 = after [n] m o.
Proof.
  intros r n m m1 o Hr ->. change (wrapped sp ha configs) with (@sc_wrapped X sp ha configs). rewrite sc_wrapped_match.
  cbn [bound r_name r_match r_score]. rewrite (names _ _ Hr). unfold after, find, endsb.
  destruct (sc_setting configs n) as [ty|] eqn:Ec; [|reflexivity]. unfold sc_call.
  destruct (val n) as [v| |] eqn:Ev; [|reflexivity|reflexivity]. destruct (truthy v) eqn:Et; [|reflexivity].
  unfold stopped. rewrite Hr, Ec, Ev. unfold sc_call. rewrite Et. reflexivity.
Qed.

Lemma wrap_stop : forall r (m m1 : msg X), r_match (wrapped sp ha configs (bound r (fun _ => (m, Stops)))) m1 = (m, Stops).
Proof.
  intros r m m1. change (wrapped sp ha configs) with (@sc_wrapped X sp ha configs). rewrite sc_wrapped_match.
  cbn [bound r_name r_match r_score]. destruct (sc_setting _ _); reflexivity.
Qed.

Lemma called_trace : forall n l, asks t base n l ->
  exists f0, forall f, f0 <= f -> forall m, m_ext m = x -> called sp ha configs rs t f n m = Some (after l m (val n)).
Proof.
  intros n l H. induction H as [n Hb|n text e res sub Hg Hc Hr Hs IH].
  - exists 1. intros f Hf m Hm. destruct f as [|f]; [lia|]. cbn [called].
    destruct (present n) as [r Hget]; [congruence|]. rewrite Hget, Hb. rewrite (readers n r Hget Hb), Hm.
    assert (Hv : base n = val n).
    { eapply gives_fun; [|apply vals; congruence]. exists 1. cbn [mmatch]. rewrite Hb. reflexivity. }
    fold (base n). f_equal. rewrite (wrap_after r n m m (base n) Hget Hv), Hv. reflexivity.
  - destruct (enough_for _ _ IH) as [f1 H1]. exists (S f1). intros f Hf m Hm. destruct f as [|f]; [lia|]. cbn [called].
    destruct (present n) as [r Hget]; [congruence|]. rewrite Hget, Hg, Hc.
    assert (Hv : py_eval val e = val n).
    { eapply gives_fun; [|apply vals; congruence]. apply gives_meta with (text := text); [exact Hg|exact Hc|].
      intros s Hin. apply vals. intros E. destruct (Hr s Hin) as [f' E']. destruct f'; [discriminate|]. cbn [mmatch] in E'. rewrite E in E'. discriminate. }
    assert (He : visits res sub e = visits val sub e).
    { apply visits_ext. intros s Hin. split; [|reflexivity]. eapply gives_fun; [apply Hr; exact Hin|]. apply vals.
      intros E. destruct (Hr s Hin) as [f' E']. destruct f'; [discriminate|]. cbn [mmatch] in E'. rewrite E in E'. discriminate. }
    rewrite He. rewrite (run_visits (called sp ha configs rs t f) sub e m Hm); [|intros s Hin m' Hm'; apply H1; [lia|exact Hin|exact Hm']].
    rewrite Hv. f_equal. unfold after. rewrite find_app. destruct (find endsb (visits val sub e)) as [q|].
    + apply wrap_stop.
    + rewrite (wrap_after r n m m (val n) Hget eq_refl). reflexivity.
Qed.
End Configs.

Lemma ends_iff : forall configs s, mget t s <> None -> (ends t base configs s <-> endsb configs s = true).
Proof.
  intros configs s Hs. unfold ends, endsb. split.
  - intros (Hc & v & Hv & Ht). rewrite (gives_fun _ _ _ _ _ (vals s Hs) Hv). destruct (sc_setting configs s); [exact Ht|congruence].
  - destruct (sc_setting configs s) as [ty|]; [|discriminate]. destruct (val s) as [v| |] eqn:Ev; try discriminate.
    intros Ht. split; [discriminate|]. exists v. split; [|exact Ht]. rewrite <- Ev. apply vals, Hs.
Qed.

Lemma asks_defined : forall n l, asks t base n l -> Forall (fun s => mget t s <> None) l.
Proof.
  intros n l H. induction H as [n Hb|n text e res sub Hg Hc Hr Hs IH]; [constructor; [congruence|constructor]|].
  apply Forall_app. split; [|constructor; [congruence|constructor]]. clear Hg Hc Hr Hs. 
  induction e as [s|d|o a IHa b IHb|a IHa|a IHa]; cbn [visits expr_names] in *.
  - apply IH. left; reflexivity.
  - constructor.
  - apply Forall_app. split; [apply IHa; intros s Hs; apply IH, in_or_app; left; exact Hs|].
    destruct (py_eval res a) as [v| |]; [|constructor|constructor].
    destruct (match o with OAnd => truthy v | OOr => negb (truthy v) | _ => true end); [|constructor].
    apply IHb; intros s Hs; apply IH, in_or_app; right; exact Hs.
  - apply IHa, IH.
  - apply IHa, IH.
Qed.

Lemma silent : forall configs n l, asks t base n l -> Forall (fun s => ~ ends t base configs s) l -> find (endsb configs) l = None.
Proof.
  intros configs n l Ha Hl. pose proof (asks_defined n l Ha) as Hd. clear Ha. induction Hl as [|s l Hs Hl IH]; [reflexivity|].
  inversion Hd as [|? ? Hs' Hd']; subst. cbn [find]. destruct (endsb configs s) eqn:E; [|exact (IH Hd')].
  exfalso. apply Hs. apply ends_iff; assumption.
Qed.

(** ** The loop over the rules *)

Lemma record_keeps : forall n (r : rule X) m v, m_ext (record n r m v) = m_ext m.
Proof. intros n r m v. unfold record. destruct v as [|b|q|s]; cbn; [reflexivity|destruct b; reflexivity| |reflexivity]. destruct (Qeq_bool q 0); reflexivity. Qed.

Definition answers (configs : list str) (fuel : nat) (n : str) (m : msg X) : msg X * outcome :=
  match called sp ha configs rs t fuel n m with Some result => result | None => (m, Raises) end.

Lemma loop_plain : forall fuel l m, m_ext m = x ->
  (forall n, In n (map fst l) -> dget n (t_checked t) <> None -> val n <> Stops /\
     forall m, m_ext m = x -> called sp ha [] rs t fuel n m = Some (m, val n)) ->
  m_ext (fst (match_loop (in_force sp ha [] rs t fuel l) m)) = x /\ snd (match_loop (in_force sp ha [] rs t fuel l) m) = false.
Proof.
  intros fuel l. induction l as [|[n r] l IH]; intros m Hm H; [split; [exact Hm|reflexivity]|].
  unfold in_force. cbn [flat_map fst snd]. fold (in_force sp ha [] rs t fuel l).
  assert (H' : forall n, In n (map fst l) -> dget n (t_checked t) <> None -> val n <> Stops /\
     forall m, m_ext m = x -> called sp ha [] rs t fuel n m = Some (m, val n)) by (intros n' Hn'; apply H; right; exact Hn').
  specialize (H n (or_introl eq_refl)). destruct (dget n (t_checked t)) as [k|]; [|exact (IH m Hm H')].
  destruct H as [Hns Hc]; [discriminate|]. cbn [app match_loop bound r_match]. rewrite (Hc m Hm).
  destruct (val n) as [v| |]; [| |congruence]; apply IH; try exact H'; rewrite record_keeps; exact Hm.
Qed.

Lemma loop_same : forall configs fuel l m, m_ext m = x ->
  (forall n, In n (map fst l) -> dget n (t_checked t) <> None ->
     (forall m, m_ext m = x -> called sp ha configs rs t fuel n m = Some (m, val n)) /\
     (forall m, m_ext m = x -> called sp ha [] rs t fuel n m = Some (m, val n))) ->
  match_loop (in_force sp ha configs rs t fuel l) m = match_loop (in_force sp ha [] rs t fuel l) m.
Proof.
  intros configs fuel l. induction l as [|[n r] l IH]; intros m Hm H; [reflexivity|].
  unfold in_force. cbn [flat_map fst snd]. fold (in_force sp ha [] rs t fuel l). fold (in_force sp ha configs rs t fuel l).
  assert (H' : forall n, In n (map fst l) -> dget n (t_checked t) <> None ->
     (forall m, m_ext m = x -> called sp ha configs rs t fuel n m = Some (m, val n)) /\
     (forall m, m_ext m = x -> called sp ha [] rs t fuel n m = Some (m, val n))) by (intros n' Hn'; apply H; right; exact Hn').
  specialize (H n (or_introl eq_refl)). destruct (dget n (t_checked t)) as [k|]; [|exact (IH m Hm H')].
  destruct H as [Hc Hp]; [discriminate|]. cbn [app match_loop bound r_match]. rewrite (Hc m Hm), (Hp m Hm).
  destruct (val n) as [v| |]; [| |reflexivity]; (rewrite IH; [reflexivity|rewrite record_keeps; exact Hm|exact H']).
Qed.

Lemma loop_app : forall (a b : list (str * rule X)) m, match_loop (a ++ b) m =
  match match_loop a m with (m1, true) => (m1, true) | (m1, false) => match_loop b m1 end.
Proof.
  induction a as [|[n r] a IH]; intros b m; [reflexivity|]. cbn [app match_loop].
  destruct (r_match r m) as [m1 [v| |]]; [apply IH|apply IH|reflexivity].
Qed.

Lemma in_force_app : forall configs fuel a b, in_force sp ha configs rs t fuel (a ++ b) = in_force sp ha configs rs t fuel a ++ in_force sp ha configs rs t fuel b.
Proof. intros. unfold in_force. apply flat_map_app. Qed.
End Trace.

(** ** After loading *)
Section Loaded.
Context {X : Type}.
Variable order : list str -> list str.
Hypothesis Ho : enumerates order.
Variable kind : str -> mrule.
Variable rs : ruleset X.
Variable t : mtables.
Variable done : list str.
Variable look : str -> X -> outcome.
Hypothesis Hc : well_keyed (rs_checked rs).
Hypothesis Hn : well_keyed (rs_not_checked rs).
Hypothesis Hd : forall n, In n (dkeys (rs_checked rs)) -> ~ In n (dkeys (rs_not_checked rs)).
Hypothesis Hl : call_postparsing order (classes kind rs) = Some (t, done).
Hypothesis Hr : forall n r, get_rule rs n false = Some r -> kind n = RBase -> reads_only r (look n) /\ forall x, look n x <> Stops.

Lemma dget_map_kind : forall (l : dict (rule X)) n, dget n (map (fun e => (fst e, kind (fst e))) l) = match dget n l with Some _ => Some (kind n) | None => None end.
Proof.
  induction l as [|[k r] l IH]; intros n; [reflexivity|]. cbn [map dget fst]. destruct (streqb n k) eqn:E; [|apply IH].
  apply streqb_eq in E. subst. reflexivity.
Qed.
Lemma classes_mget : forall n, mget (classes kind rs) n = match get_rule rs n false with Some _ => Some (kind n) | None => None end.
Proof.
  intros n. unfold mget, classes, get_rule. cbn [t_checked t_not_checked]. rewrite !dget_map_kind. destruct (dget n (rs_checked rs)); reflexivity.
Qed.
Lemma classes_keys : forall (l : dict (rule X)), dkeys (map (fun e => (fst e, kind (fst e))) l) = dkeys l.
Proof. intros l. unfold dkeys. rewrite map_map. reflexivity. Qed.
Lemma classes_ok : tables_ok (classes kind rs).
Proof.
  unfold tables_ok, classes. cbn [t_checked t_not_checked]. rewrite !classes_keys.
  split; [apply Hc|]. split; [apply Hn|exact Hd].
Qed.
Lemma kept_kind : forall n k, mget t n = Some k -> k = kind n /\ exists r, get_rule rs n false = Some r.
Proof.
  intros n k H. destruct (load_inv order Ho _ t done classes_ok Hl) as (_ & _ & [D1 _] & _).
  apply D1 in H. rewrite classes_mget in H. destruct (get_rule rs n false) as [r|]; [|discriminate]. injection H as <-. eauto.
Qed.
Lemma keyed_dget : forall (l : dict (rule X)) n r, Forall (fun e => r_name (snd e) = fst e) l -> dget n l = Some r -> r_name r = n.
Proof.
  induction l as [|[k q] l IH]; intros n r H E; [discriminate|]. inversion H as [|? ? H1 H2]; subst. cbn [dget] in E.
  destruct (streqb n k) eqn:Ek; [|eapply IH; eauto]. apply streqb_eq in Ek. injection E as <-. cbn in H1. congruence.
Qed.
Lemma rule_name : forall n r, get_rule rs n false = Some r -> r_name r = n.
Proof.
  intros n r. unfold get_rule. destruct (dget n (rs_checked rs)) as [q|] eqn:E; intros H.
  - injection H as <-. eapply keyed_dget; [apply Hc|exact E].
  - eapply keyed_dget; [apply Hn|exact H].
Qed.
Lemma rule_reads : forall n r, get_rule rs n false = Some r -> mget t n = Some RBase -> reads_only r (look n).
Proof. intros n r Hg Hm. destruct (kept_kind n _ Hm) as [E _]. apply (proj1 (Hr n r Hg (eq_sym E))). Qed.
Lemma rule_present : forall n, mget t n <> None -> exists r, get_rule rs n false = Some r.
Proof. intros n Hm. destruct (mget t n) as [k|] eqn:E; [|congruence]. apply (kept_kind n k E). Qed.

Lemma asks_exist : forall x n, mget t n <> None -> exists l, asks t (fun s => look s x) n l.
Proof.
  intros x. destruct (load_wf order Ho _ t done classes_ok Hl) as (Hdef & Hacc & Hcomp).
  intros n. induction (Hacc n) as [n _ IH]. intros Hm. destruct (mget t n) as [[|text]|] eqn:E; [| |congruence].
  - exists [n]. constructor. exact E.
  - destruct (Hcomp n text E) as [e He].
    assert (Hs : forall s, In s (expr_names e) -> defined t s /\ mentions t n s).
    { intros s Hs. assert (M : mentions t n s) by (exists text, e; auto). split; [eapply Hdef; exact M|exact M]. }
    destruct (choose _ Raises (fun s o => gives t (fun s => look s x) s o) (expr_names e)) as [res Hres].
    { intros s Hin. eapply (load_matches order Ho _ t done _ classes_ok Hl). apply (Hs s Hin). }
    destruct (choose _ [] (fun s l => asks t (fun s => look s x) s l) (expr_names e)) as [sub Hsub].
    { intros s Hin. apply IH; [apply (Hs s Hin)|]. apply mget_defined, (Hs s Hin). }
    eexists. eapply asks_meta; eauto.
Qed.

Lemma vals_exist : forall x, exists val, (forall n, mget t n <> None -> gives t (fun s => look s x) n (val n)) /\ forall n, mget t n <> None -> val n <> Stops.
Proof.
  intros x. destruct (choose _ Raises (fun s o => gives t (fun s => look s x) s o) (dkeys (t_checked t) ++ dkeys (t_not_checked t))) as [val Hv].
  { intros s Hin. eapply (load_matches order Ho _ t done _ classes_ok Hl). apply in_app_or in Hin. exact Hin. }
  exists val. assert (H : forall n, mget t n <> None -> gives t (fun s => look s x) n (val n)).
  { intros n Hm. apply Hv, in_or_app. apply mget_defined in Hm. exact Hm. }
  split; [exact H|]. intros n Hm. eapply gives_no_stop; [|apply H, Hm]. intros s Hs. destruct (kept_kind s _ Hs) as [E [r Hg]].
  apply (proj2 (Hr s r Hg (eq_sym E))).
Qed.

Lemma checked_mget : forall n, dget n (t_checked t) <> None -> mget t n <> None.
Proof. intros n H. unfold mget. destruct (dget n (t_checked t)); congruence. Qed.

Lemma find_none : forall f, (forall s, f s = false) -> forall l : list str, find f l = None.
Proof. intros f H. induction l as [|s l IH]; [reflexivity|]. cbn. rewrite H. exact IH. Qed.

(** Enough fuel for all rules of a list none of which ends the check. *)
Lemma quiet_calls : forall x sp ha configs (l : list str) val,
  (forall n, mget t n <> None -> gives t (fun s => look s x) n (val n)) ->
  (forall n, In n l -> forall q, asks t (fun s => look s x) n q -> Forall (fun s => ~ ends t (fun s => look s x) configs s) q) ->
  exists f0, forall f, f0 <= f -> forall n, In n l -> mget t n <> None -> forall m, m_ext m = x -> called sp ha configs rs t f n m = Some (m, val n).
Proof.
  intros x sp ha configs l val Hv Hq. apply (enough_for (fun n f => mget t n <> None -> forall m, m_ext m = x -> called sp ha configs rs t f n m = Some (m, val n))).
  intros n Hin. destruct (mget t n) as [k|] eqn:E; [|exists 0; congruence].
  destruct (asks_exist x n) as [q Ha]; [congruence|].
  destruct (called_trace x sp ha rs t look val rule_reads rule_name rule_present Hv configs n q Ha) as [f0 H0].
  exists f0. intros f Hf _ m Hm. rewrite (H0 f Hf m Hm). unfold after.
  rewrite (silent x t look val Hv configs n q Ha (Hq n Hin q Ha)). reflexivity.
Qed.

Lemma nothing_ends : forall b s, ~ ends t b [] s.
Proof. intros b s [H _]. apply H. reflexivity. Qed.

Lemma plain_calls : forall x sp ha (l : list str) val,
  (forall n, mget t n <> None -> gives t (fun s => look s x) n (val n)) ->
  exists f0, forall f, f0 <= f -> forall n, In n l -> mget t n <> None -> forall m, m_ext m = x -> called sp ha [] rs t f n m = Some (m, val n).
Proof. intros x sp ha l val Hv. apply quiet_calls; [exact Hv|]. intros n _ q _. apply Forall_forall. intros s _. apply nothing_ends. Qed.

Lemma unchanged : forall sp ha configs l m,
  (forall n q, In n (dkeys l) -> asks t (fun s => look s (m_ext m)) n q -> Forall (fun s => ~ ends t (fun s => look s (m_ext m)) configs s) q) ->
  exists f0, forall f, f0 <= f -> match_loop (in_force sp ha configs rs t f l) m = match_loop (in_force sp ha [] rs t f l) m.
Proof.
  intros sp ha configs l m H. destruct (vals_exist (m_ext m)) as (val & Hv & _).
  destruct (quiet_calls (m_ext m) sp ha configs (dkeys l) val Hv (fun n Hin q => H n q Hin)) as [f1 H1].
  destruct (plain_calls (m_ext m) sp ha (dkeys l) val Hv) as [f2 H2].
  exists (f1 + f2). intros f Hf. apply loop_same with (x := m_ext m) (val := val); [reflexivity|].
  intros n Hin Hk. apply checked_mget in Hk. split; [apply H1|apply H2]; solve [lia|assumption].
Qed.

Lemma stops_there : forall sp ha configs (m : msg X) before n r after l1 s l2 ty v q,
  let b := fun s => look s (m_ext m) in
  rs_checked rs = before ++ (n, r) :: after -> In n (dkeys (t_checked t)) ->
  (forall n' l, In n' (dkeys before) -> asks t b n' l -> Forall (fun s => ~ ends t b configs s) l) ->
  asks t b n (l1 ++ s :: l2) -> Forall (fun s => ~ ends t b configs s) l1 ->
  sc_setting configs s = Some ty -> gives t b s (Returns v) -> truthy v = true -> get_rule rs s false = Some q ->
  exists f0, forall f, f0 <= f ->
    let m1 := fst (match_loop (in_force sp ha [] rs t f before) m) in
    match_loop (in_force sp ha configs rs t f (rs_checked rs)) m =
      (fst (sc_call s (r_score q) ty sp ha (fun m => (m, Returns v)) m1), true).
Proof.
  intros sp ha configs m before n r after l1 s l2 ty v q b Hsp Hin Hbe Ha Hl1 Hsc Hg Ht Hq. cbv zeta.
  destruct (vals_exist (m_ext m)) as (val & Hv & Hns).
  destruct (plain_calls (m_ext m) sp ha (dkeys before) val Hv) as [f1 H1].
  destruct (unchanged sp ha configs before m Hbe) as [f2 H2].
  destruct (called_trace (m_ext m) sp ha rs t look val rule_reads rule_name rule_present Hv configs n _ Ha) as [f3 H3].
  exists (f1 + f2 + f3). intros f Hf. rewrite Hsp, in_force_app, loop_app, (H2 f ltac:(lia)).
  destruct (loop_plain (m_ext m) sp ha rs t val f before m eq_refl) as [He Hs].
  { intros n' Hin' Hk. apply checked_mget in Hk. split; [apply Hns, Hk|]. intros m' Hm'. apply H1; [lia|exact Hin'|exact Hk|exact Hm']. }
  destruct (match_loop (in_force sp ha [] rs t f before) m) as [m1 st] eqn:El. cbn [fst snd] in *. subst st.
  unfold in_force. cbn [flat_map fst snd]. fold (in_force sp ha configs rs t f after).
  destruct (dget n (t_checked t)) as [k|] eqn:Ek.
  2: { exfalso. apply dget_None in Ek. contradiction. }
  cbn [app match_loop bound r_match]. rewrite (H3 f ltac:(lia) m1 He). unfold Proofs_ShortMeta.after.
  pose proof (asks_defined (m_ext m) t look n _ Ha) as Hdef. rewrite Forall_forall in Hdef.
  assert (Hfind : find (endsb val configs) (l1 ++ s :: l2) = Some s).
  { rewrite find_app. assert (find (endsb val configs) l1 = None) as ->.
    { assert (Hdl : forall z, In z l1 -> mget t z <> None) by (intros z Hz; apply Hdef, in_or_app; left; exact Hz).
      clear -Hl1 Hdl Hv. induction Hl1 as [|z l Hz Hl IH]; [reflexivity|]. cbn [find]. destruct (endsb val configs z) eqn:E.
      - exfalso. apply Hz. apply (ends_iff (m_ext m) t look val Hv configs z); [apply Hdl; left; reflexivity|exact E].
      - apply IH. intros w Hw. apply Hdl. right; exact Hw. }
    cbn [find]. assert (endsb val configs s = true) as ->; [|reflexivity].
    apply (ends_iff (m_ext m) t look val Hv configs s); [apply Hdef, in_or_app; right; left; reflexivity|].
    split; [congruence|]. exists v. split; assumption. }
  rewrite Hfind. cbn iota. f_equal. unfold stopped. rewrite Hq, Hsc.
  assert (Hms : mget t s <> None) by (apply Hdef, in_or_app; right; left; reflexivity).
  rewrite (gives_fun _ _ _ _ _ (Hv s Hms) Hg). reflexivity.
Qed.
End Loaded.

Lemma pp_items_sub : forall order w items t done t' done', pp_items order w items t done = Some (t', done') ->
  incl (t_checked t') (t_checked t) /\ incl (t_not_checked t') (t_not_checked t).
Proof.
  intros order w. induction items as [|[n r] items IH]; intros t done t' done' H; cbn [pp_items] in H.
  - injection H as <- _. split; intros e He; exact He.
  - destruct (pp order max_left t n r done) as [d1|d1|]; [exact (IH _ _ _ _ H)| |discriminate].
    apply IH in H as [H1 H2]. destruct w; cbn [t_checked t_not_checked] in *.
    + split; [|exact H2]. intros [k v] He. apply H1, In_ddel_inv in He. apply He.
    + split; [exact H1|]. intros [k v] He. apply H2, In_ddel_inv in He. apply He.
Qed.
Lemma load_sub : forall order t t' done, call_postparsing order t = Some (t', done) ->
  incl (t_checked t') (t_checked t) /\ incl (t_not_checked t') (t_not_checked t).
Proof.
  intros order t t' done H. unfold call_postparsing in H.
  destruct (pp_items order true (t_checked t) t []) as [[t1 d1]|] eqn:E; [|discriminate].
  apply pp_items_sub in E as [E1 E2]. apply pp_items_sub in H as [H1 H2].
  split; intros e He; [apply E1, H1, He|apply E2, H2, He].
Qed.

Section Either.
Context {X : Type}.
Variable order : list str -> list str.
Hypothesis Ho : enumerates order.
Variable kind : str -> mrule.
Variable rs : ruleset X.
Variable t : mtables.
Variable done : list str.
Variable look : str -> X -> outcome.
Hypothesis Hc : well_keyed (rs_checked rs).
Hypothesis Hn : well_keyed (rs_not_checked rs).
Hypothesis Hd : forall n, In n (dkeys (rs_checked rs)) -> ~ In n (dkeys (rs_not_checked rs)).
Hypothesis Hl : call_postparsing order (classes kind rs) = Some (t, done).
Hypothesis Hr : forall n r, get_rule rs n false = Some r -> kind n = RBase -> reads_only r (look n) /\ forall x, look n x <> Stops.

Lemma find_split : forall (f : str -> bool) l, match find f l with
  | None => Forall (fun s => f s = false) l
  | Some s => exists l1 l2, l = l1 ++ s :: l2 /\ Forall (fun s => f s = false) l1 /\ f s = true
  end.
Proof.
  intros f. induction l as [|s l IH]; [constructor|]. cbn [find]. destruct (f s) eqn:E.
  - exists [], l. auto.
  - destruct (find f l) as [z|]; [|constructor; assumption]. destruct IH as (l1 & l2 & -> & H1 & H2).
    exists (s :: l1), l2. repeat split; [constructor; assumption|exact H2].
Qed.

Lemma quiet_or_not : forall x configs (l : dict (rule X)),
  (forall n, In n (dkeys l) -> mget t n <> None -> In n (dkeys (t_checked t))) ->
  let b := fun s => look s x in
  (forall n q, In n (dkeys l) -> asks t b n q -> Forall (fun s => ~ ends t b configs s) q) \/
  (exists before n r after l1 s l2 ty v q,
     l = before ++ (n, r) :: after /\ In n (dkeys (t_checked t)) /\
     (forall n' l, In n' (dkeys before) -> asks t b n' l -> Forall (fun s => ~ ends t b configs s) l) /\
     asks t b n (l1 ++ s :: l2) /\ Forall (fun s => ~ ends t b configs s) l1 /\
     sc_setting configs s = Some ty /\ gives t b s (Returns v) /\ truthy v = true /\ get_rule rs s false = Some q).
Proof.
  intros x configs l Hin b. destruct (vals_exist order Ho kind rs t done look Hc Hn Hd Hl Hr x) as (val & Hv & _).
  assert (Hnot : forall q, Forall (fun s => mget t s <> None) q -> Forall (fun s => endsb val configs s = false) q -> Forall (fun s => ~ ends t b configs s) q).
  { intros q Hq H. rewrite Forall_forall in *. intros s Hs He. apply (ends_iff x t look val Hv configs s (Hq s Hs)) in He. rewrite (H s Hs) in He. discriminate. }
  induction l as [|[n r] l IH]; [left; intros n q []|].
  assert (Hdec : (forall q, asks t b n q -> Forall (fun s => ~ ends t b configs s) q) \/
                 exists l1 s l2, asks t b n (l1 ++ s :: l2) /\ Forall (fun s => ~ ends t b configs s) l1 /\ endsb val configs s = true /\ mget t n <> None /\ mget t s <> None).
  { destruct (mget t n) as [k|] eqn:E.
    - destruct (asks_exist order Ho kind rs t done look Hc Hn Hd Hl x n) as [q Ha]; [congruence|].
      pose proof (asks_defined x t look n q Ha) as Hdef.
      pose proof (find_split (endsb val configs) q) as Hf. destruct (find (endsb val configs) q) as [s|].
      + right. destruct Hf as (l1 & l2 & -> & H1 & H2). apply Forall_app in Hdef as [D1 D2]. inversion D2; subst.
        exists l1, s, l2. repeat split; try assumption; [|congruence]. apply Hnot; assumption.
      + left. intros q' Ha'. rewrite (asks_fun _ _ _ _ Ha q' Ha'). apply Hnot; assumption.
    - left. intros q Ha. inversion Ha; congruence. }
  destruct Hdec as [Hq|(l1 & s & l2 & Ha & H1 & H2 & H3 & H4)].
  - destruct IH as [IH|(be & n' & r' & af & l1 & s & l2 & ty & v & q & E & R1 & R2 & R3)].
    + intros n' Hn'. apply Hin. right; exact Hn'.
    + left. intros n' q [<-|Hn'] Ha; [exact (Hq q Ha)|exact (IH n' q Hn' Ha)].
    + right. exists ((n, r) :: be), n', r', af, l1, s, l2, ty, v, q. rewrite E. split; [reflexivity|]. split; [exact R1|]. split; [|exact R3].
      intros n2 q2 [<-|Hn2] Ha; [exact (Hq q2 Ha)|exact (R2 n2 q2 Hn2 Ha)].
  - right. unfold endsb in H2. destruct (sc_setting configs s) as [ty|] eqn:Es; [|discriminate].
    destruct (val s) as [v| |] eqn:Ev; try discriminate.
    destruct (rule_present order Ho kind rs t done Hc Hn Hd Hl s H4) as [q Hq].
    exists [], n, r, l, l1, s, l2, ty, v, q. repeat split; try assumption.
    + apply Hin; [left; reflexivity|exact H3].
    + intros n' q' [].
    + change b with (fun s => look s x). rewrite <- Ev. apply Hv, H4.
Qed.
End Either.
