(** Proofs about the auto-whitelist. *)
From Verif Require Import PyStr PyDict Model_Rules Model_Net Model_Awl Spec_Awl.
From Coq Require Import Lia Lqa.

Lemma find_snoc {A} (f : A -> bool) l y : find f (l ++ [y]) = match find f l with Some z => Some z | None => if f y then Some y else None end.
Proof. induction l as [|z l IH]; cbn [app find]; [reflexivity|]. destruct (f z); [reflexivity|exact IH]. Qed.

Lemma same_spec a b : same_sender a b = true <-> l_user a = l_user b /\ l_email a = l_email b /\ l_signed a = l_signed b.
Proof.
  unfold same_sender. rewrite !Bool.andb_true_iff.
  destruct (streqb_spec (l_user a) (l_user b)), (streqb_spec (l_email a) (l_email b)), (streqb_spec (l_signed a) (l_signed b)); intuition congruence.
Qed.
Lemma same_refl a : same_sender a a = true.
Proof. apply same_spec. auto. Qed.
Lemma same_sym a b : same_sender a b = same_sender b a.
Proof. unfold same_sender. rewrite (streqb_sym (l_user a)), (streqb_sym (l_email a)), (streqb_sym (l_signed a)). reflexivity. Qed.
Lemma same_trans a b c : same_sender a b = true -> same_sender b c = true -> same_sender a c = true.
Proof. rewrite !same_spec. intuition congruence. Qed.
Lemma same_right a b c : same_sender a b = true -> same_sender c a = same_sender c b.
Proof. rewrite same_spec. intros (H1 & H2 & H3). unfold same_sender. rewrite H1, H2, H3. reflexivity. Qed.
Lemma same_left a b c : same_sender a b = true -> same_sender a c = same_sender b c.
Proof. intros H. rewrite (same_sym a c), (same_sym b c). apply same_right. exact H. Qed.

(** [m] is the first of its sender from its address. *)
Definition fresh (before : list mail) (m : mail) : Prop :=
  unknown m = false /\ existsb (fun b => same_sender m b && streqb (l_ip b) (l_ip m)) before = false.

Definition cand (before : list mail) (m n : mail) : bool :=
  same_sender m n && negb (unknown n) && negb (existsb (fun b => same_sender m b && streqb (l_ip b) (l_ip n)) before).
Lemma home_eq before m after : home before m after =
  if unknown m then match find (cand before m) after with Some n => l_ip n | None => no_ip end else l_ip m.
Proof. reflexivity. Qed.
Lemma find_cand_known before m after n : find (cand before m) after = Some n -> In n after /\ same_sender m n = true /\ unknown n = false.
Proof.
  intros H. apply find_some in H. destruct H as [Hi H]. unfold cand in H. rewrite !Bool.andb_true_iff, !Bool.negb_true_iff in H. tauto.
Qed.

(** A message that is no first one changes nothing for the others. *)
Lemma filed_old h : forall p m k ip, (unknown m = true \/ existsb (fun b => same_sender m b && streqb (l_ip b) (l_ip m)) (p ++ h) = true) ->
  filed_after p (h ++ [m]) k ip = filed_after p h k ip ++ (if same_sender k m && streqb (l_ip m) ip then [m] else []).
Proof.
  induction h as [|x h IH]; intros p m k ip Hm.
  - cbn [app filed_after]. rewrite app_nil_r. rewrite home_eq. cbn [find]. destruct (unknown m) eqn:U; [|reflexivity].
    unfold unknown in U; change nowhere with no_ip in U. destruct (streqb_spec (l_ip m) no_ip) as [->|]; [reflexivity|discriminate].
  - cbn [app filed_after]. rewrite IH; [|rewrite <- app_assoc; exact Hm]. rewrite <- app_assoc. f_equal.
    assert (E : home p x (h ++ [m]) = home p x h); [|rewrite E; reflexivity].
    rewrite !home_eq. destruct (unknown x) eqn:Ux; [|reflexivity]. rewrite find_snoc.
    destruct (find (cand p x) h) as [n|] eqn:F; [reflexivity|]. destruct (cand p x m) eqn:C; [exfalso|reflexivity].
    unfold cand in C. rewrite !Bool.andb_true_iff, !Bool.negb_true_iff in C. destruct C as [[C1 C2] C3].
    destruct Hm as [Hm|Hm]; [congruence|]. apply existsb_exists in Hm. destruct Hm as [b [Hb Hs]].
    rewrite Bool.andb_true_iff in Hs. destruct Hs as [Hs He].
    assert (Hxb : same_sender x b = true) by (exact (same_trans _ _ _ C1 Hs)).
    destruct (streqb_spec (l_ip b) (l_ip m)) as [Eb|]; [|discriminate].
    apply in_app_or in Hb. destruct Hb as [Hb|[<-|Hb]].
    + assert (existsb (fun b => same_sender x b && streqb (l_ip b) (l_ip m)) p = true); [|congruence].
      apply existsb_exists. exists b. split; [exact Hb|]. rewrite Hxb, Eb, streqb_refl. reflexivity.
    + unfold unknown in *. rewrite Eb in Ux. congruence.
    + apply (find_none _ _ F) in Hb. unfold cand in Hb. unfold unknown in *. rewrite Hxb, Eb, C2, C3 in Hb. discriminate.
Qed.
Lemma filed_fresh h : forall p m k ip, fresh (p ++ h) m ->
  filed_after p (h ++ [m]) k ip =
    if same_sender k m then
      if streqb ip (l_ip m) then filed_after p h k no_ip ++ [m]
      else if streqb ip no_ip then [] else filed_after p h k ip
    else filed_after p h k ip.
Proof.
  induction h as [|x h IH]; intros p m k ip [Hu Hf].
  - cbn [app filed_after]. rewrite home_eq, Hu, (streqb_sym (l_ip m) ip). destruct (same_sender k m); [|reflexivity].
    cbn [andb]. destruct (streqb ip (l_ip m)); [reflexivity|]. destruct (streqb ip no_ip); reflexivity.
  - cbn [app filed_after]. rewrite IH by (split; [exact Hu|rewrite <- app_assoc; exact Hf]).
    destruct (same_sender k m) eqn:Kkm.
    + destruct (same_sender k x) eqn:Kkx; cbn [andb app].
      2: { destruct (streqb ip (l_ip m)); [reflexivity|]. destruct (streqb ip no_ip); reflexivity. }
      assert (Kxm : same_sender x m = true) by (apply (same_trans x k m); [rewrite same_sym; exact Kkx|exact Kkm]).
      assert (Hni : forall b, In b (p ++ x :: h) -> same_sender x b = true -> l_ip b <> l_ip m).
      { intros b Hb Hs Eb. assert (existsb (fun b => same_sender m b && streqb (l_ip b) (l_ip m)) (p ++ x :: h) = true); [|congruence].
        apply existsb_exists. exists b. split; [exact Hb|]. rewrite (same_left m x b) by (rewrite same_sym; exact Kxm).
        rewrite Hs, Eb, streqb_refl. reflexivity. }
      assert (Hx : (home p x h = no_ip /\ home p x (h ++ [m]) = l_ip m) \/
                   (home p x h <> no_ip /\ home p x (h ++ [m]) = home p x h /\ home p x h <> l_ip m)).
      { rewrite !home_eq. destruct (unknown x) eqn:Ux.
        - rewrite find_snoc. destruct (find (cand p x) h) as [n|] eqn:F.
          + destruct (find_cand_known _ _ _ _ F) as [F1 [F2 F3]]. right. split; [|split; [reflexivity|]].
            * unfold unknown in F3; change nowhere with no_ip in F3. destruct (streqb_spec (l_ip n) no_ip); [discriminate|assumption].
            * apply Hni; [apply in_or_app; right; right; exact F1|exact F2].
          + left. split; [reflexivity|]. assert (C : cand p x m = true); [|rewrite C; reflexivity].
            unfold cand. rewrite Kxm, Hu. cbn [negb andb]. apply Bool.negb_true_iff.
            rewrite existsb_app in Hf. apply Bool.orb_false_iff in Hf. destruct Hf as [Hf _]. rewrite <- Hf.
            clear - Kxm. induction p as [|b p IHp]; [reflexivity|]. cbn [existsb]. rewrite IHp, (same_left x m b Kxm). reflexivity.
        - right. split; [|split; [reflexivity|]].
          + unfold unknown in Ux; change nowhere with no_ip in Ux. destruct (streqb_spec (l_ip x) no_ip); [discriminate|assumption].
          + apply Hni; [apply in_or_app; right; left; reflexivity|apply same_refl]. }
      unfold unknown in Hu; change nowhere with no_ip in Hu. destruct (streqb_spec (l_ip m) no_ip) as [|Hm]; [discriminate|].
      destruct Hx as [[H1 H2]|[H1 [H2 H3]]]; rewrite H2.
      * rewrite H1. rewrite (streqb_sym (l_ip m) ip). destruct (streqb_spec ip (l_ip m)) as [->|Hi].
        -- rewrite streqb_refl. reflexivity.
        -- rewrite (streqb_sym no_ip ip). destruct (streqb_spec ip no_ip); reflexivity.
      * destruct (streqb_spec ip (l_ip m)) as [->|Hi].
        -- destruct (streqb_spec (home p x h) (l_ip m)); [contradiction|]. destruct (streqb_spec (home p x h) no_ip); [contradiction|]. reflexivity.
        -- destruct (streqb_spec ip no_ip) as [->|]; [|reflexivity]. destruct (streqb_spec (home p x h) no_ip); [contradiction|reflexivity].
    + destruct (same_sender k x) eqn:Kkx; [|reflexivity]. f_equal. f_equal.
      assert (Kxm : same_sender x m = false) by (rewrite <- (same_left k x m Kkx); exact Kkm).
      assert (E : home p x (h ++ [m]) = home p x h); [|rewrite E; reflexivity].
      rewrite !home_eq. destruct (unknown x); [|reflexivity]. rewrite find_snoc. unfold cand at 2. rewrite Kxm.
      destruct (find (cand p x) h); reflexivity.
Qed.

(** ** The table *)
Lemma is_row_self r : is_row (w_user r) (w_email r) (w_signed r) (w_ip r) r = true.
Proof. unfold is_row. rewrite !streqb_refl. reflexivity. Qed.
Lemma is_row_spec u e s ip r : is_row u e s ip r = true <-> w_user r = u /\ w_email r = e /\ w_signed r = s /\ w_ip r = ip.
Proof.
  unfold is_row. rewrite !Bool.andb_true_iff.
  destruct (streqb_spec (w_user r) u), (streqb_spec (w_email r) e), (streqb_spec (w_signed r) s), (streqb_spec (w_ip r) ip); intuition congruence.
Qed.
Lemma first_row_Some u e s ip t r : first_row u e s ip t = Some r -> w_user r = u /\ w_email r = e /\ w_signed r = s /\ w_ip r = ip.
Proof. intros H. apply find_some in H. destruct H as [_ H]. apply is_row_spec in H. exact H. Qed.

Definition tally (l : list mail) (o : option row) : Prop :=
  match o with
  | None => l = []
  | Some r => l <> [] /\ w_count r = Z.of_nat (length l) /\ (w_tot r == total l)%Q
  end.
Lemma total_snoc l m : (total (l ++ [m]) == total l + l_score m)%Q.
Proof. induction l as [|x l IH]; cbn [app total fold_right]; [ring|]. unfold total in IH. rewrite IH. ring. Qed.
Lemma tally_counted l r (m : mail) : tally l (Some r) -> tally (l ++ [m]) (Some (counted (l_score m) r)).
Proof.
  intros (Hn & Hc & Ht). split; [destruct l; discriminate|]. unfold counted. cbn [w_count w_tot]. split.
  - rewrite Hc, app_length. cbn [length]. lia.
  - rewrite total_snoc, Ht. reflexivity.
Qed.

(** Updating the row of a key. *)
Lemma merge_found u e s ip t r0 r (u' e' s' ip' : str) :
  first_row u e s ip t = Some r0 -> w_user r = u -> w_email r = e -> w_signed r = s ->
  (w_ip r = ip \/ first_row u e s (w_ip r) t = None) ->
  first_row u' e' s' ip' (merge r (Some ip) t) =
    if is_row u' e' s' ip' r then Some r
    else if streqb u u' && streqb e e' && streqb s s' && streqb ip ip' then None else first_row u' e' s' ip' t.
Proof.
  intros F Eu Ee Es Hip. cbn [merge]. rewrite Eu, Ee, Es. unfold first_row in *.
  destruct (is_row u' e' s' ip' r) eqn:R.
  - apply is_row_spec in R. destruct R as (R1 & R2 & R3 & R4). subst u' e' s' ip'. rewrite Eu, Ee, Es in *.
    revert F Hip. induction t as [|x t IH]; cbn [find map]; [discriminate|].
    destruct (is_row u e s ip x) eqn:X.
    + intros _ _. rewrite <- Eu, <- Ee, <- Es, is_row_self. reflexivity.
    + intros F Hip. destruct (is_row u e s (w_ip r) x) eqn:Y.
      * exfalso. destruct Hip as [<-|Hip]; congruence.
      * apply (IH F). destruct Hip as [Hip|Hip]; [left; exact Hip|right; exact Hip].
  - destruct (streqb u u' && streqb e e' && streqb s s' && streqb ip ip') eqn:K.
    + rewrite !Bool.andb_true_iff in K. destruct K as [[[K1 K2] K3] K4].
      destruct (streqb_spec u u') as [<-|]; [|discriminate]. destruct (streqb_spec e e') as [<-|]; [|discriminate].
      destruct (streqb_spec s s') as [<-|]; [|discriminate]. destruct (streqb_spec ip ip') as [<-|]; [|discriminate].
      clear F. induction t as [|x t IH]; cbn [map find]; [reflexivity|].
      destruct (is_row u e s ip x) eqn:X; [rewrite R; apply IH|rewrite X; apply IH].
      * destruct Hip as [Hip|Hip]; [left; exact Hip|right]. cbn [find] in Hip. destruct (is_row u e s (w_ip r) x); [discriminate|exact Hip].
      * destruct Hip as [Hip|Hip]; [left; exact Hip|right]. cbn [find] in Hip. destruct (is_row u e s (w_ip r) x); [discriminate|exact Hip].
    + clear F Hip. induction t as [|x t IH]; cbn [map find]; [reflexivity|]. destruct (is_row u e s ip x) eqn:X.
      * rewrite R. destruct (is_row u' e' s' ip' x) eqn:Y; [|exact IH]. exfalso.
        apply is_row_spec in X, Y. destruct X as (X1 & X2 & X3 & X4), Y as (Y1 & Y2 & Y3 & Y4).
        rewrite <- X1, <- X2, <- X3, <- X4, Y1, Y2, Y3, Y4, !streqb_refl in K. discriminate.
      * destruct (is_row u' e' s' ip' x); [reflexivity|exact IH].
Qed.
Lemma merge_new r t (u' e' s' ip' : str) :
  first_row (w_user r) (w_email r) (w_signed r) (w_ip r) t = None ->
  first_row u' e' s' ip' (merge r None t) = if is_row u' e' s' ip' r then Some r else first_row u' e' s' ip' t.
Proof.
  intros F. cbn [merge]. unfold first_row in *. rewrite find_snoc. destruct (is_row u' e' s' ip' r) eqn:R.
  - apply is_row_spec in R. destruct R as (<- & <- & <- & <-). rewrite F. reflexivity.
  - destruct (find (is_row u' e' s' ip') t); reflexivity.
Qed.

Definition is_key (k : mail) (ip : str) (r : row) : bool := is_row (l_user k) (l_email k) (l_signed k) ip r.
Lemma is_key_counted (k m : mail) ip u e s ip' c tt sc : u = l_user m -> e = l_email m -> s = l_signed m ->
  is_row (l_user k) (l_email k) (l_signed k) ip (counted sc (mkRow u e ip' c tt s)) = same_sender k m && streqb ip' ip.
Proof.
  intros -> -> ->. unfold is_row, counted, same_sender. cbn [w_user w_email w_signed w_ip].
  rewrite (streqb_sym (l_user m)), (streqb_sym (l_email m)), (streqb_sym (l_signed m)). reflexivity.
Qed.
Lemma filed_after_same k k' h : same_sender k k' = true -> forall p ip, filed_after p h k ip = filed_after p h k' ip.
Proof.
  intros S. induction h as [|x h IH]; intros p ip; cbn [filed_after]; [reflexivity|]. rewrite IH, (same_left k k' x S). reflexivity.
Qed.
Lemma filed_same k k' h ip : same_sender k k' = true -> filed h k ip = filed h k' ip.
Proof. intros S. apply filed_after_same. exact S. Qed.
Lemma filed_none h m : unknown m = false -> existsb (fun b => same_sender m b && streqb (l_ip b) (l_ip m)) h = false ->
  filed h m (l_ip m) = [].
Proof.
  unfold filed. intros Hu. assert (G : forall p, existsb (fun b => same_sender m b && streqb (l_ip b) (l_ip m)) h = false -> filed_after p h m (l_ip m) = []); [|apply G].
  induction h as [|x h IH]; intros p Hf; [reflexivity|]. cbn [existsb] in Hf. apply Bool.orb_false_iff in Hf. destruct Hf as [H1 H2].
  cbn [filed_after]. rewrite (IH (p ++ [x]) H2), app_nil_r.
  destruct (same_sender m x) eqn:S; [|reflexivity]. cbn [andb] in *.
  destruct (streqb_spec (home p x h) (l_ip m)) as [E|]; [exfalso|reflexivity]. rewrite home_eq in E.
  unfold unknown in Hu; change nowhere with no_ip in Hu. destruct (streqb_spec (l_ip m) no_ip) as [|Hm]; [discriminate|].
  destruct (unknown x).
  - destruct (find (cand p x) h) as [n|] eqn:F; [|congruence]. destruct (find_cand_known _ _ _ _ F) as [F1 [F2 _]].
    assert (existsb (fun b => same_sender m b && streqb (l_ip b) (l_ip m)) h = true); [|congruence].
    apply existsb_exists. exists n. split; [exact F1|]. rewrite (same_trans m x n S F2), E, streqb_refl. reflexivity.
  - rewrite E, streqb_refl in H1. discriminate.
Qed.
Lemma filed_some h m : existsb (fun b => same_sender m b && streqb (l_ip b) (l_ip m)) h = true -> unknown m = false -> filed h m (l_ip m) <> [].
Proof.
  unfold filed. intros H Hu. assert (G : forall p, existsb (fun b => same_sender m b && streqb (l_ip b) (l_ip m)) h = true -> filed_after p h m (l_ip m) <> []); [|apply G; exact H].
  clear H. induction h as [|x h IH]; intros p Hf; [discriminate|]. cbn [existsb] in Hf. cbn [filed_after].
  apply Bool.orb_true_iff in Hf. destruct Hf as [Hf|Hf].
  - rewrite Bool.andb_true_iff in Hf. destruct Hf as [H1 H2]. destruct (streqb_spec (l_ip x) (l_ip m)) as [E|]; [|discriminate].
    rewrite H1, home_eq. unfold unknown in *. rewrite E, Hu, streqb_refl. discriminate.
  - specialize (IH (p ++ [x]) Hf). destruct (_ && _); [discriminate|exact IH].
Qed.

Lemma table_exact factor h : forall k ip, tally (filed h k ip) (record_of k ip (mails factor h)).
Proof.
  induction h as [|m h IH] using rev_ind; intros k ip; [reflexivity|].
  unfold mails. rewrite fold_left_app. cbn [fold_left]. fold (mails factor h). set (t := mails factor h) in *.
  unfold mail_step, check, get_entry.
  assert (MM : forall ip0, tally (filed h m ip0) (first_row (l_user m) (l_email m) (l_signed m) ip0 t)) by (intros; apply (IH m)).
  destruct (first_row (l_user m) (l_email m) (l_signed m) (l_ip m) t) as [r|] eqn:F1.
  - (* known key *)
    pose proof (MM (l_ip m)) as T. rewrite F1 in T. destruct (first_row_Some _ _ _ _ _ _ F1) as (R1 & R2 & R3 & R4).
    cbn [fst]. unfold record_of. erewrite merge_found; [|exact F1|exact R1|exact R2|exact R3|left; exact R4].
    assert (Hold : unknown m = true \/ existsb (fun b => same_sender m b && streqb (l_ip b) (l_ip m)) ([] ++ h) = true).
    { destruct (unknown m) eqn:U; [left; reflexivity|right]. cbn [app].
      destruct (existsb _ h) eqn:Ex; [reflexivity|]. exfalso. destruct T as [T _]. apply T. apply filed_none; assumption. }
    unfold filed. rewrite (filed_old h [] m k ip Hold).
    assert (EK : is_row (l_user k) (l_email k) (l_signed k) ip (counted (l_score m) r) = same_sender k m && streqb (l_ip m) ip).
    { unfold counted. rewrite R1, R2, R3, R4. apply (is_key_counted k m ip (l_user m) (l_email m) (l_signed m) (l_ip m)); reflexivity. }
    rewrite EK. destruct (same_sender k m && streqb (l_ip m) ip) eqn:K.
    + apply Bool.andb_true_iff in K. destruct K as [K1 K2]. destruct (streqb_spec (l_ip m) ip) as [<-|]; [|discriminate].
      fold (filed h k (l_ip m)). rewrite (filed_same k m h (l_ip m) K1). apply tally_counted. exact T.
    + rewrite app_nil_r.
      assert (EF : streqb (l_user m) (l_user k) && streqb (l_email m) (l_email k) && streqb (l_signed m) (l_signed k) && streqb (l_ip m) ip = false).
      { rewrite <- K, (same_sym k m). reflexivity. }
      rewrite EF. apply (IH k ip).
  - destruct (first_row (l_user m) (l_email m) (l_signed m) no_ip t) as [r|] eqn:F2.
    + (* adoption *)
      assert (Hu : unknown m = false). { unfold unknown; change nowhere with no_ip. destruct (streqb_spec (l_ip m) no_ip) as [E|]; [rewrite E in F1; congruence|reflexivity]. }
      assert (Hf : existsb (fun b => same_sender m b && streqb (l_ip b) (l_ip m)) h = false).
      { destruct (existsb _ h) eqn:Ex; [|reflexivity]. exfalso. apply (filed_some h m Ex Hu). pose proof (MM (l_ip m)) as T. rewrite F1 in T. exact T. }
      pose proof (MM no_ip) as T. rewrite F2 in T. destruct (first_row_Some _ _ _ _ _ _ F2) as (R1 & R2 & R3 & R4).
      cbn [fst]. unfold record_of.
      erewrite merge_found; [|exact F2|exact R1|exact R2|exact R3|right; exact F1].
      unfold filed. rewrite (filed_fresh h [] m k ip (conj Hu Hf)).
      rewrite (is_key_counted k m ip _ _ _ _ _ _ _ R1 R2 R3).
      unfold unknown in Hu; change nowhere with no_ip in Hu. destruct (streqb_spec (l_ip m) no_ip) as [|Hm]; [discriminate|].
      destruct (same_sender k m) eqn:K; cbn [andb].
      * rewrite (streqb_sym ip (l_ip m)). destruct (streqb_spec (l_ip m) ip) as [<-|Hi].
        -- fold (filed h k no_ip). rewrite (filed_same k m h no_ip K).
           apply (tally_counted _ (mkRow (w_user r) (w_email r) (l_ip m) (w_count r) (w_tot r) (w_signed r))). exact T.
        -- rewrite same_sym in K. unfold same_sender in K. rewrite K. cbn [andb]. rewrite (streqb_sym no_ip ip).
           destruct (streqb ip no_ip); [reflexivity|apply (IH k ip)].
      * rewrite same_sym in K. unfold same_sender in K. rewrite K. cbn [andb]. apply (IH k ip).
    + (* new *)
      cbn [fst]. unfold record_of. rewrite merge_new by exact F1.
      rewrite (is_key_counted k m ip (l_user m) (l_email m) (l_signed m) (l_ip m)) by reflexivity.
      assert (T0 : forall l, l = [] -> tally (l ++ [m]) (Some (counted (l_score m) (mkRow (l_user m) (l_email m) (l_ip m) 0 0%Q (l_signed m))))).
      { intros l ->. cbn. split; [discriminate|]. split; [reflexivity|]. ring. }
      destruct (unknown m) eqn:Hu.
      * unfold filed. rewrite (filed_old h [] m k ip (or_introl Hu)).
        destruct (same_sender k m && streqb (l_ip m) ip) eqn:K.
        -- apply Bool.andb_true_iff in K. destruct K as [K1 K2]. destruct (streqb_spec (l_ip m) ip) as [<-|]; [|discriminate].
           apply T0. fold (filed h k (l_ip m)). rewrite (filed_same k m h (l_ip m) K1). pose proof (MM (l_ip m)) as T. rewrite F1 in T. exact T.
        -- rewrite app_nil_r. apply (IH k ip).
      * assert (Hf : existsb (fun b => same_sender m b && streqb (l_ip b) (l_ip m)) h = false).
        { destruct (existsb _ h) eqn:Ex; [|reflexivity]. exfalso. apply (filed_some h m Ex Hu). pose proof (MM (l_ip m)) as T. rewrite F1 in T. exact T. }
        unfold filed. rewrite (filed_fresh h [] m k ip (conj Hu Hf)).
        pose proof (MM no_ip) as T. rewrite F2 in T.
        destruct (same_sender k m) eqn:K; cbn [andb].
        -- rewrite (streqb_sym ip (l_ip m)). destruct (streqb_spec (l_ip m) ip) as [<-|Hi].
           ++ apply T0. fold (filed h k no_ip). rewrite (filed_same k m h no_ip K). exact T.
           ++ destruct (streqb_spec ip no_ip) as [->|]; [|apply (IH k ip)].
              assert (E : first_row (l_user k) (l_email k) (l_signed k) no_ip t = None).
              { apply same_spec in K. destruct K as (-> & -> & ->). exact F2. }
              rewrite E. reflexivity.
        -- apply (IH k ip).
Qed.

Lemma other_sender factor t m k ip : same_sender k m = false -> record_of k ip (mail_step factor t m) = record_of k ip t.
Proof.
  intros S. unfold mail_step, check.
  assert (W : forall e was, w_user e = l_user m -> w_email e = l_email m -> w_signed e = l_signed m -> 
    record_of k ip (merge (counted (l_score m) e) was t) = record_of k ip t).
  { intros e was E1 E2 E3. unfold record_of, first_row.
    assert (NK : forall r, w_user r = l_user m -> w_email r = l_email m -> w_signed r = l_signed m -> is_row (l_user k) (l_email k) (l_signed k) ip r = false).
    { intros r R1 R2 R3. unfold is_row. rewrite R1, R2, R3. unfold same_sender in S.
      rewrite (streqb_sym (l_user m)), (streqb_sym (l_email m)), (streqb_sym (l_signed m)), S. reflexivity. }
    destruct was as [ip0|]; cbn [merge].
    - unfold counted at 1 2 3. cbn [w_user w_email w_signed]. rewrite E1, E2, E3. induction t as [|r t' IH]; [reflexivity|]. cbn [map find].
      destruct (is_row (l_user m) (l_email m) (l_signed m) ip0 r) eqn:R.
      + apply is_row_spec in R. destruct R as (R1 & R2 & R3 & _). rewrite (NK r R1 R2 R3), (NK (counted (l_score m) e) E1 E2 E3). exact IH.
      + destruct (is_row (l_user k) (l_email k) (l_signed k) ip r); [reflexivity|exact IH].
    - rewrite find_snoc, (NK (counted (l_score m) e) E1 E2 E3). destruct (find _ t); reflexivity. }
  unfold get_entry. destruct (first_row (l_user m) (l_email m) (l_signed m) (l_ip m) t) as [r|] eqn:F1; cbn [fst].
  - apply first_row_Some in F1. apply W; tauto.
  - destruct (first_row (l_user m) (l_email m) (l_signed m) no_ip t) as [r|] eqn:F2; cbn [fst].
    + apply first_row_Some in F2. apply W; tauto.
    + apply W; reflexivity.
Qed.

(** ** The score *)
Lemma check_score factor h m :
  let s := snd (check (l_user m) (l_email m) (l_signed m) (l_ip m) factor (mails factor h) (l_score m)) in
  exists earlier, filed (h ++ [m]) m (l_ip m) = earlier ++ [m] /\
    (earlier = [] \/ (mean earlier == 0)%Q -> s = l_score m) /\
    (earlier <> [] -> ~ (mean earlier == 0)%Q -> (s == l_score m + (mean earlier - l_score m) * factor)%Q).
Proof.
  cbv zeta. pose proof (table_exact factor h m) as T. unfold record_of in T. set (t := mails factor h) in *.
  assert (G : forall l r, tally l (Some r) ->
    (l = [] \/ (mean l == 0)%Q -> new_score (l_score m) factor (w_tot r) (w_count r) = l_score m) /\
    (l <> [] -> ~ (mean l == 0)%Q -> (new_score (l_score m) factor (w_tot r) (w_count r) == l_score m + (mean l - l_score m) * factor)%Q)).
  { intros l r (Hn & Hc & Ht). unfold new_score, delta.
    assert (Hz : Z.eqb (w_count r) 0 = false) by (apply Z.eqb_neq; rewrite Hc; destruct l; [contradiction|cbn [length]; lia]).
    assert (Em : (w_tot r / inject_Z (w_count r) == mean l)%Q) by (unfold mean; rewrite Hc, Ht; reflexivity).
    rewrite Hz. destruct (Qeq_bool (w_tot r / inject_Z (w_count r)) 0) eqn:Q0.
    - apply Qeq_bool_iff in Q0. split; [reflexivity|]. intros _ C. exfalso. apply C. rewrite <- Em. exact Q0.
    - apply Qeq_bool_neq in Q0. split; [|intros _ _; rewrite Em; reflexivity].
      intros [C|C]; [contradiction|]. exfalso. apply Q0. rewrite Em. exact C. }
  unfold check, get_entry.
  destruct (first_row (l_user m) (l_email m) (l_signed m) (l_ip m) t) as [r|] eqn:F1.
  - pose proof (T (l_ip m)) as Tm. rewrite F1 in Tm. exists (filed h m (l_ip m)). split.
    + unfold filed. rewrite filed_old; [rewrite same_refl, streqb_refl; reflexivity|].
      destruct (unknown m) eqn:U; [left; reflexivity|right]. cbn [app].
      destruct (existsb _ h) eqn:Ex; [reflexivity|]. exfalso. destruct Tm as [Tm _]. apply Tm. apply filed_none; assumption.
    + cbn [snd]. apply (G _ r Tm).
  - assert (NF : unknown m = false -> existsb (fun b => same_sender m b && streqb (l_ip b) (l_ip m)) h = false).
    { intros Hu. destruct (existsb _ h) eqn:Ex; [|reflexivity]. exfalso. apply (filed_some h m Ex Hu). pose proof (T (l_ip m)) as Tm. rewrite F1 in Tm. exact Tm. }
    destruct (first_row (l_user m) (l_email m) (l_signed m) no_ip t) as [r|] eqn:F2.
    + assert (Hu : unknown m = false). { unfold unknown; change nowhere with no_ip. destruct (streqb_spec (l_ip m) no_ip) as [E|]; [rewrite E in F1; congruence|reflexivity]. }
      pose proof (T no_ip) as Tm. rewrite F2 in Tm. exists (filed h m no_ip). split.
      * unfold filed. rewrite filed_fresh by (split; [exact Hu|apply NF; exact Hu]). rewrite same_refl, streqb_refl. reflexivity.
      * cbn [snd w_tot w_count]. apply (G _ r Tm).
    + exists []. split.
      * pose proof (T no_ip) as Tn. rewrite F2 in Tn. pose proof (T (l_ip m)) as Tm. rewrite F1 in Tm. cbn [tally] in Tn, Tm. unfold filed in *.
        destruct (unknown m) eqn:Hu.
        -- rewrite filed_old by (left; exact Hu). rewrite Tm, same_refl, streqb_refl. reflexivity.
        -- rewrite filed_fresh by (split; [exact Hu|apply NF; reflexivity]). rewrite same_refl, streqb_refl, Tn. reflexivity.
      * cbn [snd w_tot w_count]. split; [reflexivity|]. intros C. contradiction.
Qed.

Lemma between (score mean factor : Q) : (0 <= factor)%Q -> (factor <= 1)%Q ->
  (score <= mean -> score <= score + (mean - score) * factor /\ score + (mean - score) * factor <= mean)%Q /\
  (mean <= score -> mean <= score + (mean - score) * factor /\ score + (mean - score) * factor <= score)%Q.
Proof. intros H0 H1. split; intros H; split; nra. Qed.

(** ** Keys *)
From Verif Require Import Spec_Net Proofs_Net.
Lemma endswith_zero x d : octet d -> endswith ($".0") (x ++ 46%N :: dec d) = N.eqb d 0.
Proof.
  intros O. destruct (dec_octet d O) as (P & D & L & NE). unfold endswith. rewrite rev_app_distr. cbn [rev]. rewrite <- app_assoc. cbn [app].
  change (rev ($".0")) with [48%N; 46%N].
  destruct (N.eqb_spec d 0) as [->|Hd]; [reflexivity|].
  destruct (rev (dec d)) as [|c1 l] eqn:E; [apply (f_equal (@rev _)) in E; rewrite rev_involutive in E; contradiction|].
  cbn [app]. change (startswith [48%N; 46%N] (c1 :: l ++ 46%N :: rev x)) with ((48 =? c1)%N && startswith [46%N] (l ++ 46%N :: rev x)).
  destruct (N.eqb_spec 48 c1) as [<-|]; [|reflexivity]. cbn [andb]. destruct l as [|c2 l].
  - exfalso. apply (f_equal (@rev _)) in E. rewrite rev_involutive in E. cbn [rev app] in E. rewrite E in P. vm_compute in P. injection P as P. congruence.
  - cbn [app]. change (startswith [46%N] (c2 :: l ++ 46%N :: rev x)) with ((46 =? c2)%N && startswith [] (l ++ 46%N :: rev x)).
    destruct (N.eqb_spec 46 c2) as [<-|]; [|reflexivity]. exfalso.
    assert (In 46%N (dec d)). { apply in_rev. rewrite E. right. left. reflexivity. }
    rewrite forallb_forall in D. specialize (D 46%N H). discriminate.
Qed.
Lemma cut_zero (x : str) : firstn (length (x ++ 46%N :: dec 0) - 2) (x ++ 46%N :: dec 0) = x.
Proof.
  rewrite app_length. change (length (46%N :: dec 0)) with 2. rewrite Nat.add_sub. rewrite firstn_app, Nat.sub_diag, firstn_all. cbn [firstn]. apply app_nil_r.
Qed.
Fixpoint trim (l : list N) : list N :=    (* the last octets first *)
  match l with
  | [] => []
  | d :: r => match r with [] => l | _ => if N.eqb d 0 then trim r else l end
  end.
Lemma join_snoc s (l : list str) y : l <> [] -> join s (l ++ [y]) = join s l ++ s ++ y.
Proof.
  induction l as [|x l IH]; intros H; [contradiction|]. destruct l as [|z l]; [reflexivity|].
  change (join s ((x :: z :: l) ++ [y])) with (x ++ s ++ join s ((z :: l) ++ [y])). rewrite IH by discriminate.
  change (join s (x :: z :: l)) with (x ++ s ++ join s (z :: l)). rewrite <- !app_assoc. reflexivity.
Qed.
Definition dotted (l : list N) : str := join ($".") (map dec (rev l)).
Lemma dotted_cons d l : l <> [] -> dotted (d :: l) = dotted l ++ 46%N :: dec d.
Proof.
  intros H. unfold dotted. cbn [rev]. rewrite map_app. cbn [map]. rewrite join_snoc; [reflexivity|].
  destruct l as [|z l]; [contradiction|]. cbn [rev]. destruct (rev l); discriminate.
Qed.
Lemma strip_zeros_dotted n : forall l, Forall octet l -> l <> [] -> length l <= S n -> strip_zeros n (dotted l) = dotted (trim l).
Proof.
  induction n as [|n IH]; intros l F NE L.
  - destruct l as [|d [|e l]]; [contradiction| |cbn [length] in L; lia]. reflexivity.
  - destruct l as [|d [|e l]]; [contradiction| |].
    + apply Forall_cons_iff in F. destruct F as [O _]. replace (trim [d]) with [d] by reflexivity.
      cbn [strip_zeros]. unfold dotted. cbn [rev app map join].
      destruct (endswith ($".0") (dec d)) eqn:E; [exfalso|reflexivity].
      destruct (dec_octet d O) as (P & D & _). unfold endswith in E. change (rev ($".0")) with [48%N; 46%N] in E.
      apply startswith_app in E. destruct E as [t E]. assert (In 46%N (dec d)) by (apply in_rev; rewrite E; right; left; reflexivity).
      rewrite forallb_forall in D. specialize (D 46%N H). discriminate.
    + apply Forall_cons_iff in F. destruct F as [O F]. cbn [strip_zeros]. rewrite dotted_cons by discriminate. rewrite endswith_zero by exact O.
      destruct d as [|d]; cbn [N.eqb].
      * rewrite cut_zero. change (trim (0%N :: e :: l)) with (trim (e :: l)). apply IH; [exact F|discriminate|cbn [length] in *; lia].
      * rewrite <- dotted_cons by discriminate. reflexivity.
Qed.

Lemma trim_inj l : forall l', length l = length l' -> trim l = trim l' -> l = l'.
Proof.
  assert (LE : forall l, length (trim l) <= length l).
  { induction l0 as [|d r IH]; [apply le_n|]. destruct r as [|e r]; [apply le_n|].
    change (trim (d :: e :: r)) with (if N.eqb d 0 then trim (e :: r) else d :: e :: r). destruct (N.eqb d 0); cbn [length] in *; lia. }
  induction l as [|d r IH]; intros l' L E; destruct l' as [|d' r']; try discriminate; [reflexivity|].
  injection L as L. destruct r as [|e r], r' as [|e' r']; try discriminate L; [exact E|].
  change (trim (d :: e :: r)) with (if N.eqb d 0 then trim (e :: r) else d :: e :: r) in E.
  change (trim (d' :: e' :: r')) with (if N.eqb d' 0 then trim (e' :: r') else d' :: e' :: r') in E.
  pose proof (LE (e :: r)) as L1. pose proof (LE (e' :: r')) as L2.
  destruct (N.eqb_spec d 0) as [->|], (N.eqb_spec d' 0) as [->|].
  - f_equal. apply IH; assumption.
  - exfalso. rewrite E in L1. cbn [length] in *. lia.
  - exfalso. rewrite <- E in L2. cbn [length] in *. lia.
  - exact E.
Qed.
Lemma trim_sub l : (forall x, In x (trim l) -> In x l) /\ (l <> [] -> trim l <> []).
Proof.
  induction l as [|d r [I1 I2]]; [split; [auto|auto]|]. cbn [trim]. destruct r as [|e r]; [split; [auto|discriminate]|].
  destruct (N.eqb d 0); [|split; [auto|discriminate]]. split; [intros x Hx; right; apply I1; exact Hx|]. intros _. apply I2. discriminate.
Qed.
Lemma dotted_inj l l' : Forall octet l -> Forall octet l' -> l <> [] -> l' <> [] -> dotted l = dotted l' -> l = l'.
Proof.
  intros F F' NE NE' E. unfold dotted in E.
  assert (S : forall l, Forall octet l -> l <> [] -> split_char 46 (join ($".") (map dec (rev l))) = map dec (rev l)).
  { intros l0 F0 N0. change ($".") with [46%N]. apply split_char_join.
    - destruct l0 as [|x l0]; [contradiction|]. cbn [rev]. destruct (rev l0); discriminate.
    - apply Forall_map. apply Forall_rev. eapply Forall_impl; [|exact F0]. intros x Ox. exact (proj1 (dec_facts x Ox)). }
  pose proof (f_equal (split_char 46) E) as E2. rewrite !S in E2 by assumption.
  apply (f_equal (map parse_octet)) in E2. rewrite !map_map in E2.
  assert (M : forall l, Forall octet l -> map (fun x => parse_octet (dec x)) l = map Some l).
  { intros l0 F0. apply map_ext_in. rewrite Forall_forall in F0. intros x Hx. apply dec_octet. apply F0. exact Hx. }
  rewrite !M in E2 by (apply Forall_rev; assumption).
  assert (I : forall a b : list N, map Some a = map Some b -> a = b).
  { induction a as [|x a IH]; intros [|y b] H; try discriminate; [reflexivity|]. cbn [map] in H. injection H as H1 H2. f_equal; auto. }
  apply I in E2. rewrite <- (rev_involutive l), <- (rev_involutive l'), E2. reflexivity.
Qed.
Definition octets (v : N) : list N := [v mod 256; v / 256 mod 256; v / 65536 mod 256; v / 16777216]%N.
Lemma octets_ok v : (v < 2 ^ 32)%N -> Forall octet (octets v).
Proof.
  intros H. change (2 ^ 32)%N with 4294967296%N in H. unfold octets, octet.
  repeat constructor; try (apply N.mod_upper_bound; discriminate). apply N.div_lt_upper_bound; [discriminate|]. lia.
Qed.
Lemma octets_inj v w : octets v = octets w -> v = w.
Proof.
  assert (R : forall v, v = (v / 16777216 * 16777216 + (v / 65536 mod 256) * 65536 + (v / 256 mod 256) * 256 + v mod 256)%N).
  { intros x. pose proof (N.div_mod x 256 ltac:(discriminate)) as H1.
    pose proof (N.div_mod (x / 256) 256 ltac:(discriminate)) as H2. rewrite N.div_div in H2 by discriminate. change (256 * 256)%N with 65536%N in H2.
    pose proof (N.div_mod (x / 65536) 256 ltac:(discriminate)) as H3. rewrite N.div_div in H3 by discriminate. change (65536 * 256)%N with 16777216%N in H3.
    lia. }
  unfold octets. intros E.
  assert (E0 := f_equal (fun l => nth 0 l 0%N) E). assert (E1 := f_equal (fun l => nth 1 l 0%N) E).
  assert (E2 := f_equal (fun l => nth 2 l 0%N) E). assert (E3 := f_equal (fun l => nth 3 l 0%N) E).
  cbn [nth] in *. rewrite (R v), (R w), E0, E1, E2, E3. reflexivity.
Qed.
Lemma show4_dotted v : show4 v = dotted (octets v).
Proof. reflexivity. Qed.
Lemma key4_inj v w : (v < 2 ^ 32)%N -> (w < 2 ^ 32)%N -> strip_zeros 3 (show4 v) = strip_zeros 3 (show4 w) -> v = w.
Proof.
  intros Hv Hw. rewrite !show4_dotted, !strip_zeros_dotted; try apply octets_ok; try assumption; try discriminate; try (cbn [octets length]; lia).
  intros E. apply octets_inj, trim_inj; [reflexivity|].
  apply dotted_inj; [| | | |exact E]; try (apply trim_sub; discriminate);
    apply Forall_forall; intros x Hx; apply trim_sub in Hx; revert x Hx; apply Forall_forall, octets_ok; assumption.
Qed.
Lemma strip_zeros_no_dot n s : ~ In 46%N s -> strip_zeros n s = s.
Proof.
  intros H. destruct n; [reflexivity|]. cbn [strip_zeros]. destruct (endswith ($".0") s) eqn:E; [exfalso|reflexivity].
  unfold endswith in E. change (rev ($".0")) with [48%N; 46%N] in E. apply startswith_app in E. destruct E as [t E]. apply H.
  apply in_rev. rewrite E. right. left. reflexivity.
Qed.
Lemma no_colon4 v : (v < 2 ^ 32)%N -> ~ In 58%N (strip_zeros 3 (show4 v)).
Proof.
  intros Hv. rewrite show4_dotted, strip_zeros_dotted; [|apply octets_ok; exact Hv|discriminate|cbn [octets length]; lia].
  assert (F : Forall octet (trim (octets v))).
  { apply Forall_forall. intros x Hx. apply trim_sub in Hx. revert x Hx. apply Forall_forall, octets_ok. exact Hv. }
  unfold dotted. apply Forall_rev in F. induction F as [|x l Ox F IH]; [intros []|].
  cbn [map]. assert (Hx : ~ In 58%N (dec x)).
  { intros Hi. destruct (dec_octet x Ox) as (_ & D & _). rewrite forallb_forall in D. specialize (D _ Hi). discriminate. }
  destruct l as [|y l]; [exact Hx|]. cbn [map join]. rewrite !in_app_iff. intros [Hi|[Hi|Hi]]; [contradiction| |apply IH; exact Hi].
  destruct Hi as [Hi|[]]. discriminate.
Qed.
Lemma network_eq a b k : (a / 2 ^ k * 2 ^ k = b / 2 ^ k * 2 ^ k)%N <-> (a / 2 ^ k = b / 2 ^ k)%N.
Proof. split; [|intros ->; reflexivity]. intros H. apply N.mul_cancel_r in H; [exact H|]. apply N.pow_nonzero. discriminate. Qed.
Lemma network_small v k n : (v < n)%N -> (v / 2 ^ k * 2 ^ k < n)%N.
Proof. intros H. rewrite N.mul_comm. eapply N.le_lt_trans; [|exact H]. apply N.mul_div_le. apply N.pow_nonzero. discriminate. Qed.

Lemma keys_exact mask4 mask6 show6 a b : valid a -> valid b ->
  (forall v w, (v < 2 ^ 128)%N -> (w < 2 ^ 128)%N -> show6 v = show6 w -> v = w) ->
  (forall v, In 58%N (show6 v) /\ ~ In 46%N (show6 v)) ->
  ip_to_awl_key mask4 mask6 show6 a = ip_to_awl_key mask4 mask6 show6 b <-> same_network mask4 mask6 a b.
Proof.
  intros Va Vb I6 C6. unfold ip_to_awl_key, same_network, valid in *. destruct a as [va na], b as [vb nb]. cbn [a_ver a_val] in *.
  destruct va, vb; cbn [bits] in *.
  - split.
    + intros E. apply key4_inj in E; try (apply network_small; assumption). split; [reflexivity|]. apply network_eq. exact E.
    + intros [_ E]. apply network_eq in E. rewrite E. reflexivity.
  - split; [|intros [C _]; discriminate]. intros E. exfalso. apply (no_colon4 (na / 2 ^ (32 - mask4) * 2 ^ (32 - mask4))); [apply network_small; exact Va|].
    rewrite E, strip_zeros_no_dot by apply C6. apply C6.
  - split; [|intros [C _]; discriminate]. intros E. exfalso. apply (no_colon4 (nb / 2 ^ (32 - mask4) * 2 ^ (32 - mask4))); [apply network_small; exact Vb|].
    rewrite <- E, strip_zeros_no_dot by apply C6. apply C6.
  - rewrite !strip_zeros_no_dot by apply C6. split.
    + intros E. apply I6 in E; try (apply network_small; assumption). split; [reflexivity|]. apply network_eq. exact E.
    + intros [_ E]. apply network_eq in E. rewrite E. reflexivity.
Qed.

(** ** The domain of the signature *)
Lemma drop_blanks (p : char -> bool) (b s : str) : (forall c, In c b -> p c = true) -> drop_while p (b ++ s) = drop_while p s.
Proof. induction b as [|c b IH]; intros H; [reflexivity|]. cbn [app drop_while]. rewrite (H c (or_introl eq_refl)). apply IH. intros x K. apply H. right. exact K. Qed.
Lemma strip_p_between (p : char -> bool) (a s b : str) : (forall c, In c a -> p c = true) -> (forall c, In c b -> p c = true) -> s <> [] -> (forall c, In c s -> p c = false) ->
  strip_p p (a ++ s ++ b) = s.
Proof.
  intros A B N S. unfold strip_p, rstrip_p, lstrip_p. rewrite (drop_blanks p a) by exact A.
  assert (D1 : forall x t u, x :: t = s -> drop_while p ((x :: t) ++ u) = (x :: t) ++ u) by (intros x t u <-; cbn [app drop_while]; rewrite (S x (or_introl eq_refl)); reflexivity).
  destruct s as [|x t]; [congruence|]. rewrite (D1 x t b eq_refl), rev_app_distr, (drop_blanks p (rev b)) by (intros c K; apply B, in_rev, K).
  destruct (rev (x :: t)) as [|y r] eqn:E; [apply (f_equal (@rev _)) in E; rewrite rev_involutive in E; discriminate|].
  cbn [drop_while]. rewrite (S y) by (apply in_rev; rewrite E; left; reflexivity). rewrite <- E. apply rev_involutive.
Qed.
Lemma split_join l : Forall (fun p => ~ In 59%N p) l -> l <> [] -> split_char 59 (join ($";") l) = l.
Proof.
  assert (T : forall p s, ~ In 59%N p -> split_char 59 (p ++ 59%N :: s) = p :: split_char 59 s).
  { induction p as [|c p IH]; intros s N; [reflexivity|]. cbn [app split_char]. destruct (N.eqb_spec c 59) as [->|_]; [exfalso; apply N; left; reflexivity|].
    rewrite IH by (intros K; apply N; right; exact K). reflexivity. }
  assert (U : forall p, ~ In 59%N p -> split_char 59 p = [p]).
  { induction p as [|c p IH]; intros N; [reflexivity|]. cbn [split_char]. destruct (N.eqb_spec c 59) as [->|_]; [exfalso; apply N; left; reflexivity|].
    rewrite IH by (intros K; apply N; right; exact K). reflexivity. }
  induction 1 as [|p l H1 H2 IH]; intros N; [congruence|]. destruct l as [|q l]; [apply U, H1|].
  change (join ($";") (p :: q :: l)) with (p ++ 59%N :: join ($";") (q :: l)). rewrite T by exact H1. rewrite IH by discriminate. reflexivity.
Qed.
Lemma blank_space c : blank c -> is_space c = true /\ c <> 61%N /\ c <> 59%N.
Proof. intros [<-|[<-|[<-|[]]]]; repeat split; try discriminate; reflexivity. Qed.
Lemma split1_first a v : ~ In 61%N a -> split1 61 (a ++ 61%N :: v) = Some (a, v).
Proof. induction a as [|c a IH]; intros N; [reflexivity|]. cbn [app split1]. destruct (N.eqb_spec c 61) as [->|_]; [exfalso; apply N; left; reflexivity|]. rewrite IH by (intros K; apply N; right; exact K). reflexivity. Qed.
Lemma own_parameter bl d rest : Forall blank bl -> domain_name d -> Forall blank rest ->
  startswith ($"d=") (strip (bl ++ $"d=" ++ d ++ rest)) = true /\ ~ In 59%N (bl ++ $"d=" ++ d ++ rest).
Proof.
  intros B [N D] R. rewrite Forall_forall in B, R. split.
  - replace (bl ++ $"d=" ++ d ++ rest) with (bl ++ ($"d=" ++ d) ++ rest) by (rewrite <- app_assoc; reflexivity). unfold strip. rewrite strip_p_between; [reflexivity|..].
    + intros c K. apply blank_space, B, K.
    + intros c K. apply blank_space, R, K.
    + discriminate.
    + intros c K. apply in_app_or in K as [[<-|[<-|[]]]|K]; [reflexivity|reflexivity|apply D, K].
  - rewrite !in_app_iff. intros [K|[K|[K|K]]]; [apply B, blank_space in K; tauto|vm_compute in K; destruct K as [K|[K|[]]]; discriminate|apply D in K; tauto|apply R, blank_space in K; tauto].
Qed.
Lemma signed_found before bl d rest after : Forall another_parameter before -> Forall blank bl -> domain_name d -> Forall blank rest ->
  Forall (fun p => ~ In 59%N p) after -> signed_by (signature before bl d rest after) = d.
Proof.
  intros P B D R A. destruct (own_parameter bl d rest B D R) as [O1 O2]. unfold signed_by, signature. rewrite split_join.
  - induction P as [|p l [_ P1] _ IH]; cbn [app signed_param].
    + rewrite O1. replace (bl ++ $"d=" ++ d ++ rest) with ((bl ++ [100%N]) ++ 61%N :: (d ++ rest)) by (rewrite <- app_assoc; reflexivity).
      rewrite split1_first. 2: { rewrite in_app_iff. intros [K|[K|[]]]; [rewrite Forall_forall in B; apply B, blank_space in K; tauto|discriminate]. }
      unfold strip_chars. change (d ++ rest) with ([] ++ d ++ rest). rewrite Forall_forall in R. apply strip_p_between; [intros c []| |apply D|].
      * intros c K. apply R in K. destruct K as [<-|[<-|[<-|[]]]]; reflexivity.
      * intros c K. destruct D as [_ D]. apply D in K as [K1 K2]. destruct (mem_char c ($" ;" ++ [13%N; 10%N])) eqn:M; [|reflexivity]. exfalso.
        unfold mem_char in M. apply existsb_exists in M as (z & M & E). apply N.eqb_eq in E. subst z. vm_compute in M. destruct M as [<-|[<-|[<-|[<-|[]]]]]; try discriminate; congruence.
    + rewrite P1. exact IH.
  - apply Forall_app. split; [eapply Forall_impl; [|exact P]; intros p [K _]; exact K|]. constructor; assumption.
  - intros E. apply app_eq_nil in E as [_ E]. discriminate.
Qed.
Lemma signed_none l : Forall another_parameter l -> signed_by (join ($";") l) = [].
Proof.
  intros P. destruct l as [|p l]; [reflexivity|]. unfold signed_by. rewrite split_join; [|eapply Forall_impl; [|exact P]; intros x [K _]; exact K|discriminate].
  induction P as [|x r [_ P1] _ IH]; [reflexivity|]. cbn [signed_param]. rewrite P1. exact IH.
Qed.
