(** Proofs about the count of stock words. *)
From Verif Require Import PyStr Regexp Proofs_Regexp Model_Stock Spec_Stock.

Section S.
Variable udigit uword : char -> bool.
Notation ways := (ways udigit uword).
Notation isw := (is_w uword).

(** ** Expressions that stand for finitely many templates *)
Definition fits (o : option char) (d : char) : Prop := match o with Some c => lower_char d = c | None => isw d = true end.
Definition small (c : char) : bool := N.leb 97 c && N.leb c 122.
Fixpoint tpls (r : re) : option (list (list (option char))) :=
  match r with
  | Chr true false [IChar c] => if small c then Some [[Some c]] else None
  | Chr true false [IWord] => Some [[None]]
  | Cat a b => match tpls a, tpls b with
               | Some l, Some m => Some (flat_map (fun t => map (app t) m) l)
               | _, _ => None
               end
  | Alt a b => match tpls a, tpls b with Some l, Some m => Some (l ++ m) | _, _ => None end
  | Rep _ 0 (Some 1) a => match tpls a with Some l => Some (l ++ [[]]) | None => None end
  | _ => None
  end.
Lemma letter_in c d : small c = true -> (class_in udigit uword true false [IChar c] d = true <-> lower_char d = c).
Proof.
  unfold small. intros H. apply andb_true_iff in H as [H1 H2]. apply N.leb_le in H1, H2.
  unfold class_in. rewrite xorb_false_l. cbn [existsb item_in]. rewrite !orb_false_r. cbn [andb].
  unfold swapcase, lower_char. rewrite orb_true_iff, !N.eqb_eq.
  destruct (N.leb_spec 65 d); destruct (N.leb_spec d 90); cbn [andb]; try lia;
  destruct (N.leb_spec 97 d); destruct (N.leb_spec d 122); cbn [andb]; lia.
Qed.
Definition letter (d : char) : Prop := (65 <= d <= 90)%N \/ (97 <= d <= 122)%N.
Lemma swap_cases d : swapcase d = d \/ (letter d /\ letter (swapcase d)).
Proof.
  unfold swapcase, letter. destruct (N.leb_spec 65 d); destruct (N.leb_spec d 90); cbn [andb]; [right; lia| | |];
    destruct (N.leb_spec 97 d); destruct (N.leb_spec d 122); cbn [andb]; try (left; reflexivity); right; lia.
Qed.
Lemma letter_word d : letter d -> isw d = true.
Proof.
  unfold letter, is_w. intros H. destruct (N.ltb_spec d 128); [|lia]. destruct H as [[H1 H2] | [H1 H2]].
  - apply N.leb_le in H1, H2. rewrite H1, H2. cbn [andb]. rewrite orb_true_r. reflexivity.
  - apply N.leb_le in H1, H2. rewrite H1, H2. cbn [andb]. rewrite orb_true_r. reflexivity.
Qed.
Lemma word_swap d : isw (swapcase d) = isw d.
Proof. destruct (swap_cases d) as [-> | [H1 H2]]; [reflexivity|]. rewrite !letter_word by assumption. reflexivity. Qed.
Lemma word_in d : class_in udigit uword true false [IWord] d = isw d.
Proof.
  unfold class_in. rewrite xorb_false_l. cbn [existsb item_in]. rewrite !orb_false_r. cbn [andb]. rewrite word_swap. apply orb_diag.
Qed.
Lemma opt_ways g r st : ways (Rep g 0 (Some 1) r) st =
  match s_after st with
  | [] => [st]
  | _ => if g then filter (progress st) (ways r st) ++ [st] else st :: filter (progress st) (ways r st)
  end.
Proof.
  cbn [Regexp.ways plus]. destruct (s_after st) as [|c s]; cbn [length repeats]; [reflexivity|].
  assert (E : forall l, flat_map (repeats (ways r) g (length s) 0 (Some 0)) l = l).
  { induction l as [|x l IH]; [reflexivity|]. cbn [flat_map]. rewrite IH. destruct (length s); reflexivity. }
  rewrite E. reflexivity.
Qed.
Lemma tpls_sound r : forall l, tpls r = Some l -> forall st st', In st' (ways r st) ->
  exists w t, ext st st' w /\ In t l /\ Forall2 fits t w.
Proof.
  induction r; intros l0 E st st' H; cbn [tpls] in E; try discriminate.
  - destruct ci; [|discriminate]. destruct neg; [discriminate|]. destruct l as [|it [|? ?]]; [discriminate| |destruct it; discriminate].
    cbn [Regexp.ways] in H. unfold step in H. destruct (s_after st) as [|d s] eqn:Es; [destruct H|].
    destruct it; try discriminate.
    + destruct (small c) eqn:Sm; [|discriminate]. injection E as <-.
      destruct (class_in udigit uword true false [IChar c] d) eqn:C; [|destruct H]. destruct H as [<-|[]].
      apply (letter_in c d Sm) in C. exists [d], [Some c]. split; [split; [exact Es | reflexivity]|]. split; [left; reflexivity|].
      constructor; [exact C | constructor].
    + injection E as <-. rewrite word_in in H. destruct (isw d) eqn:C; [|destruct H]. destruct H as [<-|[]].
      exists [d], [None]. split; [split; [exact Es | reflexivity]|]. split; [left; reflexivity|].
      constructor; [exact C | constructor].
  - destruct (tpls r1) as [l1|]; [|discriminate]. destruct (tpls r2) as [l2|]; [|discriminate]. injection E as <-.
    cbn [Regexp.ways] in H. apply in_flat_map in H as (st1 & H1 & H2).
    destruct (IHr1 _ eq_refl _ _ H1) as (w1 & t1 & X1 & I1 & F1). destruct (IHr2 _ eq_refl _ _ H2) as (w2 & t2 & X2 & I2 & F2).
    exists (w1 ++ w2), (t1 ++ t2). split; [eapply ext_trans; eassumption|]. split; [|apply Forall2_app; assumption].
    apply in_flat_map. exists t1. split; [exact I1|]. apply in_map. exact I2.
  - destruct (tpls r1) as [l1|]; [|discriminate]. destruct (tpls r2) as [l2|]; [|discriminate]. injection E as <-.
    cbn [Regexp.ways] in H. apply in_app_or in H as [H|H].
    + destruct (IHr1 _ eq_refl _ _ H) as (w1 & t1 & X1 & I1 & F1). exists w1, t1. split; [exact X1|]. split; [apply in_or_app; left; exact I1 | exact F1].
    + destruct (IHr2 _ eq_refl _ _ H) as (w1 & t1 & X1 & I1 & F1). exists w1, t1. split; [exact X1|]. split; [apply in_or_app; right; exact I1 | exact F1].
  - destruct lo; [|discriminate]. destruct hi as [[|[|h]]|]; try discriminate. destruct (tpls r) as [l1|]; [|discriminate]. injection E as <-.
    rewrite opt_ways in H.
    assert (K : st' = st \/ In st' (ways r st)).
    { destruct (s_after st); [destruct H as [<-|[]]; auto|]. destruct greedy.
      - apply in_app_or in H as [H|[<-|[]]]; [|auto]. apply filter_In in H. tauto.
      - destruct H as [<-|H]; [auto|]. apply filter_In in H. tauto. }
    destruct K as [-> | K].
    + exists [], []. split; [apply ext_refl|]. split; [apply in_or_app; right; left; reflexivity | constructor].
    + destruct (IHr _ eq_refl _ _ K) as (w1 & t1 & X1 & I1 & F1). exists w1, t1. split; [exact X1|]. split; [apply in_or_app; left; exact I1 | exact F1].
Qed.
Lemma tpls_complete r : forall l, tpls r = Some l -> forall t w b s k, In t l -> Forall2 fits t w ->
  In (mkS (rev w ++ b) s k) (ways r (mkS b (w ++ s) k)).
Proof.
  induction r; intros l0 E t w b s k I F; cbn [tpls] in E; try discriminate.
  - destruct ci; [|discriminate]. destruct neg; [discriminate|]. destruct l as [|it [|? ?]]; [discriminate| |destruct it; discriminate].
    destruct it; try discriminate.
    + destruct (small c) eqn:Sm; [|discriminate]. injection E as <-. destruct I as [<-|[]]. inversion F as [|? d ? ? F1 F2]; subst. inversion F2; subst.
      cbn [Regexp.ways app rev step s_after]. unfold step. cbn [s_after]. rewrite (proj2 (letter_in _ d Sm) F1). left. reflexivity.
    + injection E as <-. destruct I as [<-|[]]. inversion F as [|? d ? ? F1 F2]; subst. inversion F2; subst.
      cbn [Regexp.ways app rev]. unfold step. cbn [s_after]. rewrite word_in. cbn in F1. rewrite F1. left. reflexivity.
  - destruct (tpls r1) as [l1|]; [|discriminate]. destruct (tpls r2) as [l2|]; [|discriminate]. injection E as <-.
    apply in_flat_map in I as (t1 & I1 & I2). apply in_map_iff in I2 as (t2 & <- & I2). apply Forall2_app_inv_l in F as (w1 & w2 & F1 & F2 & ->).
    rewrite <- app_assoc. eapply in_cat; [eapply (IHr1 _ eq_refl); eassumption|].
    rewrite rev_app_distr, <- app_assoc. eapply (IHr2 _ eq_refl); eassumption.
  - destruct (tpls r1) as [l1|]; [|discriminate]. destruct (tpls r2) as [l2|]; [|discriminate]. injection E as <-.
    cbn [Regexp.ways]. apply in_or_app. apply in_app_or in I as [I|I]; [left; eapply (IHr1 _ eq_refl) | right; eapply (IHr2 _ eq_refl)]; eassumption.
  - destruct lo; [|discriminate]. destruct hi as [[|[|h]]|]; try discriminate. destruct (tpls r) as [l1|]; [|discriminate]. injection E as <-.
    rewrite opt_ways. cbn [s_after]. destruct w as [|d w].
    { cbn [rev app]. destruct s; [left; reflexivity|]. destruct greedy; [apply in_or_app; right; left; reflexivity | left; reflexivity]. }
    apply in_app_or in I as [I|[<-|[]]]; [|inversion F].
    assert (K : In (mkS (rev (d :: w) ++ b) s k) (filter (progress (mkS b ((d :: w) ++ s) k)) (ways r (mkS b ((d :: w) ++ s) k)))).
    { apply filter_In. split; [eapply (IHr _ eq_refl); eassumption|]. unfold progress. cbn [s_after]. apply negb_true_iff, Nat.eqb_neq.
      rewrite app_length. cbn [length]. lia. }
    cbn [app]. destruct greedy; [apply in_or_app; left; exact K | right; exact K].
Qed.

(** ** The two parts of the expression *)
Definition LINE : re := Eval cbv in match STOCK_RE with Alt (Cat _ a) _ => a | _ => Eps end.
Definition ANYWHERE : re := Eval cbv in match STOCK_RE with Alt _ b => b | _ => Eps end.
Definition LINE_START : re := Alt Bos (Behind false (Chr true false [IChar 10])).
Lemma stock_parts : STOCK_RE = Alt (Cat LINE_START LINE) ANYWHERE.
Proof. reflexivity. Qed.

(** ** The specification as templates *)
Definition lits (w : str) : list (option char) := map Some w.
Fixpoint hidden (w : str) : list (list (option char)) :=
  match w with
  | [] => [[]]
  | c :: rest => match rest with
                 | [] => [[Some c]]
                 | _ => map (cons (Some c)) (hidden rest) ++ map (fun t => Some c :: None :: t) (hidden rest)
                 end
  end.
Lemma lits_fit p : forall w, Forall2 fits (lits p) w <-> lower w = p.
Proof.
  induction p as [|c p IH]; intros w; split; intros H.
  - inversion H. reflexivity.
  - destruct w; [constructor | discriminate].
  - inversion H as [|? d ? w' H1 H2]; subst. cbn [lower map]. f_equal; [exact H1|]. apply IH. exact H2.
  - destruct w as [|d w]; [discriminate|]. injection H as H1 H2. constructor; [exact H1|]. apply IH. exact H2.
Qed.
Lemma hidden_fit p : forall w, (exists t, In t (hidden p) /\ Forall2 fits t w) <-> spelled isw p w.
Proof.
  induction p as [|c p IH]; intros w.
  - cbn. split; [intros (t & [<-|[]] & F); inversion F; reflexivity | intros ->; exists []; split; [left; reflexivity | constructor]].
  - destruct p as [|c' p].
    + cbn [hidden spelled]. split.
      * intros (t & [<-|[]] & F). apply (lits_fit [c]). exact F.
      * intros H. exists [Some c]. split; [left; reflexivity|]. apply (lits_fit [c]). exact H.
    + change (hidden (c :: c' :: p)) with (map (cons (Some c)) (hidden (c' :: p)) ++ map (fun t => Some c :: None :: t) (hidden (c' :: p))).
      change (spelled isw (c :: c' :: p) w) with (exists d x t, w = d :: x ++ t /\ lower [d] = [c] /\ (x = [] \/ exists e, x = [e] /\ isw e = true) /\ spelled isw (c' :: p) t).
      split.
      * intros (t & I & F). apply in_app_or in I as [I|I]; apply in_map_iff in I as (t' & <- & I).
        -- inversion F as [|? d ? w' F1 F2]; subst. exists d, [], w'. split; [reflexivity|]. split; [cbn in *; congruence|].
           split; [left; reflexivity|]. apply IH. eauto.
        -- inversion F as [|? d ? w' F1 F2]; subst. inversion F2 as [|? e ? w2 F3 F4]; subst. exists d, [e], w2. split; [reflexivity|].
           split; [cbn in *; congruence|]. split; [right; exists e; split; [reflexivity | exact F3]|]. apply IH. eauto.
      * intros (d & x & t & -> & L & X & Sp). injection L as L. apply IH in Sp as (t' & I & F). destruct X as [-> | (e & -> & X)].
        -- exists (Some c :: t'). split; [apply in_or_app; left; apply in_map; exact I|]. constructor; [exact L | exact F].
        -- exists (Some c :: None :: t'). split; [apply in_or_app; right; apply in_map_iff; eauto|]. constructor; [exact L|]. constructor; [exact X | exact F].
Qed.
Definition anywhere_spec : list (list (option char)) := map lits stock_words ++ flat_map hidden hidden_words.
Definition ochar_eqb (a b : option char) : bool :=
  match a, b with Some x, Some y => N.eqb x y | None, None => true | _, _ => false end.
Fixpoint tpl_eqb (a b : list (option char)) : bool :=
  match a, b with [], [] => true | x :: a', y :: b' => ochar_eqb x y && tpl_eqb a' b' | _, _ => false end.
Lemma tpl_eqb_eq a : forall b, tpl_eqb a b = true -> a = b.
Proof.
  induction a as [|x a IH]; intros [|y b] H; try discriminate; [reflexivity|]. cbn in H. apply andb_true_iff in H as [H1 H2].
  f_equal; [|apply IH; exact H2]. destruct x, y; try discriminate; [|reflexivity]. cbn in H1. apply N.eqb_eq in H1. congruence.
Qed.
Definition subset (l m : list (list (option char))) : bool := forallb (fun t => existsb (tpl_eqb t) m) l.
Lemma subset_In l m t : subset l m = true -> In t l -> In t m.
Proof.
  intros H I. unfold subset in H. rewrite forallb_forall in H. apply H in I. apply existsb_exists in I as (x & Hx & E).
  apply tpl_eqb_eq in E. congruence.
Qed.
Definition anywhere_tpls := Eval vm_compute in match tpls ANYWHERE with Some l => l | None => [] end.
Lemma anywhere_eq : tpls ANYWHERE = Some anywhere_tpls.
Proof. vm_compute. reflexivity. Qed.
Definition line_tpls := Eval vm_compute in match tpls LINE with Some l => l | None => [] end.
Lemma line_eq : tpls LINE = Some line_tpls.
Proof. vm_compute. reflexivity. Qed.
Lemma anywhere_iff w : (exists t, In t anywhere_tpls /\ Forall2 fits t w) <->
  In (lower w) stock_words \/ (exists h, In h hidden_words /\ spelled isw h w).
Proof.
  assert (S1 : subset anywhere_tpls anywhere_spec = true) by (vm_compute; reflexivity).
  assert (S2 : subset anywhere_spec anywhere_tpls = true) by (vm_compute; reflexivity).
  split.
  - intros (t & I & F). apply (subset_In _ _ _ S1) in I. apply in_app_or in I as [I|I].
    + apply in_map_iff in I as (p & <- & I). apply lits_fit in F. left. congruence.
    + apply in_flat_map in I as (h & Ih & I). right. exists h. split; [exact Ih|]. apply hidden_fit. eauto.
  - intros [H | (h & Ih & H)].
    + exists (lits (lower w)). split; [|apply lits_fit; reflexivity]. apply (subset_In _ _ _ S2), in_or_app. left. apply in_map. exact H.
    + apply hidden_fit in H as (t & I & F). exists t. split; [|exact F]. apply (subset_In _ _ _ S2), in_or_app. right. apply in_flat_map. eauto.
Qed.
Lemma line_iff w : (exists t, In t line_tpls /\ Forall2 fits t w) <-> In (lower w) line_words.
Proof.
  assert (S1 : subset line_tpls (map lits line_words) = true) by (vm_compute; reflexivity).
  assert (S2 : subset (map lits line_words) line_tpls = true) by (vm_compute; reflexivity).
  split.
  - intros (t & I & F). apply (subset_In _ _ _ S1) in I. apply in_map_iff in I as (p & <- & I). apply lits_fit in F. congruence.
  - intros H. exists (lits (lower w)). split; [|apply lits_fit; reflexivity]. apply (subset_In _ _ _ S2). apply in_map. exact H.
Qed.
Lemma line_start b s k st' : In st' (ways LINE_START (mkS b s k)) <->
  st' = mkS b s k /\ (rev b = [] \/ exists p, rev b = p ++ [10%N]).
Proof.
  assert (N10 : forall c, class_in udigit uword true false [IChar 10] c = true <-> c = 10%N).
  { intros c. unfold class_in. rewrite xorb_false_l. cbn [existsb item_in andb]. rewrite !orb_false_r.
    rewrite orb_true_iff, !N.eqb_eq. unfold swapcase.
    destruct (N.leb_spec 65 c); destruct (N.leb_spec c 90); cbn [andb]; try lia;
      destruct (N.leb_spec 97 c); destruct (N.leb_spec c 122); cbn [andb]; lia. }
  unfold LINE_START. cbn [Regexp.ways s_before]. rewrite in_app_iff. unfold guard. destruct b as [|c b].
  - cbn. split; [intros [[<-|[]]|[]]; auto | intros [-> _]; auto].
  - cbn [xorb]. unfold step. cbn [s_after s_before]. destruct (class_in udigit uword true false [IChar 10] c) eqn:C.
    + cbn. apply N10 in C. subst. split.
      * intros [[]|[<-|[]]]. split; [reflexivity|]. right. exists (rev b). reflexivity.
      * intros [-> _]. auto.
    + cbn. split; [tauto|]. intros [_ [H|[p H]]].
      * apply app_eq_nil in H as [_ H]. discriminate.
      * apply app_inj_tail in H as [_ H]. apply N10 in H. congruence.
Qed.
Theorem stock_ways b s st' : In st' (ways STOCK_RE (mkS b s [])) ->
  exists w, ext (mkS b s []) st' w /\ stock_word isw (rev b) w.
Proof.
  rewrite stock_parts. cbn [Regexp.ways]. intros H. apply in_app_or in H as [H|H].
  - apply in_flat_map in H as (st1 & H1 & H2). change (In st1 (ways LINE_START (mkS b s []))) in H1.
    apply line_start in H1 as [-> L]. destruct (tpls_sound LINE _ line_eq _ _ H2) as (w & t & X & I & F).
    exists w. split; [exact X|]. right. right. split; [apply line_iff; eauto | exact L].
  - destruct (tpls_sound ANYWHERE _ anywhere_eq _ _ H) as (w & t & X & I & F). exists w. split; [exact X|].
    assert (K : exists t, In t anywhere_tpls /\ Forall2 fits t w) by eauto. apply anywhere_iff in K. unfold stock_word. tauto.
Qed.
Theorem stock_found b w s : stock_word isw (rev b) w -> In (mkS (rev w ++ b) s []) (ways STOCK_RE (mkS b (w ++ s) [])).
Proof.
  rewrite stock_parts. cbn [Regexp.ways]. intros H. apply in_or_app.
  assert (K : (exists t, In t anywhere_tpls /\ Forall2 fits t w) \/ (In (lower w) line_words /\ (rev b = [] \/ exists p, rev b = p ++ [10%N]))).
  { destruct H as [H | [H | H]]; [left; apply anywhere_iff; tauto | left; apply anywhere_iff; tauto | right; exact H]. }
  destruct K as [(t & I & F) | [I L]].
  - right. eapply (tpls_complete ANYWHERE _ anywhere_eq); eassumption.
  - left. apply line_iff in I as (t & I & F). apply in_flat_map. exists (mkS b (w ++ s) []). split.
    + change (In (mkS b (w ++ s) []) (ways LINE_START (mkS b (w ++ s) []))). apply line_start. auto.
    + eapply (tpls_complete LINE _ line_eq); eassumption.
Qed.
(** Stock words are not empty and have word characters only. *)
Lemma fits_word o d : fits o d -> (match o with Some c => small c = true | None => True end) -> isw d = true.
Proof.
  destruct o as [c|]; cbn; [|auto]. unfold small, lower_char. intros <- H. apply andb_true_iff in H as [H1 H2]. apply N.leb_le in H1, H2.
  apply letter_word. unfold letter. destruct (N.leb_spec 65 d); destruct (N.leb_spec d 90); cbn [andb] in *; lia.
Qed.
Definition tpl_ok (t : list (option char)) : bool :=
  match t with [] => false | _ => forallb (fun o => match o with Some c => small c | None => true end) t end.
Lemma tpl_ok_word t w : tpl_ok t = true -> Forall2 fits t w -> w <> [] /\ Forall (fun c => isw c = true) w.
Proof.
  intros H F. destruct F as [|o d t w F1 F2]; [discriminate|]. split; [discriminate|]. cbn [tpl_ok] in H.
  assert (G : Forall2 fits (o :: t) (d :: w)) by (constructor; assumption). revert G H. generalize (o :: t), (d :: w). clear.
  intros l m G. induction G as [|o d l m H G IH]; intros K; [constructor|]. cbn [forallb] in K. apply andb_true_iff in K as [K1 K2].
  constructor; [|apply IH, K2]. eapply fits_word; [exact H|]. destruct o; [exact K1 | exact I].
Qed.
Lemma stock_word_word b w : stock_word isw b w -> w <> [] /\ Forall (fun c => isw c = true) w.
Proof.
  intros H. assert (K : exists t, In t (anywhere_tpls ++ line_tpls) /\ Forall2 fits t w).
  { destruct H as [H | [H | [H _]]].
    - destruct (proj2 (anywhere_iff w) (or_introl H)) as (t & I & F). exists t. split; [apply in_or_app; left; exact I | exact F].
    - destruct (proj2 (anywhere_iff w) (or_intror H)) as (t & I & F). exists t. split; [apply in_or_app; left; exact I | exact F].
    - destruct (proj2 (line_iff w) H) as (t & I & F). exists t. split; [apply in_or_app; right; exact I | exact F]. }
  destruct K as (t & I & F). eapply tpl_ok_word; [|exact F].
  assert (A : forallb tpl_ok (anywhere_tpls ++ line_tpls) = true) by (vm_compute; reflexivity).
  rewrite forallb_forall in A. apply A, I.
Qed.

(** ** Counting *)
Notation find := (findall_from udigit uword STOCK_RE).
Theorem count_sound fuel : forall b s n, n <= length (find fuel b s) -> holds isw (rev b) n s.
Proof.
  induction fuel as [|fuel IH]; intros b s n H; cbn [findall_from] in H.
  - cbn in H. replace n with 0 by lia. constructor.
  - assert (Next : forall c s', s = c :: s' -> n <= length (find fuel (c :: b) s') -> holds isw (rev b) n s).
    { intros c s' -> K. apply IH in K. cbn [rev] in K. inversion K as [|? u w s2 m W Hm]; subst; [constructor|].
      change (c :: u ++ w ++ s2) with ((c :: u) ++ w ++ s2). constructor; [rewrite <- app_assoc in W; exact W|].
      rewrite <- app_assoc in Hm. exact Hm. }
    destruct (ways STOCK_RE (mkS b s [])) as [|st l] eqn:E.
    + destruct s as [|c s']; [cbn in H; replace n with 0 by lia; constructor|]. eapply Next; [reflexivity | exact H].
    + assert (Hst : In st (ways STOCK_RE (mkS b s []))) by (rewrite E; left; reflexivity).
      destruct (stock_ways _ _ _ Hst) as (w & X & W). rewrite (ext_consumed _ _ _ X) in H.
      destruct (stock_word_word _ _ W) as [NE _]. destruct w as [|c w]; [congruence|]. cbn [length] in H.
      destruct n as [|n]; [constructor|]. destruct X as [X1 X2]. cbn [s_after s_before] in X1, X2. rewrite X1.
      change ((c :: w) ++ s_after st) with ([] ++ (c :: w) ++ s_after st). constructor; [rewrite app_nil_r; exact W|].
      rewrite app_nil_l. replace (rev b ++ c :: w) with (rev (s_before st)) by (rewrite X2, rev_app_distr, rev_involutive; reflexivity).
      apply IH. lia.
Qed.
Lemma apart_prefix n : forall b p s, holds_apart isw (b ++ p) n s -> holds_apart isw b n (p ++ s).
Proof.
  intros b p s H. inversion H as [|? u w v W|? u w y x v m W X Hm]; subst.
  - constructor.
  - rewrite app_assoc. constructor. rewrite app_assoc. exact W.
  - rewrite app_assoc. constructor; [rewrite app_assoc; exact W | exact X|]. rewrite <- !app_assoc in *. exact Hm.
Qed.
(** A word at the beginning of a text, with its place among words further on *)
Lemma app_split_word {A} (P : A -> Prop) (m r u w v : list A) : m ++ r = u ++ w ++ v -> Forall P m ->
  (exists u', u = m ++ u' /\ r = u' ++ w ++ v) \/ (exists m', m = u ++ m' /\ m' ++ r = w ++ v).
Proof.
  intros E F. revert u E. induction m as [|c m IH]; intros u E.
  - left. exists u. auto.
  - destruct u as [|d u].
    + right. exists (c :: m). auto.
    + cbn in E. injection E as -> E. inversion F; subst. destruct (IH ltac:(assumption) u E) as [(u' & -> & ->)|(m' & -> & E')].
      * left. exists u'. auto.
      * right. exists m'. auto.
Qed.
Lemma before_break (m r w y : str) x s : Forall (fun c => isw c = true) m -> isw x = false -> m ++ r = w ++ y ++ [x] ++ s ->
  exists y', r = y' ++ [x] ++ s /\ m ++ y' = w ++ y.
Proof.
  intros F X. rewrite app_assoc. generalize (w ++ y). clear w y. intros z. revert z. induction F as [|c m Fc F IH]; intros z E.
  - cbn in E. exists z. auto.
  - destruct z as [|d z]; cbn in E.
    + injection E as -> _. congruence.
    + injection E as -> E. destruct (IH z E) as (y' & -> & Z). exists y'. split; [reflexivity|]. cbn. congruence.
Qed.
Theorem count_complete fuel : forall b s n, length s < fuel -> holds_apart isw (rev b) n s -> n <= length (find fuel b s).
Proof.
  induction fuel as [|fuel IH]; intros b s n L H; [lia|]. cbn [findall_from].
  destruct n as [|n]; [lia|].
  destruct (ways STOCK_RE (mkS b s [])) as [|st l] eqn:E.
  - (* no word here: the first one begins further on *)
    assert (K : exists c s', s = c :: s' /\ holds_apart isw (rev b ++ [c]) (S n) s').
    { inversion H as [|? u w v W|? u w y x v m W X Hm]; subst.
      - destruct u as [|c u].
        + exfalso. rewrite app_nil_r in W. apply (stock_found b w v) in W. cbn [app] in E. rewrite E in W. destruct W.
        + exists c, (u ++ w ++ v). split; [reflexivity|]. constructor. rewrite <- app_assoc. exact W.
      - destruct u as [|c u].
        + exfalso. rewrite app_nil_r in W. apply (stock_found b w (y ++ [x] ++ v)) in W. cbn [app] in E, W. rewrite E in W. destruct W.
        + exists c, (u ++ w ++ y ++ [x] ++ v). split; [reflexivity|]. constructor; [rewrite <- app_assoc; exact W | exact X|].
          rewrite <- app_assoc. exact Hm. }
    destruct K as (c & s' & -> & K). apply IH; [cbn in L; lia|]. cbn [rev]. exact K.
  - assert (Hst : In st (ways STOCK_RE (mkS b s []))) by (rewrite E; left; reflexivity).
    destruct (stock_ways _ _ _ Hst) as (m & X & W). rewrite (ext_consumed _ _ _ X).
    destruct (stock_word_word _ _ W) as [NE Fm]. destruct X as [X1 X2]. cbn [s_after s_before] in X1, X2.
    assert (Lm : length (s_after st) < fuel). { rewrite X1, app_length in L. destruct m; [congruence|]. cbn in L. lia. }
    destruct m as [|c0 m0] eqn:Em; [congruence|]. rewrite <- Em in *. cbn [length].
    assert (R : rev (s_before st) = rev b ++ m) by (rewrite X2, rev_app_distr, rev_involutive; reflexivity).
    inversion H as [|? u w v W'|? u w y x v k W' Xx Hm]; subst n.
    + lia.
    + subst s. assert (E2 : m ++ s_after st = u ++ w ++ y ++ [x] ++ v) by (symmetry; congruence).
      destruct (app_split_word _ _ _ _ _ _ E2 Fm) as [(u' & -> & E3) | (m' & E4 & E5)].
      * (* the match ends before the word *)
        assert (Q : S k <= length (find fuel (s_before st) (s_after st))); [|lia]. apply IH; [exact Lm|]. rewrite R, E3.
        constructor; [rewrite <- app_assoc; exact W' | exact Xx|]. rewrite <- !app_assoc in *. exact Hm.
      * (* the match meets the word, but not the character after it *)
        assert (Fm' : Forall (fun c => isw c = true) m'). { rewrite E4 in Fm. apply Forall_app in Fm. tauto. }
        destruct (before_break _ _ _ _ _ _ Fm' Xx E5) as (y' & E6 & E7). apply le_n_S. apply IH; [exact Lm|]. rewrite R, E6.
        rewrite app_assoc. apply apart_prefix. rewrite E4. rewrite <- !app_assoc. rewrite (app_assoc m' y'), E7, <- app_assoc. exact Hm.
Qed.
End S.
