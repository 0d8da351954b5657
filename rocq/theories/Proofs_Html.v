(** Proofs about the HTML parser, for every text. *)
From Coq Require Import Lia Arith.
From Verif Require Import PyStr Regexp Proofs_Regexp PyHtml Spec_Html.
Open Scope nat_scope.

Notation ways := (Regexp.ways no_char no_char).

(** ** Going on in a text *)
(** From one place to another, over [w]. *)
Definition over (b s b' s' w : str) : Prop := s = w ++ s' /\ b' = rev w ++ b.
Lemma seek_some p : forall s b pre b' s', seek p b s = (pre, Some (b', s')) -> over b s b' s' pre /\ p b' s' = true.
Proof.
  induction s as [|c s IH]; intros b pre b' s'; cbn [seek]; destruct (p b _) eqn:E.
  - intros [= <- <- <-]. repeat split. exact E.
  - discriminate.
  - intros [= <- <- <-]. repeat split. exact E.
  - destruct (seek p (c :: b) s) as [q at_] eqn:S. intros [= <- ->]. apply IH in S as [[-> ->] K]. repeat split; [|exact K]. cbn [rev]. rewrite <- app_assoc. reflexivity.
Qed.
Lemma seek_none p : forall s b pre, seek p b s = (pre, None) -> pre = s.
Proof.
  induction s as [|c s IH]; intros b pre; cbn [seek]; destruct (p b _) eqn:E; try discriminate.
  - intros [= <-]. reflexivity.
  - destruct (seek p (c :: b) s) as [q at_] eqn:S. intros [= <- ->]. apply IH in S as ->. reflexivity.
Qed.
Lemma seek_at p pre b s : (forall x c y, pre = x ++ c :: y -> p (rev x ++ b) (c :: y ++ s) = false) -> p (rev pre ++ b) s = true -> seek p b (pre ++ s) = (pre, Some (rev pre ++ b, s)).
Proof.
  revert b. induction pre as [|c pre IH]; intros b H K; cbn [app].
  - cbn in K. destruct s; cbn [seek]; rewrite K; reflexivity.
  - cbn [seek]. rewrite (H [] c pre eq_refl : p b (c :: pre ++ s) = false). cbn [rev] in *. rewrite <- app_assoc in *. cbn [app] in *. rewrite IH; [reflexivity| |exact K].
    intros x d y E. specialize (H (c :: x) d y). cbn [rev app] in H. rewrite <- app_assoc in H. apply H. rewrite E. reflexivity.
Qed.
Lemma seek_end p pre b : (forall x y, pre = x ++ y -> p (rev x ++ b) y = false) -> seek p b pre = (pre, None).
Proof.
  revert b. induction pre as [|c pre IH]; intros b H; cbn [seek].
  - rewrite (H [] [] eq_refl : p b [] = false). reflexivity.
  - rewrite (H [] (c :: pre) eq_refl : p b (c :: pre) = false). rewrite IH; [reflexivity|]. intros x y E. specialize (H (c :: x) y). cbn [rev app] in H. rewrite <- app_assoc in H. apply H. rewrite E. reflexivity.
Qed.
Lemma after_gt_some b s b' s' : after_gt b s = Some (b', s') -> exists w, over b s b' s' (w ++ [62%N]) /\ ~ In 62%N w.
Proof.
  unfold after_gt. destruct (seek _ b s) as [pre [[b1 [|c s1]]|]] eqn:E; try discriminate.
  assert (K := E). apply seek_some in E as [[-> ->] H]. apply N.eqb_eq in H. subst c. intros [= <- <-]. exists pre. split.
  - split; [rewrite <- app_assoc; reflexivity|]. rewrite rev_app_distr. reflexivity.
  - clear - K. revert b K. induction pre as [|c pre IH]; intros b K; [intros []|]. cbn [seek app] in K.
    destruct (N.eqb_spec c 62) as [->|N]; [discriminate|]. destruct (seek _ (c :: b) (pre ++ 62%N :: s1)) as [q at_] eqn:S. injection K as -> ->.
    intros [H|H]; [congruence|]. cbn [rev] in S. rewrite <- app_assoc in S. exact (IH _ S H).
Qed.
Lemma after_gt_at w b s : ~ In 62%N w -> after_gt b (w ++ 62%N :: s) = Some (rev (w ++ [62%N]) ++ b, s).
Proof.
  intros H. unfold after_gt. rewrite (seek_at _ w).
  - rewrite rev_app_distr. reflexivity.
  - intros x c y ->. apply N.eqb_neq. intros ->. apply H, in_elt.
  - reflexivity.
Qed.
Lemma after_gt_none b s : after_gt b s = None <-> ~ In 62%N s.
Proof.
  split.
  - intros H I. apply in_split in I as (x & y & ->). clear -H.
    destruct (in_dec N.eq_dec 62%N x) as [I|I].
    + revert b H. induction x as [|c x IH]; [destruct I|]. intros b H. unfold after_gt in H. cbn [seek app] in H.
      destruct (N.eqb_spec c 62) as [->|N]; [discriminate|]. destruct I as [I|I]; [congruence|].
      apply (IH I (c :: b)). unfold after_gt. destruct (seek _ (c :: b) _) as [q [[b1 [|d s1]]|]]; [reflexivity|discriminate|reflexivity].
    + rewrite (after_gt_at x b y I) in H. discriminate.
  - intros H. unfold after_gt. rewrite (seek_end _ s b); [reflexivity|]. intros x [|c y] E; [reflexivity|]. apply N.eqb_neq. intros ->. apply H. rewrite E. apply in_elt.
Qed.
Lemma skip_over n b s b' s' : skip_chars n b s = (b', s') -> exists w, over b s b' s' w /\ length w <= n.
Proof.
  revert b s. induction n as [|n IH]; intros b s; cbn [skip_chars].
  - intros [= <- <-]. exists []. repeat split. cbn. lia.
  - destruct s as [|c s]; [intros [= <- <-]; exists []; repeat split; cbn; lia|]. intros H. apply IH in H as (w & [-> ->] & L). exists (c :: w). repeat split; [|cbn; lia]. cbn [rev]. rewrite <- app_assoc. reflexivity.
Qed.
Lemma over_trans b s b1 s1 b2 s2 v w : over b s b1 s1 v -> over b1 s1 b2 s2 w -> over b s b2 s2 (v ++ w).
Proof. intros [-> ->] [-> ->]. split; [rewrite app_assoc; reflexivity|rewrite rev_app_distr, app_assoc; reflexivity]. Qed.
Lemma match_over r b s st : match_at r b s = Some st -> In st (ways r (mkS b s [])) /\ exists w, over b s (s_before st) (s_after st) w /\ ext (mkS b s []) st w.
Proof.
  unfold match_at. destruct (ways r (mkS b s [])) as [|x l] eqn:E; [discriminate|]. intros [= ->]. assert (I : In st (ways r (mkS b s []))) by (rewrite E; left; reflexivity).
  rewrite <- E. split; [exact I|]. destruct (ways_ext _ _ _ _ _ I) as [w W]. exists w. split; [|exact W]. destruct W as [A B]. split; [exact A|exact B].
Qed.
Lemma search_over r : forall s b st, search_at r b s = Some st -> exists v w b1 s1, over b s b1 s1 v /\ over b1 s1 (s_before st) (s_after st) w /\ In st (ways r (mkS b1 s1 [])) /\ ext (mkS b1 s1 []) st w.
Proof.
  unfold search_at. induction s as [|c s IH]; intros b st; cbn [search_from]; destruct (ways r _) as [|x l] eqn:E.
  - discriminate.
  - intros [= ->]. assert (I : In st (ways r (mkS b [] []))) by (rewrite E; left; reflexivity). destruct (ways_ext _ _ _ _ _ I) as [w W]. exists [], w, b, []. repeat split; auto; apply W.
  - intros H. apply IH in H as (v & w & b1 & s1 & O & H). exists (c :: v), w, b1, s1. split; [|exact H].
    destruct O as [-> ->]. split; [reflexivity|]. cbn [rev]. rewrite <- app_assoc. reflexivity.
  - intros [= ->]. assert (I : In st (ways r (mkS b (c :: s) []))) by (rewrite E; left; reflexivity). destruct (ways_ext _ _ _ _ _ I) as [w W]. exists [], w, b, (c :: s). repeat split; auto; apply W.
Qed.
Lemma between_over b s b' s' w : over b s b' s' w -> between s s' = w.
Proof. intros [-> _]. unfold between. rewrite app_length, Nat.add_sub. rewrite firstn_app, Nat.sub_diag, firstn_all. cbn [firstn]. apply app_nil_r. Qed.
Lemma search_none r : forall s b, search_at r b s = None <-> forall x y, s = x ++ y -> ways r (mkS (rev x ++ b) y []) = [].
Proof.
  unfold search_at. induction s as [|c s IH]; intros b; cbn [search_from]; destruct (ways r _) as [|q l] eqn:E.
  - split; [|reflexivity]. intros _ [|? ?] [|? ?] K; try discriminate. exact E.
  - split; [discriminate|]. intros H. specialize (H [] [] eq_refl). cbn in H. cbn in E. congruence.
  - rewrite IH. split; intros H x y K.
    + destruct x as [|d x]; cbn [app] in K; [subst y; exact E|]. injection K as <- ->. cbn [rev]. rewrite <- app_assoc. apply H. reflexivity.
    + specialize (H (c :: x) y). cbn [rev app] in H. rewrite <- app_assoc in H. apply H. rewrite K. reflexivity.
  - split; [discriminate|]. intros H. specialize (H [] (c :: s) eq_refl). cbn [rev app] in H. congruence.
Qed.

(** ** Expressions that can match nothing match everywhere *)
Fixpoint easy (r : re) : bool :=
  match r with Eps => true | Rep true 0 _ _ => true | Cat a b => easy a && easy b | _ => false end.
Lemma easy_ways r : easy r = true -> forall st, ways r st <> [].
Proof.
  induction r as [|ci neg l| |a IHa b IHb|a IHa b IHb|g lo hi r IH|n r IH| | |neg|neg r IH|neg r IH]; cbn [easy]; try discriminate.
  - intros H. apply andb_true_iff in H as [A B]. intros st K. cbn [Regexp.ways] in K. specialize (IHa A st).
    destruct (ways a st) as [|x l]; [congruence|]. cbn [flat_map] in K. apply app_eq_nil in K as [K _]. exact (IHb B x K).
  - destruct g, lo; try discriminate. intros _ st. cbn [Regexp.ways]. destruct (0 + length (s_after st)), hi as [[|h]|]; cbn [repeats]; try discriminate; intros K; apply app_eq_nil in K as [_ K]; discriminate.
Qed.
Lemma needs_char ci neg l r b s : easy r = true -> ways (Cat (Chr ci neg l) r) (mkS b s []) = [] <-> match s with c :: _ => class_in no_char no_char ci neg l c = false | [] => True end.
Proof.
  intros E. cbn [Regexp.ways]. unfold step. cbn [s_after s_before s_caps]. destruct s as [|c s]; [split; auto|].
  destruct (class_in _ _ _ _ _ c); cbn [flat_map]; [|split; reflexivity]. rewrite app_nil_r. split; [intros K; destruct (easy_ways r E _ K)|discriminate].
Qed.
Lemma Regexp_cat a b st : ways (Cat a b) st = flat_map (ways b) (ways a st).
Proof. reflexivity. Qed.
Lemma letter_spec c : letter c = true <-> is_letter c.
Proof. unfold letter, is_letter. rewrite orb_true_iff, !andb_true_iff, !N.leb_le. tauto. Qed.
Lemma class_letter c : class_in no_char no_char false false [IRange 97 122; IRange 65 90] c = letter c.
Proof. unfold class_in, letter. cbn [existsb item_in andb]. destruct (N.leb 97 c && N.leb c 122), (N.leb 65 c && N.leb c 90); reflexivity. Qed.

(** ** What the methods do *)
(** They go on, over a text that is not empty, and hand over nothing or that text; the values of
    attributes stand in the document. *)
Definition placed (t : str) (e : event) : Prop :=
  match e with OnStart _ attrs => forall n v, In (n, Some v) attrs -> exists x y, t = x ++ v ++ y | _ => True end.
Definition known (cd : option str) : Prop := match cd with Some e => In e cdata_content_elements | None => True end.
Definition moves (cd : option str) (b s : str) (j : jump) : Prop :=
  match j with Goes d cd' b' s' => (known cd -> known cd') /\ exists w, w <> [] /\ over b s b' s' w /\ (texts d = [] \/ texts d = [w]) /\ Forall (placed (rev b ++ s)) d | _ => True end.
Lemma over_whole b s b' s' w : over b s b' s' w -> rev b' ++ s' = rev b ++ s.
Proof. intros [-> ->]. rewrite rev_app_distr, rev_involutive, <- app_assoc. reflexivity. Qed.
Ltac no_attrs := repeat (apply Forall_cons || apply Forall_nil); exact I.
Lemma consumes ci neg l r b s st w : In st (ways (Cat (Chr ci neg l) r) (mkS b s [])) -> ext (mkS b s []) st w -> w <> [].
Proof.
  intros I [X _] ->. cbn [app s_after] in X. cbn [Regexp.ways] in I. apply in_flat_map in I as (x & A & B). apply step_In in A as (c & _ & [A _] & _). cbn [s_after] in A.
  destruct (ways_ext _ _ _ _ _ B) as [v [V _]]. rewrite A, V in X. apply (f_equal (@length _)) in X. cbn [app] in X. cbn [length] in X. rewrite app_length in X. lia.
Qed.
Lemma match_consumes ci neg l r b s st : match_at (Cat (Chr ci neg l) r) b s = Some st -> exists w, w <> [] /\ over b s (s_before st) (s_after st) w.
Proof. intros H. apply match_over in H as (I & w & O & X). exists w. split; [exact (consumes _ _ _ _ _ _ _ _ I X)|exact O]. Qed.
Lemma search_consumes ci neg l r b s st : search_at (Cat (Chr ci neg l) r) b s = Some st -> exists w, w <> [] /\ over b s (s_before st) (s_after st) w.
Proof.
  intros H. apply search_over in H as (v & w & b1 & s1 & O1 & O2 & I & X). exists (v ++ w). split; [|exact (over_trans _ _ _ _ _ _ _ _ O1 O2)].
  intros E. apply app_eq_nil in E as [_ E]. exact (consumes _ _ _ _ _ _ _ _ I X E).
Qed.
Lemma whole_moves b s : match whole_start_tag b s with Goes d _ b' s' => d = [] /\ exists w, w <> [] /\ over b s b' s' w | _ => True end.
Proof.
  unfold whole_start_tag. destruct (match_at _ b s) as [st|] eqn:E; [|exact I]. apply match_consumes in E as (w & W & O).
  destruct (s_after st) as [|c r] eqn:A; [exact I|].
  assert (G : forall x y, over b s (rev x ++ s_before st) y (w ++ x) -> exists w, w <> [] /\ over b s (rev x ++ s_before st) y w).
  { intros x y K. exists (w ++ x). split; [intros N; apply app_eq_nil in N as [N _]; exact (W N)|exact K]. }
  destruct (N.eqb c 62); [split; [reflexivity|]; apply (G [c] r); destruct O as [-> ->]; split; [rewrite <- app_assoc; reflexivity|rewrite rev_app_distr; reflexivity]|].
  destruct (N.eqb c 47).
  - destruct r as [|d r]; [exact I|]. destruct (N.eqb d 62); [|exact I]. split; [reflexivity|]. apply (G [c; d] r). destruct O as [-> ->]. split; [rewrite <- app_assoc; reflexivity|rewrite rev_app_distr; reflexivity].
  - destruct (letter c || N.eqb c 61); [exact I|]. split; [reflexivity|]. exists w. auto.
Qed.
Lemma unquoted_in v : exists x y, v = x ++ unquoted v ++ y.
Proof.
  unfold unquoted. destruct v as [|c v]; [exists [], []; reflexivity|]. destruct (rev (c :: v)) as [|d q] eqn:E; [exists [], []; rewrite app_nil_r; reflexivity|].
  destruct (_ && _); [|exists [], []; rewrite app_nil_r; reflexivity]. cbn [tl]. destruct v as [|e v]; [exists [c], []; reflexivity|]. exists [c], [last (e :: v) e].
  cbn [app]. f_equal. apply app_removelast_last. discriminate.
Qed.
Lemma group_In n l w : group n l = Some w -> In (n, w) l.
Proof. induction l as [|[k v] l IH]; [discriminate|]. cbn [group]. destruct (Nat.eqb_spec k n) as [->|]; [intros [= ->]; left; reflexivity|right; auto]. Qed.
Lemma group_placed r b s st n w : match_at r b s = Some st -> group n (s_caps st) = Some w -> exists x y, rev b ++ s = x ++ w ++ y.
Proof.
  intros M G. apply match_over in M as (I & _). apply group_In in G. assert (A : groups_ok (fun _ _ => true) r = true) by (clear; induction r; cbn [groups_ok]; rewrite ?IHr, ?IHr1, ?IHr2; reflexivity).
  destruct (ways_caps no_char no_char (fun _ _ => true) r A (mkS b s []) st n w I G) as [K|[K _]]; [destruct K|exact K].
Qed.
Lemma attributes_placed fuel : forall e b s n v, In (n, Some v) (fst (attributes fuel e b s)) -> exists x y, rev b ++ s = x ++ v ++ y.
Proof.
  induction fuel as [|f IH]; intros e b s n v; cbn [attributes]; [intros []|]. destruct (Nat.ltb _ _); [|intros []].
  destruct (match_at _ b s) as [st|] eqn:M; [|intros []]. specialize (IH e (s_before st) (s_after st) n v). destruct (attributes f e _ _) as [l k]. cbn [fst] in *. intros [E|I].
  - unfold attribute in E. injection E as _ E. destruct (group 2 (s_caps st)) as [[|? ?]|]; try discriminate. destruct (group 3 (s_caps st)) as [u|] eqn:G; [|discriminate]. cbn [option_map] in E. injection E as E.
    destruct (group_placed _ _ _ _ _ _ M G) as (x & y & ->). destruct (unquoted_in u) as (x' & y' & U). rewrite E in U. exists (x ++ x'), (y' ++ y). rewrite U, <- !app_assoc. reflexivity.
  - apply match_over in M as (_ & w & O & _). rewrite <- (over_whole _ _ _ _ _ O). exact (IH I).
Qed.
Lemma starttag_moves cd b s : moves cd b s (parse_starttag b s).
Proof.
  unfold parse_starttag. assert (M := whole_moves b s). destruct (whole_start_tag b s) as [| |d cd0 b' s']; [exact I|exact I|]. destruct M as [_ (w & W & O)].
  destruct (skip_chars 1 b s) as [b1 s1] eqn:K. destruct (match_at _ b1 s1) as [st|] eqn:T; [|exact I]. cbv zeta.
  assert (P := attributes_placed (length s) (length s') (s_before st) (s_after st)). destruct (attributes _ _ _ _) as [l k]. cbn [fst] in P.
  apply skip_over in K as (u & O1 & _). apply match_over in T as (_ & v & O2 & _). rewrite (over_whole _ _ _ _ _ O2), (over_whole _ _ _ _ _ O1) in P.
  destruct (streqb _ ($">")).
  { split; [|exists w; repeat split; [exact W|apply O|apply O|left; reflexivity|repeat constructor; exact P]]. intros _. destruct (mem_str _ cdata_content_elements) eqn:E; [|exact I]. apply mem_str_In in E. exact E. }
  destruct (streqb _ _); (split; [intros _; exact I|]); exists w; rewrite ?(between_over _ _ _ _ _ O); repeat split; auto; try apply O; repeat constructor; exact P.
Qed.
Lemma not_nil_end {A} (w : list A) x : w ++ [x] <> [].
Proof. intros E. apply app_eq_nil in E as [_ E]. discriminate. Qed.
Lemma endtag_moves cd b s : moves cd b s (parse_endtag cd b s).
Proof.
  unfold parse_endtag. destruct (after_gt b s) as [[b' s']|] eqn:G; [|exact I]. apply after_gt_some in G as (w & O & _). assert (W := not_nil_end w 62%N).
  destruct (match_at endtagfind b s) as [st|].
  - cbv zeta. destruct cd as [e|]; [|split; [auto|]; exists (w ++ [62%N]); repeat split; auto; try apply O; no_attrs].
    destruct (streqb _ e); (split; [cbn; auto|]); exists (w ++ [62%N]); rewrite ?(between_over _ _ _ _ _ O); repeat split; auto; try apply O; no_attrs.
  - destruct cd as [e|]; [split; [auto|]; exists (w ++ [62%N]); rewrite (between_over _ _ _ _ _ O); repeat split; auto; try apply O; no_attrs|].
    destruct (skip_chars 2 b s) as [b2 s2] eqn:K. destruct (match_at _ b2 s2) as [st|] eqn:M; [|split; [auto|]; exists (w ++ [62%N]); repeat split; auto; try apply O; no_attrs].
    destruct (after_gt (s_before st) (s_after st)) as [[b3 s3]|] eqn:G; [|exact I]. apply after_gt_some in G as (v & O3 & _).
    apply skip_over in K as (u & O2 & _). apply match_over in M as (_ & t & O4 & _). split; [auto|]. exists (u ++ (t ++ v ++ [62%N])).
    split; [rewrite !app_assoc; apply not_nil_end|]. split; [exact (over_trans _ _ _ _ _ _ _ _ O2 (over_trans _ _ _ _ _ _ _ _ O4 O3))|]. split; [left; reflexivity|no_attrs].
Qed.
Lemma comment_moves cd b s : moves cd b s (parse_comment cd b s).
Proof.
  unfold parse_comment. destruct (skip_chars 4 b s) as [b4 s4] eqn:K. destruct (search_at _ b4 s4) as [st|] eqn:M; [|exact I].
  apply skip_over in K as (u & O & _). apply search_consumes in M as (w & W & O2). split; [auto|]. exists (u ++ w). split; [|split; [exact (over_trans _ _ _ _ _ _ _ _ O O2)|split; [left; reflexivity|no_attrs]]].
  intros E. apply app_eq_nil in E as [_ E]. exact (W E).
Qed.
Lemma gt_moves cd n b s : moves cd b s (let '(b2, s2) := skip_chars n b s in goes_to cd (after_gt b2 s2)).
Proof.
  destruct (skip_chars n b s) as [b2 s2] eqn:K. apply skip_over in K as (u & O & _). destruct (after_gt b2 s2) as [[b' s']|] eqn:G; [|exact I].
  apply after_gt_some in G as (w & O2 & _). split; [auto|]. exists (u ++ (w ++ [62%N])). split; [rewrite app_assoc; apply not_nil_end|]. split; [exact (over_trans _ _ _ _ _ _ _ _ O O2)|auto].
Qed.
Lemma section_moves cd b s : moves cd b s (parse_marked_section cd b s).
Proof.
  unfold parse_marked_section. destruct (skip_chars 3 b s) as [b3 s3] eqn:K. apply skip_over in K as (u & O & _). destruct s3 as [|c s3]; [exact I|].
  destruct (match_at declname b3 (c :: s3)) as [st|]; [|exact I]. destruct (s_after st); [exact I|]. cbv zeta.
  assert (G : forall ci neg l r, moves cd b s (match search_at (Cat (Chr ci neg l) r) b3 (c :: s3) with Some st' => Goes [] cd (s_before st') (s_after st') | None => Waits end)).
  { intros ci neg l0 r. destruct (search_at _ b3 (c :: s3)) as [st'|] eqn:M; [|exact I]. apply search_consumes in M as (w & W & O2). split; [auto|]. exists (u ++ w). split; [|split; [exact (over_trans _ _ _ _ _ _ _ _ O O2)|auto]].
    intros E. apply app_eq_nil in E as [_ E]. exact (W E). }
  destruct (mem_str _ [$"temp"; _; _; _; _]); [apply G|]. destruct (mem_str _ _); [apply G|exact I].
Qed.
Lemma declaration_moves cd b s : moves cd b s (parse_html_declaration cd b s).
Proof. unfold parse_html_declaration. destruct (startswith _ s); [apply section_moves|]. destruct (streqb _ _); apply gt_moves. Qed.

(** ** When they raise *)
Lemma starttag_raises b c r : letter c = true -> parse_starttag b (60%N :: c :: r) <> Raises.
Proof.
  intros H. unfold parse_starttag, whole_start_tag.
  assert (M : match_at locatestarttagend_tolerant b (60%N :: c :: r) <> None).
  { unfold match_at, locatestarttagend_tolerant. rewrite Regexp_cat. rewrite ways_chr by reflexivity. cbn [flat_map]. rewrite app_nil_r.
    match goal with |- hd_error ?l <> None => assert (K : l <> []) end.
    { rewrite needs_char by reflexivity. rewrite class_letter, H. discriminate. }
    destruct (ways _ _); [congruence|discriminate]. }
  assert (T : match_at tagfind_tolerant (60%N :: b) (c :: r) <> None).
  { unfold match_at, tagfind_tolerant. destruct (ways _ _) eqn:E; [|discriminate]. exfalso. revert E. rewrite Regexp_cat. intros E.
    assert (K : ways (Grp 1 (Cat (Chr false false [IRange 97 122; IRange 65 90]) (Rep true 0 None (Chr false true [IChar 9; IChar 10; IChar 13; IChar 12; IChar 32; IChar 47; IChar 62; IChar 0])))) (mkS (60%N :: b) (c :: r) []) <> []).
    { change (map (fun st' => mkS (s_before st') (s_after st') ((1, consumed (mkS (60%N :: b) (c :: r) []) st') :: s_caps st')) (ways (Cat (Chr false false [IRange 97 122; IRange 65 90]) (Rep true 0 None (Chr false true [IChar 9; IChar 10; IChar 13; IChar 12; IChar 32; IChar 47; IChar 62; IChar 0]))) (mkS (60%N :: b) (c :: r) [])) <> []).
      intros Z. apply map_eq_nil in Z. revert Z. rewrite needs_char by reflexivity. rewrite class_letter, H. discriminate. }
    destruct (ways (Grp _ _) _) as [|x l] in E, K; [congruence|]. cbn [flat_map] in E. apply app_eq_nil in E as [E _]. revert E. apply easy_ways. reflexivity. }
  destruct (match_at locatestarttagend_tolerant b _) as [st|]; [|congruence].
  assert (G : forall b' s', match skip_chars 1 b (60%N :: c :: r) with (b1, s1) => match match_at tagfind_tolerant b1 s1 with None => Raises | Some st0 =>
     let tag := lower (match group 1 (s_caps st0) with Some n => n | None => [] end) in
          let '(attrs, k) := attributes (length (60%N :: c :: r)) (length s') (s_before st0) (s_after st0) in
          let end_ := strip (between k s') in
          if streqb end_ ($">") then Goes [OnStart tag attrs] (if mem_str tag cdata_content_elements then Some tag else None) b' s'
          else if streqb end_ ($"/>") then Goes [OnStart tag attrs; OnEnd tag] None b' s'
          else Goes [OnData (between (60%N :: c :: r) s')] None b' s' end end <> Raises).
  { intros b' s'. cbn [skip_chars]. destruct (match_at tagfind_tolerant _ _); [|congruence]. cbv zeta. destruct (attributes _ _ _ _) as [attrs k]. destruct (streqb _ _); [discriminate|]. destruct (streqb _ _); discriminate. }
  destruct (s_after st) as [|d t]; [discriminate|]. destruct (N.eqb d 62); [apply G|]. destruct (N.eqb d 47).
  - destruct t as [|e t]; [discriminate|]. destruct (N.eqb e 62); [apply G|discriminate].
  - destruct (letter d || N.eqb d 61); [discriminate|apply G].
Qed.
(** A name has no >. *)
Definition no_gt (ci neg : bool) (l : list item) : bool :=
  if neg then negb ci && existsb (fun i => match i with IChar c => N.eqb c 62 | _ => false end) l
  else negb ci && forallb (fun i => match i with IChar c => negb (N.eqb c 62) | IRange a b => N.ltb 62 a || N.ltb b 62 | ISpace => true | _ => false end) l.
Lemma no_gt_class ci neg l c : no_gt ci neg l = true -> class_in no_char no_char ci neg l c = true -> c <> 62%N.
Proof.
  unfold no_gt, class_in. destruct ci, neg; cbn [negb andb orb]; try discriminate.
  - intros H K ->. rewrite orb_false_r in K. apply negb_true_iff in K. cbn [negb xorb] in K.
    apply existsb_exists in H as (i & I & H). destruct i; try discriminate. apply N.eqb_eq in H. subst.
    assert (T : existsb (item_in no_char no_char 62) l = true) by (apply existsb_exists; exists (IChar 62); split; [exact I|reflexivity]). rewrite T in K. discriminate.
  - intros H K ->. rewrite orb_false_r in K. cbn [xorb] in K. destruct (existsb _ l) eqn:E; [|discriminate]. apply existsb_exists in E as (i & I & E).
    rewrite forallb_forall in H. specialize (H i I). destruct i; cbn [item_in] in E; try discriminate.
    + apply N.eqb_eq in E. subst. discriminate.
    + apply andb_true_iff in E as [E F]. apply N.leb_le in E, F. apply orb_true_iff in H as [H|H]; apply N.ltb_lt in H; lia.
Qed.
Lemma tagfind_no_gt b s st w : match_at tagfind_tolerant b s = Some st -> over b s (s_before st) (s_after st) w -> ~ In 62%N w.
Proof.
  intros H O. apply match_over in H as (I & v & O2 & X). assert (E : v = w) by (destruct O as [O _], O2 as [O2 _]; rewrite O in O2; exact (eq_sym (app_inv_tail _ _ _ O2))). subst v.
  assert (F := ways_only _ _ (fun c => c <> 62%N) no_gt no_gt_class tagfind_tolerant eq_refl _ _ _ I X). rewrite Forall_forall in F. intros K. exact (F _ K eq_refl).
Qed.
Lemma endtag_raises cd b s : startswith ($"</") s = true -> parse_endtag cd b s <> Raises.
Proof.
  intros S. apply startswith_app in S as [t ->]. change ($"</" ++ t) with (60%N :: 47%N :: t).
  unfold parse_endtag. destruct (after_gt b _) as [[b' s']|] eqn:G; [|discriminate].
  destruct (match_at endtagfind b _) as [st|].
  - cbv zeta. destruct cd as [e|]; [destruct (streqb _ e)|]; discriminate.
  - destruct cd as [e|]; [discriminate|]. cbn [skip_chars]. destruct (match_at tagfind_tolerant _ t) as [st|] eqn:M; [|discriminate].
    destruct (after_gt (s_before st) (s_after st)) as [[b3 s3]|] eqn:G3; [discriminate|]. exfalso.
    destruct (proj2 (match_over _ _ _ _ M)) as (w & O & _). assert (K := tagfind_no_gt _ _ _ _ M O).
    apply after_gt_none in G3. assert (N : ~ In 62%N (60%N :: 47%N :: t)).
    { destruct O as [-> _]. intros [Z|[Z|Z]]; [discriminate|discriminate|]. apply in_app_or in Z as [Z|Z]; auto. }
    apply (after_gt_none b) in N. congruence.
Qed.
Lemma comment_raises cd b s : parse_comment cd b s <> Raises.
Proof. unfold parse_comment. destruct (skip_chars _ _ _). destruct (search_at _ _ _); discriminate. Qed.
Lemma gt_raises cd n b s : (let '(b2, s2) := skip_chars n b s in goes_to cd (after_gt b2 s2)) <> Raises.
Proof. destruct (skip_chars _ _ _). unfold goes_to. destruct (after_gt _ _) as [[? ?]|]; discriminate. Qed.
Lemma declaration_raises cd b s : parse_html_declaration cd b s = Raises -> startswith ($"<![") s = true.
Proof.
  unfold parse_html_declaration. destruct (startswith _ s); [reflexivity|]. destruct (streqb _ _); intros H; exfalso; [exact (gt_raises cd 9 b s H)|exact (gt_raises cd 2 b s H)].
Qed.

(** ** The whole parser *)
Lemma in_order_after l s x : in_order l s -> in_order l (x ++ s).
Proof. intros H. destruct H as [s|y c l r H]; [constructor|]. rewrite app_assoc. constructor. exact H. Qed.
Lemma in_order_cons c l s : in_order l s -> in_order (c :: l) (c ++ s).
Proof. exact (next_one [] c l s). Qed.
Lemma texts_app a b : texts (a ++ b) = texts a ++ texts b.
Proof. apply flat_map_app. Qed.
Definition some_data (t : str) : list event := match t with [] => [] | _ => [OnData t] end.
Lemma texts_some t : texts (some_data t) = some_text t.
Proof. destruct t; reflexivity. Qed.
Definition good (l : list event) (e : finish) (s : str) : Prop :=
  in_order (texts l) s /\ Forall (fun c => c <> []) (texts l) /\ e <> NoFuel /\ (e = Failed -> exists x y, s = x ++ $"<![" ++ y).
Lemma good_after l e s x : good l e s -> good l e (x ++ s).
Proof.
  intros (A & B & C & D). split; [apply in_order_after, A|]. split; [exact B|]. split; [exact C|]. intros H. destruct (D H) as (y & z & ->). exists (x ++ y), z. rewrite app_assoc. reflexivity.
Qed.
Lemma good_data d l e s w : good l e s -> texts d = [] \/ texts d = [w] -> w <> [] -> good (d ++ l) e (w ++ s).
Proof.
  intros (A & B & C & D) E W. unfold good. rewrite texts_app. split; [|split; [|split; [exact C|intros H; destruct (D H) as (y & z & ->); exists (w ++ y), z; rewrite app_assoc; reflexivity]]].
  - destruct E as [E|E]; rewrite E; [apply in_order_after, A|apply in_order_cons, A].
  - destruct E as [E|E]; rewrite E; [exact B|constructor; assumption].
Qed.
Lemma good_pre l e s pre : good l e s -> good (some_data pre ++ l) e (pre ++ s).
Proof. intros G. destruct pre as [|c pre]; [exact G|]. apply good_data; [exact G|right; reflexivity|discriminate]. Qed.
Lemma good_done s r : good [] (Done r) s.
Proof. split; [constructor|]. split; [constructor|]. split; discriminate. Qed.
Lemma good_one s r w : w <> [] -> good [OnData w] (Done r) (w ++ s).
Proof. intros W. apply (good_data [OnData w] [] _ s w); [apply good_done|right; reflexivity|exact W]. Qed.

(** How much a match takes at least. *)
Fixpoint least (r : re) : nat :=
  match r with
  | Chr _ _ _ => 1
  | Cat a b => least a + least b
  | Alt a b => Nat.min (least a) (least b)
  | Rep _ (S _) None a => least a
  | Grp _ a => least a
  | _ => 0
  end.
Lemma least_ways r : forall st st' w, In st' (ways r st) -> ext st st' w -> least r <= length w.
Proof.
  induction r as [|ci neg l| |a IHa b IHb|a IHa b IHb|g lo hi r IH|n r IH| | |neg|neg r IH|neg r IH]; intros st st' w H He; cbn [least]; try lia.
  - cbn [Regexp.ways] in H. apply step_In in H as (c & _ & H & _). rewrite (ext_det _ _ _ _ He H). cbn. lia.
  - rewrite Regexp_cat in H. apply in_flat_map in H as (x & Hx & H). destruct (ways_ext _ _ _ _ _ Hx) as [v Hv]. destruct (ways_ext _ _ _ _ _ H) as [u Hu].
    rewrite (ext_det _ _ _ _ He (ext_trans _ _ _ _ _ Hv Hu)), app_length. specialize (IHa _ _ _ Hx Hv). specialize (IHb _ _ _ H Hu). lia.
  - cbn [Regexp.ways] in H. apply in_app_or in H as [H|H]; [specialize (IHa _ _ _ H He)|specialize (IHb _ _ _ H He)]; lia.
  - destruct lo; [lia|]. destruct hi; [lia|]. cbn [Regexp.ways] in H. apply repeats_first in H as (x & Hx & H); [|discriminate].
    destruct (ways_ext _ _ _ _ _ Hx) as [v Hv]. assert (Hu : exists u, ext x st' u).
    { clear - H. induction H as [|a b c H _ IH']; [exists []; apply ext_refl|]. destruct (ways_ext _ _ _ _ _ H) as [v Hv]. destruct IH' as [u Hu]. eexists. eapply ext_trans; eauto. }
    destruct Hu as [u Hu]. rewrite (ext_det _ _ _ _ He (ext_trans _ _ _ _ _ Hv Hu)), app_length. specialize (IH _ _ _ Hx Hv). lia.
  - cbn [Regexp.ways] in H. apply in_map_iff in H as (x & <- & Hx). exact (IH _ _ _ Hx He).
Qed.
Lemma two_chars r b s st : match_at r b s = Some st -> 2 <= least r -> exists w, over b s (s_before st) (s_after st) w /\ 2 <= length w.
Proof. intros H L. apply match_over in H as (I & w & O & X). exists w. split; [exact O|]. apply (least_ways _ _ _ _ I) in X. lia. Qed.
Lemma class_i x c : (x < 65)%N -> class_in no_char no_char true false [IChar x] c = true -> c = x.
Proof.
  intros L H. unfold class_in, swapcase in H. cbn [existsb item_in xorb andb] in H. rewrite !orb_false_r in H. destruct (N.eqb_spec c x) as [E|N]; [exact E|]. exfalso.
  cbn [orb] in H. destruct (N.eqb_spec (if N.leb 65 c && N.leb c 90 then (c + 32)%N else if N.leb 97 c && N.leb c 122 then (c - 32)%N else c) x) as [K|K]; [|discriminate]. clear H. rename K into H. destruct (N.leb 65 c && N.leb c 90) eqn:A; [apply andb_true_iff in A as [A B]; apply N.leb_le in A, B; lia|].
  destruct (N.leb 97 c && N.leb c 122) eqn:B; [apply andb_true_iff in B as [B C]; apply N.leb_le in B, C; lia|congruence].
Qed.
Lemma interesting_lt e b t : In e cdata_content_elements -> nonempty (ways (interesting e) (mkS b t [])) = true -> exists r, t = 60%N :: 47%N :: r.
Proof.
  assert (G : forall r, nonempty (ways (Cat (Chr true false [IChar 60]) (Cat (Chr true false [IChar 47]) r)) (mkS b t [])) = true -> exists r, t = 60%N :: 47%N :: r).
  { intros r H. destruct (ways _ _) as [|st l] eqn:E; [discriminate|]. assert (I : In st (ways (Cat (Chr true false [IChar 60]) (Cat (Chr true false [IChar 47]) r)) (mkS b t []))) by (rewrite E; left; reflexivity).
    rewrite Regexp_cat in I. apply in_flat_map in I as (x & A & I). rewrite Regexp_cat in I. apply in_flat_map in I as (y & B & _).
    cbn [Regexp.ways] in A, B. apply step_In in A as (c & Hc & [A _] & _). apply step_In in B as (d & Hd & [B _] & _). cbn [s_after] in A. apply class_i in Hc, Hd; [|lia..]. subst c d.
    rewrite A, B. exists (s_after y). reflexivity. }
  intros [E|[E|[]]]; subst e; apply G.
Qed.

Theorem goahead_good fuel : forall cd b s, known cd -> length s < fuel -> good (fst (goahead fuel cd b s)) (snd (goahead fuel cd b s)) s.
Proof.
  induction fuel as [|f IH]; intros cd b s KC L; [lia|]. cbn [goahead].
  destruct (seek _ b s) as [pre place] eqn:S. change (match pre with [] => [] | _ :: _ => [OnData pre] end) with (some_data pre).
  destruct place as [[b1 s1]|].
  2:{ destruct cd; cbn [fst snd]; [apply good_done|]. apply seek_none in S. subst pre. destruct s as [|c s]; [apply good_done|]. cbn [some_data]. rewrite <- (app_nil_r (c :: s)) at 2. apply good_one. discriminate. }
  apply seek_some in S as [[-> ->] P]. rewrite app_length in L.
  assert (D : forall r, good (some_data pre) (Done r) (pre ++ s1)) by (intros r; rewrite <- (app_nil_r (some_data pre)); apply good_pre, good_done).
  destruct s1 as [|c r]; [apply D|].
  assert (GO : forall d cd' b' s' w, known cd' -> over (rev pre ++ b) (c :: r) b' s' w -> w <> [] -> texts d = [] \/ texts d = [w] ->
     good (fst (let '(l, e) := goahead f cd' b' s' in ((some_data pre ++ d) ++ l, e))) (snd (let '(l, e) := goahead f cd' b' s' in ((some_data pre ++ d) ++ l, e))) (pre ++ c :: r)).
  { intros d cd' b' s' w KC' [E _] W Hd. specialize (IH cd' b' s' KC'). rewrite E in L |- *. rewrite app_length in L.
    assert (0 < length w) by (destruct w; [congruence|cbn; lia]). destruct (goahead f cd' b' s') as [l e]. cbn [fst snd] in *. rewrite <- app_assoc. apply good_pre, good_data; [apply IH; lia|exact Hd|exact W]. }
  destruct (N.eqb_spec c 60) as [->|NC].
  - set (j := if match r with d :: _ => letter d | [] => false end then _ else _).
    assert (J : moves cd (rev pre ++ b) (60%N :: r) j /\ (j = Raises -> startswith ($"<![") (60%N :: r) = true)).
    { subst j. destruct r as [|d r].
      - vm_compute. split; [exact I|discriminate].
      - destruct (letter d) eqn:T; [split; [apply starttag_moves|intros K; destruct (starttag_raises _ _ _ T K)]|].
        destruct (startswith ($"</") _) eqn:S2; [split; [apply endtag_moves|intros K; destruct (endtag_raises _ _ _ S2 K)]|].
        destruct (startswith ($"<!--") _); [split; [apply comment_moves|intros K; destruct (comment_raises _ _ _ K)]|].
        destruct (startswith ($"<?") _); [split; [exact (gt_moves cd 2 _ _)|intros K; exact (False_ind _ (gt_raises cd 2 (rev pre ++ b) (60%N :: d :: r) K))]|].
        destruct (startswith ($"<!") _); [split; [apply declaration_moves|apply declaration_raises]|].
        split; [|discriminate]. split; [auto|]. exists [60%N]. split; [discriminate|]. split; [split; reflexivity|]. split; [right; reflexivity|no_attrs]. }
    destruct J as [M R]. destruct j as [| |d cd' b' s'].
    + apply D.
    + cbn [fst snd]. specialize (R eq_refl). apply startswith_app in R as [t E]. split; [apply (D [])|]. split; [apply (D [])|]. split; [discriminate|]. intros _. exists pre, t. rewrite E. reflexivity.
    + destruct M as (KC' & w & W & O & Hd & _). exact (GO d cd' b' s' w (KC' KC) O W Hd).
  - assert (c = 38%N).
    { destruct cd as [e|]; [apply interesting_lt in P as [q P]; [injection P as ->; congruence|exact KC]|]. apply orb_true_iff in P as [P|P]; apply N.eqb_eq in P; congruence. }
    subst c.
    assert (K : forall st w, over (rev pre ++ b) (38%N :: r) (s_before st) (s_after st) w -> 2 <= length w ->
      let res := match s_before st with
                 | x :: b' => if N.eqb x 59 then (let '(l, e) := goahead f cd (s_before st) (s_after st) in (some_data pre ++ l, e))
                              else (let '(l, e) := goahead f cd b' (x :: s_after st) in (some_data pre ++ l, e))
                 | [] => (some_data pre, Failed)
                 end in good (fst res) (snd res) (pre ++ 38%N :: r)).
    { intros st w O W. assert (exists v x, w = v ++ [x] /\ v <> []) as (v & x & -> & V).
      { destruct (@exists_last _ w) as (v & x & ->); [intros ->; cbn in W; lia|]. exists v, x. split; [reflexivity|]. intros ->. cbn in W. lia. }
      destruct O as [O1 O2]. rewrite rev_app_distr in O2. cbn [rev app] in O2. rewrite O2. cbv zeta. destruct (N.eqb x 59).
      - specialize (GO [] cd (x :: rev v ++ rev pre ++ b) (s_after st) (v ++ [x])). rewrite app_nil_r in GO. apply GO; [exact KC| |apply not_nil_end|left; reflexivity]. split; [exact O1|]. rewrite rev_app_distr. reflexivity.
      - specialize (GO [] cd (rev v ++ rev pre ++ b) (x :: s_after st) v). rewrite app_nil_r in GO. apply GO; [exact KC| |exact V|left; reflexivity]. split; [|reflexivity]. rewrite <- app_assoc in O1. exact O1. }
    destruct (startswith ($"&#") (38%N :: r)) eqn:A.
    + destruct (match_at charref _ _) as [st|] eqn:M.
      * apply two_chars in M as (w & O & W); [|vm_compute; lia]. exact (K st w O W).
      * destruct (mem_char 59%N (38%N :: r)); [|apply D]. apply startswith_app in A as [t E]. rewrite E. cbn [fst snd]. apply good_pre. apply good_one. discriminate.
    + destruct (match_at entityref _ _) as [st|] eqn:M.
      * apply two_chars in M as (w & O & W); [|vm_compute; lia]. exact (K st w O W).
      * destruct r as [|d r]; [apply D|]. destruct (letter d || N.eqb d 35); [apply D|].
        apply (GO [OnData ($"&")] cd _ (d :: r) [38%N] KC); [split; reflexivity|discriminate|right; reflexivity].
Qed.
(** Values of attributes stand in the document. *)
Lemma goahead_placed fuel : forall cd b s, known cd -> Forall (placed (rev b ++ s)) (fst (goahead fuel cd b s)).
Proof.
  induction fuel as [|f IH]; intros cd b s KC; [constructor|]. cbn [goahead].
  destruct (seek _ b s) as [pre place] eqn:S. change (match pre with [] => [] | _ :: _ => [OnData pre] end) with (some_data pre).
  assert (PRE : forall t, Forall (placed t) (some_data pre)) by (intros t; destruct pre; no_attrs).
  destruct place as [[b1 s1]|]; [|destruct cd; [constructor|apply PRE]].
  apply seek_some in S as [O P]. destruct s1 as [|c r]; [apply PRE|].
  assert (GO : forall d cd' b' s' w, known cd' -> over b1 (c :: r) b' s' w -> Forall (placed (rev b ++ s)) d ->
     Forall (placed (rev b ++ s)) (fst (let '(l, e) := goahead f cd' b' s' in ((some_data pre ++ d) ++ l, e)))).
  { intros d cd' b' s' w KC' O' Hd. specialize (IH cd' b' s' KC'). rewrite (over_whole _ _ _ _ _ O'), (over_whole _ _ _ _ _ O) in IH. destruct (goahead f cd' b' s') as [l e]. cbn [fst] in *.
    apply Forall_app. split; [apply Forall_app; split; [apply PRE|exact Hd]|exact IH]. }
  destruct (N.eqb_spec c 60) as [->|NC].
  - set (j := if match r with d :: _ => letter d | [] => false end then _ else _).
    assert (M : moves cd b1 (60%N :: r) j).
    { subst j. destruct r as [|d r]; [exact I|].
      destruct (letter d) eqn:T; [apply starttag_moves|].
      destruct (startswith ($"</") _) eqn:S2; [apply endtag_moves|].
      destruct (startswith ($"<!--") _); [apply comment_moves|].
      destruct (startswith ($"<?") _); [exact (gt_moves cd 2 _ _)|].
      destruct (startswith ($"<!") _); [apply declaration_moves|].
      split; [auto|]. exists [60%N]. split; [discriminate|]. split; [split; reflexivity|]. split; [right; reflexivity|no_attrs]. }
    destruct j as [| |d cd' b' s']; [apply PRE|apply PRE|]. destruct M as (KC' & w & W & O' & _ & Hd). rewrite (over_whole _ _ _ _ _ O) in Hd. exact (GO d cd' b' s' w (KC' KC) O' Hd).
  - assert (K : forall rx st, match_at rx b1 (c :: r) = Some st ->
      Forall (placed (rev b ++ s)) (fst (match s_before st with
                 | x :: b' => if N.eqb x 59 then (let '(l, e) := goahead f cd (s_before st) (s_after st) in (some_data pre ++ l, e))
                              else (let '(l, e) := goahead f cd b' (x :: s_after st) in (some_data pre ++ l, e))
                 | [] => (some_data pre, Failed)
                 end))).
    { intros rx st M. apply match_over in M as (_ & w & O2 & _). assert (T := over_whole _ _ _ _ _ O2). destruct (s_before st) as [|x b'] eqn:B; [apply PRE|].
      assert (N1 := IH cd (x :: b') (s_after st) KC). assert (N2 := IH cd b' (x :: s_after st) KC). rewrite T, (over_whole _ _ _ _ _ O) in N1. cbn [rev] in T. rewrite <- app_assoc in T. cbn [app] in T. rewrite T, (over_whole _ _ _ _ _ O) in N2.
      destruct (N.eqb x 59); [destruct (goahead f cd (x :: b') _)|destruct (goahead f cd b' _)]; apply Forall_app; split; auto. }
    destruct (startswith _ _).
    + destruct (match_at charref _ _) as [st|] eqn:M; [exact (K _ _ M)|]. destruct (mem_char _ _); [apply Forall_app; split; [apply PRE|no_attrs]|apply PRE].
    + destruct (match_at entityref _ _) as [st|] eqn:M; [exact (K _ _ M)|]. destruct r as [|d r]; [apply PRE|]. destruct (letter d || N.eqb d 35); [apply PRE|].
      apply (GO [OnData ($"&")] cd _ (d :: r) [c] KC); [split; reflexivity|no_attrs].
Qed.
Theorem events_placed s : Forall (placed s) (fst (html_events s)).
Proof. unfold html_events. assert (G := goahead_placed (S (length s)) None [] s I). destruct (goahead _ _ _ _). exact G. Qed.
(** The parser hands over texts that stand in the document, in their order; it comes to an end; and
    it raises only for documents with a marked section. *)
Theorem feed_good s : let '(l, raised) := html_feed s in
  in_order l s /\ Forall (fun c => c <> []) l /\ (raised = true -> exists x y, s = x ++ $"<![" ++ y).
Proof.
  unfold html_feed, html_events. assert (G := goahead_good (S (length s)) None [] s I ltac:(lia)). destruct (goahead _ _ _ _) as [l e]. cbn [fst snd] in G. destruct G as (A & B & C & D).
  split; [exact A|]. split; [exact B|]. destruct e; try discriminate; [intros _; exact (D eq_refl)|congruence].
Qed.
