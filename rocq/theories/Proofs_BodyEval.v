(** Proofs about the body evaluation rules. *)
From Coq Require Import Bool Arith Lia QArith Qabs Permutation Lqa.
From Verif Require Import PyStr PyDict Model_BodyEval Spec_BodyEval.
Open Scope nat_scope.

(** ** Words *)
Definition full (w : str) : bool := match w with [] => false | _ => true end.
Lemma resplit_words s : forall cur gap, (gap = true -> cur = []) -> filter full (resplit s cur gap) = words_aux s cur.
Proof.
  assert (R : forall (x : char) cur, full (rev (x :: cur)) = true) by (intros x cur; cbn [rev]; destruct (rev cur); reflexivity).
  induction s as [|x s IH]; intros cur gap G; cbn [resplit words_aux].
  - destruct cur as [|c cur]; [reflexivity|]. cbn [filter]. rewrite R. reflexivity.
  - destruct (is_space x).
    + destruct gap.
      * rewrite (G eq_refl). apply IH. reflexivity.
      * cbn [filter]. destruct cur as [|c cur]; [cbn [rev full]; apply IH; reflexivity|]. rewrite R. f_equal. apply IH. reflexivity.
    + apply IH. discriminate.
Qed.
Lemma tokens_words is_w low text : tokens is_w low text = words_in is_w low text.
Proof.
  unfold tokens, words_in, words. f_equal. rewrite <- (resplit_words text [] false) by discriminate. fold full. generalize (resplit text [] false). intros l.
  induction l as [|w l IH]; [reflexivity|]. cbn [map filter]. destruct w as [|c w]; [cbn [filter full]; exact IH|].
  change (full (c :: w)) with true. cbn [map]. generalize (filter is_w (c :: w)). intros [|y f]; cbn [filter full]; [exact IH|f_equal; exact IH].
Qed.

(** ** Counters *)
Definition cnt (d : counter) (w : str) : nat := match dget w d with Some n => n | None => 0 end.
Definition good (d : counter) : Prop := NoDup (dkeys d) /\ forall w n, dget w d = Some n -> 0 < n.
Lemma cnt_one d w x : cnt (count_one d w) x = cnt d x + (if streqb w x then 1 else 0).
Proof. unfold cnt, count_one. rewrite dget_dset. destruct (streqb_spec w x) as [->|]; [destruct (dget x d); lia|destruct (dget x d); lia]. Qed.
Lemma good_one d w : good d -> good (count_one d w).
Proof.
  intros [N P]. split; [apply dset_NoDup; exact N|]. intros x n. unfold count_one. rewrite dget_dset. destruct (streqb w x); [intros E; injection E as <-; lia|apply P].
Qed.
Lemma cnt_fold l : forall d x, cnt (fold_left count_one l d) x = cnt d x + occurrences x l.
Proof.
  induction l as [|w l IH]; intros d x; [cbn; lia|]. cbn [fold_left]. rewrite IH, cnt_one. unfold occurrences. cbn [count_occ].
  destruct (streqb_spec w x) as [->|NE]; [destruct (str_eq_dec x x); [lia|congruence]|]. destruct (str_eq_dec w x); [congruence|lia].
Qed.
Lemma good_fold l : forall d, good d -> good (fold_left count_one l d).
Proof. induction l as [|w l IH]; intros d G; [exact G|]. apply IH, good_one, G. Qed.
Lemma good_nil : good [].
Proof. split; [constructor|intros w n; discriminate]. Qed.
Lemma good_key d w : good d -> (In w (dkeys d) <-> 0 < cnt d w).
Proof.
  intros [N P]. unfold cnt. destruct (dget w d) as [n|] eqn:E.
  - split; [intros _; apply (P w n E)|]. intros _. apply dget_In in E. apply in_map_iff. exists (w, n). auto.
  - apply dget_None in E. split; [contradiction|lia].
Qed.

(** ** The walk *)
Fixpoint walks (id : ident) (i : nat) (l : list part) : list (ident * part) :=
  match l with [] => [] | p :: r => walk (i :: id) p ++ walks id (S i) r end.
Lemma walk_multi id t subs : walk id (Multi t subs) = (id, Multi t subs) :: walks id 0 subs.
Proof. cbn [walk]. f_equal. generalize 0. induction subs as [|p subs IH]; intros i; [reflexivity|]. cbn [walks]. f_equal. apply IH. Qed.
Definition part_rect' (P : part -> Prop) (HL : forall t x, P (Leaf t x)) (HM : forall t subs, Forall P subs -> P (Multi t subs)) : forall p, P p :=
  fix F (p : part) : P p :=
    match p with
    | Leaf t x => HL t x
    | Multi t subs => HM t subs ((fix G (l : list part) : Forall P l := match l with [] => Forall_nil _ | q :: r => Forall_cons _ (F q) (G r) end) subs)
    end.
Definition under (id x : ident) : Prop := exists pre, pre <> [] /\ x = pre ++ id.
Lemma under_not_self id x : under id x -> length id < length x.
Proof. intros (pre & N & ->). rewrite app_length. destruct pre; [congruence|cbn; lia]. Qed.
Lemma under_sub i id x : under (i :: id) x -> under id x.
Proof. intros (pre & N & ->). exists (pre ++ [i]). split; [destruct pre; discriminate|]. rewrite <- app_assoc. reflexivity. Qed.
Lemma under_two i j id x : under (i :: id) x -> under (j :: id) x -> i = j.
Proof.
  intros (a & _ & ->) (b & _ & E). apply (f_equal (@rev _)) in E. rewrite !rev_app_distr in E. cbn [rev] in E. rewrite <- !app_assoc in E.
  apply app_inv_head in E. cbn in E. congruence.
Qed.

Section W.
Variable is_w : char -> bool.
Variable low : str -> str.
Notation ext := (extract_metadata is_w low).
Definition tyb (b : bool) : str := if b then $"text/html" else $"text/plain".
Definition tk (b : bool) (st : local) : counter := if b then html_tokens st else text_tokens st.
Definition own (b : bool) (w : str) (p : part) : nat :=
  match p with Leaf t x => if streqb t (tyb b) then occurrences w (words_in is_w low x) else 0 | Multi _ _ => 0 end.
Definition alts (b : bool) (w : str) (p : part) : nat := occurrences w (flat_map (words_in is_w low) (alternatives (tyb b) p)).
Lemma ext_leaf id t x st :
  let st' := ext st (id, Leaf t x) in
  multiparts st' = multiparts st /\ forall b w, cnt (tk b st') w = cnt (tk b st) w + (if in_dec ident_eq_dec id (multiparts st) then own b w (Leaf t x) else 0).
Proof.
  cbn zeta. unfold extract_metadata. cbn [ty_of text_of sub_ids own].
  destruct (streqb_spec t ($"multipart/alternative")) as [->|NA].
  { cbn [multiparts tk text_tokens html_tokens]. rewrite app_nil_r. split; [reflexivity|]. intros [] w; cbn [tk text_tokens html_tokens tyb];
      rewrite ?(proj2 (streqb_neq ($"multipart/alternative") ($"text/html")) ltac:(discriminate)), ?(proj2 (streqb_neq ($"multipart/alternative") ($"text/plain")) ltac:(discriminate));
      destruct (in_dec ident_eq_dec id (multiparts st)); lia. }
  destruct (in_dec ident_eq_dec id (multiparts st)) as [I|I]; cbn [orb]; [|split; [reflexivity|intros; lia]].
  destruct x as [|c x].
  { cbn [orb]. split; [reflexivity|]. intros b w. destruct (streqb t (tyb b)); cbn; lia. }
  cbn [orb]. destruct (streqb_spec t ($"text/plain")) as [->|NP].
  - cbn [orb negb multiparts]. split; [reflexivity|]. intros [] w; cbn [tk text_tokens html_tokens tyb].
    + rewrite (proj2 (streqb_neq ($"text/plain") ($"text/html")) ltac:(discriminate)). lia.
    + rewrite streqb_refl, cnt_fold, tokens_words. reflexivity.
  - destruct (streqb_spec t ($"text/html")) as [->|NH]; cbn [orb negb multiparts].
    + split; [reflexivity|]. intros [] w; cbn [tk text_tokens html_tokens tyb].
      * rewrite streqb_refl, cnt_fold, tokens_words. reflexivity.
      * rewrite (proj2 (streqb_neq ($"text/html") ($"text/plain")) ltac:(discriminate)). lia.
    + split; [reflexivity|]. intros [] w; cbn [tyb]; [rewrite (proj2 (streqb_neq t ($"text/html")) NH)|rewrite (proj2 (streqb_neq t ($"text/plain")) NP)]; lia.
Qed.
Lemma ext_multi id t subs st : exists added, ext st (id, Multi t subs) = mkLoc (multiparts st ++ added) (text_tokens st) (html_tokens st) /\
  added = if streqb t ($"multipart/alternative") then map (fun i => i :: id) (seq 0 (length subs)) else [].
Proof.
  unfold extract_metadata. cbn [ty_of text_of sub_ids]. destruct (streqb t ($"multipart/alternative")).
  - eexists. split; reflexivity.
  - exists []. split; [|reflexivity]. rewrite orb_true_r. cbn [orb]. rewrite app_nil_r. destruct st; reflexivity.
Qed.
Definition spec_part (p : part) : Prop := forall id st, (forall x, In x (multiparts st) -> ~ under id x) ->
  let st' := fold_left ext (walk id p) st in
  (forall b w, cnt (tk b st') w = cnt (tk b st) w + (if in_dec ident_eq_dec id (multiparts st) then own b w p else 0) + alts b w p) /\
  exists added, multiparts st' = multiparts st ++ added /\ forall x, In x added -> under id x.
Lemma count_app w a b : occurrences w (a ++ b) = occurrences w a + occurrences w b.
Proof. unfold occurrences. apply count_occ_app. Qed.
Lemma walks_spec id l : Forall spec_part l -> forall i st (m : bool),
  (forall j x, i <= j -> In x (multiparts st) -> ~ under (j :: id) x) ->
  (forall j, i <= j < i + length l -> (In (j :: id) (multiparts st) <-> m = true)) ->
  let st' := fold_left ext (walks id i l) st in
  (forall b w, cnt (tk b st') w = cnt (tk b st) w + (if m then occurrences w (flat_map (words_in is_w low) (texts_among (tyb b) l)) else 0) +
     occurrences w (flat_map (words_in is_w low) (flat_map (alternatives (tyb b)) l))) /\
  exists added, multiparts st' = multiparts st ++ added /\ forall x, In x added -> under id x.
Proof.
  induction 1 as [|p l HP HF IH]; intros i st m F M.
  - cbn. split; [intros; destruct m; lia|]. exists []. split; [now rewrite app_nil_r|intros x []].
  - cbv zeta. cbn [walks]. rewrite fold_left_app. destruct (HP (i :: id) st) as [C (added & A & U)]; [intros x X; now apply F|].
    set (st1 := fold_left ext (walk (i :: id) p) st) in *.
    destruct (IH (S i) st1 m) as [C' (added' & A' & U')].
    + intros j x J X. rewrite A in X. apply in_app_iff in X. destruct X as [X|X]; [apply F; [lia|exact X]|].
      intros Y. apply U in X. pose proof (under_two _ _ _ _ X Y). lia.
    + intros j J. rewrite A, in_app_iff. rewrite <- (M j) by (cbn [length]; lia). split; [|auto]. intros [X|X]; [exact X|].
      apply U in X. apply under_not_self in X. cbn in X. lia.
    + split.
      * intros b w. rewrite C', C. unfold alts. cbn [flat_map]. unfold texts_among. cbn [flat_map].
        rewrite !flat_map_app, !count_app.
        assert (E : (if in_dec ident_eq_dec (i :: id) (multiparts st) then own b w p else 0) =
                    if m then occurrences w (flat_map (words_in is_w low) (match p with Leaf t x => if streqb t (tyb b) then [x] else [] | Multi _ _ => [] end)) else 0).
        { specialize (M i ltac:(cbn; lia)). destruct (in_dec ident_eq_dec (i :: id) (multiparts st)) as [I|I].
          - apply M in I. rewrite I. destruct p as [t x|]; [cbn [own]; destruct (streqb t (tyb b)); cbn; [rewrite app_nil_r|]; reflexivity|reflexivity].
          - destruct m; [exfalso; apply I, M; reflexivity|reflexivity]. }
        rewrite E. destruct m; [fold (texts_among (tyb b) l)|]; lia.
      * exists (added ++ added'). rewrite A', A, app_assoc. split; [reflexivity|]. intros x X. apply in_app_iff in X. destruct X as [X|X]; [|now apply U'].
        apply U in X. now apply under_sub in X.
Qed.
Lemma walk_spec p : spec_part p.
Proof.
  induction p as [t x|t subs IH] using part_rect'; intros id st F; cbv zeta.
  - cbn [walk fold_left]. destruct (ext_leaf id t x st) as [A C]. split.
    + intros b w. rewrite C. unfold alts. cbn. lia.
    + exists []. rewrite A, app_nil_r. split; [reflexivity|intros y []].
  - rewrite walk_multi. cbn [fold_left]. destruct (ext_multi id t subs st) as (added & E & Ea). rewrite E.
    set (st1 := mkLoc (multiparts st ++ added) (text_tokens st) (html_tokens st)).
    assert (U0 : forall x, In x added -> exists i, i < length subs /\ x = i :: id).
    { rewrite Ea. destruct (streqb t ($"multipart/alternative")); [|intros x []]. intros x X. apply in_map_iff in X. destruct X as (i & <- & I). apply in_seq in I. exists i. split; [lia|reflexivity]. }
    destruct (walks_spec id subs IH 0 st1 (streqb t ($"multipart/alternative"))) as [C (added' & A & U)].
    + intros j x _ X. cbn [st1 multiparts] in X. apply in_app_iff in X. destruct X as [X|X].
      * intros Y. apply under_sub in Y. now apply (F x).
      * intros Y. apply under_not_self in Y. destruct (U0 x X) as (i & _ & ->). cbn in Y. lia.
    + intros j J. cbn [st1 multiparts]. rewrite in_app_iff. split.
      * intros [X|X]; [exfalso; apply (F _ X); exists [j]; split; [discriminate|reflexivity]|]. rewrite Ea in X. destruct (streqb t ($"multipart/alternative")); [reflexivity|destruct X].
      * intros S. right. rewrite Ea, S. apply in_map_iff. exists j. split; [reflexivity|]. apply in_seq. lia.
    + split.
      * intros b w. rewrite C. unfold alts. cbn [alternatives own]. rewrite flat_map_app, count_app.
        replace (cnt (tk b st1) w) with (cnt (tk b st) w) by (destruct b; reflexivity).
        destruct (in_dec ident_eq_dec id (multiparts st)), (streqb t ($"multipart/alternative")); cbn; lia.
      * exists (added ++ added'). rewrite A. cbn [st1 multiparts]. rewrite app_assoc. split; [reflexivity|].
        intros x X. apply in_app_iff in X. destruct X as [X|X]; [|now apply U]. destruct (U0 x X) as (i & _ & ->). exists [i]. split; [discriminate|reflexivity].
Qed.
Lemma counts root b w : cnt (tk b (extract_all is_w low root)) w = occurrences w (words_of is_w low (tyb b) root).
Proof.
  destruct (walk_spec root [] check_start) as [C _]; [intros x []|]. unfold extract_all. rewrite C. unfold alts, words_of.
  destruct b; cbn; reflexivity.
Qed.
Definition good_st (st : local) : Prop := good (text_tokens st) /\ good (html_tokens st).
Lemma ext_good st e : good_st st -> good_st (ext st e).
Proof.
  destruct e as [id p]. intros [A B]. unfold extract_metadata. destruct (streqb (ty_of p) _); [split; assumption|].
  match goal with |- good_st (if ?c then _ else _) => destruct c end; [split; assumption|].
  destruct (streqb (ty_of p) _); (split; cbn [text_tokens html_tokens]; [first [assumption|apply good_fold; assumption]..]).
Qed.
Lemma all_good root : good_st (extract_all is_w low root).
Proof.
  unfold extract_all. assert (G : good_st check_start) by (split; apply good_nil). revert G. generalize check_start.
  induction (walk [] root) as [|e l IH]; intros st G; [exact G|]. cbn [fold_left]. apply IH, ext_good, G.
Qed.

(** ** The difference *)
Lemma occ_in w l : 0 < occurrences w l <-> In w l.
Proof. unfold occurrences. symmetry. apply count_occ_In. Qed.
Lemma same_length (a b : list str) : NoDup a -> NoDup b -> (forall x, In x a <-> In x b) -> length a = length b.
Proof. intros A B H. apply Permutation_length, NoDup_Permutation; assumption. Qed.
Section D.
Variable root : part.
Notation st := (extract_all is_w low root).
Notation HW := (words_of is_w low ($"text/html") root).
Notation TW := (words_of is_w low ($"text/plain") root).
Lemma html_cnt w : cnt (html_tokens st) w = occurrences w HW.
Proof. exact (counts root true w). Qed.
Lemma text_cnt w : cnt (text_tokens st) w = occurrences w TW.
Proof. exact (counts root false w). Qed.
Lemma html_len : length (html_tokens st) = distinct HW.
Proof.
  destruct (all_good root) as [_ G]. unfold distinct. rewrite <- (map_length fst). apply same_length; [apply G|apply NoDup_nodup|].
  intros x. fold (dkeys (html_tokens st)). rewrite (good_key _ x G), html_cnt, nodup_In, occ_in. reflexivity.
Qed.
Lemma text_len : length (text_tokens st) = distinct TW.
Proof.
  destruct (all_good root) as [G _]. unfold distinct. rewrite <- (map_length fst). apply same_length; [apply G|apply NoDup_nodup|].
  intros x. fold (dkeys (text_tokens st)). rewrite (good_key _ x G), text_cnt, nodup_In, occ_in. reflexivity.
Qed.
Lemma NoDup_map_filter {A B} (f : A -> B) (g : A -> bool) l : NoDup (map f l) -> NoDup (map f (filter g l)).
Proof.
  induction l as [|x l IH]; cbn [map filter]; [auto|]. intros H. apply NoDup_cons_iff in H. destruct H as [H1 H2]. destruct (g x); [|auto].
  cbn [map]. apply NoDup_cons; [|auto]. intros I. apply H1. apply in_map_iff in I. destruct I as (y & E & Y). apply filter_In in Y. apply in_map_iff. exists y. tauto.
Qed.
Lemma valid_len : valid_count st = length (filter (fun w => negb (occurrences w TW <? occurrences w HW)) (nodup str_eq_dec HW)).
Proof.
  destruct (all_good root) as [[GN GP] [HN HP]]. unfold valid_count. rewrite <- (map_length fst).
  apply same_length; [apply NoDup_map_filter; exact GN|apply NoDup_filter, NoDup_nodup|].
  intros x. rewrite in_map_iff, filter_In, nodup_In, negb_true_iff, Nat.ltb_ge. split.
  - intros ([y n] & E & I). cbn [fst] in E. subst y. apply filter_In in I. cbn [fst snd] in I. destruct I as [I C].
    apply (In_dget _ _ _ GN) in I. pose proof (text_cnt x) as T. pose proof (html_cnt x) as H. unfold cnt in T, H. rewrite I in T.
    destruct (dget x (html_tokens st)) as [h|] eqn:E; [|discriminate]. apply Nat.leb_le in C. split; [|lia]. apply occ_in. specialize (HP x h E). lia.
  - intros [I L]. apply occ_in in I. pose proof (text_cnt x) as T. pose proof (html_cnt x) as H. unfold cnt in T, H.
    destruct (dget x (text_tokens st)) as [n|] eqn:E; [|lia]. destruct (dget x (html_tokens st)) as [h|] eqn:E'; [|lia].
    exists (x, n). split; [reflexivity|]. apply filter_In. split; [now apply dget_In|]. cbn [fst snd]. rewrite E'. apply Nat.leb_le. lia.
Qed.
Lemma partition_len {A} (f : A -> bool) l : length (filter f l) + length (filter (fun x => negb (f x)) l) = length l.
Proof. induction l as [|x l IH]; [reflexivity|]. cbn [filter length]. destruct (f x); cbn [negb length]; lia. Qed.
Lemma q_pos n : n <> 0 -> (0 < q n)%Q.
Proof. intros H. unfold q. change 0%Q with (inject_Z 0). rewrite <- Zlt_Qlt. lia. Qed.
Lemma q_nonneg n : (0 <= q n)%Q.
Proof. unfold q. change 0%Q with (inject_Z 0). rewrite <- Zle_Qle. lia. Qed.
Lemma q_plus a b : (q (a + b) == q a + q b)%Q.
Proof. unfold q. rewrite Nat2Z.inj_add, inject_Z_plus. reflexivity. Qed.
Lemma percent_nonneg n m : (0 <= percent n m)%Q.
Proof.
  unfold percent. fold (q n) (q m). apply Qmult_le_0_compat; [|discriminate]. destruct (Nat.eq_dec m 0) as [->|M].
  - setoid_replace (q n / q 0)%Q with 0%Q by (unfold q, Qdiv; cbn; rewrite Qmult_0_r; reflexivity). apply Qle_refl.
  - apply Qle_shift_div_l; [now apply q_pos|]. rewrite Qmult_0_l. apply q_nonneg.
Qed.
Lemma madiff_exact : (madiff st == if distinct HW =? 0 then 0 else percent (lacking HW TW) (distinct HW))%Q.
Proof.
  unfold madiff. rewrite html_len, valid_len. pose proof (partition_len (fun w => occurrences w TW <? occurrences w HW) (nodup str_eq_dec HW)) as P.
  fold (lacking HW TW) in P. fold (distinct HW) in P. destruct (distinct HW) as [|n] eqn:D; [reflexivity|]. cbn [Nat.eqb].
  set (v := length (filter (fun w => negb (occurrences w TW <? occurrences w HW)) (nodup str_eq_dec HW))) in *.
  setoid_replace ((q (S n) - q v) / q (S n) * 100)%Q with (percent (lacking HW TW) (S n)).
  - apply Qabs_pos. apply percent_nonneg.
  - unfold percent. fold (q (S n)) (q (lacking HW TW)). rewrite <- P at 1. rewrite q_plus. field. intros E. pose proof (q_pos (S n) ltac:(discriminate)). rewrite E in H. now apply Qlt_irrefl in H.
Qed.
Lemma lacking_le html plain : lacking html plain <= distinct html.
Proof. unfold lacking, distinct. rewrite <- (partition_len (fun w => occurrences w plain <? occurrences w html) (nodup str_eq_dec html)). lia. Qed.
Lemma percent_le n m : n <= m -> (percent n m <= 100)%Q.
Proof.
  intros L. unfold percent. fold (q n) (q m). destruct (Nat.eq_dec m 0) as [->|M].
  - setoid_replace (q n / q 0 * 100)%Q with 0%Q by (unfold q, Qdiv; cbn; rewrite Qmult_0_r, Qmult_0_l; reflexivity). discriminate.
  - setoid_replace 100%Q with (1 * 100)%Q at 2 by reflexivity. apply Qmult_le_compat_r; [|discriminate].
    apply Qle_shift_div_r; [now apply q_pos|]. rewrite Qmult_1_l. unfold q. rewrite <- Zle_Qle. lia.
Qed.
Lemma madiff_range : (0 <= madiff st <= 100)%Q.
Proof.
  rewrite madiff_exact. destruct (distinct HW =? 0); [split; discriminate|]. split; [apply percent_nonneg|]. apply percent_le, lacking_le.
Qed.
Lemma percent_zero n m : m <> 0 -> (percent n m == 0)%Q -> n = 0.
Proof.
  intros M E. unfold percent in E. fold (q n) (q m) in E. pose proof (q_pos m M) as PM.
  assert (X : (q n == 0)%Q). { setoid_replace (q n) with ((q n / q m * 100) * (q m / 100))%Q by (field; intros Z; rewrite Z in PM; now apply Qlt_irrefl in PM). rewrite E. ring. }
  unfold q in X. change 0%Q with (inject_Z 0) in X. rewrite inject_Z_injective in X. lia.
Qed.
Lemma lacking_zero html plain : lacking html plain = 0 <-> forall w, occurrences w html <= occurrences w plain.
Proof.
  unfold lacking. split.
  - intros H w. destruct (Nat.le_gt_cases (occurrences w html) (occurrences w plain)) as [L|L]; [exact L|exfalso].
    assert (I : In w (filter (fun w => occurrences w plain <? occurrences w html) (nodup str_eq_dec html))).
    { apply filter_In. split; [apply nodup_In, occ_in; lia|apply Nat.ltb_lt; exact L]. }
    destruct (filter _ (nodup str_eq_dec html)); [destruct I|discriminate].
  - intros H. destruct (filter _ (nodup str_eq_dec html)) as [|w l] eqn:E; [reflexivity|exfalso].
    assert (I : In w (filter (fun w => occurrences w plain <? occurrences w html) (nodup str_eq_dec html))) by (rewrite E; left; reflexivity).
    apply filter_In in I. destruct I as [_ I]. apply Nat.ltb_lt in I. specialize (H w). lia.
Qed.
Lemma distinct_zero l : distinct l = 0 <-> l = [].
Proof.
  unfold distinct. destruct l as [|x l]; [split; reflexivity|]. split; [|discriminate]. intros H. exfalso.
  assert (I : In x (nodup str_eq_dec (x :: l))) by (apply nodup_In; left; reflexivity). destruct (nodup str_eq_dec (x :: l)); [destruct I|discriminate].
Qed.
Lemma madiff_zero : (madiff st == 0)%Q <-> forall w, occurrences w HW <= occurrences w TW.
Proof.
  rewrite madiff_exact. destruct (Nat.eqb_spec (distinct HW) 0) as [D|D].
  - apply distinct_zero in D. rewrite D. split; [intros _ w; cbn; lia|reflexivity].
  - rewrite <- lacking_zero. split; [now apply percent_zero|]. intros ->. unfold percent. change (inject_Z (Z.of_nat 0)) with 0%Q. unfold Qdiv. ring.
Qed.
Lemma between_iff a r b : between a r b = true <-> (a <= r <= b)%Q.
Proof. unfold between. rewrite andb_true_iff, !Qle_bool_iff. reflexivity. Qed.
Lemma difference_iff minr maxr : multipart_alternative_difference minr maxr st = true <->
  let d := if distinct HW =? 0 then 0%Q else percent (lacking HW TW) (distinct HW) in (minr <= d <= maxr)%Q.
Proof. unfold multipart_alternative_difference. rewrite between_iff. cbv zeta. rewrite <- madiff_exact. reflexivity. Qed.
Lemma count_iff ratio minhtml : multipart_alternative_difference_count ratio minhtml st = true <->
  (minhtml <= Z.of_nat (distinct HW))%Z /\ distinct HW <> 0 /\ (ratio * inject_Z (Z.of_nat (distinct HW)) < inject_Z (Z.of_nat (distinct TW)))%Q.
Proof.
  unfold multipart_alternative_difference_count. rewrite html_len, text_len. destruct (Z.ltb_spec (Z.of_nat (distinct HW)) minhtml) as [L|L].
  - split; [discriminate|]. intros [H _]. lia.
  - destruct (distinct HW) as [|n] eqn:D; [split; [discriminate|intros (_ & H & _); congruence]|].
    fold (q (S n)) (q (distinct TW)). pose proof (q_pos (S n) ltac:(discriminate)) as P. rewrite negb_true_iff. rewrite <- not_true_iff_false, Qle_bool_iff.
    split.
    + intros H. split; [exact L|]. split; [discriminate|]. apply Qnot_le_lt. intros X. apply H. apply Qle_shift_div_r; assumption.
    + intros (_ & _ & H) X. apply (Qlt_not_le _ _ H). setoid_replace (q (distinct TW)) with (q (distinct TW) / q (S n) * q (S n))%Q by (field; intros Z; rewrite Z in P; now apply Qlt_irrefl in P).
      apply Qmult_le_compat_r; [exact X|now apply Qlt_le_weak].
Qed.
End D.
End W.

(** ** Blank lines *)
Fixpoint blanks (start : bool) (s : str) : nat :=
  match s with
  | [] => 0
  | c :: s' => if N.eqb c 10 then (if start then 1 else 0) + blanks true s' else blanks false s'
  end.
Definition emptyb (l : str) : bool := match l with [] => true | _ => false end.
Lemma removelast_cons {A} (x : A) l : l <> [] -> removelast (x :: l) = x :: removelast l.
Proof. destruct l; [congruence|reflexivity]. Qed.
Lemma blanks_lines s : blank_lines s = blanks true s /\ length (filter emptyb (removelast (match split_char 10%N s with w :: l => (0%N :: w) :: l | [] => [] end))) = blanks false s.
Proof.
  unfold blank_lines, lines. fold emptyb. induction s as [|c s [IH1 IH2]]; [split; reflexivity|]. cbn [split_char blanks]. pose proof (split_char_nonempty 10%N s) as NE.
  destruct (N.eqb_spec c 10) as [->|NC].
  - split; (rewrite removelast_cons by exact NE); cbn [filter emptyb length]; lia.
  - destruct (split_char 10%N s) as [|w l]; [congruence|]. rewrite <- IH2. clear. split; destruct l; reflexivity.
Qed.
Lemma lines_count s : length (lines s) = line_count s.
Proof.
  unfold lines, line_count, count_char. induction s as [|c s IH]; [reflexivity|]. cbn [split_char filter]. rewrite (N.eqb_sym 10 c). pose proof (split_char_nonempty 10%N s) as NE.
  destruct (N.eqb c 10).
  - rewrite removelast_cons by exact NE. cbn [length]. now rewrite IH.
  - destruct (split_char 10%N s) as [|w l]; [congruence|]. rewrite <- IH. destruct l; reflexivity.
Qed.
Notation C := (count_sub [10%N; 10%N]).
Lemma C_two s : C (10%N :: 10%N :: s) = S (C s).
Proof. reflexivity. Qed.
Lemma C_one c s : c <> 10%N -> C (10%N :: c :: s) = C s.
Proof.
  intros H. unfold count_sub. change (count_aux [10%N; 10%N] (10%N :: c :: s) 0) with (if N.eqb 10 c && startswith [] s then S (count_aux [10%N;10%N] (c :: s) 1) else count_aux [10%N;10%N] (c :: s) 0).
  destruct (N.eqb_spec 10 c); [congruence|]. cbn [andb].
  change (count_aux [10%N; 10%N] (c :: s) 0) with (if N.eqb 10 c && startswith [10%N] s then S (count_aux [10%N;10%N] s 1) else count_aux [10%N;10%N] s 0).
  destruct (N.eqb_spec 10 c); [congruence|]. reflexivity.
Qed.
Lemma C_other c s : c <> 10%N -> C (c :: s) = C s.
Proof.
  intros H. unfold count_sub. change (count_aux [10%N; 10%N] (c :: s) 0) with (if N.eqb 10 c && startswith [10%N] s then S (count_aux [10%N;10%N] s 1) else count_aux [10%N;10%N] s 0).
  destruct (N.eqb_spec 10 c); [congruence|]. reflexivity.
Qed.
Lemma two_steps (P : str -> Prop) : P [] -> P [10%N] -> (forall c s, c <> 10%N -> P s -> P (c :: s)) -> (forall s, P s -> P (10%N :: 10%N :: s)) ->
  (forall c s, c <> 10%N -> P s -> P (10%N :: c :: s)) -> forall s, P s.
Proof.
  intros H0 H1 H2 H3 H4 s. assert (G : forall n s, length s <= n -> P s).
  { induction n as [|n IH]; intros t L; [destruct t; [exact H0|cbn in L; lia]|]. destruct t as [|c t]; [exact H0|].
    destruct (N.eq_dec c 10) as [->|NC]; [|apply H2; [exact NC|apply IH; cbn in L; lia]].
    destruct t as [|d t]; [exact H1|]. destruct (N.eq_dec d 10) as [->|ND]; [apply H3|apply H4; [exact ND|]]; apply IH; cbn in L; lia. }
  apply (G (length s)). lia.
Qed.
Lemma blanks_mono s : blanks false s <= blanks true s.
Proof. destruct s as [|c s]; [apply le_n|]. cbn. destruct (N.eqb c 10); lia. Qed.
Lemma eqb10 c : c <> 10%N -> N.eqb c 10 = false.
Proof. intros H. now apply N.eqb_neq. Qed.
Lemma blank_bounds s : C s <= blanks false s /\ blanks false s <= 2 * C s /\ blanks true s <= 2 * C s + 1.
Proof.
  induction s as [| |c s N IH|s IH|c s N IH] using two_steps; [vm_compute; lia|vm_compute; lia|rewrite C_other by exact N|rewrite C_two|rewrite C_one by exact N];
    cbn [blanks]; rewrite ?(eqb10 c) by exact N; rewrite ?N.eqb_refl; pose proof (blanks_mono s); lia.
Qed.
Lemma blank_exact s : (forall a b, s <> a ++ [10%N; 10%N; 10%N] ++ b) -> C s = blanks false s.
Proof.
  assert (T : forall c s, (forall a b, c :: s <> a ++ [10%N; 10%N; 10%N] ++ b) -> forall a b, s <> a ++ [10%N; 10%N; 10%N] ++ b) by (intros c t H a b E; apply (H (c :: a) b); rewrite E; reflexivity).
  induction s as [| |c s N IH|s IH|c s N IH] using two_steps; intros H; [reflexivity|reflexivity|rewrite C_other by exact N|rewrite C_two|rewrite C_one by exact N];
    cbn [blanks]; rewrite ?(eqb10 c) by exact N; rewrite ?N.eqb_refl.
  - apply IH, (T c), H.
  - rewrite IH by (apply (T 10%N), (T 10%N), H). destruct s as [|c s]; [reflexivity|]. cbn [blanks]. destruct (N.eqb_spec c 10) as [->|]; [|reflexivity].
    exfalso. apply (H [] s). reflexivity.
  - apply IH, (T c), (T 10%N), H.
Qed.
Lemma blank_count_bounds s : blank_line_count s <= blank_lines s <= 2 * blank_line_count s + 1.
Proof. unfold blank_line_count. destruct (blanks_lines s) as [-> _]. pose proof (blank_bounds s). pose proof (blanks_mono s). lia. Qed.
Lemma blank_count_exact s : (forall b, s <> 10%N :: b) -> (forall a b, s <> a ++ [10%N; 10%N; 10%N] ++ b) -> blank_line_count s = blank_lines s.
Proof.
  intros H T. unfold blank_line_count. destruct (blanks_lines s) as [-> _]. rewrite blank_exact by exact T. destruct s as [|c s]; [reflexivity|].
  cbn [blanks]. destruct (N.eqb_spec c 10) as [->|]; [exfalso; apply (H s); reflexivity|reflexivity].
Qed.
Lemma blank_ratio_iff minr maxr minlines s : check_blank_line_ratio minr maxr minlines s = true <->
  (minlines <= Z.of_nat (length (lines s)))%Z /\ lines s <> [] /\ (minr <= percent (blank_line_count s) (length (lines s)) <= maxr)%Q.
Proof.
  unfold check_blank_line_ratio. rewrite lines_count. assert (E : lines s <> [] <-> line_count s <> 0) by (rewrite <- lines_count; destruct (lines s); split; cbn; congruence).
  rewrite E. unfold percent. fold (q (blank_line_count s)) (q (line_count s)). destruct (Z.ltb_spec (Z.of_nat (line_count s)) (Z.max minlines 1)) as [L|L].
  - split; [discriminate|]. intros (H1 & H2 & _). lia.
  - rewrite between_iff. split; [intros H; repeat split; try lia; apply H|tauto].
Qed.
Lemma vertical_iff minr maxr s : tvd_vertical_words minr maxr s = true <->
  let spaces := length (filter is_space s) in let others := length (filter (fun c => negb (is_space c)) s) in
  others <> 0 /\ (minr <= percent spaces others <= maxr)%Q.
Proof.
  unfold tvd_vertical_words. cbv zeta. pose proof (partition_len is_space s) as P. replace (length s - length (filter is_space s)) with (length (filter (fun c => negb (is_space c)) s)) by (symmetry; rewrite <- P, Nat.add_comm; apply Nat.add_sub).
  destruct (length (filter (fun c => negb (is_space c)) s)) as [|n]; [split; [discriminate|intros [H _]; congruence]|].
  rewrite between_iff. unfold percent. fold (q (S n)) (q (length (filter is_space s))). split; [intros H; split; [discriminate|exact H]|tauto].
Qed.

(** ** Messages *)
Lemma brun_local is_w low l : forall s i, brun is_w low l s i = fold_left (fun st e => bstep is_w low e st) (map snd (filter (fun me => Nat.eqb i (fst me)) l)) (s i).
Proof.
  unfold brun. induction l as [|[j e] l IH]; intros s i; [reflexivity|]. cbn [fold_left filter fst snd]. rewrite IH. destruct (Nat.eqb i j); reflexivity.
Qed.
