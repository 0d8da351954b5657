(** Content types and addresses. *)
From Verif Require Import PyStr Regexp Spec_Regexp RegexpSub Model_Received Model_BayesChew Model_BayesTok Spec_BayesTok Spec_BayesChew Proofs_Regexp Proofs_RegexpLang Proofs_RegexpSub Proofs_BayesChew Proofs_BayesStop Proofs_BayesId.
From Coq Require Import Lia.
Open Scope nat_scope.

Section Type_.
Variable udigit uword : char -> bool.
Notation ways := (ways udigit uword).
Notation reads := (reads udigit uword).
Notation re_sub := (re_sub udigit uword).
Notation class_in := (class_in udigit uword).
Notation first := (first udigit uword).

(** ** The name of a parameter, in any case *)
Definition not_upper (x : char) : bool := negb (N.leb 65 x && N.leb x 90).
Lemma class_ci x c : not_upper x = true -> class_in true false [IChar x] c = true -> lower_char c = x.
Proof.
  unfold Regexp.class_in, not_upper. cbn [existsb item_in]. rewrite andb_true_l, !orb_false_r, xorb_false_l. intros U H. unfold lower_char. apply orb_true_iff in H as [H|H]; apply N.eqb_eq in H.
  - subst x. destruct (N.leb 65 c && N.leb c 90); [discriminate|reflexivity].
  - subst x. unfold swapcase in *. destruct (N.leb_spec 65 c), (N.leb_spec c 90), (N.leb_spec 97 c), (N.leb_spec c 122); cbn [andb] in *; try reflexivity; try lia.
    exfalso. destruct (N.leb_spec 65 (c - 32)), (N.leb_spec (c - 32) 90); cbn in U; try discriminate; lia.
Qed.
Lemma ci_class x c : lower_char c = x -> class_in true false [IChar x] c = true.
Proof.
  intros <-. unfold Regexp.class_in. cbn [existsb item_in]. rewrite andb_true_l, !orb_false_r, xorb_false_l. unfold lower_char, swapcase.
  destruct (N.leb 65 c && N.leb c 90); rewrite N.eqb_refl, ?orb_true_r; reflexivity.
Qed.
Lemma quote_class c : class_in true false [IChar 34; IChar 39] c = true <-> quote c.
Proof.
  unfold Regexp.class_in, quote. cbn [existsb item_in]. rewrite andb_true_l, !orb_false_r, xorb_false_l. rewrite !orb_true_iff, !N.eqb_eq.
  assert (S : swapcase c = 34%N \/ swapcase c = 39%N -> c = 34%N \/ c = 39%N).
  { unfold swapcase. destruct (N.leb_spec 65 c), (N.leb_spec c 90), (N.leb_spec 97 c), (N.leb_spec c 122); cbn [andb]; lia. }
  tauto.
Qed.
Lemma boundary_reads b w a : reads BOUNDARY b w a -> exists n t, w = n ++ t /\ lower n = $"boundary=".
Proof.
  intros R. repeat (destruct R as (? & ? & -> & (? & -> & C) & R); apply class_ci in C; [|reflexivity]; revert C).
  intros E8 E7 E6 E5 E4 E3 E2 E0 E1. eexists [_; _; _; _; _; _; _; _; _]. eexists. split; [reflexivity|]. unfold lower. cbn [map]. rewrite E0, E1, E2, E3, E4, E5, E6, E7, E8. reflexivity.
Qed.

(** A lazy run in a group *)
Lemma lazy_run_f (f : state -> list state) : forall w n b t k st', ~ In 10%N w -> length w <= n ->
  (forall u c v, w = u ++ c :: v -> f (mkS (rev u ++ b) (c :: v ++ t) k) = []) ->
  (exists l, f (mkS (rev w ++ b) t k) = st' :: l) ->
  exists m, flat_map f (repeats (ways Dot) false n 0 None (mkS b (w ++ t) k)) = st' :: m.
Proof.
  induction w as [|c w IH]; intros n b t k st' Hw Hn Hno [l Hf].
  - cbn [app rev] in *. destruct n as [|n]; cbn [repeats flat_map]; rewrite Hf; cbn; eauto.
  - cbn [length] in Hn. destruct n as [|n]; [lia|]. cbn [repeats app].
    assert (E : ways Dot (mkS b (c :: w ++ t) k) = [mkS (c :: b) (w ++ t) k]).
    { cbn [Regexp.ways]. unfold step. cbn [s_after s_before s_caps].
      destruct (N.eqb_spec c 10) as [->|_]; [exfalso; apply Hw; left; reflexivity|reflexivity]. }
    rewrite E. cbn [filter]. unfold progress at 1. cbn [s_after length].
    replace (length (w ++ t) =? S (length (w ++ t))) with false by (symmetry; apply Nat.eqb_neq; lia). cbn [negb flat_map app].
    pose proof (Hno [] c w eq_refl) as H0. cbn [rev app] in H0. rewrite H0. cbn [app]. rewrite app_nil_r. apply IH.
    + intros H. apply Hw. right. exact H.
    + lia.
    + intros u d v ->. specialize (Hno (c :: u) d v eq_refl). cbn [rev] in Hno. rewrite <- app_assoc in Hno. exact Hno.
    + exists l. cbn [rev] in Hf. rewrite <- app_assoc in Hf. exact Hf.
Qed.
Lemma flat_map_map {A B C} (f : B -> list C) (g : A -> B) l : flat_map f (map g l) = flat_map (fun x => f (g x)) l.
Proof. induction l as [|x l IH]; [reflexivity|]. cbn. rewrite IH. reflexivity. Qed.
Lemma quoted_first w q b t k : ~ In 10%N w -> ~ In 34%N w -> ~ In 39%N w -> quote q ->
  first (Cat (Grp 1 (Rep false 0 None Dot)) (Chr true false [IChar 34; IChar 39])) (mkS b (w ++ q :: t) k) (mkS (q :: rev w ++ b) t ((1, w) :: k)).
Proof.
  intros N1 N2 N3 Q. unfold Proofs_Regexp.first. cbn [Regexp.ways]. rewrite flat_map_map. cbn [s_after s_before s_caps].
  apply (lazy_run_f (fun x => step (class_in true false [IChar 34; IChar 39]) (mkS (s_before x) (s_after x) ((1, consumed (mkS b (w ++ q :: t) k) x) :: s_caps x)))).
  - exact N1.
  - rewrite app_length. cbn. lia.
  - intros u c v ->. unfold step. cbn [s_after s_before]. destruct (class_in true false [IChar 34; IChar 39] c) eqn:E; [|reflexivity]. exfalso.
    apply quote_class in E as [->| ->]; [apply N2|apply N3]; apply in_or_app; right; left; reflexivity.
  - assert (X : ext (mkS b (w ++ q :: t) k) (mkS (rev w ++ b) (q :: t) k) w) by (split; reflexivity). rewrite (ext_consumed _ _ _ X).
    unfold step. cbn [s_after s_before s_caps]. apply quote_class in Q. rewrite Q. eauto.
Qed.
Lemma search_skip r v : ordered r = true -> forall u b, no_match_in udigit uword r b u v -> search_from udigit uword r b (u ++ v) = search_from udigit uword r (rev u ++ b) v.
Proof.
  intros O. induction u as [|c u IH]; intros b N; [reflexivity|]. cbn [app search_from]. assert (W : ways r (mkS b (c :: u ++ v) []) = []).
  { apply ways_nil; [exact O|]. apply (N [] (c :: u)); [reflexivity|discriminate]. }
  rewrite W. cbn [rev]. rewrite <- app_assoc. apply IH. intros x y -> Y. specialize (N (c :: x) y eq_refl Y). cbn [rev] in N. rewrite <- app_assoc in N. exact N.
Qed.
Lemma boundary_first n q w q' b t : lower n = $"boundary=" -> quote q -> quote q' -> ~ In 10%N w -> ~ In 34%N w -> ~ In 39%N w ->
  exists bf, first BOUNDARY (mkS b (n ++ q :: w ++ q' :: t) []) (mkS bf t [(1, w)]).
Proof.
  intros N Q Q' W1 W2 W3. assert (L : length n = 9) by (rewrite <- (map_length lower_char); unfold lower in N; rewrite N; reflexivity).
  do 9 (destruct n as [|? n]; [discriminate|]). destruct n; [|discriminate]. unfold lower in N. cbn [map] in N. injection N as E1 E2 E3 E4 E5 E6 E7 E8 E9. eexists. unfold BOUNDARY. cbn [app].
  do 9 (eapply first_cat; [apply first_chr, ci_class; eassumption|]). eapply first_cat; [apply first_chr, quote_class; exact Q|]. apply quoted_first; assumption.
Qed.
Lemma boundary_absent v : ~ occurs ($"boundary=") (lower v) -> re_search udigit uword BOUNDARY v = None.
Proof.
  intros N. assert (K : matched (re_search udigit uword BOUNDARY v) = true -> False); [|destruct (re_search udigit uword BOUNDARY v); [destruct (K eq_refl)|reflexivity]].
  intros H. apply search_reads in H; [|reflexivity]. destruct H as (b & w & a & -> & R). apply boundary_reads in R as (n & t & -> & E). apply N. exists (lower b), (lower (t ++ a)).
  unfold lower in *. rewrite !map_app, E, <- app_assoc. reflexivity.
Qed.
Lemma boundary_found p n q w q' t : lower n = $"boundary=" -> quote q -> quote q' -> ~ In 10%N w -> ~ In 34%N w -> ~ In 39%N w -> ~ occurs ($"boundary=") (lower p ++ ($"boundary")) ->
  exists bf, re_search udigit uword BOUNDARY (p ++ n ++ q :: w ++ q' :: t) = Some (mkS bf t [(1, w)]).
Proof.
  intros N Q Q' W1 W2 W3 P. unfold re_search. rewrite search_skip; [|reflexivity|].
  - destruct (boundary_first n q w q' (rev p ++ []) t N Q Q' W1 W2 W3) as [bf [l F]]. exists bf. destruct n as [|c n]; [discriminate|]. cbn [app] in F |- *. cbn [search_from]. rewrite F. reflexivity.
  - intros x y -> Y u a E R. apply boundary_reads in R as (n' & t' & -> & N'). apply P.
    assert (L : length n = 9) by (rewrite <- (map_length lower_char); unfold lower in N; rewrite N; reflexivity).
    assert (L' : length n' = 9) by (rewrite <- (map_length lower_char); unfold lower in N'; rewrite N'; reflexivity).
    apply (f_equal lower) in E. unfold lower in *. rewrite !map_app, N, N' in E. rewrite map_app. rewrite <- !app_assoc in *.
    set (ly := map lower_char y) in *. assert (LY : ly <> []) by (unfold ly; destruct y; [congruence|discriminate]).
    change ($"boundary=") with (($"boundary") ++ [61%N]) in E at 1. rewrite <- app_assoc in E. rewrite app_assoc in E. apply app_eq_app in E as [l [[E _]|[E E']]].
    + exists (map lower_char x), l. f_equal. exact E.
    + destruct l as [|d l]; [exists (map lower_char x), []; rewrite !app_nil_r in *; f_equal; symmetry; exact E|].
      exfalso. apply (f_equal (@length _)) in E. rewrite !app_length in E. change (length ($"boundary=")) with 9 in E. change (length ($"boundary")) with 8 in E. destruct ly; [congruence|]. cbn in E. lia.
Qed.

(** ** The shape of a boundary *)
Lemma sep_class c : class_in false false [IChar 45; IChar 95; IChar 46; IChar 61] c = separator c.
Proof. unfold Regexp.class_in, separator. change ($"-_.=") with [45; 95; 46; 61]%N. cbn [existsb item_in]. rewrite andb_false_l, !orb_false_r, xorb_false_l. reflexivity. Qed.
Lemma hex_class c : class_in false false [IRange 97 102; IRange 65 70; IRange 48 57] c = any_hex c.
Proof.
  unfold Regexp.class_in, any_hex, low_hex, high_hex, digit. cbn [existsb item_in]. rewrite andb_false_l, !orb_false_r, xorb_false_l.
  destruct (N.leb 97 c && N.leb c 102), (N.leb 65 c && N.leb c 70), (N.leb 48 c && N.leb c 57); reflexivity.
Qed.
Lemma shape_inside mark w s : Forall (fun c => separator c = true) w -> shape mark true (w ++ s) = shape mark true s.
Proof. induction 1 as [|c w H F IH]; [reflexivity|]. cbn [app shape]. rewrite H. exact IH. Qed.
Lemma shape_outside mark s : match s with c :: _ => separator c = false | [] => True end -> shape mark true s = shape mark false s.
Proof. destruct s as [|c s]; [reflexivity|]. intros H. cbn [shape]. rewrite H. reflexivity. Qed.
Lemma sep_sub mark : forall n s b, length s < n -> (forall c, In c s -> any_hex c = false) -> sub_from udigit uword (always mark) SEPARATORS n b s = shape mark false s.
Proof.
  induction n as [|n IH]; intros s b L H; [lia|]. destruct s as [|c s]; [reflexivity|]. destruct (separator c) eqn:S.
  - set (w := c :: take_while separator s). set (t := drop_while separator s). assert (E : c :: s = w ++ t) by (unfold w, t; cbn [app]; f_equal; symmetry; clear; induction s as [|d s IH]; [reflexivity|]; cbn; destruct (separator d); [cbn; f_equal; exact IH|reflexivity]).
    assert (F : Forall (fun c => separator c = true) w) by (unfold w; constructor; [exact S|]; clear; induction s as [|d s IH]; [constructor|]; cbn; destruct (separator d) eqn:D; constructor; assumption).
    assert (T : match t with d :: _ => separator d = false | [] => True end) by (unfold t; clear; induction s as [|d s IH]; cbn; [exact I|]; destruct (separator d) eqn:D; [exact IH|exact D]).
    rewrite E. rewrite (sub_match udigit uword (always mark) SEPARATORS n b w t [(1, w)]).
    + unfold always at 1. rewrite IH; [| |].
      * change (shape mark false (w ++ t)) with (shape mark false ((c :: take_while separator s) ++ t)). cbn [app shape]. rewrite S. f_equal. inversion F; subst. rewrite shape_inside by assumption. symmetry. apply shape_outside. exact T.
      * rewrite E, app_length in L. unfold w in L. cbn in L. lia.
      * intros d D. apply H. rewrite E. apply in_or_app. right. exact D.
    + discriminate.
    + unfold SEPARATORS. apply (first_grp udigit uword 1 _ (mkS b (w ++ t) []) (mkS (rev w ++ b) t []) w).
      * rewrite <- (app_nil_r t). destruct t as [|d t0].
        -- apply (plus_first udigit uword false false _ w b [] [] []); [discriminate|apply (Forall_eqb w sep_class); exact F|reflexivity].
        -- apply (plus_first udigit uword false false _ w b (d :: t0) [] []); [discriminate|apply (Forall_eqb w sep_class); exact F|rewrite sep_class; exact T].
      * split; reflexivity.
  - cbn [shape]. rewrite S, (H c (or_introl eq_refl)). rewrite sub_copy; [|reflexivity|].
    + f_equal. apply IH; [cbn in L; lia|]. intros d D. apply H. right. exact D.
    + intros w a E R. destruct R as (m & M & _ & R). apply chr_times in R as [R1 R2]. destruct w as [|d w]; [cbn in R1; lia|]. cbn [app] in E. injection E as <- _. inversion R2 as [|? ? K _]; subst. rewrite sep_class in K. congruence.
Qed.
Lemma shape_hex mark s i : shape mark i (flat_map (fun c => if class_in false false [IRange 97 102; IRange 65 70; IRange 48 57] c then $"H" else [c]) s) = shape mark i s.
Proof.
  revert i. induction s as [|c s IH]; intros i; [reflexivity|]. cbn [flat_map]. rewrite hex_class. destruct (any_hex c) eqn:E.
  - change (($"H") ++ ?x) with (72%N :: x). cbn [shape]. change (separator 72) with false. change (any_hex 72) with false. rewrite E.
    destruct (separator c) eqn:S; [|f_equal; apply IH]. exfalso. unfold separator in S. apply existsb_exists in S as (d & D & K). apply N.eqb_eq in K. subst d. revert D. vm_compute. intros D. repeat (destruct D as [<-|D]; [discriminate E|]). exact D.
  - cbn [app shape]. rewrite !IH. reflexivity.
Qed.
Lemma boundary_shape w : re_sub (always [32; 1; 32]%N) SEPARATORS (re_sub (always ($"H")) HEX w) = shape [32; 1; 32]%N false w.
Proof.
  unfold HEX. rewrite re_sub_class. unfold RegexpSub.re_sub. rewrite sep_sub; [apply shape_hex|lia|].
  intros c C. apply in_flat_map in C as (d & _ & C). rewrite hex_class in C. destruct (any_hex d) eqn:E; [destruct C as [<-|[]]; reflexivity|destruct C as [<-|[]]; exact E].
Qed.
Lemma type_found p n q w q' t : lower n = $"boundary=" -> quote q -> quote q' -> ~ In 10%N w -> ~ In 34%N w -> ~ In 39%N w -> ~ occurs ($"boundary=") (lower p ++ ($"boundary")) ->
  let v := p ++ n ++ q :: w ++ q' :: t in
  (forall x, In x type_words -> ~ stands_alone (is_w uword) x (v ++ shape [32; 1; 32]%N false w)) ->
  chew_content_type udigit uword v = v ++ shape [32; 1; 32]%N false w.
Proof.
  intros N Q Q' W1 W2 W3 P v S. unfold chew_content_type. destruct (boundary_found p n q w q' t N Q Q' W1 W2 W3 P) as [bf B]. fold v in B. rewrite B. unfold grp. cbn [s_caps group Nat.eqb]. rewrite boundary_shape.
  apply re_sub_none; [reflexivity|apply some_never; reflexivity|]. change CT_STOP with (alone_re type_words). intros H. apply alone_found in H as (x & X & H); [|discriminate|apply type_are_words]. apply (S x X H).
Qed.
Lemma type_absent v : ~ occurs ($"boundary=") (lower v) -> (forall x, In x type_words -> ~ stands_alone (is_w uword) x v) -> chew_content_type udigit uword v = v.
Proof.
  intros N S. unfold chew_content_type. rewrite boundary_absent by exact N.
  apply re_sub_none; [reflexivity|apply some_never; reflexivity|]. change CT_STOP with (alone_re type_words). intros H. apply alone_found in H as (x & X & H); [|discriminate|apply type_are_words]. apply (S x X H).
Qed.

(** ** Addresses *)
Lemma addr_group : address_group (find_addr udigit uword).
Proof.
  intros line g H. unfold find_addr in H. destruct (re_search udigit uword ADDR line) as [st|] eqn:E; [|discriminate]. unfold re_search in E. apply search_In in E as (u & v & -> & K).
  apply group_In in H.
  destruct (ways_caps udigit uword (fun n a => Nat.eqb n 1 && match a with Cat (Rep true 1 None (Chr false false l)) _ => negb (existsb (item_in udigit uword 64) l) | _ => false end) ADDR) with (st := mkS (rev u ++ []) v []) (st' := st) (n := 1) (w := g) as [F|[_ (a & s1 & s2 & Q & W & X)]];
    [reflexivity|exact K|exact H|destruct F|].
  apply andb_true_iff in Q as [_ Q]. destruct a as [| | |a1 a2| | | | | | | |]; try discriminate. destruct a1 as [| | | | |gr lo hi a1| | | | | |]; try discriminate. destruct gr; [|discriminate]. destruct lo as [|[|lo]]; try discriminate. destruct hi; [discriminate|]. destruct a1 as [|ci neg l| | | | | | | | | |]; try discriminate. destruct ci; [discriminate|]. destruct neg; [discriminate|].
  change (In s2 (flat_map (ways a2) (ways (Rep true 1 None (Chr false false l)) s1))) in W. apply in_flat_map in W as (s3 & W3 & W). destruct (ways_moves udigit uword (Rep true 1 None (Chr false false l)) _ _ W3) as [x X3]. destruct (ways_moves udigit uword a2 _ _ W) as [y X2]. pose proof (ext_det _ _ _ _ X (ext_trans _ _ _ _ _ X3 X2)) as ->.
  assert (R : reads (Rep true 1 None (Chr false false l)) (s_before s1) x (s_after s3)).
  { apply (exact_sound udigit uword _ (ways_reads udigit uword (Rep true 1 None (Chr false false l)) eq_refl) s1 s3 x W3 X3). }
  destruct R as (m & M & _ & R). apply chr_times in R as [R1 R2]. destruct x as [|c x]; [cbn in R1; lia|]. exists c, (x ++ y). split; [reflexivity|]. intros ->. inversion R2 as [|? ? C _]; subst.
  unfold Regexp.class_in in C. rewrite andb_false_l, orb_false_r, xorb_false_l in C. rewrite C in Q. discriminate.
Qed.
End Type_.
