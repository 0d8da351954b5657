(** Facts about [re.sub]. *)
From Verif Require Import PyStr Regexp Spec_Regexp RegexpSub Proofs_Regexp Proofs_RegexpLang.
From Coq Require Import Lia.
Open Scope nat_scope.

Section Sub.
Variable udigit uword : char -> bool.
Notation ways := (ways udigit uword).
Notation reads := (reads udigit uword).
Notation sub_from := (sub_from udigit uword).
Notation re_sub := (re_sub udigit uword).

Definition no_match (r : re) (b s : str) : Prop := forall w a, s = w ++ a -> ~ reads r b w a.
Definition never_empty (r : re) : Prop := forall b a, ~ reads r b [] a.

Lemma ways_nil r b s : ordered r = true -> (ways r (mkS b s []) = [] <-> no_match r b s).
Proof.
  intros O. split.
  - intros E w a -> R. apply (ways_reads udigit uword r O b w a []) in R as [k K]. rewrite E in K. destruct K.
  - intros N. destruct (ways r (mkS b s [])) as [|[b' a k] l] eqn:E; [reflexivity|]. exfalso.
    assert (K : In (mkS b' a k) (ways r (mkS b s []))) by (rewrite E; left; reflexivity).
    destruct (ways_moves udigit uword r _ _ K) as [w [W1 W2]]. cbn in W1, W2. subst b'.
    apply (N w a W1). apply (ways_reads udigit uword r O b w a []). exists k. rewrite <- W1. exact K.
Qed.
Lemma way_reads r b s st k : ordered r = true -> In st (ways r (mkS b s k)) -> exists w, s = w ++ s_after st /\ s_before st = rev w ++ b /\ reads r b w (s_after st) /\ consumed (mkS b s k) st = w.
Proof.
  intros O H. destruct (ways_moves udigit uword r _ _ H) as [w W]. exists w. pose proof (ext_consumed _ _ _ W) as C. destruct W as [W1 W2]. cbn in W1, W2.
  split; [exact W1|]. split; [exact W2|]. split; [|exact C]. apply (ways_reads udigit uword r O b w (s_after st) k). exists (s_caps st). rewrite <- W1, <- W2. destruct st. exact H.
Qed.

(** What [re.sub] makes of a text, for an expression that never accepts the empty text *)
Inductive replaced (r : re) (P : str -> Prop) : str -> str -> str -> Prop :=
| Rend b : replaced r P b [] []
| Rcopy b c s out : no_match r b (c :: s) -> replaced r P (c :: b) s out -> replaced r P b (c :: s) (c :: out)
| Rmatch b w a t out : w <> [] -> reads r b w a -> P t -> replaced r P (rev w ++ b) a out -> replaced r P b (w ++ a) (t ++ out).
Lemma sub_replaced repl (P : str -> Prop) r : ordered r = true -> never_empty r -> (forall st, P (repl st)) ->
  forall fuel b s, length s < fuel -> replaced r P b s (sub_from repl r fuel b s).
Proof.
  intros O N T. induction fuel as [|fuel IH]; intros b s L; [lia|]. cbn [RegexpSub.sub_from].
  destruct (ways r (mkS b s [])) as [|st l] eqn:E.
  - apply ways_nil in E; [|exact O]. destruct s as [|c s]; [constructor|]. constructor; [exact E|]. apply IH. cbn in L. lia.
  - assert (K : In st (ways r (mkS b s []))) by (rewrite E; left; reflexivity).
    destruct (way_reads r b s st [] O K) as (w & W1 & W2 & W3 & W4). rewrite W4. destruct w as [|c w]; [destruct (N _ _ W3)|].
    rewrite W1, W2. apply Rmatch; [discriminate|exact W3|apply T|]. apply IH. rewrite W1 in L. cbn [app length] in L. rewrite app_length in L. lia.
Qed.
Lemma re_sub_replaced repl (P : str -> Prop) r s : ordered r = true -> never_empty r -> (forall st, P (repl st)) -> replaced r P [] s (re_sub repl r s).
Proof. intros O N T. apply sub_replaced; auto. Qed.
Definition is_t (t : str) : str -> Prop := fun u => u = t.
Lemma re_sub_always t r s : ordered r = true -> never_empty r -> replaced r (is_t t) [] s (re_sub (always t) r s).
Proof. intros O N. apply re_sub_replaced; [exact O|exact N|]. intros st. reflexivity. Qed.

(** *** Steps *)
Lemma sub_copy repl r n b s : ordered r = true -> no_match r b s -> sub_from repl r (S n) b s = match s with [] => [] | c :: s' => c :: sub_from repl r n (c :: b) s' end.
Proof. intros O N. cbn [RegexpSub.sub_from]. apply ways_nil in N; [|exact O]. rewrite N. reflexivity. Qed.
Lemma sub_match repl r n b w a k : w <> [] -> first udigit uword r (mkS b (w ++ a) []) (mkS (rev w ++ b) a k) ->
  sub_from repl r (S n) b (w ++ a) = repl (mkS (rev w ++ b) a k) ++ sub_from repl r n (rev w ++ b) a.
Proof.
  intros W [l F]. cbn [RegexpSub.sub_from]. rewrite F.
  assert (X : ext (mkS b (w ++ a) []) (mkS (rev w ++ b) a k) w) by (split; reflexivity).
  rewrite (ext_consumed _ _ _ X). destruct w; [congruence|reflexivity].
Qed.
(** No match begins in [u] when [v] follows. *)
Definition no_match_in (r : re) (b u v : str) : Prop := forall x y, u = x ++ y -> y <> [] -> no_match r (rev x ++ b) (y ++ v).
Lemma sub_skip repl r v : ordered r = true -> forall u n b, length u <= n -> no_match_in r b u v ->
  sub_from repl r n b (u ++ v) = u ++ sub_from repl r (n - length u) (rev u ++ b) v.
Proof.
  intros O. induction u as [|c u IH]; intros n b L N; cbn [length app rev] in *; [rewrite Nat.sub_0_r; reflexivity|].
  destruct n as [|n]; [lia|]. rewrite (sub_copy repl r n b (c :: u ++ v) O).
  2:{ apply (N [] (c :: u)); [reflexivity|discriminate]. }
  rewrite IH; [|lia|].
  - cbn [Nat.sub]. rewrite <- !app_assoc. reflexivity.
  - intros x y -> Y. specialize (N (c :: x) y eq_refl Y). cbn [rev] in N. rewrite <- app_assoc in N. exact N.
Qed.
Lemma sub_none repl r : ordered r = true -> never_empty r -> forall s n b, length s < n -> no_match_in r b s [] -> sub_from repl r n b s = s.
Proof.
  intros O E s n b L N. rewrite <- (app_nil_r s) at 1. rewrite (sub_skip repl r [] O s n b); [|lia|exact N].
  replace (n - length s) with (S (n - length s - 1)) by lia. rewrite sub_copy; [apply app_nil_r|exact O|].
  intros w a H. symmetry in H. apply app_eq_nil in H as [-> ->]. apply E.
Qed.
Lemma re_sub_none repl r s : ordered r = true -> never_empty r -> ~ found udigit uword r s -> re_sub repl r s = s.
Proof.
  intros O E N. apply sub_none; auto. intros x y -> Y w a H R. apply N. exists x, w, a. rewrite app_nil_r in H, R. rewrite H. split; [reflexivity|exact R].
Qed.
Lemma sub_fuel repl r : ordered r = true -> never_empty r -> forall n m b s, length s < n -> length s < m -> sub_from repl r n b s = sub_from repl r m b s.
Proof.
  intros O E. induction n as [|n IH]; intros m b s L1 L2; [lia|]. destruct m as [|m]; [lia|]. cbn [RegexpSub.sub_from].
  destruct (ways r (mkS b s [])) as [|st l] eqn:W.
  - destruct s as [|c s]; [reflexivity|]. cbn in L1, L2. rewrite (IH m) by lia. reflexivity.
  - assert (K : In st (ways r (mkS b s []))) by (rewrite W; left; reflexivity).
    destruct (way_reads r b s st [] O K) as (w & W1 & W2 & W3 & W4). rewrite W4. destruct w as [|c w]; [destruct (E _ _ W3)|].
    rewrite W1 in L1, L2. cbn [app length] in L1, L2. rewrite app_length in L1, L2. rewrite (IH m) by lia. reflexivity.
Qed.
(** One match in the middle *)
Lemma re_sub_one repl r u w v k : ordered r = true -> never_empty r -> w <> [] -> no_match_in r [] u (w ++ v) ->
  first udigit uword r (mkS (rev u) (w ++ v) []) (mkS (rev w ++ rev u) v k) -> no_match_in r (rev w ++ rev u) v [] ->
  re_sub repl r (u ++ w ++ v) = u ++ repl (mkS (rev w ++ rev u) v k) ++ v.
Proof.
  intros O E W U F V. unfold RegexpSub.re_sub. rewrite !app_length. rewrite (sub_skip repl r (w ++ v) O u); [|lia|exact U].
  rewrite app_nil_r. replace (S (length u + (length w + length v)) - length u) with (S (length w + length v)) by lia.
  rewrite (sub_match repl r _ (rev u) w v k W F). f_equal. f_equal. apply sub_none; auto. destruct w; [congruence|cbn; lia].
Qed.
(** One match, of which only one text is possible *)
Lemma re_sub_unique t r u w v : ordered r = true -> never_empty r -> w <> [] -> no_match_in r [] u (w ++ v) ->
  reads r (rev u) w v -> (forall w' v', w ++ v = w' ++ v' -> reads r (rev u) w' v' -> w' = w) -> no_match_in r (rev w ++ rev u) v [] ->
  re_sub (always t) r (u ++ w ++ v) = u ++ t ++ v.
Proof.
  intros O E W U R Q V. apply (ways_reads udigit uword r O (rev u) w v []) in R as [k K].
  destruct (ways r (mkS (rev u) (w ++ v) [])) as [|st l] eqn:F; [destruct K|].
  assert (I : In st (ways r (mkS (rev u) (w ++ v) []))) by (rewrite F; left; reflexivity).
  destruct (way_reads r _ _ _ _ O I) as (w' & W1 & W2 & W3 & _). pose proof (Q w' (s_after st) W1 W3) as ->. apply app_inv_head in W1.
  destruct st as [sb sa sc]. cbn in W1, W2. subst sb sa. rewrite (re_sub_one (always t) r u w v sc O E W U); [reflexivity|exists l; exact F|exact V].
Qed.
(** A class of characters, each replaced *)
Lemma sub_class t ci neg l : forall s n b, length s < n -> sub_from (always t) (Chr ci neg l) n b s = flat_map (fun c => if class_in udigit uword ci neg l c then t else [c]) s.
Proof.
  induction s as [|c s IH]; intros n b L; (destruct n as [|n]; [cbn in L; lia|]).
  - reflexivity.
  - cbn [RegexpSub.sub_from Regexp.ways step s_after flat_map]. destruct (class_in udigit uword ci neg l c) eqn:K.
    + unfold consumed. cbn [s_after s_before length]. replace (S (length s) - length s) with 1 by lia. cbn [firstn]. unfold always at 1. f_equal. apply IH. cbn in L. lia.
    + cbn [app]. f_equal. apply IH. cbn in L. lia.
Qed.
Lemma re_sub_class t ci neg l s : re_sub (always t) (Chr ci neg l) s = flat_map (fun c => if class_in udigit uword ci neg l c then t else [c]) s.
Proof. apply sub_class. lia. Qed.
End Sub.
