(** What the regular expressions of [PyRe] match, and what those made from address
    list entries compile to. *)
From Verif Require Import PyStr PyRe.

(** ** Languages *)
Definition item_lang (i : item) (x : str) : Prop :=
  match snd i with
  | QOne => exists c, x = [c] /\ atom_ok (fst i) c = true
  | QOpt => x = [] \/ exists c, x = [c] /\ atom_ok (fst i) c = true
  | QStar => forall c, In c x -> atom_ok (fst i) c = true
  end.
Fixpoint den (l : list item) (w : str) : Prop :=
  match l with
  | [] => w = []
  | i :: l' => exists a b, w = a ++ b /\ item_lang i a /\ den l' b
  end.

Lemma re_match_den l : forall s, re_match l s = true <-> exists w r, s = w ++ r /\ den l w.
Proof.
  induction l as [|[a q] l IH]; intros s.
  - cbn. split; [intros _; exists [], s; auto | reflexivity].
  - destruct q; cbn [re_match].
    + destruct s as [|c r].
      * split; [discriminate|]. intros (w & r & E & (x & y & -> & (c & -> & _) & _)). discriminate.
      * rewrite andb_true_iff, IH. split.
        -- intros (Ha & w & r' & -> & D). exists (c :: w), r'. split; [reflexivity|]. exists [c], w. split; [reflexivity|].
           split; [exists c; auto | exact D].
        -- intros (w & r' & E & (x & y & -> & (d & -> & Hd) & D)). injection E as -> ->. cbn [fst] in Hd. split; [exact Hd|]. exists y, r'. auto.
    + induction s as [|c s IHs].
      * rewrite orb_false_r, IH. split.
        -- intros (w & r & E & D). exists w, r. split; [exact E|]. exists [], w. split; [reflexivity|]. split; [intros c [] | exact D].
        -- intros (w & r & E & (x & y & -> & _ & D)). destruct x; [|discriminate]. destruct y; [|discriminate]. exists [], r. auto.
      * rewrite orb_true_iff, andb_true_iff, IHs, IH. split.
        -- intros [(w & r & E & D) | (Ha & w & r & -> & (x & y & -> & L & D))].
           ++ exists w, r. split; [exact E|]. exists [], w. split; [reflexivity|]. split; [intros d [] | exact D].
           ++ exists (c :: x ++ y), r. split; [reflexivity|]. exists (c :: x), y. split; [reflexivity|]. split; [|exact D].
              intros d [<- | Hd]; [exact Ha | exact (L d Hd)].
        -- intros (w & r & E & (x & y & -> & L & D)). destruct x as [|d x].
           ++ left. exists y, r. auto.
           ++ right. injection E as -> ->. split; [apply L; left; reflexivity|]. exists (x ++ y), r. split; [reflexivity|].
              exists x, y. split; [reflexivity|]. split; [|exact D]. intros e He. apply L. right. exact He.
    + rewrite orb_true_iff, IH. split.
      * intros [(w & r & E & D) | H].
        -- exists w, r. split; [exact E|]. exists [], w. split; [reflexivity|]. split; [left; reflexivity | exact D].
        -- destruct s as [|c s]; [discriminate|]. apply andb_true_iff in H as [Ha H]. apply IH in H as (w & r & -> & D).
           exists (c :: w), r. split; [reflexivity|]. exists [c], w. split; [reflexivity|]. split; [right; exists c; auto | exact D].
      * intros (w & r & E & (x & y & -> & [-> | (c & -> & Hc)] & D)).
        -- left. exists y, r. auto.
        -- right. subst s. cbn [app]. apply andb_true_iff. split; [exact Hc|]. apply IH. exists y, r. auto.
Qed.

Lemma search_items_den l : forall s, search_items l s = true <-> exists x w y, s = x ++ w ++ y /\ den l w.
Proof.
  induction s as [|c s IH]; cbn [search_items]; rewrite orb_true_iff, re_match_den.
  - split.
    + intros [(w & r & E & D) | H]; [exists [], w, r; auto | discriminate].
    + intros (x & w & y & E & D). left. destruct x; [|discriminate]. exists w, y. auto.
  - rewrite IH. split.
    + intros [(w & r & E & D) | (x & w & y & -> & D)]; [exists [], w, r; auto | exists (c :: x), w, y; auto].
    + intros (x & w & y & E & D). destruct x as [|d x]; [left; exists w, y; auto|]. right. injection E as -> ->. exists x, w, y. auto.
Qed.

(** ** Replacing *)
Lemma replace_step p r x s : p <> [] -> startswith p (x :: s) = false -> replace p r (x :: s) = x :: replace p r s.
Proof. intros Hp H. destruct p; [congruence|]. unfold replace. cbn [replace_aux]. rewrite H. reflexivity. Qed.
Lemma replace_skip' p r : forall q s, replace_aux p r (q ++ s) (length q) = replace_aux p r s 0.
Proof. induction q as [|x q IH]; intros s; [reflexivity|]. cbn. apply IH. Qed.
Lemma replace_hit x p r s : replace (x :: p) r ((x :: p) ++ s) = r ++ replace (x :: p) r s.
Proof.
  unfold replace. change ((x :: p) ++ s) with (x :: (p ++ s)). cbn [replace_aux].
  rewrite (startswith_self (x :: p) s : startswith (x :: p) (x :: p ++ s) = true). cbn [length]. rewrite Nat.sub_succ, Nat.sub_0_r.
  rewrite replace_skip'. reflexivity.
Qed.
Lemma replace_one x r s : replace [x] r s = concat (map (fun c => if N.eqb c x then r else [c]) s).
Proof.
  induction s as [|c s IH]; [reflexivity|]. cbn [map concat]. destruct (N.eqb_spec c x) as [-> | H].
  - rewrite (replace_hit x [] r s : replace [x] r (x :: s) = _), IH. reflexivity.
  - rewrite replace_step; [rewrite IH; reflexivity | discriminate|].
    destruct (startswith [x] (c :: s)) eqn:E; [|reflexivity]. apply startswith_app in E as [t E]. injection E as -> _. congruence.
Qed.

(** A text cut in chunks: [\d] or without a backslash; the chunks do not begin with [x]. *)
Definition chunk (x : char) (ch : str) : Prop :=
  (exists d, ch = [92%N; d]) \/ (~ In 92%N ch /\ hd 0%N ch <> x /\ ch <> []).
Lemma replace_chunks x r l : x <> 92%N -> Forall (chunk x) l ->
  replace [92%N; x] r (concat l) = concat (map (fun ch => if streqb ch [92%N; x] then r else ch) l).
Proof.
  intros Hx. induction l as [|ch l IH]; intros F; [reflexivity|]. inversion F as [|? ? Hc Fl]; subst. specialize (IH Fl).
  cbn [concat map].
  assert (Hd : forall s, concat l = s -> startswith [92%N; x] (92%N :: s) = false).
  { intros s <-. destruct (startswith [92%N; x] (92%N :: concat l)) eqn:E; [|reflexivity]. exfalso.
    apply startswith_app in E as [t E]. injection E as E. destruct l as [|ch2 l2]; [discriminate|]. inversion Fl as [|? ? H2 ?]; subst.
    destruct H2 as [[d ->] | (N1 & N2 & N3)]; cbn in E; [injection E as E _; congruence|].
    destruct ch2 as [|e ch2]; [congruence|]. injection E as E _. cbn in N2. congruence. }
  destruct Hc as [[d ->] | (N1 & N2 & N3)].
  - destruct (streqb_spec [92%N; d] [92%N; x]) as [E | E].
    + injection E as ->. rewrite (replace_hit 92%N [x] r (concat l)), IH. reflexivity.
    + change ([92%N; d] ++ concat l) with (92%N :: d :: concat l).
      rewrite replace_step; [|discriminate|].
      2:{ destruct (startswith [92%N; x] (92%N :: d :: concat l)) eqn:E2; [|reflexivity]. apply startswith_app in E2 as [t E2]. injection E2 as -> _. congruence. }
      rewrite replace_step; [rewrite IH; reflexivity | discriminate|].
      destruct (N.eq_dec d 92) as [-> | H92]; [apply Hd; reflexivity|].
      destruct (startswith [92%N; x] (d :: concat l)) eqn:E2; [|reflexivity]. apply startswith_app in E2 as [t E2]. injection E2 as -> _. congruence.
  - destruct (streqb_spec ch [92%N; x]) as [-> | _]; [exfalso; apply N1; left; reflexivity|].
    rewrite <- IH. clear -N1. induction ch as [|c ch IHc]; [reflexivity|]. cbn [app].
    rewrite replace_step; [rewrite IHc; [reflexivity|intros H; apply N1; right; exact H] | discriminate|].
    destruct (startswith [92%N; x] (c :: ch ++ concat l)) eqn:E2; [|reflexivity]. apply startswith_app in E2 as [t E2]. injection E2 as -> _.
    exfalso. apply N1. left. reflexivity.
Qed.

(** ** Entries *)
Section Entries.
Variable escaped : char -> bool.
Hypothesis esc_special : forall c, In c re_special -> escaped c = true.
Hypothesis esc_alnum : forall c, is_alnum c = true -> escaped c = false.

(** The text that stands for a character of an entry; [star] for "*". *)
Definition piece (star : str) (c : char) : str :=
  if N.eqb c 42 then star else if N.eqb c 63 then $".?" else if escaped c then [92%N; c] else [c].

Lemma esc_42 : escaped 42 = true. Proof. apply esc_special. vm_compute. tauto. Qed.
Lemma esc_63 : escaped 63 = true. Proof. apply esc_special. vm_compute. tauto. Qed.
Lemma esc_92 : escaped 92 = true. Proof. apply esc_special. vm_compute. tauto. Qed.

Lemma escape_pieces e :
  replace ($"\?") ($".?") (replace ($"\*") ($".*") (escape escaped e)) = concat (map (piece ($".*")) e).
Proof.
  unfold escape. change ($"\*") with [92%N; 42%N]. change ($"\?") with [92%N; 63%N].
  rewrite replace_chunks; [|discriminate|].
  2:{ apply Forall_map. apply Forall_forall. intros c _. destruct (escaped c) eqn:E; [left; exists c; reflexivity|].
      right. split; [intros [-> | []]; rewrite esc_92 in E; discriminate|]. split; [|discriminate]. cbn. intros ->. rewrite esc_42 in E. discriminate. }
  rewrite map_map, replace_chunks; [|discriminate|].
  2:{ apply Forall_map. apply Forall_forall. intros c _. destruct (escaped c) eqn:E.
      - destruct (streqb _ _); [right; split; [vm_compute; intuition discriminate|]; split; discriminate | left; exists c; reflexivity].
      - destruct (streqb_spec [c] [92%N; 42%N]); [discriminate|]. right. split; [intros [-> | []]; rewrite esc_92 in E; discriminate|].
        split; [|discriminate]. cbn. intros ->. rewrite esc_63 in E. discriminate. }
  rewrite map_map. f_equal. apply map_ext. intros c. unfold piece.
  destruct (N.eqb_spec c 42) as [-> | H42]; [rewrite esc_42; reflexivity|].
  destruct (N.eqb_spec c 63) as [-> | H63]; [rewrite esc_63; reflexivity|].
  destruct (escaped c).
  - destruct (streqb_spec [92%N; c] [92%N; 42%N]) as [E | _]; [injection E as ->; congruence|].
    destruct (streqb_spec [92%N; c] [92%N; 63%N]) as [E | _]; [injection E as ->; congruence|]. reflexivity.
  - destruct (streqb_spec [c] [92%N; 42%N]); [discriminate|]. destruct (streqb_spec [c] [92%N; 63%N]); [discriminate|]. reflexivity.
Qed.

(** "*" replaced once more. *)
Lemma pieces_star_again e :
  replace ($"*") ($".*") (concat (map (piece ($".*")) e)) = concat (map (piece ($"..*")) e).
Proof.
  change ($"*") with [42%N]. rewrite replace_one. induction e as [|c e IH]; [reflexivity|]. cbn [map concat].
  rewrite map_app, concat_app, IH. f_equal. unfold piece.
  destruct (N.eqb_spec c 42) as [-> | H42]; [reflexivity|]. destruct (N.eqb_spec c 63) as [-> | H63]; [reflexivity|].
  destruct (escaped c); cbn [map concat app]; (destruct (N.eqb_spec c 42); [congruence|]); reflexivity.
Qed.

Definition toks (star : list tok) (c : char) : list tok :=
  if N.eqb c 42 then star else if N.eqb c 63 then [TDot; TOpt] else [TLit c].
Definition items1 (star : list item) (c : char) : list item :=
  if N.eqb c 42 then star else if N.eqb c 63 then [(None, QOpt)] else [(Some c, QOne)].

Lemma re_tokens_app s : forall t l m, re_tokens s = Some l -> re_tokens t = Some m -> re_tokens (s ++ t) = Some (l ++ m).
Proof.
  assert (K : forall n s, length s <= n -> forall t l m, re_tokens s = Some l -> re_tokens t = Some m -> re_tokens (s ++ t) = Some (l ++ m)).
  { induction n as [|n IH]; intros [|c r] Hn t l m Hl Hm; try (cbn in Hl; injection Hl as <-; exact Hm); [cbn in Hn; lia|].
    cbn [length] in Hn. cbn [app re_tokens] in *.
    assert (Q : forall o r', length r' <= n -> option_map (cons o) (re_tokens r') = Some l -> option_map (cons o) (re_tokens (r' ++ t)) = Some (l ++ m)).
    { intros o r' Hr H. destruct (re_tokens r') as [l'|] eqn:E; [|discriminate]. injection H as <-. rewrite (IH r' Hr t l' m E Hm). reflexivity. }
    destruct (N.eqb c 92).
    - destruct r as [|d r']; [discriminate|]. cbn [app length] in *. destruct (is_alnum d); [discriminate|]. apply Q; [lia | exact Hl].
    - destruct (N.eqb c 46); [apply Q; [lia|exact Hl]|]. destruct (N.eqb c 42); [apply Q; [lia|exact Hl]|]. destruct (N.eqb c 63); [apply Q; [lia|exact Hl]|].
      destruct (mem_char c re_special); [discriminate|]. apply Q; [lia|exact Hl]. }
  exact (K (length s) s (le_n _)).
Qed.

Lemma tokens_pieces star stoks e : re_tokens star = Some stoks -> re_tokens (concat (map (piece star) e)) = Some (concat (map (toks stoks) e)).
Proof.
  intros Hs. induction e as [|c e IH]; [reflexivity|]. cbn [map concat]. apply re_tokens_app; [|exact IH]. unfold piece, toks.
  destruct (N.eqb_spec c 42) as [-> | H42]; [exact Hs|]. destruct (N.eqb_spec c 63) as [-> | H63]; [reflexivity|].
  destruct (escaped c) eqn:E.
  - cbn [re_tokens]. change (92 =? 92)%N with true. cbn iota. destruct (is_alnum c) eqn:A; [rewrite (esc_alnum c A) in E; discriminate|]. reflexivity.
  - cbn [re_tokens]. assert (X : forall d, In d re_special -> c <> d) by (intros d Hd ->; rewrite (esc_special d Hd) in E; discriminate).
    destruct (N.eqb_spec c 92); [exfalso; apply (X 92%N); [vm_compute; tauto | assumption]|].
    destruct (N.eqb_spec c 46); [exfalso; apply (X 46%N); [vm_compute; tauto | assumption]|].
    destruct (N.eqb_spec c 42); [congruence|]. destruct (N.eqb_spec c 63); [congruence|].
    destruct (mem_char c re_special) eqn:M; [apply mem_char_In in M; exfalso; exact (X c M eq_refl)|]. reflexivity.
Qed.

(** Token lists that begin with an atom. *)
Definition headed (l : list tok) : Prop := match l with TStar :: _ | TOpt :: _ => False | _ => True end.
Lemma items_toks stoks sitems e :
  headed stoks -> (forall l m, headed l -> re_items l = Some m -> re_items (stoks ++ l) = Some (sitems ++ m)) ->
  headed (concat (map (toks stoks) e)) /\ re_items (concat (map (toks stoks) e)) = Some (concat (map (items1 sitems) e)).
Proof.
  intros Hh Hs. induction e as [|c e [IH1 IH2]]; [split; [exact I | reflexivity]|]. cbn [map concat]. unfold toks at 1 3, items1 at 1.
  destruct (N.eqb c 42).
  - split; [|apply Hs; assumption]. destruct stoks as [|t l]; [exact IH1 | destruct t; exact Hh].
  - destruct (N.eqb c 63).
    + split; [exact I|]. cbn [app re_items]. rewrite IH2. reflexivity.
    + split; [exact I|]. cbn [app]. destruct (concat (map (toks stoks) e)) as [|t l]; [cbn in *; injection IH2 as <-; reflexivity|].
      cbn [re_items] in *. destruct t; try contradiction; cbn [option_map]; rewrite IH2; reflexivity.
Qed.

Lemma compile_entry e : re_compile (concat (map (piece ($".*")) e)) = Some (concat (map (items1 [(None, QStar)]) e)).
Proof.
  unfold re_compile. rewrite (tokens_pieces ($".*") [TDot; TStar] e eq_refl).
  apply (items_toks [TDot; TStar] [(None, QStar)] e); [exact I|]. intros l m _ H. cbn [app re_items]. rewrite H. reflexivity.
Qed.
Lemma compile_entry_again e : re_compile (concat (map (piece ($"..*")) e)) = Some (concat (map (items1 [(None, QOne); (None, QStar)]) e)).
Proof.
  unfold re_compile. rewrite (tokens_pieces ($"..*") [TDot; TDot; TStar] e eq_refl).
  apply (items_toks [TDot; TDot; TStar] [(None, QOne); (None, QStar)] e); [exact I|]. intros l m _ H. cbn [app re_items]. rewrite H. reflexivity.
Qed.
End Entries.
