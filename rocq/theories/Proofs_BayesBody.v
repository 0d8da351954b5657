(** The words of the body are tokens. *)
From Verif Require Import PyStr PyDict Regexp Model_MimeEval Model_BayesChew Model_BayesTok Spec_BayesTok Spec_BayesChew Proofs_BayesTok Proofs_BayesChew.
From Coq Require Import Lia.
Open Scope nat_scope.

Lemma word_grows b : forall cur, cur <> [] -> exists u rest, words_aux b cur = (rev cur ++ u) :: rest.
Proof.
  induction b as [|c b IH]; intros cur N; cbn [words_aux].
  - destruct cur; [congruence|]. exists [], []. rewrite app_nil_r. reflexivity.
  - destruct (is_space c); [destruct cur; [congruence|]; exists [], (words_aux b []); rewrite app_nil_r; reflexivity|].
    destruct (IH (c :: cur)) as (u & rest & E); [discriminate|]. exists (c :: u), rest. rewrite E. cbn [rev]. rewrite <- app_assoc. reflexivity.
Qed.
Lemma words_aux_take x : forall b cur, (forall c, In c x -> is_space c = false) -> words_aux (x ++ b) cur = words_aux b (rev x ++ cur).
Proof.
  induction x as [|c x IH]; intros b cur H; [reflexivity|]. cbn [app words_aux rev]. rewrite (H c (or_introl eq_refl)). rewrite IH by (intros d D; apply H; right; exact D). rewrite <- app_assoc. reflexivity.
Qed.
Lemma word_around x : x <> [] -> (forall c, In c x -> is_space c = false) -> forall a b cur, exists w u v, In w (words_aux (a ++ x ++ b) cur) /\ w = u ++ x ++ v.
Proof.
  intros N H. induction a as [|c a IH]; intros b cur; cbn [app].
  - rewrite words_aux_take by exact H. destruct (word_grows b (rev x ++ cur)) as (u & rest & E); [intros K; apply app_eq_nil in K as [K _]; apply N; rewrite <- (rev_involutive x), K; reflexivity|].
    rewrite E. exists (rev (rev x ++ cur) ++ u), (rev cur), u. split; [left; reflexivity|]. rewrite rev_app_distr, rev_involutive, <- app_assoc. reflexivity.
  - cbn [words_aux]. destruct (is_space c); [|apply IH]. destruct (IH b []) as (w & u & v & I & E). destruct cur; [eauto|]. exists w, u, v. split; [right; exact I|exact E].
Qed.
Section Body.
Variable udigit uword : char -> bool.
Lemma line_piece text line x : In line (body_lines udigit uword text) -> x <> [] -> (forall c, In c x -> is_space c = false) -> occurs x line -> occurs x text.
Proof.
  intros L N H (a & b & ->). destruct (word_around x N H a b []) as (w & u & v & I & E).
  assert (W : In w (words text)) by (rewrite <- (body_words udigit uword text); apply in_flat_map; eauto).
  destruct (words_aux_infix text [] w (fun c K => match K with end) W) as [(p & q & K) _]. cbn [rev app] in K. exists (p ++ u), (v ++ q). rewrite K, E, <- !app_assoc. reflexivity.
Qed.
Lemma lines_ordinary text line : ordinary text -> In line (body_lines udigit uword text) -> ordinary line.
Proof.
  intros (P & D & S) L. split; [|split].
  - apply Forall_forall. intros c C. destruct (is_space c) eqn:E; [unfold plain; rewrite E, orb_true_r; reflexivity|].
    apply in_split in C as (a & b & C). destruct (line_piece text line [c] L) as (p & q & K); [discriminate|intros d [<-|[]]; exact E|exists a, b; exact C|].
    rewrite Forall_forall in P. apply P. rewrite K. apply in_or_app. right. left. reflexivity.
  - intros K. apply D. apply (line_piece text line ($"...") L); [discriminate|intros c; vm_compute; intuition (subst; reflexivity)|exact K].
  - intros K. apply S. apply (line_piece text line ($"--") L); [discriminate|intros c; vm_compute; intuition (subst; reflexivity)|exact K].
Qed.
Lemma body_tokens i rc ct fa ign fuel loaded m order l w :
  tokenise_after (body_lines udigit uword) i rc ct fa ign fuel loaded m order = Tokens l -> ordinary (join [10%N] (rendered loaded)) -> In w (words (join [10%N] (rendered loaded))) ->
  Forall (fun c => letter c = true) w -> 3 <= length w <= 15 -> ~ In w stop_words -> In w l.
Proof.
  intros T O W F L S. rewrite <- (body_words udigit uword) in W. apply in_flat_map in W as (line & Hl & W). rewrite <- (ordinary_words line (lines_ordinary _ _ O Hl)) in W.
  destruct (whole_kept Body [] w F L S) as [U _]; [discriminate|]. apply (own_words _ _ _ _ _ _ _ _ _ _ _ _ _ _ T Hl W U). lia.
Qed.
End Body.
