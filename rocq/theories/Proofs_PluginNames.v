(** Proofs about the names of plugins. *)
From Coq Require Import Lia.
From Verif Require Import PyStr PyDict Model_Parser Spec_Parser Proofs_Parser Model_PluginNames Spec_PluginNames.

Definition plain_name (e : str * str) : bool :=
  (match dget (fst e) reimplemented_plugins with Some p => streqb p (snd e) | None => false end)
  && match rsplit1 46%N (snd e) with Some (_, c) => negb (mem_char 46%N c) | None => false end
  && match split_ws_max 1 (fst e) with [n] => streqb n (fst e) | _ => false end
  && contains ($"::") (fst e)
  && forallb (fun c => negb (is_space c) && negb (N.eqb c 35)) (fst e)
  && match fst e with [] => false | _ => true end && match snd e with [] => false | _ => true end.
Lemma table_plain : forallb plain_name reimplemented_plugins = true.
Proof. vm_compute. reflexivity. Qed.
Section Names.
Context {X : Type} (E : penv X).
Hypothesis U : usual E.

Lemma load_line inc f perl path st : In (perl, path) reimplemented_plugins -> p_ignore st = false ->
  handle_line E inc f ($"loadplugin " ++ perl) st =
  match e_load E (p_ctx st) path None with
  | LLoaded x => PDone (mkP (p_results st) false x)
  | LError x => PRaise EPluginLoad (mkP (p_results st) false x)
  | LFails x => PRaise EFatal (mkP (p_results st) false x)
  end.
Proof.
  intros I G. destruct U as [K _]. destruct st as [res ig ctx]. cbn in G. subst ig.
  assert (D : dget perl reimplemented_plugins = Some path).
  { assert (T := table_plain). rewrite forallb_forall in T. specialize (T _ I). unfold plain_name in T. cbn [fst snd] in T. rewrite !andb_true_iff in T.
    destruct T as ((((((T & _) & _) & _) & _) & _) & _). destruct (dget perl reimplemented_plugins) as [p|]; [|discriminate]. apply streqb_eq in T. subst p. reflexivity. }
  rewrite <- K in D.
  assert (Dn : path <> []).
  { assert (T := table_plain). rewrite forallb_forall in T. specialize (T _ I). unfold plain_name in T. cbn [fst snd] in T. rewrite !andb_true_iff in T.
    destruct T as (_ & T). destruct path; [discriminate|discriminate]. }
  assert (L : handle_line E inc f ($"loadplugin " ++ perl) (mkP res false ctx) = handle_loadplugin E perl (mkP res false ctx)).
  { clear D Dn. unfold reimplemented_plugins in I. repeat (destruct I as [I|I]; [injection I as <- _; reflexivity|]). destruct I. }
  rewrite L. unfold handle_loadplugin.
  assert (S1 : split_ws_max 1 perl = [perl] /\ contains ($"::") perl = true).
  { assert (T := table_plain). rewrite forallb_forall in T. specialize (T _ I). unfold plain_name in T. cbn [fst snd] in T. rewrite !andb_true_iff in T.
    destruct T as ((((((_ & _) & T) & C) & _) & _) & _). destruct (split_ws_max 1 perl) as [|n [|? ?]]; try discriminate. apply streqb_eq in T. subst n. auto. }
  destruct S1 as [-> ->]. rewrite D. destruct path as [|c p]; [congruence|]. reflexivity.
Qed.
Lemma table_class perl path : In (perl, path) reimplemented_plugins -> exists c, class_of path c /\ names_class E perl c /\ word perl.
Proof.
  intros I. destruct U as [K _]. assert (T := table_plain). rewrite forallb_forall in T. specialize (T _ I). unfold plain_name in T. cbn [fst snd] in T. rewrite !andb_true_iff in T.
  destruct T as ((((((T1 & T2) & T3) & T4) & T5) & T6) & T7).
  destruct (dget perl reimplemented_plugins) as [p|] eqn:D; [|discriminate]. apply streqb_eq in T1. subst p.
  destruct (rsplit1 46%N path) as [[m c]|] eqn:R; [|discriminate]. apply rsplit1_Some in R as [R1 R2].
  exists c. assert (CL : class_of path c) by (exists m; auto). split; [exact CL|]. split.
  - exists path. split; [left; rewrite K; exact D|]. right. exact CL.
  - unfold word. rewrite forallb_forall in T5. split; [intros ->; discriminate|].
    split; [intros x Hx; apply T5 in Hx|intros Hx; apply T5 in Hx]; apply andb_true_iff in Hx as [A B]; apply negb_true_iff in A; [exact A|discriminate].
Qed.
Lemma load_then_if inc f perl path x body lend rest st : In (perl, path) reimplemented_plugins -> p_ignore st = false ->
  e_load E (p_ctx st) path None = LLoaded x -> Forall (fun l => ~ directive l) body -> endif_line lend ->
  run_lines E inc f (($"loadplugin " ++ perl) :: ($"ifplugin " ++ perl) :: body ++ lend :: rest) st =
  run_lines E inc f (body ++ rest) (mkP (p_results st) false x).
Proof.
  intros I G L B EL. destruct (table_class _ _ I) as (c & CL & NC & W). destruct U as [_ R].
  transitivity (run_lines E inc f (($"ifplugin " ++ perl) :: body ++ lend :: rest) (mkP (p_results st) false x)).
  { cbn [run_lines]. rewrite (load_line inc f _ _ _ I G), L. reflexivity. }
  rewrite (@block_no_else X E inc f ($"ifplugin " ++ perl) perl c body lend rest (mkP (p_results st) false x)); auto.
  - cbn [p_ctx]. rewrite (proj2 (mem_str_In _ _) (R _ _ _ _ _ L CL)). reflexivity.
  - split; [exact W|]. exists [], ($" "), []. repeat split; try (intros y Hy; cbn in Hy; intuition; subst; reflexivity); try discriminate.
    rewrite app_nil_r. reflexivity.
Qed.
End Names.
Lemma pdf_not_available {X} (E : penv X) inc f st : usual E -> handle_line E inc f ($"loadplugin Mail::SpamAssassin::Plugin::PDFInfo") st = PDone st.
Proof.
  intros [K _]. destruct st as [res ig ctx]. destruct ig; [reflexivity|]. cbn [handle_line].
  assert (L : handle_line E inc f ($"loadplugin Mail::SpamAssassin::Plugin::PDFInfo") (mkP res false ctx) = handle_loadplugin E ($"Mail::SpamAssassin::Plugin::PDFInfo") (mkP res false ctx)) by reflexivity.
  rewrite L. unfold handle_loadplugin.
  change (split_ws_max 1 ($"Mail::SpamAssassin::Plugin::PDFInfo")) with [$"Mail::SpamAssassin::Plugin::PDFInfo"]. cbv iota beta zeta.
  change (contains ($"::") ($"Mail::SpamAssassin::Plugin::PDFInfo")) with true. cbv iota. rewrite K.
  change (dget ($"Mail::SpamAssassin::Plugin::PDFInfo") reimplemented_plugins) with (@None str). reflexivity.
Qed.
Lemma classes_distinct a b p q c : In (a, p) reimplemented_plugins -> In (b, q) reimplemented_plugins -> class_of p c -> class_of q c -> a = b.
Proof.
  assert (T : forallb (fun e => forallb (fun e' => orb (streqb (fst e) (fst e'))
            (match rsplit1 46%N (snd e), rsplit1 46%N (snd e') with Some (_, c), Some (_, d) => negb (streqb c d) | _, _ => false end)) reimplemented_plugins) reimplemented_plugins = true) by (vm_compute; reflexivity).
  intros Ia Ib (m & Em & Hm) (n & En & Hn). rewrite forallb_forall in T. specialize (T _ Ia). rewrite forallb_forall in T. specialize (T _ Ib). cbn [fst snd] in T.
  rewrite (proj2 (rsplit1_Some 46%N p m c)) in T by auto. rewrite (proj2 (rsplit1_Some 46%N q n c)) in T by auto.
  apply orb_true_iff in T as [T|T]; [apply streqb_eq; exact T|]. rewrite streqb_refl in T. discriminate.
Qed.
