(** Theorems about tag replacement (C49). *)
From Verif Require Import PyStr PyDict Model_Tags Spec_Tags Proofs_Tags.

(** C49: after the pre, inter and post tags are taken out, every defined tag is
    replaced by its value between the pre and post texts, with the inter text
    between tags that follow each other directly; everything else stays. *)
Theorem C49_replaced_partial : forall pre inter post tags s pv s1 iv s2 qv text l,
  tags_ok pre -> tags_ok inter -> tags_ok post -> tags_ok tags ->
  meta_removed pre s pv s1 -> meta_removed inter s1 iv s2 -> meta_removed post s2 qv (text ++ written l) ->
  plain tags text -> (forall tag t, In (tag, t) l -> In tag (dkeys tags) /\ plain tags t) ->
  replace_tags pre inter post tags s =
  text ++ expanded (fun t => match dget t tags with Some v => v | None => [] end) pv iv qv l.
Proof. exact replace_tags_spec. Qed.
Print Assumptions C49_replaced_partial.
(** Every pattern can be read that way. *)
Theorem C49_every_pattern : forall pre inter post tags s, tags_ok pre -> tags_ok inter -> tags_ok post -> tags_ok tags ->
  exists pv s1 iv s2 qv text l, meta_removed pre s pv s1 /\ meta_removed inter s1 iv s2 /\
    meta_removed post s2 qv (text ++ written l) /\ plain tags text /\
    (forall tag t, In (tag, t) l -> In tag (dkeys tags) /\ plain tags t).
Proof. exact replace_tags_total. Qed.
Print Assumptions C49_every_pattern.
(** The tables come from the configuration: a tag has the value of its last line,
    and with the usual brackets all tags have the shape required above. *)
Theorem C49_definitions : forall start stop which lines name value,
  let full := start ++ (if streqb which ($"tag") then [] else which ++ $" ") ++ name ++ stop in
  dget full (prepare_tags start stop which lines) = Some value <-> last_defines lines name value.
Proof. exact prepare_spec. Qed.
Print Assumptions C49_definitions.
Theorem C49_shape : forall which lines, (which = $"tag" \/ (~ In 60%N which /\ ~ In 62%N which)) ->
  (forall name value, last_defines lines name value -> ~ In 60%N name /\ ~ In 62%N name) ->
  tags_ok (prepare_tags ($"<") ($">") which lines).
Proof. exact prepare_ok. Qed.
Print Assumptions C49_shape.
(** Only the rules listed are changed, and all of them that have a pattern. *)
Theorem C49_listed_rules : forall f names results out, NoDup names -> replace_rules f names results = Some out ->
  forall n, (forall v, dget n results = Some (Some v) -> In n names -> dget n out = Some (Some (f v))) /\
            (~ In n names -> dget n out = dget n results).
Proof.
  intros f names results out Hnd H n. pose proof (replace_rules_spec f names results out Hnd H n) as E. split.
  - intros v Hv Hin. rewrite E, Hv. apply mem_str_In in Hin. now rewrite Hin.
  - intros Hn. rewrite E. apply mem_str_notIn in Hn. rewrite Hn. now destruct (dget n results) as [[v|]|].
Qed.
Print Assumptions C49_listed_rules.
(** Loading fails when a listed rule has no pattern, only a score for instance. *)
Theorem C49_no_pattern_refuted : forall f names results,
  replace_rules f names results = None <-> exists n, In n names /\ dget n results = Some None.
Proof. exact replace_rules_fail. Qed.
Print Assumptions C49_no_pattern_refuted.
(** Missing: other brackets than the usual ones are not recognised in patterns. *)
Theorem C49_brackets_refuted : exists tags,
  tags = prepare_tags ($"[") ($"]") ($"tag") [$"A [a4]"] /\ dget ($"[A]") tags = Some ($"[a4]") /\
  replace_tags [] [] [] tags ($"/x[A]y/") = $"/x[A]y/".
Proof. exists [($"[A]", $"[a4]")]. repeat split; vm_compute; reflexivity. Qed.
Print Assumptions C49_brackets_refuted.
(** A rule listed twice is replaced twice, also inside what was put in. *)
Theorem C49_listed_twice_refuted : exists tags f,
  tags = prepare_tags ($"<") ($">") ($"tag") [$"A <B>"; $"B b"] /\ f = replace_tags [] [] [] tags /\
  replace_rules f [$"R"] [($"R", Some ($"/<A>/"))] = Some [($"R", Some ($"/<B>/"))] /\
  replace_rules f [$"R"; $"R"] [($"R", Some ($"/<A>/"))] = Some [($"R", Some ($"/b/"))].
Proof. eexists. eexists. repeat split; vm_compute; reflexivity. Qed.
Print Assumptions C49_listed_twice_refuted.

Definition ex_tags : dict str := prepare_tags ($"<") ($">") ($"tag") [$"V v"; $"A [a4]"; $"V (?:v|V)"; $"broken"].
Definition ex_pre : dict str := prepare_tags ($"<") ($">") ($"pre") [$"P (?:"].
Definition ex_inter : dict str := prepare_tags ($"<") ($">") ($"inter") [$"W \W*"; $"S \s*"].
Definition ex_post : dict str := prepare_tags ($"<") ($">") ($"post") [$"P )+"].
Example C49_example : replace_tags ex_pre ex_inter ex_post ex_tags ($"/<inter W><post P><pre P>x<V><A>-<A><U>z>/") =
  $"/x(?:(?:v|V))+\W*(?:[a4])+-(?:[a4])+<U>z>/".
Proof. vm_compute. reflexivity. Qed.
Example C49_hypotheses : tags_ok ex_tags /\ tags_ok ex_pre /\ tags_ok ex_inter /\ tags_ok ex_post /\ length (dkeys ex_tags) = 2.
Proof.
  assert (K : forall b, b <> [] -> forallb (fun c => negb (angle c)) b = true -> tag_shape (60%N :: b ++ [62%N])).
  { intros b Hb Hf. exists b. rewrite forallb_forall in Hf. repeat split; [exact Hb|..]; intros Hin; apply Hf in Hin; discriminate. }
  assert (KK : forall d : dict str, forallb (fun t => match t with c :: r => N.eqb c 60 && streqb (removelast r ++ [62%N]) r &&
      forallb (fun c => negb (angle c)) (removelast r) && negb (streqb (removelast r) []) | [] => false end) (dkeys d) = true -> tags_ok d).
  { intros d H t Ht. rewrite forallb_forall in H. specialize (H t Ht). destruct t as [|c r]; [discriminate|].
    rewrite !andb_true_iff in H. destruct H as [[[H1 H2] H3] H4]. apply N.eqb_eq in H1 as ->. apply streqb_eq in H2. rewrite <- H2.
    apply K; [|exact H3]. intros E. rewrite E in H4. discriminate. }
  repeat split; try (apply KK; vm_compute; reflexivity).
Qed.
