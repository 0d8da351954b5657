(** Properties of meta rules (C10-C12). *)
From Verif Require Import PyStr PyDict Model_Rules Model_Meta Spec_Meta Proofs_Meta.

(** A small rule set: two plain rules and nested meta rules, one of them
    circular and one dangling. *)
Definition ex_tables : mtables :=
  mkT [($"TOP", RMeta ($"(MID + A) >= 2 && !LOOP0")); ($"LOOP0", RMeta ($"LOOP1 || A")); ($"A", RBase);
       ($"MID", RMeta ($"!A || __B")); ($"DANGLING", RMeta ($"A && NOWHERE")); ($"FINE", RMeta ($"MID + A >= 2"))]
      [($"__B", RBase); ($"LOOP1", RMeta ($"LOOP0"))].
Definition same_order (l : list str) : list str := l.

(** C10. Part of the property: a loaded meta rule whose text writes the
    expression [e] (any spacing, only the needed parentheses, but parentheses
    around "!" within arithmetic and comparisons) gives the value of [e] when
    each name stands for what that rule gives, to any nesting depth.  Missing:
    texts relying on "!" binding tighter than arithmetic, where it fails
    (below). *)
Theorem C10_meta_means_expression_partial :
  forall (order : list str -> list str) (t t' : mtables) (done : list str) (base : str -> outcome)
         (n text : str) (e : mexpr) (w : str -> Q),
    enumerates order -> tables_ok t -> call_postparsing order t = Some (t', done) ->
    mget t' n = Some (RMeta text) -> writes text e ->
    (forall s, In s (expr_names e) -> exists v, gives t' base s (Returns v) /\ value_is v (w s)) ->
    exists v, gives t' base n (Returns v) /\ value_is v (worth w e) /\
              (truthy v = true <-> ~ worth w e == 0).
Proof.
  intros order t t' done base n text e w Ho Hok Hl Hg Hw Hs.
  pose proof (compile_writes text e Hw) as Hc. destruct Hw as [Hp _].
  assert (Hres : forall l, (forall s, In s l -> exists v, gives t' base s (Returns v) /\ value_is v (w s)) ->
             exists res : str -> outcome, forall s, In s l ->
               gives t' base s (res s) /\ exists v, res s = Returns v /\ value_is v (w s)).
  { clear. induction l as [|s l IHl]; intros Hs; [exists (fun _ => Raises); intros s []|].
    destruct (IHl (fun x Hx => Hs x (or_intror Hx))) as [res Hres].
    destruct (Hs s (or_introl eq_refl)) as (v & Hv1 & Hv2).
    exists (fun x => if str_eq_dec x s then Returns v else res x). intros x Hx.
    destruct (str_eq_dec x s) as [->|Hne]; [split; [exact Hv1|eauto]|].
    destruct Hx as [<-|Hx]; [congruence|]. apply Hres; exact Hx. }
  destruct (Hres _ Hs) as [res Hr].
  destruct (eval_worth res w e Hp (fun s H => proj2 (Hr s H))) as (v & Ev & Vv).
  exists v. split; [|split; [exact Vv|]].
  - rewrite <- Ev. eapply gives_meta; eauto. intros s Hs'. apply Hr; exact Hs'.
  - rewrite (value_truthy _ _ Vv). unfold is_zero. split.
    + intros H Hz. apply Qeq_bool_iff in Hz. rewrite Hz in H. discriminate.
    + intros H. destruct (Qeq_bool (worth w e) 0) eqn:E; [|reflexivity]. apply Qeq_bool_iff in E. contradiction.
Qed.
Print Assumptions C10_meta_means_expression_partial.

(** The names and numbers of these expressions: identifiers but for the reserved words, and numbers without needless zeros. *)
Theorem C10_names w : proper (EName w) <->
  (exists c r, w = c :: r /\ letter_or_underscore c /\ forall d, In d r -> letter_or_underscore d \/ decimal_digit d) /\ ~ In w reserved.
Proof.
  assert (A : forall c, is_alpha_ c = true <-> letter_or_underscore c).
  { intros c. unfold is_alpha_, letter_or_underscore. rewrite !orb_true_iff, !andb_true_iff, !N.leb_le, N.eqb_eq. tauto. }
  assert (D : forall c, is_digit c = true <-> decimal_digit c).
  { intros c. unfold is_digit, decimal_digit. rewrite andb_true_iff, !N.leb_le. tauto. }
  assert (R : mem_str w py_keywords = true <-> In w reserved).
  { rewrite mem_str_In. assert (S1 : forallb (fun x => mem_str x reserved) py_keywords = true) by (vm_compute; reflexivity).
    assert (S2 : forallb (fun x => mem_str x py_keywords) reserved = true) by (vm_compute; reflexivity).
    rewrite forallb_forall in S1, S2. split; intros H; apply mem_str_In; auto. }
  cbn [proper]. unfold name_ok. destruct w as [|c r].
  - split; [discriminate | intros [(c & r & E & _) _]; discriminate].
  - rewrite !andb_true_iff, negb_true_iff, forallb_forall, A. split.
    + intros [[H1 H2] H3]. split; [|intros K; apply R in K; congruence]. exists c, r. split; [reflexivity|]. split; [exact H1|].
      intros d Hd. specialize (H2 d (or_intror Hd)). unfold is_word in H2. apply orb_true_iff in H2. rewrite A, D in H2. exact H2.
    + intros [(c' & r' & E & H1 & H2) H3]. injection E as <- <-. split; [split; [exact H1|]|].
      * intros d [<- | Hd]; unfold is_word; apply orb_true_iff; [left; apply A, H1|]. rewrite A, D. apply H2, Hd.
      * apply not_true_is_false. intros E. apply R in E. contradiction.
Qed.
Print Assumptions C10_names.
Theorem C10_numbers d : proper (ENum d) <->
  d <> [] /\ (forall c, In c d -> decimal_digit c) /\ (hd_error d = Some 48%N -> forall c, In c d -> c = 48%N).
Proof.
  assert (D : forall c, is_digit c = true <-> decimal_digit c).
  { intros c. unfold is_digit, decimal_digit. rewrite andb_true_iff, !N.leb_le. tauto. }
  cbn [proper]. unfold num_ok. destruct d as [|c r].
  - split; [discriminate | intros [H _]; congruence].
  - rewrite andb_true_iff, orb_true_iff, negb_true_iff, N.eqb_neq, !forallb_forall. cbn [hd_error]. split.
    + intros [H1 H2]. split; [discriminate|]. split; [intros x Hx; apply D, H1, Hx|]. intros [= ->] x [<- | Hx]; [reflexivity|].
      destruct H2 as [H2 | H2]; [congruence|]. symmetry. apply N.eqb_eq, H2, Hx.
    + intros (_ & H1 & H2). split; [intros x Hx; apply D, H1, Hx|]. destruct (N.eq_dec c 48) as [-> | N]; [right | left; exact N].
      intros x Hx. apply N.eqb_eq. symmetry. apply (H2 eq_refl). right. exact Hx.
Qed.
Print Assumptions C10_numbers.

(** C10 is false of the code for texts where "!" is meant to bind tightest:
    "!A + B" is read as "!(A + B)", and "A + !B" cannot be loaded at all. *)
Theorem C10_meta_means_expression_refuted :
  (exists (text : str) (e : mexpr) (t : mtables) (base : str -> outcome) (w : str -> Q),
     proper e /\ text = spell [] (written_tight 0 e) /\
     (forall s, In s (expr_names e) -> exists v, gives t base s (Returns v) /\ value_is v (w s)) /\
     mget t ($"M") = Some (RMeta text) /\
     call_postparsing same_order t = Some (t, [$"M"]) /\
     gives t base ($"M") (Returns (VBool false)) /\ worth w e == 2) /\
  (exists (text : str) (e : mexpr) (t : mtables),
     proper e /\ text = spell [] (written_tight 0 e) /\
     mget t ($"M") = Some (RMeta text) /\ (forall s, In s (expr_names e) -> mget t s = Some RBase) /\
     call_postparsing same_order t = None).
Proof.
  split.
  - exists ($"!A+B"), (EBin OPlus (ENot (EName ($"A"))) (EName ($"B"))),
      (mkT [($"A", RBase); ($"B", RBase); ($"M", RMeta ($"!A+B"))] []),
      (fun s => Returns (VBool (streqb s ($"B")))), (fun s => of_bool (streqb s ($"B"))).
    repeat split; try reflexivity.
    + intros s [<-|[<-|[]]]; eexists; (split; [exists 2; reflexivity|reflexivity]).
    + exists 3. vm_compute. reflexivity.
  - exists ($"A+!B"), (EBin OPlus (EName ($"A")) (ENot (EName ($"B")))),
      (mkT [($"A", RBase); ($"B", RBase); ($"M", RMeta ($"A+!B"))] []).
    repeat split; try reflexivity. intros s [<-|[<-|[]]]; reflexivity.
Qed.
Print Assumptions C10_meta_means_expression_refuted.

Example C10_example :
  writes ($"MID + A >= 2") (EBin OGe (EBin OPlus (EName ($"MID")) (EName ($"A"))) (ENum ($"2"))) /\
  writes ($"!A || __B") (EBin OOr (ENot (EName ($"A"))) (EName ($"__B"))) /\
  (exists t' done, call_postparsing same_order ex_tables = Some (t', done) /\
     mget t' ($"FINE") = Some (RMeta ($"MID + A >= 2")) /\
     gives t' (fun _ => Returns (VBool true)) ($"FINE") (Returns (VBool true))).
Proof.
  split; [|split].
  - split; [repeat split|]. exists [[]; [32%N]; [32%N]; [32%N]; [32%N]]. split; [repeat constructor|reflexivity].
  - split; [repeat split|]. exists [[]; []; [32%N]; [32%N]]. split; [repeat constructor|reflexivity].
  - eexists; eexists. split; [vm_compute; reflexivity|]. split; [reflexivity|]. exists 5. vm_compute. reflexivity.
Qed.

(** C11. Loading is a total function here; when it succeeds, whatever the
    order in which names are visited: only meta rules are dropped, nothing is
    altered, every name a remaining rule mentions is defined, no remaining rule
    refers to itself even indirectly (the mention relation is well-founded),
    and matching any remaining rule ends with an outcome. *)
Theorem C11_no_circular_or_dangling_meta :
  forall (order : list str -> list str) (t t' : mtables) (done : list str),
    enumerates order -> tables_ok t -> call_postparsing order t = Some (t', done) ->
    (forall n r, mget t' n = Some r -> mget t n = Some r) /\
    (forall n, mget t n = Some RBase -> mget t' n = Some RBase) /\
    (forall n s, mentions t' n s -> defined t' s) /\
    well_founded (fun s n => mentions t' n s) /\
    (forall base n, defined t' n -> exists o, gives t' base n o).
Proof.
  intros order t t' done Ho Hok H.
  destruct (load_inv order Ho t t' done Hok H) as (_ & _ & [D1 D2] & _).
  destruct (load_wf order Ho t t' done Hok H) as (W1 & W2 & _).
  exact (conj D1 (conj D2 (conj W1 (conj W2 (fun base => load_matches order Ho t t' done base Hok H))))).
Qed.
Print Assumptions C11_no_circular_or_dangling_meta.

(** C11: loading succeeds whenever every meta rule text is syntactically
    correct. *)
Theorem C11_loading_succeeds :
  forall (order : list str -> list str) (t : mtables),
    enumerates order -> tables_ok t -> all_compile t ->
    exists t' done, call_postparsing order t = Some (t', done).
Proof. intros order t Ho. exact (load_total order Ho t). Qed.
Print Assumptions C11_loading_succeeds.

Lemma ex_tables_ok : tables_ok ex_tables.
Proof.
  repeat split; try (repeat constructor; vm_compute; intuition discriminate).
  intros n Hn Hn'. vm_compute in Hn, Hn'. intuition (subst; discriminate).
Qed.
Lemma same_order_enumerates : enumerates same_order.
Proof. intros l s. reflexivity. Qed.

Example C11_example :
  tables_ok ex_tables /\ enumerates same_order /\
  exists t' done, call_postparsing same_order ex_tables = Some (t', done) /\
    dkeys (t_checked t') = [$"A"; $"MID"; $"FINE"] /\ dkeys (t_not_checked t') = [$"__B"] /\ done <> [].
Proof.
  split; [exact ex_tables_ok|]. split; [exact same_order_enumerates|].
  eexists; eexists. split; [vm_compute; reflexivity|]. repeat split; discriminate.
Qed.

(** C12. Part of the property: every rule nested at most eleven meta rules deep
    over defined rules survives, in every order.  Missing: deeper nesting,
    where it depends on the order (below). *)
Theorem C12_shallow_meta_rules_kept_partial :
  forall (order : list str -> list str) (t t' : mtables) (done : list str) (n : str),
    enumerates order -> tables_ok t -> call_postparsing order t = Some (t', done) ->
    depth_le t n 11 ->
    mget t' n = mget t n /\ defined t' n.
Proof.
  intros order t t' done n Ho Hok H Hd.
  pose proof (load_depth order Ho t t' done n Hok H Hd) as E. split; [exact E|].
  apply mget_defined. rewrite E. inversion Hd; congruence.
Qed.
Print Assumptions C12_shallow_meta_rules_kept_partial.

(** Chain of twelve meta rules M0 -> M1 -> ... -> M11 -> A. *)
Definition chain_names : list str :=
  [$"M0"; $"M1"; $"M2"; $"M3"; $"M4"; $"M5"; $"M6"; $"M7"; $"M8"; $"M9"; $"M10"; $"M11"; $"A"].
Fixpoint chain (l : list str) : list (str * mrule) :=
  match l with
  | a :: ((b :: _) as r) => (a, RMeta b) :: chain r
  | [a] => [(a, RBase)]
  | [] => []
  end.

(** C12 is false of the code: the same twelve-deep acyclic chain is kept when
    written bottom-up and loses its top rule when written top-down. *)
Theorem C12_well_founded_meta_rules_kept_refuted :
  let down := mkT (chain chain_names) [] in
  let up := mkT (rev (chain chain_names)) [] in
  depth_le down ($"M0") 12 /\
  (exists t' done, call_postparsing same_order down = Some (t', done) /\ mget t' ($"M0") = None) /\
  (exists t' done, call_postparsing same_order up = Some (t', done) /\ mget t' ($"M0") = Some (RMeta ($"M1"))).
Proof.
  cbv zeta. split; [|split].
  - repeat (eapply depth_meta; [vm_compute; reflexivity|vm_compute; reflexivity|];
            intros s Hs; vm_compute in Hs; destruct Hs as [<-|[]]).
    apply depth_base. vm_compute. reflexivity.
  - eexists; eexists. split; [vm_compute; reflexivity|]. reflexivity.
  - eexists; eexists. split; [vm_compute; reflexivity|]. reflexivity.
Qed.
Print Assumptions C12_well_founded_meta_rules_kept_refuted.

Example C12_example :
  depth_le ex_tables ($"FINE") 2 /\ tables_ok ex_tables /\
  exists t' done, call_postparsing same_order ex_tables = Some (t', done) /\ mget t' ($"FINE") <> None.
Proof.
  split; [|split; [exact ex_tables_ok|]].
  - eapply depth_meta; [vm_compute; reflexivity|vm_compute; reflexivity|].
    intros s Hs; vm_compute in Hs; destruct Hs as [<-|[<-|[]]].
    + eapply depth_meta; [vm_compute; reflexivity|vm_compute; reflexivity|].
      intros s Hs; vm_compute in Hs; destruct Hs as [<-|[<-|[]]]; apply depth_base; vm_compute; reflexivity.
    + apply depth_base; vm_compute; reflexivity.
  - eexists; eexists. split; [vm_compute; reflexivity|]. discriminate.
Qed.
