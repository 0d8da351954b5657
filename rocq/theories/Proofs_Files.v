(** Proofs about the configuration files. *)
From Coq Require Import Sorting.Sorted Sorting.Permutation.
From Verif Require Import PyStr PyPath Model_Files Spec_Files.

Lemma str_leb_le a b : str_leb a b = true <-> lex_le a b.
Proof.
  revert b; induction a as [|x a IH]; intros [|y b]; simpl.
  - split; constructor.
  - split; constructor.
  - split; [discriminate|inversion 1].
  - destruct (N.ltb_spec x y) as [H|H]; [split; [constructor; exact H|reflexivity]|].
    destruct (N.eqb_spec x y) as [->|Hn].
    + rewrite IH. split; [constructor; assumption|inversion 1; subst; [lia|assumption]].
    + split; [discriminate|inversion 1; subst; [lia|congruence]].
Qed.
Lemma str_leb_total a b : str_leb a b = false -> str_leb b a = true.
Proof.
  revert b; induction a as [|x a IH]; intros [|y b]; simpl; try discriminate; try reflexivity.
  destruct (N.ltb_spec x y); [discriminate|]. destruct (N.eqb_spec x y) as [->|Hn].
  - intros E. rewrite N.ltb_irrefl, N.eqb_refl. apply IH; exact E.
  - intros _. destruct (N.ltb_spec y x); [reflexivity|lia].
Qed.
Lemma lex_trans a b c : lex_le a b -> lex_le b c -> lex_le a c.
Proof.
  intros H; revert c; induction H; intros c Hc; [constructor| |]; inversion Hc; subst.
  - constructor; lia.
  - constructor; assumption.
  - constructor; assumption.
  - apply Leq. apply IHlex_le; assumption.
Qed.
Lemma insert_perm x l : Permutation (insert_str x l) (x :: l).
Proof.
  induction l as [|y l IH]; simpl; [constructor; constructor|]. destruct (str_leb x y); [reflexivity|].
  rewrite IH. apply perm_swap.
Qed.
Lemma sorted_perm l : Permutation (sorted l) l.
Proof. induction l as [|x l IH]; simpl; [constructor|]. rewrite insert_perm. constructor. exact IH. Qed.
Lemma insert_order x l : in_order l -> in_order (insert_str x l).
Proof.
  induction l as [|y l IH]; intros H; simpl; [repeat constructor|]. inversion H as [|? ? Hs Hf]; subst.
  destruct (str_leb x y) eqn:E.
  - apply str_leb_le in E. constructor; [exact H|]. constructor; [exact E|].
    eapply Forall_impl; [|exact Hf]. intros z Hz. eapply lex_trans; eassumption.
  - apply str_leb_total in E. apply str_leb_le in E. constructor; [apply IH; exact Hs|].
    apply Forall_forall. intros z Hz. apply (Permutation_in z (insert_perm x l)) in Hz.
    destruct Hz as [<-|Hz]; [exact E|]. rewrite Forall_forall in Hf. apply Hf; exact Hz.
Qed.
Lemma sorted_order l : in_order (sorted l).
Proof. induction l as [|x l IH]; simpl; [constructor|]. apply insert_order; exact IH. Qed.
Lemma sorted_In x l : In x (sorted l) <-> In x l.
Proof. split; intros H; [eapply Permutation_in; [apply sorted_perm|exact H]|eapply Permutation_in; [symmetry; apply sorted_perm|exact H]]. Qed.

Section F.
Variable listdir : str -> option (list str).
Variable exists_ : str -> bool.
Variable expanduser : str -> str.
Notation entry := (entry listdir expanduser).
Notation fwe := (files_with_extension listdir expanduser).

Lemma fwe_In dir ext l p : fwe dir ext = Some l -> (In p l <-> entry dir ext p).
Proof.
  unfold files_with_extension. destruct (listdir (expanduser dir)) as [names|] eqn:E; [|discriminate].
  intros H; injection H as <-. rewrite in_map_iff. split.
  - intros (n & <- & Hn). apply filter_In in Hn. destruct Hn as [Hi He]. apply endswith_app in He. destruct He as [st ->].
    exists names, (st ++ ext), st. auto.
  - intros (ns & n & st & E' & Hi & -> & ->). rewrite E in E'. injection E' as <-. exists (st ++ ext). split; [reflexivity|].
    apply filter_In. split; [exact Hi|]. apply endswith_app. exists st; reflexivity.
Qed.

Lemma c23 cfg site up l : get_config_files listdir exists_ expanduser cfg site up = Some l ->
  exists pre_site pre_cfg cf_cfg cf_site user,
    l = pre_site ++ pre_cfg ++ cf_cfg ++ cf_site ++ user /\
    (forall p, In p pre_site <-> entry site ($".pre") p) /\
    (forall p, In p pre_cfg <-> site <> cfg /\ entry cfg ($".pre") p) /\
    (forall p, In p cf_cfg <-> site <> cfg /\ entry cfg ($".cf") p) /\
    (forall p, In p cf_site <-> entry site ($".cf") p) /\
    (forall p, In p user <-> exists u, up = Some u /\ p = expanduser u /\ exists_ p = true) /\
    in_order pre_site /\ in_order pre_cfg /\ in_order cf_cfg /\ in_order cf_site /\ length user <= 1.
Proof.
  unfold get_config_files. destruct (fwe site ($".pre")) as [a|] eqn:Ea; [|discriminate].
  assert (U : forall us, us = match up with None => [] | Some u => if exists_ (expanduser u) then [expanduser u] else [] end ->
     (forall p, In p us <-> exists u, up = Some u /\ p = expanduser u /\ exists_ p = true) /\ length us <= 1).
  { intros us ->. destruct up as [u|]; [|split; [|simpl; lia]; intros p; split; [intros []|intros (u & E & _); discriminate]].
    destruct (exists_ (expanduser u)) eqn:Ee; (split; [|simpl; lia]); intros p; split.
    - intros [<-|[]]. exists u; auto.
    - intros (u' & E & -> & _). injection E as <-. left; reflexivity.
    - intros [].
    - intros (u' & E & -> & E'). injection E as <-. congruence. }
  destruct (streqb_spec site cfg) as [->|Hne].
  - destruct (fwe cfg ($".cf")) as [d|] eqn:Ed; [|discriminate]. intros H; injection H as <-.
    destruct (U _ eq_refl) as [U1 U2]. eexists (sorted a), [], [], (sorted d), _.
    split; [reflexivity|]. split; [intros p; rewrite sorted_In; apply fwe_In; exact Ea|].
    split; [intros p; split; [intros []|tauto]|]. split; [intros p; split; [intros []|tauto]|].
    split; [intros p; rewrite sorted_In; apply fwe_In; exact Ed|]. split; [exact U1|].
    split; [apply sorted_order|]. split; [constructor|]. split; [constructor|]. split; [apply sorted_order|exact U2].
  - destruct (fwe cfg ($".pre")) as [b|] eqn:Eb; [|discriminate]. destruct (fwe cfg ($".cf")) as [c|] eqn:Ec; [|discriminate]. cbn [option_map].
    destruct (fwe site ($".cf")) as [d|] eqn:Ed; [|discriminate]. intros H; injection H as <-.
    destruct (U _ eq_refl) as [U1 U2]. eexists (sorted a), (sorted b), (sorted c), (sorted d), _.
    split; [repeat rewrite <- app_assoc; reflexivity|]. split; [intros p; rewrite sorted_In; apply fwe_In; exact Ea|].
    split; [intros p; rewrite sorted_In, (fwe_In _ _ _ _ Eb); tauto|]. split; [intros p; rewrite sorted_In, (fwe_In _ _ _ _ Ec); tauto|].
    split; [intros p; rewrite sorted_In; apply fwe_In; exact Ed|]. split; [exact U1|].
    repeat (split; [apply sorted_order|]). exact U2.
Qed.

(** No file twice. *)
Definition dir_prefix (d : str) : str := match d with [] => [] | _ => if endswith ($"/") d then d else d ++ $"/" end.
Lemma join_prefix d n : ~ In 47%N n -> path_join d n = dir_prefix d ++ n.
Proof.
  intros H. unfold path_join, dir_prefix. destruct (isabs n) eqn:E.
  - apply startswith_app in E. destruct E as [t ->]. exfalso. apply H. left; reflexivity.
  - destruct d as [|x d]; [reflexivity|]. destruct (endswith ($"/") (x :: d)); [reflexivity|]. rewrite <- app_assoc. reflexivity.
Qed.
Lemma last_slash (p1 p2 n1 n2 : str) : ~ In 47%N n1 -> ~ In 47%N n2 -> p1 ++ 47%N :: n1 = p2 ++ 47%N :: n2 -> p1 = p2 /\ n1 = n2.
Proof.
  revert p2; induction p1 as [|x p1 IH]; intros [|y p2] H1 H2 E; simpl in E.
  - injection E as ->. auto.
  - injection E as <- ->. exfalso. apply H1. apply in_app_iff; right; left; reflexivity.
  - injection E as -> <-. exfalso. apply H2. apply in_app_iff; right; left; reflexivity.
  - injection E as -> E. destruct (IH _ H1 H2 E) as [-> ->]. auto.
Qed.
Lemma prefix_shape d : dir_prefix d = [] \/ exists p, dir_prefix d = p ++ [47%N].
Proof.
  unfold dir_prefix. destruct d as [|x d]; [left; reflexivity|right]. destruct (endswith ($"/") (x :: d)) eqn:E.
  - apply endswith_app in E. exact E.
  - eexists; reflexivity.
Qed.
Lemma prefix_inj d1 d2 n1 n2 : ~ In 47%N n1 -> ~ In 47%N n2 -> dir_prefix d1 ++ n1 = dir_prefix d2 ++ n2 -> dir_prefix d1 = dir_prefix d2 /\ n1 = n2.
Proof.
  intros H1 H2. destruct (prefix_shape d1) as [->|[p1 ->]], (prefix_shape d2) as [->|[p2 ->]]; simpl; repeat rewrite <- app_assoc; simpl; intros E.
  - auto.
  - exfalso. apply H1. rewrite E. apply in_app_iff; right; left; reflexivity.
  - exfalso. apply H2. rewrite <- E. apply in_app_iff; right; left; reflexivity.
  - destruct (last_slash _ _ _ _ H1 H2 E) as [-> ->]. auto.
Qed.

Definition plain_names (dir : str) : Prop :=
  forall names, listdir (expanduser dir) = Some names -> NoDup names /\ Forall (fun n => ~ In 47%N n) names.

Lemma fwe_NoDup dir ext l : plain_names dir -> fwe dir ext = Some l -> NoDup l.
Proof.
  intros P. unfold files_with_extension. destruct (listdir (expanduser dir)) as [names|] eqn:E; [|discriminate].
  intros H; injection H as <-. destruct (P _ E) as [ND NS]. clear E P. induction names as [|n names IH]; simpl; [constructor|].
  inversion ND; inversion NS; subst. destruct (endswith ext n); [|auto]. simpl. constructor; [|auto].
  intros Hi. apply in_map_iff in Hi. destruct Hi as (n' & En & Hn'). apply filter_In in Hn'. destruct Hn' as [Hn' _].
  assert (~ In 47%N n') by (rewrite Forall_forall in H6; auto).
  rewrite !join_prefix in En by assumption. apply app_inv_head in En. congruence.
Qed.

Lemma entry_prefix dir ext p : plain_names dir -> entry dir ext p -> exists st, ~ In 47%N (st ++ ext) /\ p = dir_prefix (expanduser dir) ++ st ++ ext.
Proof.
  intros P (ns & n & st & E & Hi & -> & ->). destruct (P _ E) as [_ NS]. rewrite Forall_forall in NS. specialize (NS _ Hi).
  exists st. split; [exact NS|]. apply join_prefix; exact NS.
Qed.

Lemma ext_neq (a b : str) : a ++ $".pre" = b ++ $".cf" -> False.
Proof. intros E. assert (E' := f_equal (@rev _) E). rewrite !rev_app_distr in E'. discriminate E'. Qed.
Lemma ext_clash d1 d2 p : plain_names d1 -> plain_names d2 -> entry d1 ($".pre") p -> entry d2 ($".cf") p -> False.
Proof.
  intros P1 P2 E1 E2. destruct (entry_prefix _ _ _ P1 E1) as (a & Ha & ->), (entry_prefix _ _ _ P2 E2) as (b & Hb & E).
  rewrite !app_assoc in E. exact (ext_neq _ _ E).
Qed.
Lemma dir_clash d1 d2 e1 e2 p : plain_names d1 -> plain_names d2 -> dir_prefix (expanduser d1) <> dir_prefix (expanduser d2) ->
  entry d1 e1 p -> entry d2 e2 p -> False.
Proof.
  intros P1 P2 Hne E1 E2. destruct (entry_prefix _ _ _ P1 E1) as (a & Ha & ->), (entry_prefix _ _ _ P2 E2) as (b & Hb & E).
  destruct (prefix_inj _ _ _ _ Ha Hb E) as [E' _]. contradiction.
Qed.
Lemma NoDup_app_iff {A} (a b : list A) : NoDup a -> NoDup b -> (forall x, In x a -> In x b -> False) -> NoDup (a ++ b).
Proof.
  intros Ha Hb H. induction a as [|x a IH]; simpl; [exact Hb|]. inversion Ha; subst. constructor.
  - intros Hi. apply in_app_iff in Hi. destruct Hi as [Hi|Hi]; [contradiction|]. eapply H; [left; reflexivity|exact Hi].
  - apply IH; [assumption|]. intros y Hy. apply H. right; exact Hy.
Qed.
Lemma NoDup_sorted l : NoDup l -> NoDup (sorted l).
Proof. intros H. eapply Permutation_NoDup; [symmetry; apply sorted_perm|exact H]. Qed.

Lemma c23_once cfg site up l : plain_names cfg -> plain_names site ->
  (site = cfg \/ dir_prefix (expanduser site) <> dir_prefix (expanduser cfg)) ->
  (forall u dir ext, up = Some u -> dir = cfg \/ dir = site -> ext = $".pre" \/ ext = $".cf" -> ~ entry dir ext (expanduser u)) ->
  get_config_files listdir exists_ expanduser cfg site up = Some l -> NoDup l.
Proof.
  intros Pc Ps Hne Hu. unfold get_config_files. destruct (fwe site ($".pre")) as [a|] eqn:Ea; [|discriminate].
  assert (U : NoDup (match up with None => [] | Some u => if exists_ (expanduser u) then [expanduser u] else [] end)).
  { destruct up as [u|]; [destruct (exists_ (expanduser u))|]; repeat constructor. intros []. }
  assert (UI : forall p dir ext l0, fwe dir ext = Some l0 -> (dir = cfg \/ dir = site) -> (ext = $".pre" \/ ext = $".cf") -> In p (sorted l0) ->
     In p (match up with None => [] | Some u => if exists_ (expanduser u) then [expanduser u] else [] end) -> False).
  { intros p dir ext l0 E Hd He Hi. rewrite sorted_In in Hi. apply (fwe_In _ _ _ _ E) in Hi. destruct up as [u|]; [|intros []].
    destruct (exists_ (expanduser u)); [|intros []]. intros [<-|[]]. exact (Hu u dir ext eq_refl Hd He Hi). }
  destruct (streqb_spec site cfg) as [->|Hsc].
  - destruct (fwe cfg ($".cf")) as [d|] eqn:Ed; [|discriminate]. intros H; injection H as <-.
    apply NoDup_app_iff; [apply NoDup_sorted; eapply fwe_NoDup; [exact Pc|exact Ea]| |].
    + simpl. apply NoDup_app_iff; [apply NoDup_sorted; eapply fwe_NoDup; [exact Pc|exact Ed]|exact U|]. intros p Hi Hi2. exact (UI p cfg _ _ Ed ltac:(auto) ltac:(auto) Hi Hi2).
    + simpl. intros p Hi Hi2. apply in_app_iff in Hi2. destruct Hi2 as [Hi2|Hi2]; [|exact (UI p cfg _ _ Ea ltac:(auto) ltac:(auto) Hi Hi2)].
      rewrite sorted_In in Hi, Hi2. apply (fwe_In _ _ _ _ Ea) in Hi. apply (fwe_In _ _ _ _ Ed) in Hi2. eapply ext_clash; [| |exact Hi|exact Hi2]; assumption.
  - destruct Hne as [->|Hne]; [contradiction|].
    destruct (fwe cfg ($".pre")) as [b|] eqn:Eb; [|discriminate]. destruct (fwe cfg ($".cf")) as [c|] eqn:Ec; [|discriminate]. cbn [option_map].
    destruct (fwe site ($".cf")) as [d|] eqn:Ed; [|discriminate]. intros H; injection H as <-.
    assert (Na := NoDup_sorted _ (fwe_NoDup _ _ _ Ps Ea)). assert (Nb := NoDup_sorted _ (fwe_NoDup _ _ _ Pc Eb)).
    assert (Nc := NoDup_sorted _ (fwe_NoDup _ _ _ Pc Ec)). assert (Nd := NoDup_sorted _ (fwe_NoDup _ _ _ Ps Ed)).
    assert (Ia : forall p, In p (sorted a) -> entry site ($".pre") p) by (intros p Hi; rewrite sorted_In in Hi; apply (fwe_In _ _ _ _ Ea); exact Hi).
    assert (Ib : forall p, In p (sorted b) -> entry cfg ($".pre") p) by (intros p Hi; rewrite sorted_In in Hi; apply (fwe_In _ _ _ _ Eb); exact Hi).
    assert (Ic : forall p, In p (sorted c) -> entry cfg ($".cf") p) by (intros p Hi; rewrite sorted_In in Hi; apply (fwe_In _ _ _ _ Ec); exact Hi).
    assert (Id : forall p, In p (sorted d) -> entry site ($".cf") p) by (intros p Hi; rewrite sorted_In in Hi; apply (fwe_In _ _ _ _ Ed); exact Hi).
    apply NoDup_app_iff; [exact Na| |].
    + rewrite <- app_assoc. apply NoDup_app_iff; [exact Nb| |].
      * apply NoDup_app_iff; [exact Nc| |].
        -- apply NoDup_app_iff; [exact Nd|exact U|]. intros p Hi Hi2. exact (UI p site _ _ Ed ltac:(auto) ltac:(auto) Hi Hi2).
        -- intros p Hi Hi2. apply in_app_iff in Hi2. destruct Hi2 as [Hi2|Hi2]; [|exact (UI p cfg _ _ Ec ltac:(auto) ltac:(auto) Hi Hi2)].
           exact (dir_clash _ _ _ _ _ Ps Pc Hne (Id _ Hi2) (Ic _ Hi)).
      * intros p Hi Hi2. rewrite !in_app_iff in Hi2. destruct Hi2 as [Hi2|[Hi2|Hi2]].
        -- exact (ext_clash _ _ _ Pc Pc (Ib _ Hi) (Ic _ Hi2)).
        -- exact (ext_clash _ _ _ Pc Ps (Ib _ Hi) (Id _ Hi2)).
        -- exact (UI p cfg _ _ Eb ltac:(auto) ltac:(auto) Hi Hi2).
    + intros p Hi Hi2. rewrite !in_app_iff in Hi2. destruct Hi2 as [[Hi2|Hi2]|[Hi2|Hi2]].
      * exact (dir_clash _ _ _ _ _ Ps Pc Hne (Ia _ Hi) (Ib _ Hi2)).
      * exact (ext_clash _ _ _ Ps Pc (Ia _ Hi) (Ic _ Hi2)).
      * exact (ext_clash _ _ _ Ps Ps (Ia _ Hi) (Id _ Hi2)).
      * exact (UI p site _ _ Ea ltac:(auto) ltac:(auto) Hi Hi2).
Qed.
End F.

(** C24 *)
Definition plain_name (u : str) : Prop := u <> [] /\ ~ In 47%N u /\ u <> $"." /\ u <> $"..".
Lemma split_plain_app (a b : str) : ~ In 47%N a -> split_char 47%N (a ++ 47%N :: b) = a :: split_char 47%N b.
Proof.
  induction a as [|x a IH]; intros H; simpl; [reflexivity|].
  destruct (N.eqb_spec x 47) as [->|Hx]; [exfalso; apply H; left; reflexivity|].
  rewrite IH by (intros Hi; apply H; right; exact Hi). reflexivity.
Qed.
Lemma c24 u : plain_name u -> resolve (get_userprefs_path u) = [$"home"; u; $".spamassassin"; $"user_prefs"].
Proof.
  intros (Hne & Hs & Hd & Hdd). unfold get_userprefs_path.
  rewrite (join_prefix ($"/home") u) by exact Hs. change (dir_prefix ($"/home")) with ($"/home/").
  rewrite (join_prefix ($"/home/" ++ u)) by (vm_compute; intuition discriminate).
  assert (E : dir_prefix ($"/home/" ++ u) = $"/home/" ++ u ++ $"/").
  { unfold dir_prefix. destruct ($"/home/" ++ u) eqn:E; [discriminate|]. rewrite <- E.
    destruct (endswith ($"/") ($"/home/" ++ u)) eqn:Ee; [|rewrite app_assoc; reflexivity].
    exfalso. apply endswith_app in Ee. destruct Ee as [t Et]. destruct (exists_last Hne) as (u' & x & ->).
    rewrite app_assoc in Et. apply app_inj_tail in Et. destruct Et as [_ ->]. apply Hs. apply in_app_iff; right; left; reflexivity. }
  rewrite E. rewrite join_prefix by (vm_compute; intuition discriminate).
  replace (dir_prefix (($"/home/" ++ u ++ $"/") ++ $".spamassassin")) with ($"/home/" ++ u ++ $"/.spamassassin/").
  2:{ unfold dir_prefix. destruct (($"/home/" ++ u ++ $"/") ++ $".spamassassin") eqn:E2; [discriminate|]. rewrite <- E2.
      destruct (endswith ($"/") (($"/home/" ++ u ++ $"/") ++ $".spamassassin")) eqn:Ee.
      - exfalso. apply endswith_app in Ee. destruct Ee as [t Et]. assert (Er := f_equal (@rev _) Et). rewrite !rev_app_distr in Er. discriminate Er.
      - repeat rewrite <- app_assoc. reflexivity. }
  unfold resolve. replace (($"/home/" ++ u ++ $"/.spamassassin/") ++ $"user_prefs") with ($"/home/" ++ (u ++ $"/.spamassassin/user_prefs"))
    by (repeat rewrite <- app_assoc; reflexivity).
  change (split_char 47 ($"/home/" ++ u ++ $"/.spamassassin/user_prefs")) with ([] :: $"home" :: split_char 47 (u ++ 47%N :: $".spamassassin/user_prefs")).
  rewrite split_plain_app by exact Hs.
  change (split_char 47 ($".spamassassin/user_prefs")) with [$".spamassassin"; $"user_prefs"].
  cbn [fold_left]. change (step_dir (step_dir [] []) ($"home")) with [$"home"].
  assert (Su : step_dir [$"home"] u = [$"home"; u]).
  { unfold step_dir. destruct u as [|c u]; [congruence|]. destruct (streqb_spec (c :: u) ($".")); [contradiction|].
    destruct (streqb_spec (c :: u) ($"..")); [contradiction|]. reflexivity. }
  rewrite Su. unfold step_dir. vm_compute. reflexivity.
Qed.

Lemma default_directory exists_ paths :
  (forall p, fst (get_default_configs exists_ paths) = Some p <->
     exists before after, paths = before ++ p :: after /\ exists_ p = true /\ forall q, In q before -> exists_ q = false) /\
  (snd (get_default_configs exists_ paths) = true <-> forall p, In p paths -> exists_ p = false).
Proof.
  unfold get_default_configs. induction paths as [|x l [IH1 IH2]]; cbn [filter].
  - cbn. split; [|tauto]. intros p. split; [discriminate|]. intros ([|y b] & a & E & _); discriminate.
  - destruct (exists_ x) eqn:Ex; cbn [fst snd].
    + split.
      * intros p. split.
        -- intros [= <-]. exists [], l. repeat split; [exact Ex | intros q []].
        -- intros ([|y b] & a & E & Hp & Hb); injection E as -> E; [reflexivity|]. rewrite (Hb y (or_introl eq_refl)) in Ex. discriminate.
      * split; [discriminate|]. intros H. rewrite (H x (or_introl eq_refl)) in Ex. discriminate.
    + split.
      * intros p. rewrite IH1. split.
        -- intros (b & a & -> & Hp & Hb). exists (x :: b), a. repeat split; [exact Hp|]. intros q [<- | Hq]; [exact Ex | apply Hb, Hq].
        -- intros ([|y b] & a & E & Hp & Hb); injection E as -> E; [congruence|]. exists b, a. repeat split; [exact E | exact Hp|].
           intros q Hq. apply Hb. right. exact Hq.
      * rewrite IH2. split; [intros H p [<- | Hp]; auto | intros H p Hp; apply H; right; exact Hp].
Qed.
