(** Proofs about the picture and PDF rules. *)
From Coq Require Import QArith Lia Permutation.
From Verif Require Import PyStr PyDict.
From Verif Require Import Model_Attach Spec_Attach.
From Verif Require Model_Rules.
Open Scope nat_scope.

(** ** Sums *)
Fixpoint sumb (b : part -> bool) (f : part -> nat) (l : list part) : nat :=
  match l with [] => 0 | p :: r => (if b p then f p else 0) + sumb b f r end.
Lemma sum_over_b (P : part -> Prop) (b : part -> bool) f : (forall p, P p <-> b p = true) ->
  forall l n, sum_over P f l n -> n = sumb b f l.
Proof.
  intros Hb l n H. induction H as [|p l n Hp H IH|p l n Hp H IH]; cbn [sumb].
  - reflexivity.
  - apply Hb in Hp. rewrite Hp, IH. reflexivity.
  - destruct (b p) eqn:E; [exfalso; apply Hp; now apply Hb|]. cbn. exact IH.
Qed.
Lemma sum_over_exists (P : part -> Prop) (b : part -> bool) f : (forall p, P p <-> b p = true) ->
  forall l, sum_over P f l (sumb b f l).
Proof.
  intros Hb. induction l as [|p l IH]; cbn [sumb]; [constructor|].
  destruct (b p) eqn:E.
  - apply so_yes; [now apply Hb|exact IH].
  - apply so_no; [intros H; apply Hb in H; congruence|exact IH].
Qed.
Lemma sumb_snoc b f l p : sumb b f (l ++ [p]) = sumb b f l + (if b p then f p else 0).
Proof. induction l as [|x l IH]; cbn [sumb app]; [lia|]. rewrite IH. lia. Qed.

Definition picb (p : part) : bool := streqb (p_main p) ($"image").
Definition tyb (t : str) (p : part) : bool := picb p && (streqb t ($"all") || streqb (p_sub p) t).
Definition pdfb (p : part) : bool := streqb (p_main p) ($"application") && streqb (p_sub p) ($"pdf").
Lemma picb_ok p : picture p <-> picb p = true.
Proof. unfold picture, picb. destruct (streqb_spec (p_main p) ($"image")); split; congruence. Qed.
Lemma tyb_ok t p : of_type t p <-> tyb t p = true.
Proof.
  unfold of_type, tyb. rewrite Bool.andb_true_iff, Bool.orb_true_iff, <- picb_ok.
  destruct (streqb_spec t ($"all")), (streqb_spec (p_sub p) t); split; intros [? [?|?]]; (split; [assumption|]); try congruence; auto.
Qed.
Lemma pdfb_ok p : pdf_part p <-> pdfb p = true.
Proof.
  unfold pdf_part, pdfb. rewrite Bool.andb_true_iff.
  destruct (streqb_spec (p_main p) ($"application")), (streqb_spec (p_sub p) ($"pdf")); split; intros [? ?]; split; congruence.
Qed.

(** ** Arguments *)
Lemma means_int a z : means a z <-> int_of a = Some z.
Proof.
  split.
  - intros H; inversion H; subst; cbn; auto.
  - destruct a as [y|s]; cbn; intros H; [injection H as <-; constructor|now constructor].
Qed.
Lemma truthy_real h : real_limit (Some h) -> truthy (Some h) = true.
Proof.
  intros [H1 H2]. destruct h as [z|s]; cbn.
  - destruct (Z.eqb_spec z 0); [subst; congruence|reflexivity].
  - destruct s; [congruence|reflexivity].
Qed.
Lemma in_range_ok n lo hi : real_limit hi -> (in_range n lo hi = true <-> at_least lo n /\ at_most hi n).
Proof.
  intros Hr. unfold in_range, at_least, at_most, zle.
  destruct (int_of lo) as [a|] eqn:Ea.
  2:{ split; [discriminate|]. intros [(a & Ha & _) _]. apply means_int in Ha. congruence. }
  assert (L : (exists a0, means lo a0 /\ (a0 <= Z.of_nat n)%Z) <-> (a <= Z.of_nat n)%Z).
  { split; [intros (a0 & H & K); apply means_int in H; congruence|intros K; exists a; split; [now apply means_int|exact K]]. }
  rewrite L. destruct hi as [h|].
  - rewrite (truthy_real _ Hr). destruct (int_of h) as [b|] eqn:Eb.
    + rewrite Bool.andb_true_iff, !Z.leb_le. split; intros [H1 H2]; (split; [exact H1|]).
      * exists b. split; [now apply means_int|exact H2].
      * destruct H2 as (b0 & H & K). apply means_int in H. congruence.
    + split; [discriminate|]. intros [_ (b & H & _)]. apply means_int in H. congruence.
  - cbn [truthy]. rewrite Z.leb_le. tauto.
Qed.

(** ** Dictionaries *)
Lemma In_dvalues {V} (d : dict V) v : NoDup (dkeys d) -> (In v (dvalues d) <-> exists k, dget k d = Some v).
Proof.
  intros ND. unfold dvalues. rewrite in_map_iff. split.
  - intros ([k x] & E & H). cbn in E; subst. exists k. now apply In_dget.
  - intros (k & H). exists (k, v). split; [reflexivity|now apply dget_In].
Qed.
Lemma value_incr k by_ d k' : value_of k' (incr k by_ d) = value_of k' d + (if streqb k k' then by_ else 0).
Proof.
  unfold value_of, incr. rewrite dget_dset. destruct (streqb_spec k k') as [->|]; [reflexivity|lia].
Qed.
Lemma value_update sub by_ d t :
  value_of t (update sub by_ d) = value_of t d + (if streqb t ($"all") then by_ else 0) + (if streqb sub t then by_ else 0).
Proof.
  unfold update. rewrite !value_incr.
  replace (streqb ($"all") t) with (streqb t ($"all")); [reflexivity|].
  destruct (streqb_spec t ($"all")), (streqb_spec ($"all") t); congruence.
Qed.
Lemma table_set k t d k' : table k' (dset k t d) = if streqb k k' then t else table k' d.
Proof. unfold table. rewrite dget_dset. destruct (streqb k k'); reflexivity. Qed.

(** ** Loading pictures *)
Section Images.
Variable md5 : str -> str.
Variable open_image : str -> opened.
Notation load := (load_images md5 open_image).
Notation extract := (extract_image md5 open_image).

Lemma load_app l1 l2 s : load (l1 ++ l2) s = match load l1 s with Some s' => load l2 s' | None => None end.
Proof. revert s. induction l1 as [|p l1 IH]; intros s; cbn [load_images app]; [reflexivity|]. destruct (extract p s); auto. Qed.

Record inv (l : list part) (s : images) : Prop := {
  inv_counts : forall t, no_all t l -> value_of t (i_counts s) = sumb (tyb t) one l;
  inv_cover : forall t, no_all t l -> value_of t (i_coverage s) = sumb (tyb t) (pixels open_image) l;
  inv_names : forall n, In n (i_names s) <-> exists p, In p l /\ picture p /\ p_name p = n;
  inv_all : forall id sz, dget id (table ($"all") (i_sizes s)) = Some sz <->
            exists p, In p l /\ picture p /\ md5 (p_payload p) = id /\ open_image (p_payload p) = Opened sz;
  inv_typ : forall t, t <> $"all" -> forall id sz, dget id (table t (i_sizes s)) = Some sz <->
            exists before p after, l = before ++ p :: after /\ picture p /\ p_sub p = t /\
              md5 (p_payload p) = id /\ open_image (p_payload p) = Opened sz /\ first_copy before p;
  inv_keys : forall t, NoDup (dkeys (table t (i_sizes s)))
}.

Lemma inv_start : inv [] no_images.
Proof.
  constructor; try reflexivity.
  - intros n. split; [intros []|intros (p & [] & _)].
  - intros id sz. split; [discriminate|intros (p & [] & _)].
  - intros t _ id sz. split; [discriminate|]. intros (b & p & a & H & _). destruct b; discriminate.
  - intros t. cbn. constructor.
Qed.

Lemma no_all_snoc t l p : no_all t (l ++ [p]) -> no_all t l /\ (t = $"all" -> picture p -> p_sub p <> $"all").
Proof.
  intros H. split.
  - intros E x Hx. apply H; [exact E|]. apply in_or_app; auto.
  - intros E. apply H; [exact E|]. apply in_or_app; right; left; reflexivity.
Qed.
Lemma split_snoc {A} (l b a : list A) p x : l ++ [p] = b ++ x :: a ->
  (a = [] /\ l = b /\ p = x) \/ exists a', a = a' ++ [p] /\ l = b ++ x :: a'.
Proof.
  intros H. destruct a as [|y a0] using rev_ind.
  - left. apply app_inj_tail in H as [-> ->]. auto.
  - clear IHa0. right. exists a0.
    replace (b ++ x :: a0 ++ [y]) with ((b ++ x :: a0) ++ [y]) in H by (rewrite <- app_assoc; reflexivity).
    apply app_inj_tail in H as [-> ->]. auto.
Qed.
Lemma count_step t sub f p l d : (no_all t (l ++ [p])) -> picture p -> p_sub p = sub ->
  value_of t d = sumb (tyb t) f l -> value_of t (update sub (f p) d) = sumb (tyb t) f (l ++ [p]).
Proof.
  intros Hn Hp Hs H. rewrite value_update, sumb_snoc, H. unfold tyb. apply picb_ok in Hp as Hp'. rewrite Hp'. cbn [andb].
  destruct (no_all_snoc _ _ _ Hn) as [_ Hx]. subst sub.
  destruct (streqb_spec t ($"all")) as [->|Ht]; cbn [orb].
  - destruct (streqb_spec (p_sub p) ($"all")) as [E|]; [exfalso; exact (Hx eq_refl Hp E)|lia].
  - lia.
Qed.

Lemma inv_other l s p : inv l s -> ~ picture p -> inv (l ++ [p]) s.
Proof.
  intros I Hp. assert (B : picb p = false) by (destruct (picb p) eqn:E; [apply picb_ok in E; tauto|reflexivity]).
  constructor.
  - intros t Hn. destruct (no_all_snoc _ _ _ Hn) as [Hn' _]. rewrite sumb_snoc. unfold tyb at 2. rewrite B. cbn [andb].
    rewrite Nat.add_0_r. now apply (inv_counts _ _ I).
  - intros t Hn. destruct (no_all_snoc _ _ _ Hn) as [Hn' _]. rewrite sumb_snoc. unfold tyb at 2. rewrite B. cbn [andb].
    rewrite Nat.add_0_r. now apply (inv_cover _ _ I).
  - intros n. rewrite (inv_names _ _ I). split.
    + intros (x & H & K). exists x. split; [apply in_or_app; auto|exact K].
    + intros (x & H & K & E). apply in_app_or in H as [H|[<-|[]]]; [exists x; auto|tauto].
  - intros id sz. rewrite (inv_all _ _ I). split.
    + intros (x & H & K). exists x. split; [apply in_or_app; auto|exact K].
    + intros (x & H & K). apply in_app_or in H as [H|[<-|[]]]; [exists x; auto|tauto].
  - intros t Ht id sz. rewrite (inv_typ _ _ I t Ht). split.
    + intros (b & x & a & -> & H). exists b, x, (a ++ [p]). split; [rewrite <- app_assoc; reflexivity|exact H].
    + intros (b & x & a & E & H). apply split_snoc in E as [(-> & -> & ->)|(a' & -> & ->)]; [tauto|].
      exists b, x, a'. auto.
  - apply (inv_keys _ _ I).
Qed.

Lemma extract_inv l s p s' : no_collision md5 picture (l ++ [p]) -> inv l s -> extract p s = Some s' -> inv (l ++ [p]) s'.
Proof.
  intros NC I H. unfold extract_image in H. destruct (streqb_spec (p_main p) ($"image")) as [Hp|Hp].
  2:{ injection H as <-. now apply inv_other. }
  change (picture p) in Hp. unfold save_stats in H. cbn [i_sizes i_coverage i_names i_counts] in H.
  assert (Hin : In p (l ++ [p])) by (apply in_or_app; right; left; reflexivity).
  assert (Same : forall x, In x l -> picture x -> md5 (p_payload x) = md5 (p_payload p) -> p_payload x = p_payload p).
  { intros x Hx Px E. apply NC; auto. apply in_or_app; auto. }
  assert (Names : forall n, In n (p_name p :: i_names s) <-> exists x, In x (l ++ [p]) /\ picture x /\ p_name x = n).
  { intros n. cbn [In]. rewrite (inv_names _ _ I). split.
    - intros [<-|(x & Hx & K)]; [exists p; auto|exists x; split; [apply in_or_app; auto|exact K]].
    - intros (x & Hx & Px & E). apply in_app_or in Hx as [Hx|[<-|[]]]; [right; exists x; auto|left; exact E]. }
  assert (Counts : forall t, no_all t (l ++ [p]) ->
     value_of t (update (p_sub p) 1 (i_counts s)) = sumb (tyb t) one (l ++ [p])).
  { intros t Hn. apply (count_step t (p_sub p) one); auto. apply (inv_counts _ _ I). now apply (no_all_snoc _ _ p). }
  destruct (dget (md5 (p_payload p)) (table ($"all") (i_sizes s))) as [img|] eqn:E.
  - (* a copy *)
    injection H as <-.
    apply (inv_all _ _ I) in E as (x & Hx & Px & Ed & Eo).
    pose proof (Same x Hx Px Ed) as EP. rewrite EP in Eo.
    constructor; cbn [i_sizes i_coverage i_names i_counts]; auto.
    + intros t Hn. replace (area img) with (pixels open_image p) by (unfold pixels, area; rewrite Eo; reflexivity).
      apply (count_step t (p_sub p) (pixels open_image)); auto. apply (inv_cover _ _ I). now apply (no_all_snoc _ _ p).
    + intros id sz. rewrite (inv_all _ _ I). split.
      * intros (y & H & K). exists y. split; [apply in_or_app; auto|exact K].
      * intros (y & H & Py & E1 & E2). apply in_app_or in H as [H|[<-|[]]]; [exists y; auto|].
        exists x. rewrite EP. auto.
    + intros t Ht id sz. rewrite (inv_typ _ _ I t Ht). split.
      * intros (b & y & a & -> & H). exists b, y, (a ++ [p]). split; [rewrite <- app_assoc; reflexivity|exact H].
      * intros (b & y & a & E & H). apply split_snoc in E as [(-> & -> & ->)|(a' & -> & ->)].
        -- destruct H as (_ & _ & _ & _ & F). exfalso. exact (F x Hx Px EP).
        -- exists b, y, a'. auto.
    + apply (inv_keys _ _ I).
  - destruct (open_image (p_payload p)) as [img| |] eqn:Eo; [| |discriminate].
    + (* a new picture *)
      injection H as <-.
      assert (F : first_copy l p).
      { intros x Hx Px EP. assert (K : dget (md5 (p_payload p)) (table ($"all") (i_sizes s)) = Some img).
        { apply (inv_all _ _ I). exists x. rewrite EP. auto. }
        congruence. }
      set (s1 := dset ($"all") (dset (md5 (p_payload p)) img (table ($"all") (i_sizes s))) (i_sizes s)).
      assert (T1 : forall t, table t s1 = if streqb ($"all") t then dset (md5 (p_payload p)) img (table ($"all") (i_sizes s))
                                          else table t (i_sizes s)) by (intros t; apply table_set).
      assert (Ball : forall id, dget id (table ($"all") (dset (p_sub p) (dset (md5 (p_payload p)) img (table (p_sub p) s1)) s1))
                     = dget id (dset (md5 (p_payload p)) img (table ($"all") (i_sizes s)))).
      { intros id. rewrite table_set. destruct (streqb_spec (p_sub p) ($"all")) as [->|].
        - rewrite T1. destruct (streqb_spec ($"all") ($"all")); [|congruence].
          rewrite dget_dset. destruct (streqb_spec (md5 (p_payload p)) id) as [<-|]; [now rewrite dget_dset_same|reflexivity].
        - rewrite T1. destruct (streqb_spec ($"all") ($"all")); [reflexivity|congruence]. }
      constructor; cbn [i_sizes i_coverage i_names i_counts]; auto.
      * intros t Hn. replace (area img) with (pixels open_image p) by (unfold pixels, area; rewrite Eo; reflexivity).
        apply (count_step t (p_sub p) (pixels open_image)); auto. apply (inv_cover _ _ I). now apply (no_all_snoc _ _ p).
      * intros id sz. rewrite Ball, dget_dset. destruct (streqb_spec (md5 (p_payload p)) id) as [<-|Hd].
        -- split.
           ++ intros K; injection K as <-. exists p; auto.
           ++ intros (y & Hy & Py & E1 & E2). apply in_app_or in Hy as [Hy|[<-|[]]].
              ** exfalso. exact (F y Hy Py (Same y Hy Py E1)).
              ** congruence.
        -- rewrite (inv_all _ _ I). split.
           ++ intros (y & Hy & K). exists y. split; [apply in_or_app; auto|exact K].
           ++ intros (y & Hy & K). apply in_app_or in Hy as [Hy|[<-|[]]]; [exists y; auto|]. tauto.
      * intros t Ht id sz. rewrite table_set.
        assert (T2 : table t s1 = table t (i_sizes s)).
        { rewrite T1. destruct (streqb_spec ($"all") t); [congruence|reflexivity]. }
        destruct (streqb_spec (p_sub p) t) as [Hs|Hs].
        -- subst t. rewrite T2, dget_dset. destruct (streqb_spec (md5 (p_payload p)) id) as [<-|Hd].
           ++ split.
              ** intros K; injection K as <-. exists l, p, []. repeat split; auto.
              ** intros (b & y & a & Es & Py & Ey & E1 & E2 & F2). apply split_snoc in Es as [(-> & -> & ->)|(a' & -> & ->)]; [congruence|].
                 exfalso. apply (F y); [apply in_or_app; right; left; reflexivity|exact Py|].
                 apply Same; auto. apply in_or_app; right; left; reflexivity.
           ++ rewrite (inv_typ _ _ I _ Ht). split.
              ** intros (b & y & a & -> & K). exists b, y, (a ++ [p]). split; [rewrite <- app_assoc; reflexivity|exact K].
              ** intros (b & y & a & Es & K). apply split_snoc in Es as [(-> & -> & ->)|(a' & -> & ->)]; [tauto|].
                 exists b, y, a'. auto.
        -- rewrite T2, (inv_typ _ _ I _ Ht). split.
           ++ intros (b & y & a & -> & K). exists b, y, (a ++ [p]). split; [rewrite <- app_assoc; reflexivity|exact K].
           ++ intros (b & y & a & Es & K). apply split_snoc in Es as [(-> & -> & ->)|(a' & -> & ->)]; [tauto|].
              exists b, y, a'. auto.
      * assert (K1 : forall t, NoDup (dkeys (table t s1))).
        { intros t. rewrite T1. destruct (streqb ($"all") t); [apply dset_NoDup|]; apply (inv_keys _ _ I). }
        intros t. rewrite table_set. destruct (streqb (p_sub p) t); [apply dset_NoDup|]; apply K1.
    + (* not a picture *)
      injection H as <-.
      constructor; cbn [i_sizes i_coverage i_names i_counts]; auto.
      * intros t Hn. rewrite sumb_snoc. replace (pixels open_image p) with 0 by (unfold pixels; rewrite Eo; reflexivity).
        rewrite (inv_cover _ _ I); [destruct (tyb t p); lia|]. now apply (no_all_snoc _ _ p).
      * intros id sz. rewrite (inv_all _ _ I). split.
        -- intros (y & H & K). exists y. split; [apply in_or_app; auto|exact K].
        -- intros (y & H & Py & E1 & E2). apply in_app_or in H as [H|[<-|[]]]; [exists y; auto|]. congruence.
      * intros t Ht id sz. rewrite (inv_typ _ _ I t Ht). split.
        -- intros (b & y & a & -> & H). exists b, y, (a ++ [p]). split; [rewrite <- app_assoc; reflexivity|exact H].
        -- intros (b & y & a & Es & H). apply split_snoc in Es as [(-> & -> & ->)|(a' & -> & ->)].
           ++ destruct H as (_ & _ & _ & K & _). congruence.
           ++ exists b, y, a'. auto.
      * apply (inv_keys _ _ I).
Qed.

Lemma no_collision_app P l1 l2 : no_collision md5 P (l1 ++ l2) -> no_collision md5 P l1.
Proof. intros H p p' Hp Hp'. apply H; apply in_or_app; auto. Qed.

Lemma load_inv l s : no_collision md5 picture l -> load l no_images = Some s -> inv l s.
Proof.
  revert s. induction l as [|p l IH] using rev_ind; intros s NC H.
  - injection H as <-. apply inv_start.
  - rewrite load_app in H. destruct (load l no_images) as [s0|] eqn:E; [|discriminate].
    cbn [load_images] in H. destruct (extract p s0) as [s1|] eqn:E1; [|discriminate]. injection H as <-.
    apply (extract_inv l s0); auto. apply IH; auto. exact (no_collision_app _ _ _ NC).
Qed.

Lemma load_none l : no_collision md5 picture l ->
  (load l no_images = None <-> exists p, In p l /\ picture p /\ open_image (p_payload p) = Raises).
Proof.
  induction l as [|p l IH] using rev_ind; intros NC.
  - split; [discriminate|intros (p & [] & _)].
  - specialize (IH (no_collision_app _ _ _ NC)). rewrite load_app. destruct (load l no_images) as [s0|] eqn:E.
    + pose proof (load_inv l s0 (no_collision_app _ _ _ NC) E) as I. cbn [load_images].
      assert (Hs : extract p s0 = None <-> picture p /\ open_image (p_payload p) = Raises).
      { unfold extract_image. destruct (streqb_spec (p_main p) ($"image")) as [Hp|Hp].
        2:{ split; [discriminate|intros [K _]; contradiction]. }
        unfold save_stats. cbn [i_sizes i_coverage i_names i_counts].
        destruct (dget (md5 (p_payload p)) (table ($"all") (i_sizes s0))) as [img|] eqn:Ed.
        - split; [discriminate|]. intros [_ K]. apply (inv_all _ _ I) in Ed as (x & Hx & Px & E1 & E2).
          assert (EP : p_payload x = p_payload p).
          { apply NC; auto; apply in_or_app; auto. right; left; reflexivity. }
          congruence.
        - destruct (open_image (p_payload p)); split; intros K; try discriminate; try (split; [exact Hp|reflexivity]); try reflexivity; destruct K; discriminate. }
      destruct (extract p s0) as [s1|].
      * split; [discriminate|]. intros (x & Hx & Px & K). apply in_app_or in Hx as [Hx|[<-|[]]].
        -- assert (N : Some s0 = None) by (apply IH; exists x; auto). discriminate.
        -- assert (N : Some s1 = None) by (apply Hs; auto). discriminate.
      * split; [|reflexivity]. intros _. exists p. split; [apply in_or_app; right; left; reflexivity|]. now apply Hs.
    + split; [|reflexivity]. intros _. destruct (proj1 IH eq_refl) as (x & Hx & K). exists x. split; [apply in_or_app; auto|exact K].
Qed.

(** ** The rules *)
Lemma count_rule l s t lo hi n : no_collision md5 picture l -> load l no_images = Some s -> no_all t l -> real_limit hi ->
  sum_over (of_type t) one l n -> (image_count s t lo hi = true <-> at_least lo n /\ at_most hi n).
Proof.
  intros NC H Hn Hr Hs. unfold image_count. rewrite (inv_counts _ _ (load_inv l s NC H) t Hn).
  rewrite <- (sum_over_b _ _ _ (tyb_ok t) l n Hs). now apply in_range_ok.
Qed.
Lemma coverage_rule l s t lo hi n : no_collision md5 picture l -> load l no_images = Some s -> no_all t l -> real_limit hi ->
  sum_over (of_type t) (pixels open_image) l n -> (pixel_coverage s t lo hi = true <-> at_least lo n /\ at_most hi n).
Proof.
  intros NC H Hn Hr Hs. unfold pixel_coverage. rewrite (inv_cover _ _ (load_inv l s NC H) t Hn).
  rewrite <- (sum_over_b _ _ _ (tyb_ok t) l n Hs). now apply in_range_ok.
Qed.
Lemma opt_streqb_ok a b : opt_streqb a b = true <-> a = b.
Proof.
  destruct a as [a|], b as [b|]; cbn; try (split; intros; congruence).
  destruct (streqb_spec a b); split; congruence.
Qed.
Lemma named_rule l s n : no_collision md5 picture l -> load l no_images = Some s ->
  (image_named s n = true <-> exists p, In p l /\ picture p /\ p_name p = Some n).
Proof.
  intros NC H. unfold image_named. rewrite existsb_exists. rewrite <- (inv_names _ _ (load_inv l s NC H)). split.
  - intros (x & Hx & E). apply opt_streqb_ok in E. now subst.
  - intros Hx. exists (Some n). split; [exact Hx|now apply opt_streqb_ok].
Qed.
Lemma exact_values s t h w : image_size_exact s t h w = true <->
  exists sz, In sz (get_sizes s t) /\ means h (Z.of_nat (height sz)) /\ means w (Z.of_nat (width sz)).
Proof.
  unfold image_size_exact. destruct (int_of h) as [h'|] eqn:Eh, (int_of w) as [w'|] eqn:Ew.
  2-4: split; [discriminate|intros (sz & _ & Hh & Hw); apply means_int in Hh, Hw; congruence].
  rewrite existsb_exists. split.
  - intros (sz & Hs & E). apply Bool.andb_true_iff in E as [E1 E2]. apply Z.eqb_eq in E1, E2. exists sz.
    split; [exact Hs|]. split; apply means_int; congruence.
  - intros (sz & Hs & Hh & Hw). apply means_int in Hh, Hw. exists sz. split; [exact Hs|].
    apply Bool.andb_true_iff. split; apply Z.eqb_eq; congruence.
Qed.
Lemma sizes_all l s sz : no_collision md5 picture l -> load l no_images = Some s ->
  (In sz (get_sizes s ($"all")) <-> exists p, In p l /\ picture p /\ open_image (p_payload p) = Opened sz).
Proof.
  intros NC H. pose proof (load_inv l s NC H) as I. unfold get_sizes. rewrite (In_dvalues _ _ (inv_keys _ _ I _)). split.
  - intros (k & E). apply (inv_all _ _ I) in E as (p & Hp & K & _ & E). exists p; auto.
  - intros (p & Hp & K & E). exists (md5 (p_payload p)). apply (inv_all _ _ I). exists p; auto.
Qed.
Lemma sizes_typ l s t sz : no_collision md5 picture l -> load l no_images = Some s -> t <> $"all" ->
  (In sz (get_sizes s t) <-> exists before p after, l = before ++ p :: after /\ picture p /\ p_sub p = t /\
     open_image (p_payload p) = Opened sz /\ first_copy before p).
Proof.
  intros NC H Ht. pose proof (load_inv l s NC H) as I. unfold get_sizes. rewrite (In_dvalues _ _ (inv_keys _ _ I _)). split.
  - intros (k & E). apply (inv_typ _ _ I t Ht) in E as (b & p & a & Hl & K & K1 & _ & E & F). exists b, p, a; auto.
  - intros (b & p & a & Hl & K & K1 & E & F). exists (md5 (p_payload p)). apply (inv_typ _ _ I t Ht). exists b, p, a; auto 10.
Qed.

(** The range *)
Lemma too_small_ok n lo : (exists z, means lo z) -> exists b, too_small n lo = Some b /\ (b = false <-> at_least lo n).
Proof.
  intros (z & Hz). apply means_int in Hz as Hz'. unfold too_small. rewrite Hz'. exists (Z.of_nat n <? z)%Z. split; [reflexivity|].
  rewrite Z.ltb_ge. unfold at_least. split.
  - intros K. exists z; auto.
  - intros (a & Ha & K). apply means_int in Ha. congruence.
Qed.
Lemma too_big_ok n hi : real_limit hi -> (forall h, hi = Some h -> exists z, means h z) ->
  exists b, too_big n hi = Some b /\ (b = false <-> at_most hi n).
Proof.
  intros Hr Hz. unfold too_big. destruct hi as [h|].
  - rewrite (truthy_real _ Hr). destruct (Hz h eq_refl) as (z & Mz). apply means_int in Mz as Mz'. rewrite Mz'.
    exists (z <? Z.of_nat n)%Z. split; [reflexivity|]. rewrite Z.ltb_ge. cbn. split.
    + intros K. exists z; auto.
    + intros (a & Ha & K). apply means_int in Ha. congruence.
  - exists false. cbn. tauto.
Qed.
Lemma range_values minh minw maxh maxw l : readable_args minh minw maxh maxw -> real_limit maxh -> real_limit maxw ->
  range_loop l minh minw maxh maxw = Some true /\ (exists sz, In sz l /\ fits minh minw maxh maxw sz) \/
  range_loop l minh minw maxh maxw = Some false /\ ~ (exists sz, In sz l /\ fits minh minw maxh maxw sz).
Proof.
  intros (R1 & R2 & R3 & R4) L1 L2. induction l as [|i l IH]; cbn [range_loop].
  - right. split; [reflexivity|intros (sz & [] & _)].
  - assert (Skip : (fits minh minw maxh maxw i -> False) ->
       range_loop l minh minw maxh maxw = Some true /\ (exists sz, In sz (i :: l) /\ fits minh minw maxh maxw sz) \/
       range_loop l minh minw maxh maxw = Some false /\ ~ (exists sz, In sz (i :: l) /\ fits minh minw maxh maxw sz)).
    { intros N. destruct IH as [[E (sz & H & K)]|[E K]]; [left|right]; (split; [exact E|]).
      - exists sz. split; [right; exact H|exact K].
      - intros (sz & [<-|H] & F); [tauto|]. apply K. exists sz; auto. }
    destruct (too_small_ok (width i) minw R2) as (b1 & -> & B1).
    destruct (too_small_ok (height i) minh R1) as (b2 & -> & B2).
    destruct (too_big_ok (width i) maxw L2 R4) as (b3 & -> & B3).
    destruct (too_big_ok (height i) maxh L1 R3) as (b4 & -> & B4).
    destruct b1; [apply Skip; intros (_ & F & _); apply B1 in F; discriminate|].
    destruct b2; [apply Skip; intros (F & _); apply B2 in F; discriminate|].
    destruct b3; [apply Skip; intros (_ & _ & _ & F); apply B3 in F; discriminate|].
    destruct b4; [apply Skip; intros (_ & _ & F & _); apply B4 in F; discriminate|].
    left. split; [reflexivity|]. exists i. split; [left; reflexivity|]. unfold fits. tauto.
Qed.
Lemma range_rule s t minh minw maxh maxw : readable_args minh minw maxh maxw -> real_limit maxh -> real_limit maxw ->
  (image_size_range s t minh minw maxh maxw = true <-> exists sz, In sz (get_sizes s t) /\ fits minh minw maxh maxw sz).
Proof.
  intros R L1 L2. unfold image_size_range.
  destruct (range_values minh minw maxh maxw (get_sizes s t) R L1 L2) as [[-> K]|[-> K]]; split; intros; try discriminate; auto; tauto.
Qed.

(** The first picture with the bytes of a given one *)
Lemma first_of l p : In p l -> picture p ->
  exists b p' a, l = b ++ p' :: a /\ picture p' /\ p_payload p' = p_payload p /\ first_copy b p'.
Proof.
  revert p. induction l as [|x l IH] using rev_ind; intros p Hp Pp; [destruct Hp|].
  apply in_app_or in Hp as [Hp|[<-|[]]].
  - destruct (IH p Hp Pp) as (b & p' & a & -> & K). exists b, p', (a ++ [x]). split; [rewrite <- app_assoc; reflexivity|exact K].
  - destruct (existsb (fun y => picb y && streqb (p_payload y) (p_payload x)) l) eqn:E.
    + apply existsb_exists in E as (y & Hy & E). apply Bool.andb_true_iff in E as [B E].
      destruct (streqb_spec (p_payload y) (p_payload x)) as [E'|]; [|discriminate].
      destruct (IH y Hy (proj2 (picb_ok y) B)) as (b & p' & a & -> & P' & E2 & F). exists b, p', (a ++ [x]).
      split; [rewrite <- app_assoc; reflexivity|]. split; [exact P'|]. split; [congruence|exact F].
    + exists l, x, []. split; [reflexivity|]. split; [exact Pp|]. split; [reflexivity|].
      intros y Hy Py Ey. assert (K : existsb (fun y => picb y && streqb (p_payload y) (p_payload x)) l = true).
      { apply existsb_exists. exists y. split; [exact Hy|]. apply Bool.andb_true_iff. split; [now apply picb_ok|].
        destruct (streqb_spec (p_payload y) (p_payload x)); [reflexivity|contradiction]. }
      congruence.
Qed.

(** The ratio *)
Lemma Qdiv_le_l (a x c : Q) : (0 < c)%Q -> (a <= x / c <-> a * c <= x)%Q.
Proof.
  intros Hc. assert (E : (x == x / c * c)%Q) by (rewrite Qmult_comm, Qmult_div_r; [reflexivity|intros K; rewrite K in Hc; discriminate]).
  split; intros H.
  - rewrite E. apply Qmult_le_compat_r; [exact H|apply Qlt_le_weak, Hc].
  - rewrite E in H. apply Qmult_le_r in H; auto.
Qed.
Lemma Qdiv_le_r (b x c : Q) : (0 < c)%Q -> (x / c <= b <-> x <= b * c)%Q.
Proof.
  intros Hc. assert (E : (x == x / c * c)%Q) by (rewrite Qmult_comm, Qmult_div_r; [reflexivity|intros K; rewrite K in Hc; discriminate]).
  split; intros H.
  - rewrite E. apply Qmult_le_compat_r; [exact H|apply Qlt_le_weak, Hc].
  - rewrite E in H. apply Qmult_le_r in H; auto.
Qed.
End Images.

Lemma ratio_rule md5 open_image float_of l s text raw body t lo hi a b n :
  no_collision md5 picture l -> load_images md5 open_image l no_images = Some s -> no_all t l ->
  sum_over (of_type t) (pixels open_image) l n -> n <> 0 -> means_ratio float_of lo a -> means_ratio float_of hi b -> real_ratio hi ->
  (image_to_text_ratio float_of s text raw body t lo (Some hi) = true <->
   (a * inject_Z (Z.of_nat n) <= inject_Z (Z.of_nat (length (if body then text else raw))) <= b * inject_Z (Z.of_nat n))%Q).
Proof.
  intros NC H Hn Hs Hz Ha Hb Hr. unfold image_to_text_ratio.
  rewrite (inv_cover _ _ _ _ (load_inv _ _ l s NC H) t Hn), <- (sum_over_b _ _ _ (tyb_ok t) l n Hs).
  destruct (Nat.eqb_spec n 0); [contradiction|]. replace (rat_of float_of lo) with (Some a) by (destruct lo; cbn [rat_of means_ratio] in *; congruence).
  replace (rat_truthy (Some hi)) with true
    by (destruct hi as [y|[|c r]]; cbn [rat_truthy real_ratio] in *; [destruct (Qeq_bool y 0) eqn:E; [apply Qeq_bool_eq in E; contradiction|reflexivity]|contradiction|reflexivity]).
  replace (rat_of float_of hi) with (Some b) by (destruct hi; cbn [rat_of means_ratio] in *; congruence).
  rewrite Bool.andb_true_iff, !Qle_bool_iff. unfold q.
  assert (P : (0 < inject_Z (Z.of_nat n))%Q) by (unfold Qlt; cbn; lia).
  rewrite (Qdiv_le_l a _ _ P), (Qdiv_le_r b _ _ P). reflexivity.
Qed.

Lemma ratio_least md5 open_image float_of l s text raw body t lo a n :
  no_collision md5 picture l -> load_images md5 open_image l no_images = Some s -> no_all t l ->
  sum_over (of_type t) (pixels open_image) l n -> n <> 0 -> means_ratio float_of lo a ->
  (image_to_text_ratio float_of s text raw body t lo None = true <->
   (a * inject_Z (Z.of_nat n) <= inject_Z (Z.of_nat (length (if body then text else raw))))%Q).
Proof.
  intros NC H Hn Hs Hz Ha. unfold image_to_text_ratio.
  rewrite (inv_cover _ _ _ _ (load_inv _ _ l s NC H) t Hn), <- (sum_over_b _ _ _ (tyb_ok t) l n Hs).
  destruct (Nat.eqb_spec n 0); [contradiction|].
  replace (rat_of float_of lo) with (Some a) by (destruct lo; cbn [rat_of means_ratio] in *; congruence).
  cbn [rat_truthy]. rewrite Qle_bool_iff. unfold q.
  assert (P : (0 < inject_Z (Z.of_nat n))%Q) by (unfold Qlt; cbn; lia).
  apply (Qdiv_le_l a _ _ P).
Qed.
Lemma range_unreadable s t minh minw maxh maxw : (forall z, ~ means minw z) -> image_size_range s t minh minw maxh maxw = false.
Proof.
  intros N. unfold image_size_range. destruct (get_sizes s t) as [|i l]; [reflexivity|]. cbn [range_loop]. unfold too_small at 1.
  destruct (int_of minw) as [z|] eqn:E; [exfalso; apply (N z), means_int, E|reflexivity].
Qed.

(** ** PDF files *)
Lemma pdf_range_ok n lo hi : real_limit hi -> (pdf_range n lo hi = true <-> num_at_least lo n /\ num_at_most hi n).
Proof.
  intros Hr. unfold pdf_range, num_at_least, num_at_most, zle. destruct lo as [a|x].
  2:{ split; [discriminate|intros [(a & K & _) _]; discriminate]. }
  assert (L : (exists a0, Num a = Num a0 /\ (a0 <= Z.of_nat n)%Z) <-> (a <= Z.of_nat n)%Z).
  { split; [intros (a0 & E & K); injection E as ->; exact K|intros K; exists a; auto]. }
  rewrite L, Bool.andb_true_iff, Z.leb_le. destruct hi as [h|].
  - rewrite (truthy_real _ Hr). destruct h as [b|x].
    + rewrite Z.leb_le. split; intros [H1 H2]; (split; [exact H1|]).
      * exists b; auto.
      * destruct H2 as (b0 & E & K). injection E as ->. exact K.
    + split; [intros [_ K]; discriminate|intros [_ (b & K & _)]; discriminate].
  - cbn. tauto.
Qed.

Section Pdfs.
Variable md5 : str -> str.
Variable read_pdf : str -> document.
Notation load := (load_pdfs md5 read_pdf).
Notation extract := (extract_pdf md5 read_pdf).

Lemma pload_app l1 l2 s : load (l1 ++ l2) s = match load l1 s with Some s' => load l2 s' | None => None end.
Proof. revert s. induction l1 as [|p l1 IH]; intros s; cbn [load_pdfs app]; [reflexivity|]. destruct (extract p s); auto. Qed.

Definition good (os : list xobject) : Prop := forall o, In o os -> ~ broken_object o.
Lemma objects_ok os n a :
  (good os /\ objects os (n, a) = Some (n + length (filter is_image os), a + fold_right Nat.add 0 (map surface (filter is_image os)))) \/
  ((exists o, In o os /\ broken_object o) /\ objects os (n, a) = None).
Proof.
  revert n a. induction os as [|o os IH]; intros n a; cbn [objects].
  - left. split; [intros o []|]. cbn. now rewrite !Nat.add_0_r.
  - cbn [filter]. pose proof (eq_refl : is_image o = match o_subtype o with Some t => streqb t ($"/Image") | None => false end) as Ei.
    destruct (o_subtype o) as [t|] eqn:Et.
    2:{ right. split; [|reflexivity]. exists o. split; [left; reflexivity|left; exact Et]. }
    destruct (streqb_spec t ($"/Image")) as [->|Ht]; rewrite Ei.
    + destruct (o_width o) as [w|] eqn:Ew.
      2:{ right. split; [|reflexivity]. exists o. split; [left; reflexivity|right; auto]. }
      destruct (o_height o) as [h|] eqn:Eh.
      2:{ right. split; [|reflexivity]. exists o. split; [left; reflexivity|right; auto]. }
      cbn [fst snd]. destruct (IH (n + 1) (a + w * h)) as [[G E]|[(x & Hx & Bx) E]].
      * left. split.
        -- intros x [<-|Hx]; [|now apply G]. intros [K|[_ [K|K]]]; congruence.
        -- rewrite E. cbn [length map fold_right]. replace (surface o) with (w * h) by (unfold surface; rewrite Ew, Eh; reflexivity). f_equal. f_equal; lia.
      * right. split; [exists x; split; [right; exact Hx|exact Bx]|exact E].
    + destruct (IH n a) as [[G E]|[(x & Hx & Bx) E]].
      * left. split; [|exact E]. intros x [<-|Hx]; [|now apply G]. intros [K|[K _]]; congruence.
      * right. split; [exists x; split; [right; exact Hx|exact Bx]|exact E].
Qed.
Definition objs (ps : list page) : list xobject := concat (map (fun p : page => match p with Some os => os | None => [] end) ps).
Lemma fold_add l1 l2 : fold_right Nat.add 0 (l1 ++ l2) = fold_right Nat.add 0 l1 + fold_right Nat.add 0 l2.
Proof. induction l1; cbn; lia. Qed.
Lemma pages_ok ps n a :
  (good (objs ps) /\ pages ps (n, a) = Some (n + length (filter is_image (objs ps)), a + fold_right Nat.add 0 (map surface (filter is_image (objs ps))))) \/
  ((exists o, In o (objs ps) /\ broken_object o) /\ pages ps (n, a) = None).
Proof.
  revert n a. induction ps as [|p ps IH]; intros n a; cbn [pages].
  - left. split; [intros o []|]. cbn. now rewrite !Nat.add_0_r.
  - unfold objs. cbn [map concat]. fold (objs ps). destruct p as [os|]; [|apply IH].
    destruct (objects_ok os n a) as [[G1 ->]|[(o & Ho & Bo) ->]].
    + destruct (IH (n + length (filter is_image os)) (a + fold_right Nat.add 0 (map surface (filter is_image os)))) as [[G2 E]|[(o & Ho & Bo) E]].
      * left. split.
        -- intros o Ho. apply in_app_or in Ho as [Ho|Ho]; auto.
        -- rewrite E, filter_app, app_length, map_app, fold_add. f_equal. f_equal; lia.
      * right. split; [|exact E]. exists o. split; [apply in_or_app; auto|exact Bo].
    + right. split; [|reflexivity]. exists o. split; [apply in_or_app; auto|exact Bo].
Qed.

Record pinv (l : list part) (s : pdfs) : Prop := {
  pi_names : forall n, In n (d_names s) <-> exists p, In p l /\ pdf_part p /\ p_name p = n;
  pi_count : d_count s = sumb pdfb one l;
  pi_hash : forall h, In h (d_hashes s) <-> exists p, In p l /\ pdf_part p /\ md5 (p_payload p) = h;
  pi_bytes : match d_bytes s with
             | Some n => (exists p, In p l /\ pdf_part p) /\ n = sumb pdfb bytes_in l
             | None => (forall p, In p l -> ~ pdf_part p)
             end;
  pi_enc : In true (d_encrypted s) <-> exists p, In p l /\ pdf_part p /\ read_pdf (p_payload p) = Encrypted;
  pi_img : d_images s = sumb pdfb (pictures_in read_pdf) l;
  pi_pix : d_pixels s = sumb pdfb (surface_in read_pdf) l;
  pi_det : forall id k v, (exists t, dget id (d_details s) = Some t /\ dget k t = Some v) <->
           exists p, In p l /\ pdf_part p /\ md5 (p_payload p) = id /\ has_detail (read_pdf (p_payload p)) k v;
  pi_keys : NoDup (dkeys (d_details s)) /\ forall id t, dget id (d_details s) = Some t -> NoDup (dkeys t)
}.
Lemma pinv_start : pinv [] no_pdfs.
Proof.
  constructor; try reflexivity; cbn.
  - intros n. split; [intros []|intros (p & [] & _)].
  - intros n. split; [intros []|intros (p & [] & _)].
  - intros p [].
  - split; [intros []|intros (p & [] & _)].
  - intros id k v. split; [intros (t & H & _); discriminate|intros (p & [] & _)].
  - split; [constructor|discriminate].
Qed.

(** The value under a key of the table of a file after one assignment *)
Lemma detail_get id k v d id' k' v' :
  (exists t, dget id' (update_detail id k v d) = Some t /\ dget k' t = Some v') <->
  (if streqb id id' && streqb k k' then v' = text_of v else exists t, dget id' d = Some t /\ dget k' t = Some v').
Proof.
  unfold update_detail. destruct (streqb_spec id id') as [<-|Hid]; cbn [andb].
  - destruct (streqb_spec k k') as [<-|Hk].
    + split.
      * intros (t & H & K). rewrite dget_dset_same in H. injection H as <-. rewrite dget_dset_same in K. now injection K as <-.
      * intros ->. eexists. split; [apply dget_dset_same|apply dget_dset_same].
    + split.
      * intros (t & H & K). rewrite dget_dset_same in H. injection H as <-. rewrite dget_dset_other in K by exact Hk.
        destruct (dget id d) as [t|]; [exists t; auto|discriminate].
      * intros (t & H & K). eexists. split; [apply dget_dset_same|]. rewrite dget_dset_other by exact Hk. now rewrite H.
  - split; intros (t & H & K); exists t; (split; [|exact K]); rewrite dget_dset_other in *; auto.
Qed.
Lemma detail_keys id k v d : NoDup (dkeys d) /\ (forall id t, dget id d = Some t -> NoDup (dkeys t)) ->
  NoDup (dkeys (update_detail id k v d)) /\ forall id' t, dget id' (update_detail id k v d) = Some t -> NoDup (dkeys t).
Proof.
  intros [N1 N2]. unfold update_detail. split; [now apply dset_NoDup|].
  intros id' t. rewrite dget_dset. destruct (streqb_spec id id') as [<-|]; [|apply N2].
  intros H; injection H as <-. apply dset_NoDup. destruct (dget id d) as [t|] eqn:E; [now apply (N2 id)|constructor].
Qed.
Lemma info_keys id i d : NoDup (dkeys d) /\ (forall id t, dget id d = Some t -> NoDup (dkeys t)) ->
  NoDup (dkeys (update_info id i d)) /\ forall id' t, dget id' (update_info id i d) = Some t -> NoDup (dkeys t).
Proof. intros H. destruct i as [i|]; [|exact H]. cbn [update_info]. now repeat apply detail_keys. Qed.
Lemma info_get id i d id' k v ps :
  (exists t, dget id' (update_info id i d) = Some t /\ dget k t = Some v) <->
  (id = id' /\ has_detail (Document i ps) k v) \/
  ((exists t, dget id' d = Some t /\ dget k t = Some v) /\ ~ (id = id' /\ exists v', has_detail (Document i ps) k v')).
Proof.
  destruct i as [i|]; cbn [update_info].
  2:{ split.
      - intros H. right. split; [exact H|]. intros (_ & v' & (i & ps' & E & _)). discriminate.
      - intros [(_ & (i & ps' & E & _))|[H _]]; [discriminate|exact H]. }
  assert (HD : forall w, has_detail (Document (Some i) ps) k w <->
     ((k = $"author" /\ w = text_of (d_author i)) \/ (k = $"creator" /\ w = text_of (d_creator i)) \/
      (k = $"producer" /\ w = text_of (d_producer i)) \/ (k = $"title" /\ w = text_of (d_title i)))).
  { intros w. split.
    - intros (i' & ps' & E & H). injection E as <- _. exact H.
    - intros H. exists i, ps. auto. }
  rewrite HD. rewrite detail_get.
  destruct (streqb_spec id id') as [<-|Hid]; cbn [andb].
  2:{ assert (Ef : streqb id id' = false) by (destruct (streqb_spec id id'); [contradiction|reflexivity]).
      do 3 (rewrite detail_get, Ef; cbn [andb]). split.
      - intros H. right. split; [exact H|]. intros [K _]; contradiction.
      - intros [[K _]|[H _]]; [contradiction|exact H]. }
  destruct (streqb_spec ($"title") k) as [<-|H4].
  { split.
    - intros ->. left. split; [reflexivity|]. auto.
    - intros [[_ [[K _]|[[K _]|[[K _]|[_ K]]]]]|[_ K]]; try discriminate K; [exact K|].
      exfalso. apply K. split; [reflexivity|]. eexists. apply HD. right; right; right. split; reflexivity. }
  rewrite detail_get. destruct (streqb_spec id id) as [_|]; [|congruence]. cbn [andb].
  destruct (streqb_spec ($"producer") k) as [<-|H3].
  { split.
    - intros ->. left. split; [reflexivity|]. auto.
    - intros [[_ [[K _]|[[K _]|[[_ K]|[K _]]]]]|[_ K]]; try discriminate K; [exact K|].
      exfalso. apply K. split; [reflexivity|]. eexists. apply HD. right; right; left. split; reflexivity. }
  rewrite detail_get. destruct (streqb_spec id id) as [_|]; [|congruence]. cbn [andb].
  destruct (streqb_spec ($"creator") k) as [<-|H2].
  { split.
    - intros ->. left. split; [reflexivity|]. auto.
    - intros [[_ [[K _]|[[_ K]|[[K _]|[K _]]]]]|[_ K]]; try discriminate K; [exact K|].
      exfalso. apply K. split; [reflexivity|]. eexists. apply HD. right; left. split; reflexivity. }
  rewrite detail_get. destruct (streqb_spec id id) as [_|]; [|congruence]. cbn [andb].
  destruct (streqb_spec ($"author") k) as [<-|H1].
  { split.
    - intros ->. left. split; [reflexivity|]. auto.
    - intros [[_ [[_ K]|[[K _]|[[K _]|[K _]]]]]|[_ K]]; try discriminate K; [exact K|].
      exfalso. apply K. split; [reflexivity|]. eexists. apply HD. left. split; reflexivity. }
  split.
  - intros H. right. split; [exact H|]. intros (_ & v' & K). apply HD in K. intuition congruence.
  - intros [[_ K]|[H _]]; [|exact H]. exfalso. intuition congruence.
Qed.

Lemma exists_snoc (Q : part -> Prop) l p : (exists x, In x (l ++ [p]) /\ Q x) <-> (exists x, In x l /\ Q x) \/ Q p.
Proof.
  split.
  - intros (x & H & K). apply in_app_or in H as [H|[<-|[]]]; [left; exists x; auto|right; exact K].
  - intros [(x & H & K)|K]; [exists x|exists p]; (split; [apply in_or_app; auto|exact K]). right; left; reflexivity.
Qed.

Lemma pextract_inv l s p s' : no_collision md5 pdf_part (l ++ [p]) -> pinv l s -> extract p s = Some s' -> pinv (l ++ [p]) s'.
Proof.
  intros NC I H. unfold extract_pdf in H. change (streqb (p_main p) ($"application") && streqb (p_sub p) ($"pdf")) with (pdfb p) in H.
  destruct (pdfb p) eqn:B.
  2:{ injection H as <-. assert (Np : ~ pdf_part p) by (intros K; apply pdfb_ok in K; congruence).
      constructor; try rewrite sumb_snoc, B, Nat.add_0_r.
      - intros n. rewrite exists_snoc, (pi_names _ _ I). tauto.
      - apply (pi_count _ _ I).
      - intros n. rewrite exists_snoc, (pi_hash _ _ I). tauto.
      - pose proof (pi_bytes _ _ I) as K. destruct (d_bytes s) as [n|].
        + destruct K as [(x & Hx & Px) ->]. split; [|try rewrite sumb_snoc, B, Nat.add_0_r; reflexivity].
          exists x. split; [apply in_or_app; auto|exact Px].
        + intros x Hx. apply in_app_or in Hx as [Hx|[<-|[]]]; auto.
      - rewrite exists_snoc, (pi_enc _ _ I). tauto.
      - apply (pi_img _ _ I).
      - apply (pi_pix _ _ I).
      - intros id k v. rewrite exists_snoc, (pi_det _ _ I). tauto.
      - apply (pi_keys _ _ I). }
  assert (Hp : pdf_part p) by now apply pdfb_ok.
  assert (Same : forall x, In x l -> pdf_part x -> md5 (p_payload x) = md5 (p_payload p) -> p_payload x = p_payload p).
  { intros x Hx Px E. apply NC; auto; apply in_or_app; auto. right; left; reflexivity. }
  unfold save_pdf in H. cbn [d_hashes d_bytes d_names d_count d_encrypted d_details d_images d_pixels] in H.
  assert (Names : forall n, In n (p_name p :: d_names s) <-> exists x, In x (l ++ [p]) /\ pdf_part x /\ p_name x = n).
  { intros n. rewrite exists_snoc. cbn [In]. rewrite (pi_names _ _ I). tauto. }
  assert (Hashes : forall n, In n (md5 (p_payload p) :: d_hashes s) <-> exists x, In x (l ++ [p]) /\ pdf_part x /\ md5 (p_payload x) = n).
  { intros n. rewrite exists_snoc. cbn [In]. rewrite (pi_hash _ _ I). tauto. }
  assert (Count : d_count s + 1 = sumb pdfb one (l ++ [p])).
  { rewrite sumb_snoc, B, (pi_count _ _ I). reflexivity. }
  assert (Bytes : (exists x, In x (l ++ [p]) /\ pdf_part x) /\
     match d_bytes s with Some n => n | None => 0 end + length (p_payload p) = sumb pdfb bytes_in (l ++ [p])).
  { split; [exists p; split; [apply in_or_app; right; left; reflexivity|exact Hp]|].
    rewrite sumb_snoc, B. pose proof (pi_bytes _ _ I) as K. destruct (d_bytes s) as [n|].
    - destruct K as [_ ->]. reflexivity.
    - unfold bytes_in at 2. f_equal. clear - K. induction l as [|x l IH]; [reflexivity|]. cbn [sumb].
      destruct (pdfb x) eqn:E; [exfalso; apply (K x); [left; reflexivity|now apply pdfb_ok]|]. cbn. apply IH.
      intros y Hy. apply K. right; exact Hy. }
  destruct (read_pdf (p_payload p)) as [| |i ps] eqn:Er; [discriminate| |].
  - injection H as <-. constructor; cbn [d_hashes d_bytes d_names d_count d_encrypted d_details d_images d_pixels]; auto.
    + cbn [In]. rewrite exists_snoc, Er. tauto.
    + rewrite sumb_snoc, B, (pi_img _ _ I). unfold pictures_in at 3. rewrite Er. cbn. lia.
    + rewrite sumb_snoc, B, (pi_pix _ _ I). unfold surface_in at 3. rewrite Er. cbn. lia.
    + intros id k v. rewrite exists_snoc, (pi_det _ _ I). split; [tauto|]. intros [K|(_ & _ & (i & ps & E & _))]; [exact K|congruence].
    + apply (pi_keys _ _ I).
  - destruct (pages_ok ps (d_images s) (d_pixels s)) as [[G E]|[_ E]]; rewrite E in H; [|discriminate].
    injection H as <-. constructor; cbn [d_hashes d_bytes d_names d_count d_encrypted d_details d_images d_pixels]; auto.
    + cbn [In]. rewrite exists_snoc, Er, (pi_enc _ _ I). split.
      * intros [K|K]; [discriminate|auto].
      * intros [K|(_ & K)]; [auto|discriminate].
    + rewrite sumb_snoc, B, (pi_img _ _ I). unfold pictures_in at 3. rewrite Er. reflexivity.
    + rewrite sumb_snoc, B, (pi_pix _ _ I). unfold surface_in at 3. rewrite Er. reflexivity.
    + intros id k v. rewrite exists_snoc, (info_get _ _ _ _ _ _ ps), (pi_det _ _ I), Er. split.
      * intros [[E1 K]|[K _]]; [right; auto|left; exact K].
      * intros [(x & Hx & Px & E1 & K)|(_ & E1 & K)]; [|left; auto].
        destruct (str_eq_dec (md5 (p_payload p)) id) as [E2|E2].
        -- left. split; [exact E2|]. rewrite (Same x Hx Px) in K by congruence. now rewrite Er in K.
        -- right. split; [exists x; auto|]. intros [K2 _]. contradiction.
    + apply info_keys, (pi_keys _ _ I).
Qed.

Lemma pno_collision_app P l1 l2 : no_collision md5 P (l1 ++ l2) -> no_collision md5 P l1.
Proof. intros H p p' Hp Hp'. apply H; apply in_or_app; auto. Qed.
Lemma pload_inv l s : no_collision md5 pdf_part l -> load l no_pdfs = Some s -> pinv l s.
Proof.
  revert s. induction l as [|p l IH] using rev_ind; intros s NC H.
  - injection H as <-. apply pinv_start.
  - rewrite pload_app in H. destruct (load l no_pdfs) as [s0|] eqn:E; [|discriminate].
    cbn [load_pdfs] in H. destruct (extract p s0) as [s1|] eqn:E1; [|discriminate]. injection H as <-.
    apply (pextract_inv l s0); auto. apply IH; auto. exact (pno_collision_app _ _ _ NC).
Qed.
Lemma extract_none p s : extract p s = None <-> pdf_part p /\ broken (read_pdf (p_payload p)).
Proof.
  unfold extract_pdf. change (streqb (p_main p) ($"application") && streqb (p_sub p) ($"pdf")) with (pdfb p).
  destruct (pdfb p) eqn:B.
  2:{ split; [discriminate|]. intros [K _]. apply pdfb_ok in K. congruence. }
  apply pdfb_ok in B. unfold save_pdf, broken. cbn [d_hashes d_bytes d_names d_count d_encrypted d_details d_images d_pixels].
  destruct (read_pdf (p_payload p)) as [| |i ps] eqn:Er.
  - split; auto.
  - split; [discriminate|]. intros [_ [K|(o & [] & _)]]. discriminate.
  - destruct (pages_ok ps (d_images s) (d_pixels s)) as [[G ->]|[(o & Ho & Bo) ->]].
    + split; [discriminate|]. intros [_ [K|(o & Ho & Bo)]]; [discriminate|]. exfalso. exact (G o Ho Bo).
    + split; [|reflexivity]. intros _. split; [exact B|]. right. exists o. auto.
Qed.
Lemma pload_none l : load l no_pdfs = None <-> exists p, In p l /\ pdf_part p /\ broken (read_pdf (p_payload p)).
Proof.
  assert (G : forall s, load l s = None <-> exists p, In p l /\ pdf_part p /\ broken (read_pdf (p_payload p))).
  2: apply G.
  induction l as [|p l IH]; intros s; cbn [load_pdfs].
  - split; [discriminate|intros (p & [] & _)].
  - destruct (extract p s) as [s1|] eqn:E.
    + rewrite IH. split; intros (x & Hx & K); exists x; (split; [|exact K]); [right; exact Hx|].
      destruct Hx as [<-|Hx]; [|exact Hx]. apply (extract_none p s) in K. congruence.
    + split; [|reflexivity]. intros _. exists p. split; [left; reflexivity|]. now apply (extract_none p s).
Qed.

(** ** The rules *)
Lemma pcount_rule l s lo hi n : no_collision md5 pdf_part l -> load l no_pdfs = Some s -> real_limit hi ->
  sum_over pdf_part one l n -> (pdf_count s lo hi = true <-> num_at_least lo n /\ num_at_most hi n).
Proof.
  intros NC H Hr Hs. unfold pdf_count. rewrite (pi_count _ _ (pload_inv l s NC H)).
  rewrite <- (sum_over_b _ _ _ pdfb_ok l n Hs). now apply pdf_range_ok.
Qed.
Lemma pimage_rule l s lo hi n : no_collision md5 pdf_part l -> load l no_pdfs = Some s -> real_limit hi ->
  sum_over pdf_part (pictures_in read_pdf) l n -> (pdf_image_count s lo hi = true <-> num_at_least lo n /\ num_at_most hi n).
Proof.
  intros NC H Hr Hs. unfold pdf_image_count. rewrite (pi_img _ _ (pload_inv l s NC H)).
  rewrite <- (sum_over_b _ _ _ pdfb_ok l n Hs). now apply pdf_range_ok.
Qed.
Lemma ppixel_rule l s lo hi n : no_collision md5 pdf_part l -> load l no_pdfs = Some s -> real_limit hi ->
  sum_over pdf_part (surface_in read_pdf) l n -> (pdf_pixel_coverage s lo hi = true <-> num_at_least lo n /\ num_at_most hi n).
Proof.
  intros NC H Hr Hs. unfold pdf_pixel_coverage. rewrite (pi_pix _ _ (pload_inv l s NC H)).
  rewrite <- (sum_over_b _ _ _ pdfb_ok l n Hs). now apply pdf_range_ok.
Qed.
Lemma pnamed_rule l s n : no_collision md5 pdf_part l -> load l no_pdfs = Some s ->
  (pdf_named s n = true <-> exists p, In p l /\ pdf_part p /\ p_name p = Some n).
Proof.
  intros NC H. unfold pdf_named. rewrite existsb_exists, <- (pi_names _ _ (pload_inv l s NC H)). split.
  - intros (x & Hx & E). apply opt_streqb_ok in E. now subst.
  - intros Hx. exists (Some n). split; [exact Hx|now apply opt_streqb_ok].
Qed.
Lemma name_loop_ok hit names : ~ In None names ->
  name_loop hit names = Some (existsb (fun n => match n with Some n => hit n | None => false end) names).
Proof.
  induction names as [|[n|] names IH]; cbn; intros H; [reflexivity| |exfalso; auto].
  destruct (hit n); cbn; auto.
Qed.
Lemma pregex_rule l s names hit : no_collision md5 pdf_part l -> load l no_pdfs = Some s ->
  (forall n, In n names <-> In n (d_names s)) -> (forall p, In p l -> pdf_part p -> p_name p <> None) ->
  (pdf_name_regex names hit = true <-> exists p n, In p l /\ pdf_part p /\ p_name p = Some n /\ hit n = true).
Proof.
  intros NC H HN HX. pose proof (pload_inv l s NC H) as I. unfold pdf_name_regex. rewrite name_loop_ok.
  2:{ intros K. apply HN, (pi_names _ _ I) in K as (p & Hp & Pp & E). exact (HX p Hp Pp E). }
  rewrite existsb_exists. split.
  - intros ([n|] & Hn & E); [|discriminate]. apply HN, (pi_names _ _ I) in Hn as (p & Hp & Pp & En). exists p, n; auto.
  - intros (p & n & Hp & Pp & En & E). exists (Some n). split; [|exact E]. apply HN, (pi_names _ _ I). exists p; auto.
Qed.
Lemma pmd5_rule l s h : no_collision md5 pdf_part l -> load l no_pdfs = Some s ->
  (pdf_match_md5 s h = true <-> exists p, In p l /\ pdf_part p /\ md5 (p_payload p) = h).
Proof. intros NC H. unfold pdf_match_md5. rewrite mem_str_In. apply (pi_hash _ _ (pload_inv l s NC H)). Qed.
Lemma pencrypted_rule l s : no_collision md5 pdf_part l -> load l no_pdfs = Some s ->
  (pdf_is_encrypted s = true <-> exists p, In p l /\ pdf_part p /\ read_pdf (p_payload p) = Encrypted).
Proof.
  intros NC H. rewrite <- (pi_enc _ _ (pload_inv l s NC H)). unfold pdf_is_encrypted. rewrite existsb_exists. split.
  - intros (b & Hb & ->). exact Hb.
  - intros Hb. exists true; auto.
Qed.
Lemma pempty_rule l s b n : no_collision md5 pdf_part l -> load l no_pdfs = Some s -> sum_over pdf_part bytes_in l n ->
  (pdf_is_empty_body s (Num b) = true <-> (exists p, In p l /\ pdf_part p) /\ (Z.of_nat n <= b)%Z).
Proof.
  intros NC H Hs. pose proof (pi_bytes _ _ (pload_inv l s NC H)) as K. unfold pdf_is_empty_body, zle.
  rewrite (sum_over_b _ _ _ pdfb_ok l n Hs). destruct (d_bytes s) as [m|].
  - destruct K as [E ->]. rewrite Z.leb_le. tauto.
  - split; [discriminate|]. intros [(p & Hp & Pp) _]. exfalso. exact (K p Hp Pp).
Qed.
Lemma pdetails_rule l s detail hit : no_collision md5 pdf_part l -> load l no_pdfs = Some s ->
  (pdf_match_details s detail hit = true <->
   exists p k v, In p l /\ pdf_part p /\ has_detail (read_pdf (p_payload p)) k v /\ hit v = true).
Proof.
  intros NC H. pose proof (pload_inv l s NC H) as I. destruct (pi_keys _ _ I) as [N1 N2].
  unfold pdf_match_details. rewrite existsb_exists. split.
  - intros ([id t] & Ht & E). cbn in E. apply existsb_exists in E as ([k v] & Hv & E). cbn in E.
    apply In_dget in Ht; [|exact N1]. apply In_dget in Hv; [|now apply (N2 id)].
    destruct (proj1 (pi_det _ _ I id k v)) as (p & Hp & Pp & _ & K); [exists t; auto|]. exists p, k, v; auto.
  - intros (p & k & v & Hp & Pp & K & E).
    destruct (proj2 (pi_det _ _ I (md5 (p_payload p)) k v)) as (t & E1 & E2); [exists p; auto|].
    exists (md5 (p_payload p), t). split; [now apply dget_In|]. cbn. apply existsb_exists. exists (k, v).
    split; [now apply dget_In|exact E].
Qed.
End Pdfs.
