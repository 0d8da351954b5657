(** Proofs about the Razor, Pyzor and SpamCop plugins and the subject lists. *)
From Coq Require Import Lia.
From Verif Require Import PyStr PyDict Model_Feedback Spec_Feedback.

(** ** Razor *)
Lemma razor_first r : fst (check_razor2 true r None) = true <-> listed_by r.
Proof.
  unfold listed_by. destruct r as [|code]; cbn [check_razor2 negb fst]; [split; discriminate|]. unfold truth. rewrite negb_involutive, Z.eqb_eq. split; [intros -> ; reflexivity | intros H; congruence].
Qed.
Lemma razor_stored r v n : razor_answers true r n (Some v) = repeat (truth v) n.
Proof. induction n as [|n IH]; [reflexivity|]. cbn [razor_answers check_razor2 negb repeat]. rewrite IH. reflexivity. Qed.
Lemma razor_listed n : razor_answers true (Ended 0) (S n) None = true :: repeat false n.
Proof. cbn [razor_answers]. cbn [check_razor2 negb]. change (if (0 =? 1)%Z || (0 =? 0)%Z then 0%Z else 0%Z) with 0%Z. rewrite razor_stored. reflexivity. Qed.
Lemma razor_unlisted n : razor_answers true (Ended 1) (S n) None = false :: repeat true n.
Proof. cbn [razor_answers]. cbn [check_razor2 negb]. change (if (1 =? 1)%Z || (1 =? 0)%Z then 1%Z else 0%Z) with 1%Z. rewrite razor_stored. reflexivity. Qed.
Lemma repeat_false n : false :: repeat false n = repeat false (S n). Proof. reflexivity. Qed.
Lemma razor_failed r n : r <> Ended 0 -> r <> Ended 1 -> razor_answers true r n None = repeat false n.
Proof.
  intros H0 H1. destruct n as [|n]; [reflexivity|]. cbn [razor_answers]. destruct r as [|code]; cbn [check_razor2 negb].
  - rewrite razor_stored. reflexivity.
  - assert (C0 : Z.eqb code 0 = false) by (apply Z.eqb_neq; congruence). assert (C1 : Z.eqb code 1 = false) by (apply Z.eqb_neq; congruence).
    rewrite C0, C1. cbn [orb]. rewrite razor_stored. unfold truth. rewrite C0. reflexivity.
Qed.
Lemma razor_off r n s : razor_answers false r n s = repeat false n.
Proof. induction n as [|n IH]; [reflexivity|]. cbn [razor_answers check_razor2 negb repeat]. rewrite IH. reflexivity. Qed.

(** ** Pyzor *)
Lemma ask_servers_iff max reply servers : forall tags seen,
  (fst (fst (ask_servers max reply servers tags seen)) = true <-> exists s, reached reply servers s /\ accuses max reply s).
Proof.
  induction servers as [|s l IH]; intros tags seen; cbn [ask_servers].
  - split; [discriminate|]. intros (s & (l1 & l2 & E & _) & _). destruct l1; discriminate.
  - destruct (reply s) as [[count wl]|] eqn:E.
    + destruct (Z.leb max count && Z.eqb wl 0) eqn:A.
      * apply andb_true_iff in A as [A1 A2]. apply Z.leb_le in A1. apply Z.eqb_eq in A2. split; [intros _|reflexivity].
        exists s. split; [exists [], l; split; [reflexivity | intros x []]|]. exists count, wl. auto.
      * rewrite IH. split.
        -- intros (t & (l1 & l2 & -> & H) & A2). exists t. split; [|exact A2]. exists (s :: l1), l2. split; [reflexivity|].
           intros x [<- | Hx]; [congruence | apply H, Hx].
        -- intros (t & (l1 & l2 & E2 & H) & A2). destruct l1 as [|y l1].
           ++ injection E2 as <- <-. destruct A2 as (c & w & R & L & W). rewrite E in R. injection R as <- <-.
              apply Z.leb_le in L. subst wl. rewrite L in A. discriminate.
           ++ injection E2 as <- ->. exists t. split; [|exact A2]. exists l1, l2. split; [reflexivity|]. intros x Hx. apply H. right. exact Hx.
    + split; [discriminate|]. intros (t & (l1 & l2 & E2 & H) & A2). destruct l1 as [|y l1].
      * injection E2 as <- <-. destruct A2 as (c & w & R & _). congruence.
      * injection E2 as <- ->. exfalso. exact (H s (or_introl eq_refl) E).
Qed.
Lemma pyzor_iff max servers reply digest p :
  (fst (check_pyzor true max servers reply digest p) = true <->
   exists s, reached (reply digest) servers s /\ accuses max (reply digest) s).
Proof.
  unfold check_pyzor. cbn [negb]. pose proof (ask_servers_iff max (reply digest) servers (pz_tags p) (pz_asked p)) as H.
  destruct (ask_servers _ _ _ _ _) as [[b t] l]. exact H.
Qed.
Lemma ask_servers_seen max reply servers : forall tags seen,
  (forall s, In s servers -> reply s <> None /\ ~ accuses max reply s) -> servers <> [] ->
  ask_servers max reply servers tags seen = (false, reply (last servers []), seen ++ servers).
Proof.
  induction servers as [|s l IH]; intros tags seen H NE; [congruence|]. cbn [ask_servers].
  destruct (reply s) as [[count wl]|] eqn:E; [|destruct (H s (or_introl eq_refl)); congruence].
  destruct (Z.leb max count && Z.eqb wl 0) eqn:A.
  { exfalso. apply andb_true_iff in A as [A1 A2]. apply Z.leb_le in A1. apply Z.eqb_eq in A2. apply (H s (or_introl eq_refl)). exists count, wl. auto. }
  destruct l as [|x l]; [cbn [ask_servers last]; rewrite E; reflexivity|].
  rewrite IH; [|intros y Hy; apply H; right; exact Hy | discriminate]. rewrite <- app_assoc. reflexivity.
Qed.
Lemma send_all_in send digest servers : (forall s, In s servers -> send s = true) -> send_all send digest servers = map (fun s => (s, digest)) servers.
Proof.
  induction servers as [|s l IH]; intros H; [reflexivity|]. cbn [send_all map]. rewrite (H s (or_introl eq_refl)), IH; [reflexivity|].
  intros x Hx. apply H. right. exact Hx.
Qed.
Lemma report_same use_send servers reply max digest p send :
  use_send = true -> (forall s, In s servers -> send s = true) ->
  pyzor_report true servers send digest (snd (check_pyzor true max servers reply digest p)) = map (fun s => (s, digest)) servers.
Proof.
  intros _ H. unfold pyzor_report. cbn [negb]. unfold check_pyzor. cbn [negb]. destruct (ask_servers _ _ _ _ _) as [[b t] l]. cbn [snd pz_digest]. apply send_all_in, H.
Qed.

(** ** SpamCop *)
Lemma at_inside_true s : at_inside true s = true <-> exists a b rest, s = a ++ $"@" ++ b ++ rest /\ b <> [] /\ ~ In 10%N a /\ ~ In 10%N b.
Proof.
  change ($"@") with [64%N]. induction s as [|c r IH]; cbn [at_inside].
  - split; [discriminate|]. intros (a & b & rest & E & _). destruct a; discriminate.
  - destruct (N.eqb_spec c 10) as [-> | NC].
    + split; [discriminate|]. intros (a & b & rest & E & NB & N1 & N2). destruct a as [|x a]; [discriminate|]. injection E as <- _. exfalso. apply N1. left. reflexivity.
    + rewrite orb_true_iff, IH. cbn [andb]. split.
      * intros [H | (a & b & rest & -> & H1 & H2 & H3)].
        -- apply andb_true_iff in H as [H1 H2]. apply N.eqb_eq in H1 as ->. destruct r as [|d r]; [discriminate|].
           apply negb_true_iff, N.eqb_neq in H2. exists [], [d], r. repeat split; [discriminate | intros [] | intros [E | []]; congruence].
        -- exists (c :: a), b, rest. repeat split; try assumption. intros [E | E]; [congruence | exact (H2 E)].
      * intros (a & b & rest & E & NB & N1 & N2). destruct a as [|x a].
        -- left. injection E as -> ->. destruct b as [|d b]; [congruence|]. cbn [app]. apply andb_true_iff. split; [reflexivity|].
           apply negb_true_iff, N.eqb_neq. intros ->. apply N2. left. reflexivity.
        -- right. injection E as -> ->. exists a, b, rest. repeat split; try assumption. intros H. apply N1. right. exact H.
Qed.
Lemma addressed_iff to : at_inside false to = true <-> addressed to.
Proof.
  unfold addressed. destruct to as [|c r]; cbn [at_inside].
  - split; [discriminate|]. intros (a & b & rest & E & NA & _). destruct a; [congruence | discriminate].
  - destruct (N.eqb_spec c 10) as [-> | NC].
    + split; [discriminate|]. intros (a & b & rest & E & NA & NB & N1 & _). destruct a as [|x a]; [congruence|]. injection E as <- _. exfalso. apply N1. left. reflexivity.
    + cbn [andb orb]. rewrite at_inside_true. split.
      * intros (a & b & rest & -> & H1 & H2 & H3). exists (c :: a), b, rest. repeat split; try assumption; [discriminate|]. intros [E | E]; [congruence | exact (H2 E)].
      * intros (a & b & rest & E & NA & NB & N1 & N2). destruct a as [|x a]; [congruence|]. injection E as -> ->. exists a, b, rest.
        repeat split; try assumption. intros H. apply N1. right. exact H.
Qed.
Lemma split_one c a t : ~ In c a -> ~ In c t -> split_char c (a ++ c :: t) = [a; t].
Proof.
  intros Ha Ht. change (a ++ c :: t) with (join [c] [a; t]) at 1. apply split_char_join; [discriminate|]. repeat constructor; assumption.
Qed.
Lemma mail_date_header parse h l d : header_date parse h d -> mail_date parse (h :: l) = Some d.
Proof.
  intros (a & t & -> & N1 & N2 & P). unfold mail_date. change (a ++ $";" ++ t) with (a ++ 59%N :: t). rewrite split_one by assumption. exact P.
Qed.
Lemma spamcop_iff dont to max parse now h l raw d : header_date parse h d -> d <> 0%Z ->
  (spamcop_report dont to max parse now (h :: l) raw = Sent (excerpt max raw) /\ addressed to /\ (now - 2 * 86400 <= d)%Z) \/
  (spamcop_report dont to max parse now (h :: l) raw = NotSent /\ (~ addressed to \/ (d < now - 2 * 86400)%Z)).
Proof.
  intros HD D0. unfold spamcop_report. rewrite (mail_date_header parse h l d HD). pose proof (addressed_iff to) as A.
  destruct (at_inside false to); cbn [negb].
  - apply Z.eqb_neq in D0. rewrite D0. cbn [orb]. destruct (Z.ltb_spec d (now - 2 * 86400)).
    + right. split; [reflexivity | right; assumption].
    + left. split; [reflexivity|]. split; [apply A; reflexivity | assumption].
  - right. split; [reflexivity|]. left. intros H. apply A in H. discriminate.
Qed.
Lemma excerpt_short max raw : length raw <= max * 1024 -> excerpt max raw = raw.
Proof. intros H. unfold excerpt. destruct (Nat.ltb_spec (max * 1024) (length raw)); [lia | reflexivity]. Qed.
Lemma excerpt_long max raw : max * 1024 < length raw ->
  exists a b, raw = a ++ b /\ length a = max * 1024 /\ excerpt max raw = a ++ notice.
Proof.
  intros H. exists (firstn (max * 1024) raw), (skipn (max * 1024) raw). split; [symmetry; apply firstn_skipn|]. split.
  - rewrite firstn_length. apply Nat.min_l. apply Nat.lt_le_incl, H.
  - unfold excerpt. apply Nat.ltb_lt in H. rewrite H. reflexivity.
Qed.

(** ** Subject lists *)
Lemma config_get valid k v l key : dget key (subject_config valid k v l) =
  match dget key l with
  | None => None
  | Some old => Some (if streqb k key && valid (strip v) then old ++ [v] else old)
  end.
Proof.
  unfold subject_config. destruct (dget k l) as [old|] eqn:E.
  - destruct (valid (strip v)).
    + rewrite dget_dset, andb_true_r. destruct (streqb_spec k key) as [-> | NE]; [rewrite E; reflexivity|]. destruct (dget key l); reflexivity.
    + rewrite andb_false_r. destruct (dget key l); reflexivity.
  - destruct (streqb_spec k key) as [-> | NE]; [rewrite E; reflexivity|]. cbn [andb]. destruct (dget key l); reflexivity.
Qed.
Lemma configs_get valid lines key : forall l old, dget key l = Some old -> exists items, dget key (subject_configs valid lines l) = Some items /\
  forall i, In i items <-> In i old \/ (given lines key i /\ valid (strip i) = true).
Proof.
  induction lines as [|[k v] lines IH]; intros l old E.
  - exists old. split; [exact E|]. intros i. unfold given. cbn. tauto.
  - cbn [subject_configs]. destruct (IH (subject_config valid k v l) (if streqb k key && valid (strip v) then old ++ [v] else old)) as (items & E2 & H).
    { rewrite config_get, E. reflexivity. }
    exists items. split; [exact E2|]. intros i. rewrite H. unfold given. cbn [In].
    destruct (streqb_spec k key) as [-> | NE]; cbn [andb].
    + destruct (valid (strip v)) eqn:V.
      * rewrite in_app_iff. cbn [In]. split.
        -- intros [[H1 | [<- | []]] | [H1 H2]]; [left; exact H1 | right; split; [left; reflexivity | exact V] | right; split; [right; exact H1 | exact H2]].
        -- intros [H1 | [[H1 | H1] H2]]; [left; left; exact H1 | injection H1 as ->; left; right; left; reflexivity | right; auto].
      * split; [intros [H1 | [H1 H2]]; auto|]. intros [H1 | [[H1 | H1] H2]]; [auto | injection H1 as ->; congruence | auto].
    + split; [intros [H1 | [H1 H2]]; auto|]. intros [H1 | [[H1 | H1] H2]]; [auto | injection H1 as -> ->; congruence | auto].
Qed.
Lemma check_subject_iff valid matches lines key subject : subject_key key ->
  (check_subject matches key (subject_configs valid lines empty_lists) subject = true <->
   exists s i, subject = Some s /\ given lines key i /\ valid (strip i) = true /\ matches i s = true).
Proof.
  intros K. assert (E : dget key empty_lists = Some []) by (destruct K as [-> | ->]; reflexivity).
  destruct (configs_get valid lines key empty_lists [] E) as (items & E2 & H). unfold check_subject. rewrite E2.
  destruct subject as [s|]; [|split; [discriminate | intros (s & i & X & _); discriminate]].
  rewrite existsb_exists. split.
  - intros (i & Hi & M). apply H in Hi as [[] | [G V]]. exists s, i. auto.
  - intros (s' & i & X & G & V & M). injection X as <-. exists i. split; [apply H; right; auto | exact M].
Qed.
