(** The strict reader accepts address headers that are written properly. *)
From Verif Require Import PyStr PyAddr Spec_Address Proofs_Address.

(** A piece of text that loses its quoted parts, keeps [n] commas, and leaves the brackets as they were. *)
Definition strips (s : str) (n : nat) : Prop :=
  exists s', (forall k, strip_quoted None false (s ++ k) = s' ++ strip_quoted None false k) /\
             count_char 44 s' = n /\
             (forall m x, balanced m false (s' ++ x) = balanced m false x).

Lemma strips_nil : strips [] 0.
Proof. exists []. repeat split. Qed.
Lemma count_app : forall c a b, count_char c (a ++ b) = count_char c a + count_char c b.
Proof. intros c a b. unfold count_char. now rewrite filter_app, app_length. Qed.
Lemma strips_app : forall a b n m, strips a n -> strips b m -> strips (a ++ b) (n + m).
Proof.
  intros a b n m (a' & A1 & A2 & A3) (b' & B1 & B2 & B3). exists (a' ++ b'). split; [|split].
  - intros k. rewrite <- app_assoc, A1, B1. now rewrite app_assoc.
  - now rewrite count_app, A2, B2.
  - intros p x. now rewrite <- app_assoc, A3, B3.
Qed.
(** characters without a meaning to the reader, commas counted *)
Definition neutral (c : char) : Prop := c <> 34%N /\ c <> 92%N /\ c <> 40%N /\ c <> 41%N.
Lemma strips_neutral : forall s, Forall neutral s -> strips s (count_char 44 s).
Proof.
  intros s H. exists s. split; [|split; [reflexivity|]].
  - intros k. induction H as [|c s (H1 & H2 & _) _ IH]; [reflexivity|]. cbn [app strip_quoted].
    apply N.eqb_neq in H1, H2. rewrite H1, H2. cbn [negb andb]. now rewrite IH.
  - intros m x. induction H as [|c s (_ & H2 & H3 & H4) _ IH]; [reflexivity|]. cbn [app balanced].
    apply N.eqb_neq in H2, H3, H4. rewrite H2, H3, H4. exact IH.
Qed.
Lemma ordinary_neutral : forall c, ordinary c -> neutral c.
Proof. intros c H. apply ordinary_facts in H. repeat split; apply N.eqb_neq; tauto. Qed.
Lemma strips_atom : forall t, Forall ordinary t -> strips t 0.
Proof.
  intros t H. assert (E : count_char 44 t = 0).
  { unfold count_char. induction H as [|c t Hc _ IH]; [reflexivity|]. cbn [filter]. apply ordinary_facts in Hc.
    destruct (N.eqb_spec 44 c) as [<-|_]; [|exact IH]. vm_compute in Hc. intuition discriminate. }
  rewrite <- E. apply strips_neutral. eapply Forall_impl; [|exact H]. exact ordinary_neutral.
Qed.
Lemma strip_open : forall t p k, strip_quoted (Some p) false (escaped t ++ 34%N :: k) = strip_quoted None false k.
Proof.
  induction t as [|c t IH]; intros p k; [reflexivity|]. cbn [escaped flat_map]. fold (escaped t).
  destruct (N.eqb_spec c 34) as [->|H34].
  - cbn [orb app strip_quoted]. apply IH.
  - destruct (N.eqb_spec c 92) as [->|H92].
    + cbn [orb app strip_quoted]. apply IH.
    + cbn [orb app strip_quoted]. apply N.eqb_neq in H34, H92. rewrite H34, H92. cbn [negb andb]. apply IH.
Qed.
Lemma strips_word : forall w, (match w with Atom t => Forall ordinary t | _ => True end) -> strips (word_text w) 0.
Proof.
  intros [t|t] H; [now apply strips_atom|]. exists []. split; [|split; reflexivity].
  intros k. cbn [word_text app]. rewrite <- app_assoc. cbn [app strip_quoted]. change (negb false && N.eqb 34 34) with true. cbv iota.
  apply strip_open.
Qed.
Lemma good_word_strips : forall w, good_word w -> strips (word_text w) 0.
Proof. intros w H. apply strips_word. destruct w; [exact (proj2 H)|exact Logic.I]. Qed.
Lemma strips_text : forall s n, forallb (fun c => negb (mem_char c [34; 92; 40; 41]%N)) s = true -> count_char 44 s = n -> strips s n.
Proof.
  intros s n H <-. apply strips_neutral. rewrite forallb_forall in H. apply Forall_forall. intros c Hc. apply H in Hc.
  cbn [mem_char existsb] in Hc. unfold neutral. repeat split; intros ->; vm_compute in Hc; discriminate.
Qed.
Lemma strips_eq : forall s n m, strips s n -> n = m -> strips s m.
Proof. intros s n m H <-. exact H. Qed.
Lemma strips_words : forall ws w, good_word w -> Forall good_word ws -> strips (words_text w ws) 0.
Proof.
  induction ws as [|w' ws IH]; intros w Hw Hws; unfold words_text; cbn [map join].
  - now apply good_word_strips.
  - inversion Hws; subst. change 0 with (0 + (0 + 0)). apply strips_app; [now apply good_word_strips|].
    apply strips_app; [apply strips_text; reflexivity|]. now apply IH.
Qed.
Lemma strips_address : forall a, good_address a -> strips (address_text a) 0.
Proof.
  intros [w d] [Hw [_ Hd]]. unfold address_text. cbn [local domain] in *. change 0 with (0 + (0 + 0)).
  apply strips_app; [|apply strips_app; [apply strips_text; reflexivity|now apply strips_atom]].
  apply strips_word. destruct w; [exact (proj2 Hw)|exact Logic.I].
Qed.
Lemma strips_remark : forall r, good_remark r -> strips ($" (" ++ r ++ $")") 0.
Proof.
  intros r H. assert (Hr : Forall (fun c => c <> 34%N /\ c <> 92%N /\ c <> 40%N /\ c <> 41%N /\ c <> 44%N) r).
  { apply Forall_forall. intros c Hc. apply H in Hc. repeat split; intros ->; apply Hc; vm_compute; tauto. }
  exists ($" (" ++ r ++ $")"). split; [|split].
  - intros k. change (($" (" ++ r ++ $")") ++ k) with (32%N :: 40%N :: (r ++ [41%N]) ++ k).
    change (($" (" ++ r ++ $")") ++ strip_quoted None false k) with (32%N :: 40%N :: (r ++ [41%N]) ++ strip_quoted None false k).
    change (strip_quoted None false (32%N :: 40%N :: (r ++ [41%N]) ++ k)) with (32%N :: 40%N :: strip_quoted None false ((r ++ [41%N]) ++ k)).
    do 2 f_equal. clear H.
    induction Hr as [|c r (H1 & H2 & _) _ IH]; [reflexivity|]. cbn [app strip_quoted].
    apply N.eqb_neq in H1, H2. rewrite H1, H2. cbn [negb andb]. now rewrite IH.
  - rewrite !count_app. change (count_char 44 ($" (")) with 0. change (count_char 44 ($")")) with 0.
    clear H. induction Hr as [|c r (_ & _ & _ & _ & H) _ IH]; [reflexivity|]. unfold count_char in *. cbn [filter].
    destruct (N.eqb_spec 44 c); [congruence|]. exact IH.
  - intros m x. change (($" (" ++ r ++ $")") ++ x) with (32%N :: 40%N :: (r ++ [41%N]) ++ x).
    change (balanced m false (32%N :: 40%N :: (r ++ [41%N]) ++ x)) with (balanced (S m) false ((r ++ [41%N]) ++ x)).
    clear H. induction Hr as [|c r (_ & H2 & H3 & H4 & _) _ IH]; [reflexivity|]. cbn [app balanced].
    apply N.eqb_neq in H2, H3, H4. rewrite H2, H3, H4. exact IH.
Qed.
Lemma strips_mailbox : forall m, good_mailbox m -> strips (mailbox_text m) 0.
Proof.
  intros [a|a r|w ws a] H; cbn [mailbox_text good_mailbox] in *.
  - now apply strips_address.
  - destruct H. change 0 with (0 + 0). apply strips_app; [now apply strips_address|now apply strips_remark].
  - destruct H as (Hw & Hws & Ha). change 0 with (0 + (0 + (0 + 0))). apply strips_app; [now apply strips_words|].
    apply strips_app; [apply strips_text; reflexivity|]. apply strips_app; [now apply strips_address|apply strips_text; reflexivity].
Qed.
Lemma strips_join : forall {A} (f : A -> str) (g : A -> nat) l, Forall (fun x => strips (f x) (g x)) l ->
  strips (join ($", ") (map f l)) (fold_right Nat.add 0 (map g l) + pred (length l)).
Proof.
  intros A f g l H. induction H as [|x l Hx Hl IH]; [apply strips_nil|].
  destruct l as [|y l].
  - cbn [map join fold_right length pred]. rewrite !Nat.add_0_r. exact Hx.
  - change (join ($", ") (map f (x :: y :: l))) with (f x ++ $", " ++ join ($", ") (map f (y :: l))).
    eapply strips_eq; [apply strips_app; [exact Hx|apply strips_app; [apply (strips_text _ 1); reflexivity|exact IH]]|].
    cbn [map fold_right length pred]. lia.
Qed.
Definition entry_commas (e : entry) : nat := match e with One _ => 0 | Group _ _ ms => pred (length ms) end.
Lemma strips_entry : forall e, good_entry e -> strips (entry_text e) (entry_commas e).
Proof.
  intros [m|w ws ms] H; cbn [entry_text entry_commas good_entry] in *; [now apply strips_mailbox|].
  destruct H as (Hw & Hws & Hms).
  eapply strips_eq.
  - apply strips_app; [now apply strips_words|]. apply strips_app; [apply (strips_text _ 0); reflexivity|].
    apply strips_app; [|apply (strips_text _ 0); reflexivity].
    apply (strips_join mailbox_text (fun _ => 0)). eapply Forall_impl; [|exact Hms]. exact strips_mailbox.
  - rewrite Nat.add_0_r, !Nat.add_0_l. replace (fold_right Nat.add 0 (map (fun _ => 0) ms)) with 0; [reflexivity|].
    clear. induction ms as [|m ms IH]; [reflexivity|exact IH].
Qed.
Lemma header_strips : forall es, Forall good_entry es ->
  exists n, strips (header_text es) n /\ (es <> [] -> 1 + n = length (flat_map pairs_read es)).
Proof.
  intros es Hes. exists (fold_right Nat.add 0 (map entry_commas es) + pred (length es)). split.
  - apply strips_join. eapply Forall_impl; [|exact Hes]. exact strips_entry.
  - intros Hne. assert (E : fold_right Nat.add 0 (map entry_commas es) + length es = length (flat_map pairs_read es)).
    { clear. induction es as [|e es IH]; [reflexivity|]. cbn [flat_map map fold_right length]. rewrite app_length, <- IH.
      assert (length (pairs_read e) = S (entry_commas e)).
      { destruct e as [m|w ws ms]; [reflexivity|]. destruct ms as [|m ms]; [reflexivity|].
        unfold pairs_read, read_entry. cbn [mailboxes map entry_commas length pred]. now rewrite map_length. }
      lia. }
    destruct es as [|e es]; [contradiction|]. rewrite <- E. cbn [length pred]. lia.
Qed.

Lemma no_bracket : forall c t, ordinary c -> c = 91%N -> In c t -> False.
Proof. intros c t [_ H] -> _. apply H. vm_compute. tauto. Qed.
Lemma address_no_bracket : forall a, good_address a -> ~ In 91%N (address_text a).
Proof.
  intros [w d] [Hw [_ Hd]] Hi. unfold address_text in Hi. cbn [local domain] in *.
  assert (Ho : forall t, Forall ordinary t -> ~ In 91%N t).
  { intros t Ht H. rewrite Forall_forall in Ht. apply Ht in H. destruct H as [_ H]. apply H. vm_compute. tauto. }
  apply in_app_or in Hi. destruct Hi as [Hi|Hi].
  - destruct w as [t|t]; cbn [word_text] in Hi.
    + now apply (Ho t (proj2 Hw)).
    + destruct Hw as [_ Hw]. apply in_app_or in Hi. destruct Hi as [Hi|Hi]; [cbn in Hi; intuition discriminate|].
      apply in_app_or in Hi. destruct Hi as [Hi|Hi]; [|cbn in Hi; intuition discriminate].
      unfold escaped in Hi. apply in_flat_map in Hi. destruct Hi as (c & Hc & Hi).
      destruct (N.eqb c 34 || N.eqb c 92) eqn:E; cbn in Hi.
      * destruct Hi as [Hi|[Hi|[]]]; [discriminate|]. subst c. now apply Hw.
      * destruct Hi as [Hi|[]]. subst c. now apply Hw.
  - apply in_app_or in Hi. destruct Hi as [Hi|Hi]; [vm_compute in Hi; intuition discriminate|]. now apply (Ho d Hd).
Qed.
Lemma mailbox_no_bracket : forall m, good_mailbox m -> mem_char 91 (mailbox_address m) = false.
Proof.
  intros m Hm. apply mem_char_false. destruct m as [a|a r|w ws a]; cbn in Hm |- *; apply address_no_bracket; tauto.
Qed.
Lemma post_keeps : forall es, Forall good_entry es -> post_validate (flat_map pairs_read es) = flat_map pairs_read es.
Proof.
  intros es Hes. unfold post_validate. rewrite <- (map_id (flat_map pairs_read es)) at 2. apply map_ext_in.
  intros p Hp. apply in_flat_map in Hp. destruct Hp as (e & He & Hp). rewrite Forall_forall in Hes. apply Hes in He.
  assert (Hms : Forall good_mailbox (mailboxes e)).
  { destruct e as [m|w ws ms]; cbn in *; [auto|tauto]. }
  unfold pairs_read, read_entry in Hp. destruct (mailboxes e) as [|m ms] eqn:E.
  - cbn in Hp. destruct Hp as [<-|[]]. reflexivity.
  - cbn [map] in Hp. rewrite Forall_forall in Hms. change (pair_of m :: map pair_of ms) with (map pair_of (m :: ms)) in Hp.
    apply in_map_iff in Hp. destruct Hp as (m' & <- & Hm'). cbn [pair_of snd]. now rewrite mailbox_no_bracket by auto.
Qed.

Lemma addresses_read : forall lim strict es, es <> [] -> Forall good_entry es -> levels es <= lim ->
  getaddresses lim strict (header_text es) = Some (flat_map pairs_read es).
Proof.
  intros lim strict es Hne Hes Hl. unfold getaddresses. destruct strict; [|now apply header_read].
  destruct (header_strips es Hes) as (n & (s' & S1 & S2 & S3) & Hn).
  assert (Hsq : strip_quoted_realnames (header_text es) = s').
  { unfold strip_quoted_realnames. rewrite <- (app_nil_r (header_text es)), S1. cbn [strip_quoted]. apply app_nil_r. }
  assert (Hcp : check_parenthesis (header_text es) = true).
  { unfold check_parenthesis. rewrite Hsq, <- (app_nil_r s'), S3. reflexivity. }
  unfold pre_validate. rewrite Hcp, header_read by auto. rewrite post_keeps by auto. rewrite Hsq, S2, Hn by auto.
  now rewrite Nat.eqb_refl.
Qed.
