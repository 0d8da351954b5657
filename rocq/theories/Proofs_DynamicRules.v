(** Proofs about the rules that insert a text of the message into a pattern. *)
From Coq Require Import Lia.
From Verif Require Import PyStr Regexp Spec_Regexp Proofs_Regexp Proofs_RegexpLang Model_Received Spec_Received Proofs_ReceivedIp Spec_Template Proofs_Template.
From Verif Require Import Model_Provider Spec_Provider Proofs_Provider Proofs_ReceivedMore Spec_Dynamic Proofs_Dynamic.
Open Scope nat_scope.

Definition parsed (s : str) : re := match parse_seq false false (2 * length s + 3) 1 s with Some (r, _, _) => r | None => Eps end.
Definition MSN_REST : re := Eval vm_compute in parsed ($"-\S+\@groups\.msn\.com>").
Definition GT : re := Eval vm_compute in parsed ($">").
Definition AT : re := Eval vm_compute in parsed ($"@").

Section Rules.
Variable udigit uword : char -> bool.
Notation s_ := (s_ udigit uword).
Notation m_ := (m_ udigit uword).
Notation has := (has uword).
Notation starts := (starts uword).
Notation fits := (fits uword).

Lemma tame_app a b : tame a -> tame b -> tame (a ++ b).
Proof. intros A B c H. apply in_app_or in H as [H|H]; auto. Qed.
Ltac tame_lit := intros ?c ?H ?K; vm_compute in H, K; repeat match goal with X : _ \/ _ |- _ => destruct X | X : False |- _ => destruct X end; congruence.

(** ** What the patterns compile to *)
Lemma compile_msn name : tame name -> compile false false ($"^<" ++ name ++ $"-\S+\@groups\.msn\.com>") = Some (Cat Bos (lits false ($"<" ++ name) MSN_REST)).
Proof.
  intros T. change ($"^<" ++ name ++ $"-\S+\@groups\.msn\.com>") with (94%N :: (60%N :: name) ++ $"-\S+\@groups\.msn\.com>"). change ($"<" ++ name) with (60%N :: name).
  assert (T' : tame (60%N :: name)) by (apply (tame_app ($"<")); [tame_lit|exact T]).
  apply compile_seq with (f := S (length (60%N :: name) + S 30)) (n := 1).
  { cbn [length]. rewrite app_length. cbn [length]. change (length ($"-\S+\@groups\.msn\.com>")) with 23. lia. }
  assert (P : parse_seq false false (length (60%N :: name) + 31) 1 ((60%N :: name) ++ $"-\S+\@groups\.msn\.com>") = Some (lits false (60%N :: name) MSN_REST, 1, [])).
  { apply parse_lits; [apply tame_special, T'|reflexivity|vm_compute; reflexivity|discriminate]. }
  eapply seq_step; [reflexivity| | |exact P|apply lits_eps; discriminate].
  - cbn [length Nat.add]. rewrite atom_eq. reflexivity.
  - apply (quantified_plain special); [apply (tame_special _ T'); left; reflexivity|auto].
Qed.
Definition MM : re := Eval vm_compute in parsed ($"m").
Definition SERVER_ID (r : re) : re :=
  Cat Bos (Cat (Chr false false [IChar 60]) (Cat (Rep true 1 None (Chr false false [INotSpace])) (Cat (Chr false false [IChar 64]) r))).
Lemma compile_server w : tame w -> w <> [] -> compile false false ($"^<\S+\@" ++ w ++ $"m") = Some (SERVER_ID (lits false w MM)).
Proof.
  intros T N. destruct w as [|c w]; [congruence|]. clear N.
  apply compile_seq with (f := S (S (S (S (length (c :: w) + S 10))))) (n := 1).
  { rewrite !app_length. cbn [length]. change (length ($"^<\S+\@")) with 7. change (length ($"m")) with 1. lia. }
  assert (P : parse_seq false false (length (c :: w) + 11) 1 ((c :: w) ++ $"m") = Some (lits false (c :: w) MM, 1, [])).
  { apply parse_lits; [apply tame_special, T|reflexivity|vm_compute; reflexivity|discriminate]. }
  unfold SERVER_ID. assert (Q : forall a, quantified a ((c :: w) ++ $"m") = (a, (c :: w) ++ $"m")).
  { intros a. apply (quantified_plain special); [apply (tame_special _ T); left; reflexivity|auto]. }
  remember ((c :: w) ++ $"m") as tail eqn:Et. clear Et.
  assert (F : exists k, length (c :: w) + 11 = S (S (S (S (S (S (S k))))))) by (exists (length (c :: w) + 4); lia). destruct F as [k F]. rewrite F in *. clear F.
  change ($"^<\S+\@" ++ tail) with (94%N :: 60%N :: 92%N :: 83%N :: 43%N :: 92%N :: 64%N :: tail).
  eapply seq_step; [reflexivity|rewrite atom_eq; reflexivity|reflexivity| |discriminate].
  eapply seq_step; [reflexivity|rewrite atom_eq; reflexivity|reflexivity| |discriminate].
  eapply seq_step; [reflexivity|rewrite atom_eq; reflexivity|reflexivity| |discriminate].
  eapply seq_step; [reflexivity|rewrite atom_eq; reflexivity|apply Q|exact P|apply lits_eps; discriminate].
Qed.
Definition QUOTED (r : re) : re :=
  Cat (Chr false false [IChar 34]) (Cat (Rep true 1 None (Chr false true [IChar 34])) (Cat (Chr false false [IChar 34]) (Cat (Rep true 0 None (Chr false false [ISpace])) r))).
Lemma compile_quoted id : tame id -> compile false false ($"\""[^\""]+\""\s*<" ++ id ++ $">") = Some (QUOTED (lits false ($"<" ++ id) GT)).
Proof.
  intros T. change ($"\""[^\""]+\""\s*<" ++ id ++ $">") with ($"\""[^\""]+\""\s*" ++ (60%N :: id) ++ $">"). change ($"<" ++ id) with (60%N :: id).
  assert (T' : tame (60%N :: id)) by (apply (tame_app ($"<")); [tame_lit|exact T]).
  apply compile_seq with (f := S (S (S (S (length (60%N :: id) + S 10))))) (n := 1).
  { rewrite !app_length. cbn [length]. change (length ($"\""[^\""]+\""\s*")) with 13. change (length ($">")) with 1. lia. }
  assert (P : parse_seq false false (length (60%N :: id) + 11) 1 ((60%N :: id) ++ $">") = Some (lits false (60%N :: id) GT, 1, [])).
  { apply parse_lits; [apply tame_special, T'|reflexivity|vm_compute; reflexivity|discriminate]. }
  unfold QUOTED. remember ((60%N :: id) ++ $">") as tail eqn:Et.
  assert (Q : forall a, quantified a tail = (a, tail)) by (intros a; subst tail; reflexivity).
  assert (F : exists k, length (60%N :: id) + 11 = S (S (S (S (S (S (S k))))))) by (exists (length (60%N :: id) + 4); lia). destruct F as [k F]. rewrite F in *. clear F.
  change ($"\""[^\""]+\""\s*" ++ tail) with (92%N :: 34%N :: ($"[^\""]+\""\s*" ++ tail)).
  eapply seq_step; [reflexivity|rewrite atom_eq; reflexivity|reflexivity| |discriminate].
  change ($"[^\""]+\""\s*" ++ tail) with (91%N :: ($"^\""]+\""\s*" ++ tail)).
  eapply seq_step; [reflexivity|rewrite atom_eq; reflexivity|reflexivity| |discriminate].
  eapply seq_step; [reflexivity|rewrite atom_eq; reflexivity|reflexivity| |discriminate].
  eapply seq_step; [reflexivity|rewrite atom_eq; reflexivity|subst tail; reflexivity|subst tail; exact P|apply lits_eps; discriminate].
Qed.
Lemma compile_recipient d u : tame d -> tame u -> d <> [] -> compile false false ($"\b" ++ d ++ $"." ++ u ++ $"@") = Some (Cat (Wordb false) (lits false (d ++ $"." ++ u) AT)).
Proof.
  intros Td Tu N. assert (T : tame (d ++ $"." ++ u)) by (apply tame_app; [exact Td|apply tame_app; [tame_lit|exact Tu]]).
  replace ($"\b" ++ d ++ $"." ++ u ++ $"@") with (92%N :: 98%N :: (d ++ $"." ++ u) ++ $"@") by (rewrite <- !app_assoc; reflexivity).
  assert (NE : exists c w, d ++ $"." ++ u = c :: w) by (destruct d as [|c d]; [congruence|eexists _, _; reflexivity]).
  remember (d ++ $"." ++ u) as w eqn:Ew. clear Ew. destruct NE as (c & w' & Ew).
  apply compile_seq with (f := S (length w + S 2)) (n := 1).
  { cbn [length]. rewrite app_length. cbn [length]. rewrite Ew. cbn [length]. change (length ($"@")) with 1. lia. }
  assert (P : parse_seq false false (length w + 3) 1 (w ++ $"@") = Some (lits false w AT, 1, [])).
  { apply parse_lits; [apply tame_special, T|reflexivity|vm_compute; reflexivity|discriminate]. }
  eapply seq_step; [reflexivity| | |exact P|apply lits_eps; discriminate].
  - rewrite Nat.add_comm. cbn [Nat.add]. rewrite atom_eq. reflexivity.
  - subst w. apply (quantified_plain special); [apply (tame_special _ T); left; reflexivity|auto].
Qed.

(** ** The forms they look for *)
Ltac likes := repeat (apply Forall2_cons || apply Forall2_nil); first [apply like_run; intros ?c; first [apply cls_char | apply cls_nonblank | apply not_char | apply cls_digit | apply cls_capital] | constructor].
Lemma has_begin l h : has [[Begin] ++ l] h <-> starts [l] h.
Proof.
  unfold Spec_Template.has, Spec_Template.starts. split.
  - intros (l' & x & w & y & [<-|[]] & -> & H). cbn [app Spec_Template.fits] in H. destruct H as [B H]. apply (f_equal (@rev _)) in B. rewrite rev_involutive in B. cbn in B. subst x.
    exists l, w, y. split; [left; reflexivity|]. auto.
  - intros (l' & w & y & [<-|[]] & -> & H). exists ([Begin] ++ l), [], w, y. split; [left; reflexivity|]. split; [reflexivity|]. cbn. auto.
Qed.
Lemma loosely_app a b : loosely (a ++ b) = loosely a ++ loosely b.
Proof. apply map_app. Qed.
Lemma s_msn name h : s_ (Cat Bos (lits false ($"<" ++ name) MSN_REST)) h = true <->
  starts [text ($"<") ++ loosely name ++ text ($"-") ++ some_ nonblank ++ text ($"@groups.msn.com>")] h.
Proof.
  destruct (lits_forms udigit uword ($"<" ++ name) MSN_REST _ [text ($"-") ++ some_ nonblank ++ text ($"@groups.msn.com>")] eq_refl ltac:(likes)) as (ls & F & L).
  rewrite <- has_begin. unfold Model_Received.s_. eapply search_has with (udigit := udigit).
  - cbn [ordered andb]. rewrite lits_ordered. reflexivity.
  - cbn [forms]. rewrite F. reflexivity.
  - cbn [flat_map map app] in L |- *. rewrite app_nil_r. inversion L as [|l0 m0 ls0 ms0 L1 L2]. subst. inversion L2. subst. cbn [map]. constructor; [|constructor]. constructor; [constructor|].
    exact L1.
Qed.
Lemma s_server w h : s_ (SERVER_ID (lits false w MM)) h = true <-> starts [text ($"<") ++ some_ nonblank ++ text ($"@") ++ loosely (w ++ $"m")] h.
Proof.
  destruct (lits_forms udigit uword w MM _ [text ($"m")] eq_refl ltac:(likes)) as (ls & F & L).
  rewrite <- has_begin. unfold Model_Received.s_. eapply search_has with (udigit := udigit).
  - unfold SERVER_ID. cbn [ordered andb]. rewrite lits_ordered. reflexivity.
  - unfold SERVER_ID. cbn [forms]. rewrite F. reflexivity.
  - cbn [flat_map map app] in L |- *. rewrite app_nil_r. inversion L as [|l0 m0 ls0 ms0 L1 L2]. subst. inversion L2. subst. cbn [flat_map map app]. constructor; [|constructor].
    rewrite loosely_app. change (loosely ($"m")) with (text ($"m")).
    constructor; [constructor|]. constructor; [apply like_run; intros c; apply cls_char|]. constructor; [apply like_run; intros c; apply cls_nonblank|].
    constructor; [apply like_run; intros c; apply cls_char|]. exact L1.
Qed.
Lemma s_quoted id h : s_ (QUOTED (lits false ($"<" ++ id) GT)) h = true <-> has (quoted_name id) h.
Proof.
  destruct (lits_forms udigit uword ($"<" ++ id) GT _ [text ($">")] eq_refl ltac:(likes)) as (ls & F & L).
  unfold Model_Received.s_. eapply search_has with (udigit := udigit).
  - unfold QUOTED. cbn [ordered andb]. rewrite lits_ordered. reflexivity.
  - unfold QUOTED. cbn [forms]. rewrite F. reflexivity.
  - cbn [flat_map map app] in L |- *. rewrite app_nil_r. inversion L as [|l0 m0 ls0 ms0 L1 L2]. subst. inversion L2. subst. cbn [flat_map map app]. constructor; [|constructor].
    constructor; [apply like_run; intros c; apply cls_char|]. constructor; [apply like_run; intros c; apply not_char|]. constructor; [apply like_run; intros c; apply cls_char|].
    constructor; [apply like_run; intros c; unfold class_in, blank; cbn; destruct (is_space c); cbn; split; congruence|]. exact L1.
Qed.
Lemma s_recipient d u h : s_ (Cat (Wordb false) (lits false (d ++ $"." ++ u) AT)) h = true <-> has (recipient_inside u d) h.
Proof.
  destruct (lits_forms udigit uword (d ++ $"." ++ u) AT _ [text ($"@")] eq_refl ltac:(likes)) as (ls & F & L).
  unfold Model_Received.s_. eapply search_has with (udigit := udigit).
  - cbn [ordered andb]. rewrite lits_ordered. reflexivity.
  - cbn [forms]. rewrite F. reflexivity.
  - cbn [flat_map map app] in L |- *. rewrite app_nil_r. inversion L as [|l0 m0 ls0 ms0 L1 L2]. subst. inversion L2. subst. cbn [flat_map map app]. constructor; [|constructor].
    constructor; [constructor|]. rewrite !loosely_app in L1. rewrite <- !app_assoc in L1. exact L1.
Qed.

(** ** The texts that are inserted *)
Lemma blank_stops : forall u g r, (forall c, In c u -> nonblank c) -> (forall c, In c g -> nonblank c) -> (r = [] \/ exists c t, r = c :: t /\ blank c) ->
  forall y, u ++ y = g ++ r -> exists z, g = u ++ z.
Proof.
  induction u as [|c u IH]; intros g r U G R y E; [exists g; reflexivity|]. destruct g as [|d g].
  - exfalso. cbn in E. destruct R as [->|(d & t & -> & B)]; [discriminate|]. injection E as -> _. pose proof (U d (or_introl eq_refl)). unfold blank, nonblank in *. congruence.
  - cbn in E. injection E as -> E. destruct (IH g r (fun x H => U x (or_intror H)) (fun x H => G x (or_intror H)) R y E) as [z ->]. exists z. reflexivity.
Qed.
Lemma app_len_eq {A} (a b : list A) : forall x y, length x = length y -> a ++ x = b ++ y -> a = b /\ x = y.
Proof.
  revert b. induction a as [|c a IH]; intros [|d b] x y L E.
  - auto.
  - exfalso. cbn in E. subst x. cbn in L. rewrite app_length in L. lia.
  - exfalso. cbn in E. subst y. cbn in L. rewrite app_length in L. lia.
  - cbn in E. injection E as -> E. destruct (IH b x y L E) as [-> ->]. auto.
Qed.
Lemma group_name name to : names_group name to -> exists st, m_ MSN_TO to = Some st /\ g_ 1 st = name.
Proof.
  intros (rest & -> & R & NE & B & G).
  assert (M : matched (m_ MSN_TO ($"<" ++ name ++ $"@groups.msn.com>" ++ rest)) = true).
  { unfold Model_Received.m_. eapply match_starts with (udigit := udigit) (2 := eq_refl) (ms := group_to); [vm_compute; reflexivity|unfold group_to; likes|].
    exists (text ($"<") ++ some_ nonblank ++ text ($"@groups.msn.com>")), ($"<" ++ name ++ $"@groups.msn.com>"), rest. split; [left; reflexivity|]. split; [rewrite <- !app_assoc; reflexivity|].
    apply fits_app. exists ($"<"), (name ++ $"@groups.msn.com>"). split; [reflexivity|]. split; [apply fits_text; reflexivity|]. apply fits_app.
    exists name, ($"@groups.msn.com>"). split; [reflexivity|]. split; [apply fits_run; auto|apply fits_text; reflexivity]. }
  destruct (m_ MSN_TO _) as [st|] eqn:E; [|discriminate]. exists st. split; [reflexivity|]. unfold Model_Received.m_ in E. apply match_In in E.
  rewrite <- (chain_firsts 1 MSN_TO) in E. apply chain_In in E as (w1 & s1 & E1 & R1 & H & C1); [|reflexivity]. specialize (C1 eq_refl).
  change (last_part 1 MSN_TO) with (Cat (Grp 1 (Rep true 1 None (Chr false false [INotSpace]))) (last_part 2 MSN_TO)) in H.
  apply grp_In in H as (w2 & s2 & E2 & R2 & H & C2); [|reflexivity|reflexivity].
  apply rest_In in H as (w3 & E3 & R3 & C3); [|vm_compute; reflexivity|vm_compute; reflexivity].
  assert (Gr : g_ 1 st = w2) by (unfold g_; rewrite C3, C2; reflexivity). rewrite Gr.
  assert (F1 : fits (text ($"<")) [] w1 (s_after s1)) by (revert R1; apply reads_fits with (1 := eq_refl); likes).
  assert (F2 : fits (some_ nonblank) (s_before s1) w2 (s_after s2)) by (revert R2; apply reads_fits with (1 := eq_refl); likes).
  assert (F3 : fits (text ($"@groups.msn.com>")) (s_before s2) w3 (s_after st)) by (revert R3; apply reads_fits with (1 := eq_refl); likes).
  apply fits_text in F1 as ->. apply fits_run in F2 as [_ F2]. apply fits_text in F3 as ->. destruct E1 as [E1 _], E2 as [E2 _], E3 as [E3 _]. cbn [s_after] in E1. rewrite E2, E3 in E1.
  apply app_inv_head in E1. rewrite !app_assoc in E1.
  assert (NG : forall c, In c (w2 ++ $"@groups.msn.com>") -> nonblank c).
  { intros c H. apply in_app_or in H as [H|H]; [auto|]. vm_compute in H. unfold nonblank. repeat (destruct H as [<-|H]; [reflexivity|]). destruct H. }
  assert (NG2 : forall c, In c (name ++ $"@groups.msn.com>") -> nonblank c).
  { intros c H. apply in_app_or in H as [H|H]; [auto|]. vm_compute in H. unfold nonblank. repeat (destruct H as [<-|H]; [reflexivity|]). destruct H. }
  destruct (blank_stops _ _ _ NG NG2 R _ (eq_sym E1)) as [z Z].
  destruct (list_eq_dec N.eq_dec z []) as [->|NZ].
  - rewrite app_nil_r in Z. apply app_len_eq in Z as [Z _]; [symmetry; exact Z|reflexivity].
  - exfalso. apply exists_last in NZ as (z' & l & ->).
    change ($"@groups.msn.com>") with ($"@groups.msn.com" ++ [62%N]) in Z. rewrite <- !app_assoc in Z.
    change (w2 ++ $"@groups.msn.com" ++ [62%N] ++ z' ++ [l]) with (w2 ++ $"@groups.msn.com" ++ ([62%N] ++ z' ++ [l])) in Z.
    rewrite !app_assoc in Z. apply app_inj_tail in Z as [Z _]. assert (K : In 62%N (name ++ $"@groups.msn.com")).
    { rewrite Z. apply in_or_app. left. apply in_or_app. right. left. reflexivity. }
    apply in_app_or in K as [K|K]; [auto|]. vm_compute in K. repeat (destruct K as [K|K]; [discriminate|]). destruct K.
Qed.
Lemma group_has name to : names_group name to -> s_ MSN_TO to = true.
Proof.
  intros H. destruct (group_name name to H) as (st & E & _). destruct (Bool.bool_dec (s_ MSN_TO to) true) as [K|K]; [exact K|].
  exfalso. pose proof (m_group_to udigit uword to) as X. rewrite E in X. rewrite s_group_to in K.
  assert (Y : ~ starts group_to to); [|apply X in Y; discriminate]. intros (l & w & y & L & -> & F). apply K. exists l, [], w, y. auto.
Qed.
Definition SERVER : re := match last_part 28 MSN_SERVER with Cat (Grp _ p) _ => p | _ => Eps end.
Lemma server_named w h : names_server uword udigit w h -> s_ MSN_SERVER h = true.
Proof.
  intros [(l & x & v & y & [<-|[]] & -> & F) S]. unfold Model_Received.s_. eapply search_has with (udigit := udigit) (2 := eq_refl) (ms := pickup_by (msn_server udigit)); [vm_compute; reflexivity|unfold pickup_by; likes|].
  eexists _, x, v, y. split; [left; reflexivity|]. split; [reflexivity|]. apply fits_app in F as (a & b & -> & F1 & F). apply fits_app in F as (c & d & -> & F2 & F3). apply fits_text in F2 as ->.
  apply fits_app. exists a, (w ++ d). split; [reflexivity|]. split; [exact F1|]. apply fits_app. exists w, d. split; [reflexivity|]. split; [|exact F3].
  revert S. apply fits_free. reflexivity.
Qed.
Lemma server_found h : s_ MSN_SERVER h = true -> exists w, search_group udigit uword MSN_SERVER 1 h = Some w /\ names_server uword udigit w h.
Proof.
  unfold Model_Received.s_, search_group. destruct (re_search udigit uword MSN_SERVER h) as [st|] eqn:E; [|discriminate]. intros _. exists (g_ 1 st). split; [reflexivity|].
  apply search_first in E as (u & v & -> & H & _).
  rewrite <- (chain_firsts 28 MSN_SERVER) in H. apply chain_In in H as (w1 & s1 & E1 & R1 & H & C1); [|reflexivity]. specialize (C1 eq_refl).
  change (last_part 28 MSN_SERVER) with (Cat (Grp 1 SERVER) (last_part 29 MSN_SERVER)) in H.
  apply grp_In in H as (w2 & s2 & E2 & R2 & H & C2); [|reflexivity|reflexivity].
  apply rest_In in H as (w3 & E3 & R3 & C3); [|vm_compute; reflexivity|vm_compute; reflexivity].
  assert (Gr : g_ 1 st = w2) by (unfold g_; rewrite C3, C2; reflexivity). rewrite Gr.
  assert (F1 : fits (text ($"from mail pickup service by ")) (rev u ++ []) w1 (s_after s1)) by (revert R1; apply reads_fits with (1 := eq_refl); likes).
  assert (F2 : fits (msn_server udigit) (s_before s1) w2 (s_after s2)) by (revert R2; apply reads_fits with (1 := eq_refl); likes).
  assert (F3 : fits [Edge] (s_before s2) w3 (s_after st)) by (revert R3; apply reads_fits with (1 := eq_refl); likes).
  destruct E1 as [E1 B1], E2 as [E2 B2], E3 as [E3 B3]. cbn [s_after s_before] in E1, B1. rewrite app_nil_r in *. split; [|revert F2; apply fits_free; reflexivity].
  eexists _, u, (w1 ++ w2 ++ w3), (s_after st). split; [left; reflexivity|]. split; [rewrite E1, E2, E3, <- !app_assoc; reflexivity|].
  apply fits_app. exists w1, (w2 ++ w3). split; [reflexivity|]. split; [apply fits_text in F1; apply fits_text; exact F1|]. apply fits_app. exists w2, w3. split; [reflexivity|].
  split; [apply fits_text; reflexivity|]. rewrite B2, B1 in F3. exact F3.
Qed.
Lemma server_text w : fits (msn_server udigit) [] w [] -> exists c d, w = $"p" ++ [c; d] ++ $".groups.msn.co" ++ $"m" /\ digit udigit c /\ digit udigit d.
Proof.
  intros F. unfold msn_server in F. apply fits_app in F as (a & b & -> & F1 & F). apply fits_app in F as (c & d & -> & F2 & F). apply fits_app in F as (e & f & -> & F3 & F4).
  apply fits_text in F1 as ->. apply fits_text in F4 as ->. apply fits_one in F2 as (x & -> & X). apply fits_one in F3 as (y & -> & Y). exists x, y. auto.
Qed.
Lemma digit_tame c : digit udigit c -> tame [c].
Proof. intros D d [<-|[]] K. vm_compute in K. unfold digit in D. repeat (destruct K as [<-|K]; [lia|]). destruct K. Qed.
Lemma find_server m : match find (s_ MSN_SERVER) (decoded m ($"received")) with
  | None => forall h w, In h (decoded m ($"received")) -> ~ names_server uword udigit w h
  | Some h => In h (decoded m ($"received")) /\ exists w, search_group udigit uword MSN_SERVER 1 h = Some w /\ names_server uword udigit w h
  end.
Proof.
  destruct (find _ _) as [h|] eqn:E.
  - apply find_some in E as [A B]. split; [exact A|]. apply server_found, B.
  - intros h w A B. pose proof (find_none _ _ E h A). apply server_named in B. congruence.
Qed.
Lemma msn_group m name : names_group name (texts m ($"to")) -> tame name -> name <> $"notifications" ->
  exists b, check_for_msn_groups_headers udigit uword m = Some b /\
    (b = true <-> (exists h w, In h (decoded m ($"received")) /\ names_server uword udigit w h) /\ starts [group_id name] (texts m ($"message-id")) /\
      sender m = name ++ $"-bounce@groups.msn.com").
Proof.
  intros G T N. unfold check_for_msn_groups_headers. change (joined m ($"to")) with (texts m ($"to")). rewrite (group_has _ _ G). cbn [negb].
  destruct (group_name _ _ G) as (st & -> & ->). pose proof (find_server m) as X. destruct (find _ _) as [h|].
  - destruct X as (A & w & B & C). destruct (streqb_spec name ($"notifications")) as [->|_]; [congruence|]. rewrite (compile_msn name T).
    change (joined m ($"message-id")) with (texts m ($"message-id")). pose proof (s_msn name (texts m ($"message-id"))) as Y. unfold group_id.
    destruct (s_ _ (texts m ($"message-id"))); cbn [negb].
    + eexists. split; [reflexivity|]. destruct (streqb_spec (sender m) (name ++ $"-bounce@groups.msn.com")) as [E|E].
      * split; [intros _; split; [eauto|]; split; [apply Y; reflexivity|exact E]|reflexivity].
      * split; [discriminate|]. intros (_ & _ & K). congruence.
    + exists false. split; [reflexivity|]. split; [discriminate|]. intros (_ & K & _). apply Y in K. discriminate.
  - exists false. split; [reflexivity|]. split; [discriminate|]. intros ((h & w & A & B) & _). exfalso. exact (X h w A B).
Qed.
Lemma msn_notifications m : names_group ($"notifications") (texts m ($"to")) ->
  exists b, check_for_msn_groups_headers udigit uword m = Some b /\
    (b = true -> exists h w, In h (decoded m ($"received")) /\ names_server uword udigit w h /\ starts [server_id w] (texts m ($"message-id"))) /\
    (forall h w, In h (decoded m ($"received")) -> names_server uword udigit w h -> (forall h' w', In h' (decoded m ($"received")) -> names_server uword udigit w' h' -> w' = w) ->
      starts [server_id w] (texts m ($"message-id")) -> b = true).
Proof.
  intros G. unfold check_for_msn_groups_headers. change (joined m ($"to")) with (texts m ($"to")). rewrite (group_has _ _ G). cbn [negb].
  destruct (group_name _ _ G) as (st & -> & ->). pose proof (find_server m) as X. destruct (find _ _) as [h|].
  - destruct X as (A & w & B & C). change (streqb ($"notifications") ($"notifications")) with true. cbv iota. rewrite B.
    change (joined m ($"message-id")) with (texts m ($"message-id")).
    destruct (server_text w (proj2 C)) as (c & d & Ew & Dc & Dd).
    assert (E2 : w = ($"p" ++ [c; d] ++ $".groups.msn.co") ++ $"m") by (rewrite Ew, <- !app_assoc; reflexivity).
    assert (T : tame ($"p" ++ [c; d] ++ $".groups.msn.co")).
    { apply tame_app; [tame_lit|]. apply tame_app; [|tame_lit]. apply (tame_app [c] [d]); apply digit_tame; assumption. }
    rewrite E2 in *. rewrite (compile_server _ T) by discriminate. cbn [option_map]. eexists. split; [reflexivity|]. split.
    + intros S. apply s_server in S. exists h. eexists. split; [exact A|]. split; [exact C|]. exact S.
    + intros h' w' A' C' U S. apply s_server. rewrite (U _ _ A C). exact S.
  - exists false. split; [reflexivity|]. split; [discriminate|]. intros h w A B. exfalso. exact (X h w A B).
Qed.

(** ** Ratware *)
Lemma s_ratware_id h : s_ RATWARE_ID h = true <-> has any_ratware_id h.
Proof. unfold Model_Received.s_, any_ratware_id. apply search_has with (udigit := udigit) (2 := eq_refl); [vm_compute; reflexivity|likes]. Qed.
Lemma ratware_found id h : ratware_id id h -> search_group udigit uword RATWARE_ID 1 h = Some id.
Proof.
  intros (x & k & y & -> & Lk & K & X & NE & G).
  assert (W : fits (text ($"<") ++ exactly 28 capital ++ text ($".") ++ some_ (fun c => c <> 62%N) ++ text ($">")) (rev x) ($"<" ++ k ++ $"." ++ id ++ $">") y).
  { apply fits_app. exists ($"<"), (k ++ $"." ++ id ++ $">"). split; [reflexivity|]. split; [apply fits_text; reflexivity|]. apply fits_app. exists k, ($"." ++ id ++ $">"). split; [reflexivity|].
    split; [exists k, []; rewrite app_nil_r; split; [reflexivity|]; split; [exact K|]; rewrite Lk; split; [lia|]; split; [lia|reflexivity]|].
    apply fits_app. exists ($"."), (id ++ $">"). split; [reflexivity|]. split; [apply fits_text; reflexivity|]. apply fits_app. exists id, ($">"). split; [reflexivity|].
    split; [apply fits_run; split; [exact NE|intros c H ->; auto]|apply fits_text; reflexivity]. }
  unfold search_group. destruct (re_search udigit uword RATWARE_ID _) as [st|] eqn:E.
  2:{ exfalso. pose proof (s_ratware_id (x ++ $"<" ++ k ++ $"." ++ id ++ $">" ++ y)) as S. unfold Model_Received.s_ in S. rewrite E in S. cbn [matched] in S.
      assert (Z : false = true); [|discriminate]. apply S. eexists _, x, ($"<" ++ k ++ $"." ++ id ++ $">"), y. split; [left; reflexivity|]. split; [|exact W]. rewrite <- !app_assoc. reflexivity. }
  f_equal. apply search_first in E as (u & v & Ev & H & Min). rewrite app_nil_r in H.
  assert (Lu : ~ length x < length u).
  { intros L. specialize (Min x ($"<" ++ k ++ $"." ++ id ++ $">" ++ y) eq_refl L). rewrite app_nil_r in Min.
    assert (R : reads udigit uword RATWARE_ID (rev x) ($"<" ++ k ++ $"." ++ id ++ $">") y).
    { apply (reads_forms udigit uword RATWARE_ID _ eq_refl). eexists. split; [left; reflexivity|]. revert W. apply fits_like. apply likes_sym. likes. }
    apply ways_reads with (k := []) in R as [cs R]; [|vm_compute; reflexivity]. rewrite <- !app_assoc in R.
    change ($"<" ++ k ++ $"." ++ id ++ $">" ++ y) with ($"<" ++ k ++ $"." ++ id ++ $">" ++ y) in R. rewrite Min in R. destruct R. }
  rewrite <- (chain_firsts 3 RATWARE_ID) in H. apply chain_In in H as (w1 & s1 & E1 & R1 & H & C1); [|reflexivity]. specialize (C1 eq_refl).
  change (last_part 3 RATWARE_ID) with (Cat (Grp 1 (Rep false 1 None (Chr false true [IChar 62]))) (last_part 4 RATWARE_ID)) in H.
  apply grp_In in H as (w2 & s2 & E2 & R2 & H & C2); [|reflexivity|reflexivity].
  apply rest_In in H as (w3 & E3 & R3 & C3); [|vm_compute; reflexivity|vm_compute; reflexivity].
  assert (Gr : g_ 1 st = w2) by (unfold g_; rewrite C3, C2; reflexivity). rewrite Gr.
  assert (F1 : fits (text ($"<") ++ exactly 28 capital ++ text ($".")) (rev u) w1 (s_after s1)) by (revert R1; apply reads_fits with (1 := eq_refl); likes).
  assert (F2 : fits (some_ (fun c => c <> 62%N)) (s_before s1) w2 (s_after s2)) by (revert R2; apply reads_fits with (1 := eq_refl); likes).
  assert (F3 : fits (text ($">")) (s_before s2) w3 (s_after st)) by (revert R3; apply reads_fits with (1 := eq_refl); likes).
  apply fits_text in F3 as ->. apply fits_run in F2 as [_ F2]. apply fits_app in F1 as (a & b & -> & F1 & F). apply fits_text in F1 as ->.
  apply fits_app in F as (k' & d & -> & Fk & Fd). apply fits_text in Fd as ->. destruct Fk as (k1 & e & -> & _ & L1 & L2 & ->). rewrite app_nil_r in *.
  destruct E1 as [E1 _], E2 as [E2 _], E3 as [E3 _]. cbn [s_after] in E1. rewrite E2, E3 in E1. subst v.
  assert (Eu : u = x).
  { clear - Ev X Lu. revert x Ev X Lu. induction u as [|c u IH]; intros [|d x] Ev X L.
    - reflexivity.
    - exfalso. apply X. left. cbn in Ev. injection Ev as Ev _. exact Ev.
    - exfalso. apply L. cbn. lia.
    - cbn in Ev. injection Ev as -> Ev. f_equal. apply IH; [exact Ev|intros K; apply X; right; exact K|cbn in L; lia]. }
  subst u. apply app_inv_head in Ev. rewrite <- !app_assoc in Ev. apply app_inv_head in Ev. apply same_length_split in Ev as [<- Ev]; [|lia]. apply app_inv_head in Ev.
  change ($">" ++ y) with (62%N :: y) in Ev. change ($">" ++ s_after st) with (62%N :: s_after st) in Ev.
  apply until_char in Ev as [<- _]; [reflexivity|exact G|]. intros K2. exact (F2 _ K2 eq_refl).
Qed.
Lemma ratware_name_id m mid from id : first_of m ($"message-id") = Some mid -> first_of m ($"from") = Some from -> ratware_id id mid -> tame id ->
  exists b, check_ratware_name_id udigit uword m = Some b /\ (b = true <-> has (quoted_name id) from).
Proof.
  intros A B C T. unfold check_ratware_name_id. rewrite A, B. assert (N : mid <> []). { intros ->. destruct C as (x & k & y & E & _). destruct x; discriminate E. }
  destruct mid as [|c mid]; [congruence|]. rewrite (ratware_found id _ C), (compile_quoted id T). eexists. split; [reflexivity|]. apply s_quoted.
Qed.
Lemma ratware_no_id m mid : first_of m ($"message-id") = Some mid -> ~ has any_ratware_id mid -> check_ratware_name_id udigit uword m = Some false.
Proof.
  intros A B. unfold check_ratware_name_id. rewrite A. rewrite <- s_ratware_id in B. unfold Model_Received.s_ in B. unfold search_group.
  destruct (re_search udigit uword RATWARE_ID mid) as [st|] eqn:E; [exfalso; apply B; reflexivity|]. destruct mid, (first_of m ($"from")) as [[|]|]; reflexivity.
Qed.

(** The recipient *)
Lemma recipient_parts u d : u <> [] -> ~ In 64%N u -> d <> [] -> ~ In 10%N d ->
  exists st, re_search udigit uword TO_PARTS (u ++ $"@" ++ d) = Some st /\ g_ 1 st = u /\ g_ 2 st = d.
Proof.
  intros Nu U Nd D. destruct (re_search udigit uword TO_PARTS (u ++ $"@" ++ d)) as [st|] eqn:E.
  2:{ exfalso. assert (S : matched (re_search udigit uword TO_PARTS (u ++ $"@" ++ d)) = true <-> has [[Begin] ++ some_ (fun c => c <> 64%N) ++ text ($"@") ++ some_ anyc ++ [End]] (u ++ $"@" ++ d)).
      { apply search_has with (udigit := udigit) (2 := eq_refl); [vm_compute; reflexivity|]. repeat (apply Forall2_cons || apply Forall2_nil); first [apply like_run; intros c; first [apply cls_char|apply not_char|reflexivity]|constructor]. }
      rewrite E in S. cbn [matched] in S. assert (Z : false = true); [|discriminate]. apply S. apply has_begin. eexists _, (u ++ $"@" ++ d), []. split; [left; reflexivity|]. split; [rewrite app_nil_r; reflexivity|].
      apply fits_app. exists u, ($"@" ++ d). split; [reflexivity|]. split; [apply fits_run; split; [exact Nu|intros c H ->; auto]|]. apply fits_app. exists ($"@"), d. split; [reflexivity|].
      split; [apply fits_text; reflexivity|]. apply fits_app. exists d, []. split; [rewrite app_nil_r; reflexivity|]. split; [apply fits_run; split; [exact Nd|intros c H ->; auto]|]. cbn. auto. }
  exists st. split; [reflexivity|]. apply search_first in E as (p & v & Ev & H & _). rewrite app_nil_r in H.
  rewrite <- (chain_firsts 1 TO_PARTS) in H. apply chain_In in H as (w1 & s1 & E1 & R1 & H & C1); [|reflexivity]. specialize (C1 eq_refl).
  change (last_part 1 TO_PARTS) with (Cat (Grp 1 (Rep true 1 None (Chr false true [IChar 64]))) (last_part 2 TO_PARTS)) in H.
  apply grp_In in H as (w2 & s2 & E2 & R2 & H & C2); [|reflexivity|reflexivity].
  rewrite <- (chain_firsts 1 (last_part 2 TO_PARTS)) in H. apply chain_In in H as (w3 & s3 & E3 & R3 & H & C3); [|reflexivity]. specialize (C3 eq_refl).
  change (last_part 1 (last_part 2 TO_PARTS)) with (Cat (Grp 2 (Rep true 1 None Dot)) Eos) in H.
  apply grp_In in H as (w4 & s4 & E4 & R4 & H & C4); [|reflexivity|reflexivity].
  apply rest_In in H as (w5 & E5 & R5 & C5); [|vm_compute; reflexivity|vm_compute; reflexivity].
  assert (G1 : g_ 1 st = w2) by (unfold g_; rewrite C5, C4, C3, C2; reflexivity). assert (G2 : g_ 2 st = w4) by (unfold g_; rewrite C5, C4; reflexivity). rewrite G1, G2.
  assert (F1 : fits [Begin] (rev p) w1 (s_after s1)) by (revert R1; apply reads_fits with (1 := eq_refl); likes).
  assert (F2 : fits (some_ (fun c => c <> 64%N)) (s_before s1) w2 (s_after s2)) by (revert R2; apply reads_fits with (1 := eq_refl); likes).
  assert (F3 : fits (text ($"@")) (s_before s2) w3 (s_after s3)) by (revert R3; apply reads_fits with (1 := eq_refl); likes).
  assert (F4 : fits (some_ anyc) (s_before s3) w4 (s_after s4)) by (revert R4; apply reads_fits with (1 := eq_refl); repeat constructor; auto).
  assert (F5 : fits [End] (s_before s4) w5 (s_after st)) by (revert R5; apply reads_fits with (1 := eq_refl); likes).
  destruct F1 as [B ->]. apply (f_equal (@rev _)) in B. rewrite rev_involutive in B. cbn in B. subst p. cbn [app] in Ev. subst v.
  apply fits_text in F3 as ->. apply fits_run in F2 as [_ F2]. destruct F5 as [F5 ->].
  destruct E1 as [E1 _], E2 as [E2 _], E3 as [E3 _], E4 as [E4 _], E5 as [E5 _]. cbn [s_after app] in E1. rewrite E2, E3, E4 in E1. rewrite E5 in E1. cbn [app] in E1, F5.
  change ($"@" ++ d) with (64%N :: d) in E1. change ($"@" ++ w4 ++ s_after st) with (64%N :: w4 ++ s_after st) in E1.
  apply until_char in E1 as [<- ->]; [|exact U|intros K; exact (F2 _ K eq_refl)]. split; [reflexivity|]. destruct F5 as [F5|F5]; rewrite F5 in *; [rewrite app_nil_r; reflexivity|].
  exfalso. apply D. apply in_or_app. right. left. reflexivity.
Qed.
Lemma lower_in c s : lower_char c = c -> (c < 97 \/ 122 < c)%N -> In c (lower s) <-> In c s.
Proof.
  intros L R. unfold lower. rewrite in_map_iff. split.
  - intros (d & E & H). assert (Dc : d = c); [|rewrite <- Dc; exact H]. unfold lower_char in E, L. destruct (N.leb_spec 65 d), (N.leb_spec d 90); cbn [andb] in E; lia.
  - intros H. exists c. auto.
Qed.
Lemma domain_listed tlds d : is_domain_valid tlds d = true <-> listed tlds d.
Proof.
  unfold is_domain_valid, listed. destruct (contains ($" ") (lower d)) eqn:C.
  - split; [discriminate|]. intros [H _]. exfalso. apply H. apply (lower_in 32%N); [reflexivity|lia|]. apply contains_app in C as (x & y & ->). apply in_or_app. right. left. reflexivity.
  - assert (NS : ~ In 32%N d).
    { intros H. apply (lower_in 32%N) in H; [|reflexivity|lia]. apply in_split in H as (x & y & H). assert (K : contains ($" ") (lower d) = true) by (apply contains_app; exists x, y; exact H). congruence. }
    pose proof (join_split_char 46%N (lower d)) as J. pose proof (split_char_no_sep 46%N (lower d)) as N. destruct (split_char 46%N (lower d)) as [|p [|q l]] eqn:E.
    + split; [discriminate|]. intros (_ & f & r & K & _). exfalso. revert E. apply split_char_nonempty.
    + split; [discriminate|]. intros (_ & f & r & K & _). exfalso. cbn in J. subst p. apply (N (lower d) (or_introl eq_refl)). rewrite K. apply in_or_app. right. left. reflexivity.
    + rewrite mem_str_In. change ($".") with [46%N]. rewrite join_cons_sep in J by discriminate. split.
      * intros H. split; [exact NS|]. exists p, (join [46%N] (q :: l)). split; [symmetry; exact J|]. split; [apply N; left; reflexivity|exact H].
      * intros (_ & f & r & K & F & H). rewrite K in J. change ([46%N] ++ r) with (46%N :: r) in J. apply until_char in J as [_ ->]; [exact H|apply N; left; reflexivity|exact F].
Qed.
Lemma ratware_envelope tlds m u d : first_of m ($"to") = Some (u ++ $"@" ++ d) -> u <> [] -> ~ In 64%N u -> d <> [] -> ~ In 10%N d -> tame u -> tame d ->
  exists b, check_ratware_envelope_from udigit uword tlds m = Some b /\
    (b = true <-> sender m <> [] /\ ~ has (rewritten udigit) (sender m) /\ listed tlds d /\ has (recipient_inside u d) (sender m)).
Proof.
  intros A Nu U Nd D Tu Td. unfold check_ratware_envelope_from. rewrite A. destruct (u ++ $"@" ++ d) as [|c t] eqn:Et; [destruct u; discriminate Et|]. rewrite <- Et. clear A.
  destruct (nil_ (sender m)) eqn:S; [exists false; split; [reflexivity|]; split; [discriminate|]; intros [K _]; destruct (sender m); [congruence|discriminate]|].
  assert (NS : sender m <> []) by (destruct (sender m); [discriminate|discriminate]). pose proof (s_srs udigit uword (sender m)) as R.
  destruct (s_ SRS (sender m)); [exists false; split; [reflexivity|]; split; [discriminate|]; intros (_ & K & _); exfalso; apply K, R; reflexivity|].
  destruct (recipient_parts u d Nu U Nd D) as (st & -> & -> & ->). pose proof (domain_listed tlds d) as L.
  destruct (is_domain_valid tlds d); [|exists false; split; [reflexivity|]; split; [discriminate|]; intros (_ & _ & K & _); apply L in K; discriminate].
  cbn [negb]. rewrite (compile_recipient d u Td Tu Nd). eexists. split; [reflexivity|]. rewrite s_recipient. split; [|tauto]. intros K. split; [exact NS|].
  split; [intros X; apply R in X; discriminate|]. split; [apply L; reflexivity|exact K].
Qed.
Lemma bracketed tlds m x : first_of m ($"to") = Some (x ++ $">") -> (forall t, In t tlds -> ~ In 62%N t) -> check_ratware_envelope_from udigit uword tlds m = Some false.
Proof.
  intros A T. unfold check_ratware_envelope_from. rewrite A. destruct (x ++ $">") as [|c t] eqn:Et; [reflexivity|]. rewrite <- Et. clear A Et c t.
  destruct (nil_ (sender m)); [reflexivity|]. destruct (s_ SRS (sender m)); [reflexivity|]. destruct (re_search udigit uword TO_PARTS (x ++ $">")) as [st|] eqn:E; [|reflexivity].
  destruct (is_domain_valid tlds (g_ 2 st)) eqn:V; [|reflexivity]. exfalso. apply domain_listed in V as (_ & f & r & V & _ & R). apply (T r R).
  apply search_first in E as (p & v & Ev & H & _). rewrite app_nil_r in H.
  rewrite <- (chain_firsts 1 TO_PARTS) in H. apply chain_In in H as (w1 & s1 & E1 & R1 & H & C1); [|reflexivity]. specialize (C1 eq_refl).
  change (last_part 1 TO_PARTS) with (Cat (Grp 1 (Rep true 1 None (Chr false true [IChar 64]))) (last_part 2 TO_PARTS)) in H.
  apply grp_In in H as (w2 & s2 & E2 & R2 & H & C2); [|reflexivity|reflexivity].
  rewrite <- (chain_firsts 1 (last_part 2 TO_PARTS)) in H. apply chain_In in H as (w3 & s3 & E3 & R3 & H & C3); [|reflexivity]. specialize (C3 eq_refl).
  change (last_part 1 (last_part 2 TO_PARTS)) with (Cat (Grp 2 (Rep true 1 None Dot)) Eos) in H.
  apply grp_In in H as (w4 & s4 & E4 & R4 & H & C4); [|reflexivity|reflexivity].
  apply rest_In in H as (w5 & E5 & R5 & C5); [|vm_compute; reflexivity|vm_compute; reflexivity].
  assert (G2 : g_ 2 st = w4) by (unfold g_; rewrite C5, C4; reflexivity). rewrite G2 in V.
  assert (F4 : fits (some_ anyc) (s_before s3) w4 (s_after s4)) by (revert R4; apply reads_fits with (1 := eq_refl); repeat constructor; auto).
  assert (F5 : fits [End] (s_before s4) w5 (s_after st)) by (revert R5; apply reads_fits with (1 := eq_refl); likes).
  apply fits_run in F4 as [N4 _]. destruct F5 as [F5 ->]. destruct E1 as [E1 _], E2 as [E2 _], E3 as [E3 _], E4 as [E4 _], E5 as [E5 _]. cbn [s_after app] in E1, E5, F5.
  rewrite E1, E2, E3, E4, E5 in Ev. apply exists_last in N4 as (q & l & ->). destruct F5 as [F5|F5]; rewrite F5 in Ev.
  - rewrite app_nil_r, !app_assoc in Ev. apply app_inj_tail in Ev as [_ <-].
    assert (L : exists r', r = r' ++ [62%N]).
    { unfold lower in V. rewrite map_app in V. destruct (list_eq_dec N.eq_dec r []) as [->|NR].
      - rewrite app_nil_r in V. apply app_inj_tail in V as [_ V]. discriminate V.
      - apply exists_last in NR as (r' & k & ->). rewrite !app_assoc in V. apply app_inj_tail in V as [_ <-]. exists r'. reflexivity. }
    destruct L as (r' & ->). apply in_or_app. right. left. reflexivity.
  - rewrite !app_assoc in Ev. apply app_inj_tail in Ev as [_ Ev]. discriminate Ev.
Qed.
Lemma hotmail_answers m : check_for_msn_groups_headers udigit uword m <> None -> hotmail_received udigit uword m <> None.
Proof.
  intros H. unfold hotmail_received. destruct (first_of m ($"received")) as [[|c r]|]; try discriminate. destruct (s_ PICKUP (c :: r)); [discriminate|].
  destruct (check_for_msn_groups_headers udigit uword m) as [[|]|]; [discriminate| |congruence]. match goal with |- (if ?v then _ else _) <> _ => destruct v end; [discriminate|].
  destruct (gated_through_received_hdr_remover udigit uword m); [discriminate|]. destruct (s_ HOTMAIL_HELO (c :: r)); discriminate.
Qed.
Lemma hotmail_group m name : names_group name (texts m ($"to")) -> tame name ->
  exists f n, check_for_forged_hotmail_received_headers udigit uword m = Some f /\ check_for_no_hotmail_received_headers udigit uword m = Some n /\
    (name <> $"notifications" -> (exists h w, In h (decoded m ($"received")) /\ names_server uword udigit w h) -> starts [group_id name] (texts m ($"message-id")) ->
      sender m = name ++ $"-bounce@groups.msn.com" -> f = false /\ n = false).
Proof.
  intros G T. assert (H : check_for_msn_groups_headers udigit uword m <> None).
  { destruct (list_eq_dec N.eq_dec name ($"notifications")) as [->|N].
    - destruct (msn_notifications m G) as (b & -> & _). discriminate.
    - destruct (msn_group m name G T N) as (b & -> & _). discriminate. }
  pose proof (hotmail_answers m H) as A. unfold check_for_forged_hotmail_received_headers, check_for_no_hotmail_received_headers.
  destruct (hotmail_received udigit uword m) as [[f n]|] eqn:E; [|congruence]. exists f, n. split; [reflexivity|]. split; [reflexivity|]. intros N S I B.
  destruct (msn_group m name G T N) as (b & Eb & Hb). assert (b = true) by (apply Hb; auto). subst b. unfold hotmail_received in E. rewrite Eb in E.
  destruct (first_of m ($"received")) as [[|c r]|]; [injection E as <- <-; auto| |injection E as <- <-; auto]. destruct (s_ PICKUP (c :: r)); injection E as <- <-; auto.
Qed.
Lemma ratware_raises m : (first_of m ($"message-id") = None /\ (exists f, first_of m ($"from") = Some f /\ f <> [])) \/
  (first_of m ($"from") = None /\ exists mid id, first_of m ($"message-id") = Some mid /\ ratware_id id mid) ->
  check_ratware_name_id udigit uword m = None.
Proof.
  unfold check_ratware_name_id. intros [(-> & f & -> & N)|(-> & mid & id & -> & R)].
  - destruct f; [congruence|reflexivity].
  - rewrite (ratware_found id mid R). assert (N : mid <> []). { intros ->. destruct R as (x & k & y & E & _). destruct x; discriminate E. }
    destruct mid; [congruence|]. destruct (compile false false _); reflexivity.
Qed.
(** The header of the examples names one server. *)
Lemma server_only w : names_server uword udigit w ($"from mail pickup service by p01.groups.msn.com with Microsoft SMTPSVC") -> w = $"p01.groups.msn.com".
Proof.
  intros [(l & x & v & y & [<-|[]] & E & F) S]. apply server_text in S as (c & d & -> & _ & _).
  apply fits_app in F as (a & b & -> & F1 & F). apply fits_app in F as (e & f & -> & F2 & _). apply fits_text in F1 as ->. apply fits_text in F2 as ->.
  assert (x = []).
  { destruct x as [|k x]; [reflexivity|]. exfalso. assert (K : contains ($"from mail") (skipn 1 ($"from mail pickup service by p01.groups.msn.com with Microsoft SMTPSVC")) = true); [|vm_compute in K; discriminate].
    rewrite E. cbn [app skipn]. apply contains_app. exists x. eexists. rewrite <- !app_assoc. change ($"from mail pickup service by ") with ($"from mail" ++ $" pickup service by "). rewrite <- !app_assoc. reflexivity. }
  subst x. cbn [app] in E. rewrite <- !app_assoc in E. change ($"from mail pickup service by p01.groups.msn.com with Microsoft SMTPSVC") with
    ($"from mail pickup service by " ++ $"p" ++ [48%N; 49%N] ++ $".groups.msn.com with Microsoft SMTPSVC") in E. apply app_inv_head, app_inv_head in E. injection E as <- <- E. reflexivity.
Qed.
End Rules.
