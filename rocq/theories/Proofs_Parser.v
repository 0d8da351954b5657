(** Lemmas about the configuration parser. *)
From Verif Require Import PyStr PyDict PyPath Model_Rules Model_Headers Spec_Headers Proofs_Headers Model_Parser Spec_Parser.

(** ** Text *)

Lemma strip_split : forall s, exists b1 b2, s = b1 ++ strip s ++ b2 /\ blanks b1 /\ blanks b2.
Proof.
  intros s. unfold strip, strip_p, lstrip_p, rstrip_p.
  destruct (drop_while_suffix is_space s) as [a [E Ha]].
  destruct (drop_while_suffix is_space (rev (drop_while is_space s))) as [b [E2 Hb]].
  exists a, (rev b). split; [|split; [exact Ha|]].
  - rewrite E at 1. f_equal. apply (f_equal (@rev N)) in E2. rewrite rev_involutive, rev_app_distr in E2. exact E2.
  - unfold blanks. rewrite forallb_rev. exact Hb.
Qed.

Lemma strip_head : forall s c r, strip s = c :: r -> is_space c = false.
Proof.
  intros s c r H. unfold strip, strip_p, lstrip_p, rstrip_p in H.
  destruct (drop_while is_space s) as [|x t] eqn:E; [discriminate|].
  pose proof (drop_while_head is_space s x t E) as Hx.
  destruct (drop_while_suffix is_space (rev (x :: t))) as [b [E2 Hb]].
  apply (f_equal (@rev N)) in E2. rewrite rev_involutive, rev_app_distr, H in E2. inversion E2; subst. exact Hx.
Qed.
Lemma strip_last : forall s c r, strip s = r ++ [c] -> is_space c = false.
Proof.
  intros s c r H. unfold strip, strip_p, lstrip_p, rstrip_p in H.
  apply (f_equal (@rev N)) in H. rewrite rev_involutive, rev_app_distr in H. simpl in H.
  exact (drop_while_head is_space _ _ _ H).
Qed.
Lemma strip_strip : forall s, strip (strip s) = strip s.
Proof. intros s. apply strip_id; [apply strip_head|apply strip_last]. Qed.
Lemma strip_nil : forall s, strip s = [] <-> blanks s.
Proof.
  intros s. split; intros H.
  - destruct (strip_split s) as (a & b & E & Ha & Hb). rewrite H in E. simpl in E. rewrite E.
    unfold blanks in *. rewrite forallb_app. rewrite Ha, Hb. reflexivity.
  - unfold strip, strip_p, lstrip_p, rstrip_p.
    assert (drop_while is_space s = []) as -> by (apply drop_while_nil; exact H). reflexivity.
Qed.

Lemma cut_prefix : forall s p, exists t, s = cut_comment p s ++ t.
Proof.
  induction s as [|c s IH]; intros p; simpl; [exists []; reflexivity|].
  destruct (p && N.eqb c 35); [exists (c :: s); reflexivity|].
  destruct (IH (negb (N.eqb c 92))) as [t Ht]. exists t. simpl. rewrite Ht at 1. reflexivity.
Qed.
Lemma bare_prefix : forall line, exists t, strip line = bare_line line ++ t.
Proof.
  intros line. unfold bare_line. destruct (cut_prefix (strip line) false) as [t Ht].
  destruct (strip_split (cut_comment false (strip line))) as (a & b & E & Ha & Hb).
  assert (a = []) as ->.
  { destruct a as [|x a]; [reflexivity|]. exfalso. rewrite E in Ht. simpl in Ht.
    pose proof (strip_head line _ _ Ht) as Hx. unfold blanks in Ha. simpl in Ha. rewrite Hx in Ha. discriminate. }
  simpl in E. exists (b ++ t). rewrite app_assoc, <- E. exact Ht.
Qed.

(** [s.split(None, n)] *)
Lemma take_while_forall : forall (p : N -> bool) s, forallb p (take_while p s) = true.
Proof. induction s as [|x s IH]; simpl; [reflexivity|]. destruct (p x) eqn:E; simpl; [rewrite E; exact IH|reflexivity]. Qed.

Lemma sws_nil : forall n s, split_ws_max n s = [] <-> blanks s.
Proof.
  intros n s. unfold blanks. rewrite <- drop_while_nil. destruct n; simpl; destruct (drop_while is_space s); split; congruence.
Qed.
Lemma sws_S : forall n s w rest, split_ws_max (S n) s = w :: rest ->
  exists b t, s = b ++ w ++ t /\ blanks b /\ w <> [] /\ (forall c, In c w -> is_space c = false) /\
              (t = [] \/ exists x t', t = x :: t' /\ is_space x = true) /\ rest = split_ws_max n t.
Proof.
  intros n s w rest H. cbn [split_ws_max] in H.
  destruct (drop_while_suffix is_space s) as [b [E Hb]].
  destruct (drop_while is_space s) as [|x u] eqn:Ed; [discriminate|].
  pose proof (drop_while_head is_space s x u Ed) as Hx.
  set (q := fun c => negb (is_space c)) in *. injection H as Hw Hr.
  change (take_while q (x :: u) = w) in Hw. change (split_ws_max n (drop_while q (x :: u)) = rest) in Hr.
  exists b, (drop_while q (x :: u)). split; [|split; [exact Hb|]].
  - rewrite E. f_equal. rewrite <- Hw. symmetry. apply take_drop_while.
  - split; [rewrite <- Hw; simpl; unfold q; rewrite Hx; discriminate|]. split.
    + intros c Hc. rewrite <- Hw in Hc. pose proof (take_while_forall q (x :: u)) as Hf.
      rewrite forallb_forall in Hf. specialize (Hf c Hc). unfold q in Hf. now apply negb_true_iff in Hf.
    + split; [|now rewrite <- Hr].
      destruct (drop_while q (x :: u)) as [|y t'] eqn:E2; [left; reflexivity|right].
      exists y, t'. split; [reflexivity|]. pose proof (drop_while_head q _ _ _ E2) as Hy. unfold q in Hy.
      now apply negb_false_iff in Hy.
Qed.
Lemma sws_0 : forall s w rest, split_ws_max 0 s = w :: rest -> rest = [] /\ exists b, s = b ++ w /\ blanks b /\ (forall c r, w = c :: r -> is_space c = false).
Proof.
  intros s w rest H. simpl in H. destruct (drop_while_suffix is_space s) as [b [E Hb]].
  destruct (drop_while is_space s) as [|x u] eqn:Ed; [discriminate|]. inversion H; subst w rest.
  split; [reflexivity|]. exists b. split; [exact E|]. split; [exact Hb|].
  intros c r Hc. pose proof (drop_while_head is_space _ _ _ Ed) as Hh. congruence.
Qed.

Lemma drop_blanks : forall b s, blanks b -> drop_while is_space (b ++ s) = drop_while is_space s.
Proof. intros b s H. apply drop_while_all. exact H. Qed.
Lemma drop_word : forall w t, (forall c, In c w -> is_space c = false) ->
  (t = [] \/ exists x t', t = x :: t' /\ is_space x = true) ->
  take_while (fun c => negb (is_space c)) (w ++ t) = w /\ drop_while (fun c => negb (is_space c)) (w ++ t) = t.
Proof.
  induction w as [|x w IH]; intros t Hw Ht; simpl.
  - destruct Ht as [->|(x & t' & -> & Hx)]; [split; reflexivity|]. simpl. rewrite Hx. split; reflexivity.
  - rewrite (Hw x (or_introl eq_refl)). simpl. destruct (IH t (fun c Hc => Hw c (or_intror Hc)) Ht) as [-> ->]. split; reflexivity.
Qed.
Lemma sws_word : forall n b w t, blanks b -> w <> [] -> (forall c, In c w -> is_space c = false) ->
  (t = [] \/ exists x t', t = x :: t' /\ is_space x = true) ->
  split_ws_max (S n) (b ++ w ++ t) = w :: split_ws_max n t.
Proof.
  intros n b w t Hb Hne Hw Ht. cbn [split_ws_max]. rewrite drop_blanks by exact Hb.
  assert (drop_while is_space (w ++ t) = w ++ t) as ->.
  { apply drop_while_none. intros c r E. destruct w as [|x w]; [congruence|]. inversion E; subst. apply Hw. left; reflexivity. }
  destruct (drop_word w t Hw Ht) as [E1 E2]. destruct (w ++ t) as [|x u] eqn:E; [destruct w; [congruence|discriminate]|].
  rewrite E1, E2. reflexivity.
Qed.
Lemma sws_rest : forall b s, blanks b -> (forall c r, s = c :: r -> is_space c = false) -> s <> [] ->
  split_ws_max 0 (b ++ s) = [s].
Proof.
  intros b s Hb Hs Hne. cbn [split_ws_max]. rewrite drop_blanks by exact Hb.
  rewrite drop_while_none by exact Hs. destruct s; [congruence|reflexivity].
Qed.

(** Words of a line. *)
Lemma words_aux_split : forall a x t cur, is_space x = true ->
  words_aux (a ++ x :: t) cur = words_aux a cur ++ words_aux t [].
Proof.
  induction a as [|y a IH]; intros x t cur Hx; simpl.
  - rewrite Hx. destruct cur; reflexivity.
  - destruct (is_space y); [destruct cur|]; rewrite IH by exact Hx; reflexivity.
Qed.
Lemma words_aux_word : forall w t cur, (forall c, In c w -> is_space c = false) ->
  words_aux (w ++ t) cur = words_aux t (rev w ++ cur).
Proof.
  induction w as [|x w IH]; intros t cur H; simpl; [reflexivity|].
  rewrite (H x (or_introl eq_refl)). rewrite IH by (intros c Hc; apply H; right; exact Hc).
  now rewrite <- app_assoc.
Qed.
Lemma In_words : forall a x w y b, is_space x = true -> is_space y = true -> w <> [] ->
  (forall c, In c w -> is_space c = false) -> In w (words (a ++ x :: w ++ y :: b)).
Proof.
  intros a x w y b Hx Hy Hne Hw. unfold words. rewrite words_aux_split by exact Hx.
  apply in_or_app; right. rewrite words_aux_word by exact Hw. rewrite app_nil_r. simpl. rewrite Hy.
  destruct (rev w) as [|z l] eqn:E; [exfalso; apply Hne; rewrite <- (rev_involutive w), E; reflexivity|].
  left. rewrite <- E. apply rev_involutive.
Qed.
Lemma blanks_last : forall b, blanks b -> b <> [] -> exists b' x, b = b' ++ [x] /\ is_space x = true.
Proof.
  intros b Hb Hne. destruct (exists_last Hne) as [b' [x E]]. exists b', x. split; [exact E|].
  unfold blanks in Hb. rewrite E, forallb_app in Hb. simpl in Hb. rewrite andb_true_r in Hb.
  now apply andb_true_iff in Hb as [_ Hb].
Qed.

(** The second of three fields of a text is one of its words. *)
Lemma second_field_word : forall s k n v p q, split_ws_max 2 s = [k; n; v] ->
  In n (words (p ++ s ++ q)).
Proof.
  intros s k n v p q H.
  destruct (sws_S 1 s k [n; v] H) as (b & t & E & _ & _ & _ & Ht & E1). symmetry in E1.
  destruct (sws_S 0 t n [v] E1) as (b1 & t1 & E' & Hb1 & Hne & Hn & Ht1 & E2).
  destruct Ht1 as [->|(y & t1' & -> & Hy)]; [discriminate|].
  assert (Hb1ne : b1 <> []).
  { intros ->. simpl in E'. destruct n as [|c n]; [congruence|].
    destruct Ht as [->|(z & t' & -> & Hz)]; [discriminate|]. inversion E'; subst.
    rewrite (Hn c (or_introl eq_refl)) in Hz. discriminate. }
  destruct (blanks_last b1 Hb1 Hb1ne) as (b' & x & -> & Hx).
  rewrite E, E'. replace (p ++ (b ++ k ++ (b' ++ [x]) ++ n ++ y :: t1') ++ q) with
    ((p ++ b ++ k ++ b') ++ x :: n ++ y :: (t1' ++ q)) by (repeat rewrite <- app_assoc; cbn [app]; repeat rewrite <- app_assoc; reflexivity).
  apply In_words; assumption.
Qed.
Lemma third_field_suffix : forall s k n v, split_ws_max 2 s = [k; n; v] -> exists p x, s = p ++ x :: v /\ is_space x = true.
Proof.
  intros s k n v H.
  destruct (sws_S 1 s k [n; v] H) as (b & t & E & _ & _ & _ & Ht & E1). symmetry in E1.
  destruct (sws_S 0 t n [v] E1) as (b1 & t1 & E' & Hb1 & Hne & Hn & Ht1 & E2). symmetry in E2.
  destruct (sws_0 _ _ _ E2) as (_ & b2 & E3 & Hb2 & Hv).
  assert (Hb2ne : b2 <> []).
  { intros ->. simpl in E3. subst t1. destruct Ht1 as [->|(z & t' & Ev & Hz)]; [discriminate|].
    rewrite (Hv _ _ Ev) in Hz. discriminate. }
  destruct (blanks_last b2 Hb2 Hb2ne) as (b' & x & -> & Hx).
  exists (b ++ k ++ b1 ++ n ++ b'), x. split; [|exact Hx]. rewrite E, E', E3, <- !app_assoc. reflexivity.
Qed.

(** The first field of a bare line begins the line. *)
Lemma first_field_prefix : forall line w rest, split_ws_max 1 (bare_line line) = w :: rest ->
  exists t, strip line = w ++ t.
Proof.
  intros line w rest H. destruct (bare_prefix line) as [t Ht].
  destruct (sws_S 0 _ w rest H) as (b & u & E & Hb & Hne & _ & _ & _).
  assert (b = []) as ->.
  { destruct b as [|x b]; [reflexivity|]. exfalso. rewrite E in Ht. simpl in Ht.
    pose proof (strip_head _ _ _ Ht) as Hx. unfold blanks in Hb. simpl in Hb. rewrite Hx in Hb. discriminate. }
  exists (u ++ t). rewrite Ht, E. simpl. rewrite <- app_assoc. reflexivity.
Qed.

(** ** The table of rules *)

Lemma attr_set : forall name key v r n k,
  attr_of (set_attr name key v r) n k = if streqb name n && streqb key k then Some v else attr_of r n k.
Proof.
  intros name key v r n k. unfold attr_of, set_attr. rewrite dget_dset.
  destruct (streqb_spec name n) as [<-|Hn]; simpl; [|reflexivity].
  rewrite dget_dset. destruct (streqb key k); [reflexivity|].
  destruct (dget name r); reflexivity.
Qed.
Lemma attr_touch : forall name r n k, attr_of (touch name r) n k = attr_of r n k.
Proof.
  intros name r n k. unfold touch. destruct (dhas name r) eqn:E; [reflexivity|].
  unfold attr_of. rewrite dget_dset. destruct (streqb_spec name n) as [<-|Hn]; [|reflexivity].
  simpl. apply dhas_notIn in E. apply dget_None in E. rewrite E. reflexivity.
Qed.
Lemma get_set_other : forall name key v r n, name <> n -> dget n (set_attr name key v r) = dget n r.
Proof. intros. unfold set_attr. apply dget_dset_other. assumption. Qed.
Lemma get_touch_other : forall name r n, name <> n -> dget n (touch name r) = dget n r.
Proof. intros name r n H. unfold touch. destruct (dhas name r); [reflexivity|]. apply dget_dset_other. exact H. Qed.

Definition res_state {X} (r : pres X) : pstate X := match r with PDone s => s | PRaise _ s => s end.

Section WithEnv.
Context {X : Type}.
Variable E : penv X.
Notation pstate := (pstate X).

Lemma store_other : forall rt name v (st : pstate) n, name <> n ->
  dget n (p_results (store E rt name v st)) = dget n (p_results st).
Proof.
  intros rt name v st n H. unfold store. cbn [p_results].
  destruct (mem_str rt rule_types || mem_str rt (e_cmds E (p_ctx st))).
  - rewrite !get_set_other by exact H.
    destruct (match v with AStr s => startswith ($"eval:") s | AList _ => false end);
      rewrite ?get_set_other by exact H; apply get_touch_other; exact H.
  - rewrite get_set_other by exact H. apply get_touch_other; exact H.
Qed.
Lemma store_ignore : forall rt name v (st : pstate), p_ignore (store E rt name v st) = p_ignore st.
Proof. reflexivity. Qed.

Lemma offer_frame : forall k v (st : pstate),
  p_results (res_state (offer E k v st)) = p_results st /\ p_ignore (res_state (offer E k v st)) = p_ignore st.
Proof. intros k v st. unfold offer. destruct (e_option E (p_ctx st) k v); split; reflexivity. Qed.
Lemma load_frame : forall v (st : pstate),
  p_results (res_state (handle_loadplugin E v st)) = p_results st /\ p_ignore (res_state (handle_loadplugin E v st)) = p_ignore st.
Proof.
  intros v st. unfold handle_loadplugin.
  destruct (match split_ws_max 1 v with [n; p] => (n, Some p) | _ => (v, None) end) as [n p].
  destruct (if contains ($"::") n then e_known E n else Some n) as [[|c m]|]; try (split; reflexivity).
  destruct (e_load E (p_ctx st) (c :: m) p); split; reflexivity.
Qed.

(** Fields of a bare line, seen from the line itself. *)
Lemma bare_in_line : forall line, exists p q, line = p ++ bare_line line ++ q.
Proof.
  intros line. destruct (strip_split line) as (a & b & E1 & _ & _). destruct (bare_prefix line) as [t Ht].
  exists a, (t ++ b). rewrite E1 at 1. rewrite Ht, <- app_assoc. reflexivity.
Qed.
Lemma bare_second_word : forall line k n v, split_ws_max 2 (bare_line line) = [k; n; v] -> In n (words line).
Proof.
  intros line k n v H. destruct (bare_in_line line) as (p & q & El). rewrite El.
  apply second_field_word with k v. exact H.
Qed.
Lemma bare_lang_word : forall line k n v k' n' v', split_ws_max 2 (bare_line line) = [k; n; v] ->
  split_ws_max 2 v = [k'; n'; v'] -> In n' (words line).
Proof.
  intros line k n v k' n' v' H H'. destruct (bare_in_line line) as (p & q & El).
  destruct (third_field_suffix _ _ _ _ H) as (r & x & Er & Hx).
  rewrite El, Er. replace (p ++ (r ++ x :: v) ++ q) with ((p ++ r ++ [x]) ++ v ++ q)
    by (repeat rewrite <- app_assoc; reflexivity).
  apply second_field_word with k' v'. exact H'.
Qed.

Lemma rule_line_frame : forall line (st : pstate) n, ~ In n (words line) ->
  dget n (p_results (res_state (handle_rule_line E (bare_line line) st))) = dget n (p_results st).
Proof.
  intros line st n Hn. unfold handle_rule_line.
  destruct (split_ws_max 2 (bare_line line)) as [|k [|m [|v [|? ?]]]] eqn:Es; try reflexivity.
  destruct (streqb k ($"lang")).
  - destruct (e_locale E) as [lg|]; [|reflexivity].
    destruct (negb (startswith m lg)); [reflexivity|].
    destruct (contains ($"report") v).
    + destruct (split_ws_max 1 v) as [|k' [|v' [|? ?]]]; try reflexivity.
      rewrite (proj1 (offer_frame k' v' st)). reflexivity.
    + destruct (split_ws_max 2 v) as [|k' [|n' [|v' [|? ?]]]] eqn:Ev; try reflexivity.
      cbn [res_state]. apply store_other. intros ->. apply Hn. exact (bare_lang_word _ _ _ _ _ _ _ Es Ev).
  - cbn [res_state]. apply store_other. intros ->. apply Hn. exact (bare_second_word _ _ _ _ Es).
Qed.
Lemma rule_line_ignore : forall line (st : pstate),
  p_ignore (res_state (handle_rule_line E line st)) = p_ignore st.
Proof.
  intros line st. unfold handle_rule_line.
  destruct (split_ws_max 2 line) as [|k [|m [|v [|? ?]]]]; try reflexivity.
  destruct (streqb k ($"lang")); [|reflexivity].
  destruct (e_locale E) as [lg|]; [|reflexivity].
  destruct (negb (startswith m lg)); [reflexivity|].
  destruct (contains ($"report") v).
  - destruct (split_ws_max 1 v) as [|k' [|v' [|? ?]]]; try reflexivity. apply offer_frame.
  - destruct (split_ws_max 2 v) as [|k' [|n' [|v' [|? ?]]]]; reflexivity.
Qed.

(** The keyword of a line: the first word of the bare line. *)
Definition line_kw (line : str) : str * str :=
  match split_ws_max 1 (bare_line line) with [t; v] => (t, v) | _ => (bare_line line, []) end.

Lemma kw_prefix : forall line, exists t, strip line = fst (line_kw line) ++ t.
Proof.
  intros line. unfold line_kw.
  destruct (split_ws_max 1 (bare_line line)) as [|w [|v [|? ?]]] eqn:Es; try apply bare_prefix.
  exact (first_field_prefix line w _ Es).
Qed.
Lemma kw_startswith : forall line, startswith (fst (line_kw line)) (strip line) = true.
Proof. intros line. destruct (kw_prefix line) as [t Ht]. apply startswith_app. exists t. exact Ht. Qed.

Lemma handle_line_eq : forall inc f line (st : pstate),
  handle_line E inc f line st =
  let l := strip line in
  if startswith ($"endif") l then PDone (set_ignore false st)
  else if startswith ($"else") l then PDone (set_ignore (negb (p_ignore st)) st)
  else if startswith ($"require_version") l then PDone st
  else match l with
  | [] => PDone st
  | _ =>
    if startswith ($"#") l || p_ignore st then PDone st
    else
      if streqb (fst (line_kw line)) ($"include") then inc (include_path f (snd (line_kw line))) st
      else if streqb (fst (line_kw line)) ($"ifplugin") then PDone (handle_ifplugin E (snd (line_kw line)) st)
      else if streqb (fst (line_kw line)) ($"loadplugin") then handle_loadplugin E (snd (line_kw line)) st
      else if mem_str (fst (line_kw line)) known2 || mem_str (fst (line_kw line)) (e_cmds E (p_ctx st)) then handle_rule_line E (bare_line line) st
      else offer E (fst (line_kw line)) (snd (line_kw line)) st
  end.
Proof.
  intros inc f line st. unfold handle_line, line_kw. cbv zeta.
  destruct (match split_ws_max 1 (bare_line line) with [t; v] => (t, v) | _ => (bare_line line, []) end) as [t v].
  reflexivity.
Qed.

Lemma line_frame : forall inc f line (st : pstate) n,
  (p_ignore st = true \/ fst (line_kw line) <> $"include") -> ~ In n (words line) ->
  dget n (p_results (res_state (handle_line E inc f line st))) = dget n (p_results st).
Proof.
  intros inc f line st n Hi Hn. rewrite handle_line_eq. cbv zeta.
  destruct (startswith ($"endif") (strip line)); [reflexivity|].
  destruct (startswith ($"else") (strip line)); [reflexivity|].
  destruct (startswith ($"require_version") (strip line)); [reflexivity|].
  destruct (strip line) as [|c l] eqn:El; [reflexivity|]. rewrite <- El in *.
  destruct (startswith ($"#") (strip line) || p_ignore st) eqn:Eg; [reflexivity|].
  destruct (streqb_spec (fst (line_kw line)) ($"include")) as [Ek|_].
  { exfalso. apply orb_false_iff in Eg as [_ Eg]. destruct Hi as [Hi|Hi]; congruence. }
  destruct (streqb (fst (line_kw line)) ($"ifplugin")).
  { unfold handle_ifplugin. destruct (mem_str _ _); reflexivity. }
  destruct (streqb (fst (line_kw line)) ($"loadplugin")); [rewrite (proj1 (load_frame _ st)); reflexivity|].
  destruct (mem_str (fst (line_kw line)) known2 || mem_str (fst (line_kw line)) (e_cmds E (p_ctx st))).
  - apply rule_line_frame. exact Hn.
  - rewrite (proj1 (offer_frame _ _ st)). reflexivity.
Qed.

Lemma not_directive : forall line, ~ directive line ->
  startswith ($"endif") (strip line) = false /\ startswith ($"else") (strip line) = false /\
  startswith ($"ifplugin") (strip line) = false /\ startswith ($"include") (strip line) = false.
Proof.
  intros line H. repeat split.
  - destruct (startswith ($"endif") (strip line)) eqn:Es; [|reflexivity]. exfalso. apply H. exists ($"endif"). simpl; auto 10.
  - destruct (startswith ($"else") (strip line)) eqn:Es; [|reflexivity]. exfalso. apply H. exists ($"else"). simpl; auto 10.
  - destruct (startswith ($"ifplugin") (strip line)) eqn:Es; [|reflexivity]. exfalso. apply H. exists ($"ifplugin"). simpl; auto 10.
  - destruct (startswith ($"include") (strip line)) eqn:Es; [|reflexivity]. exfalso. apply H. exists ($"include"). simpl; auto 10.
Qed.

Lemma line_ignore : forall inc f line (st : pstate), ~ directive line ->
  p_ignore (res_state (handle_line E inc f line st)) = p_ignore st.
Proof.
  intros inc f line st Hd. destruct (not_directive line Hd) as (H1 & H2 & H3 & H4).
  rewrite handle_line_eq. cbv zeta. rewrite H1, H2.
  destruct (startswith ($"require_version") (strip line)); [reflexivity|].
  destruct (strip line) as [|c l] eqn:El; [reflexivity|]. rewrite <- El in *.
  destruct (startswith ($"#") (strip line) || p_ignore st); [reflexivity|].
  pose proof (kw_startswith line) as Hk.
  destruct (streqb_spec (fst (line_kw line)) ($"include")) as [Ek|_]; [rewrite Ek in Hk; congruence|].
  destruct (streqb_spec (fst (line_kw line)) ($"ifplugin")) as [Ek|_]; [rewrite Ek in Hk; congruence|].
  destruct (streqb (fst (line_kw line)) ($"loadplugin")); [apply load_frame|].
  destruct (mem_str (fst (line_kw line)) known2 || mem_str (fst (line_kw line)) (e_cmds E (p_ctx st))).
  - apply rule_line_ignore.
  - apply offer_frame.
Qed.
End WithEnv.

(** ** Definition lines *)

Lemma cut_none : forall s p, (p = true -> forall c r, s = c :: r -> c <> 35%N) ->
  (forall a x b, s = a ++ x :: 35%N :: b -> x = 92%N) -> cut_comment p s = s.
Proof.
  induction s as [|c s IH]; intros p Hp Hs; simpl; [reflexivity|].
  destruct (p && N.eqb c 35) eqn:Ec.
  - apply andb_true_iff in Ec as [-> Ec]. apply N.eqb_eq in Ec. exfalso. exact (Hp eq_refl c s eq_refl Ec).
  - f_equal. apply IH.
    + intros Hc d r -> ->. apply negb_true_iff in Hc. apply N.eqb_neq in Hc. apply Hc. apply (Hs [] c r). reflexivity.
    + intros a x b ->. apply (Hs (c :: a) x b). reflexivity.
Qed.

Lemma hash_split : forall u v a x b, ~ In 35%N u -> hashes_escaped v -> u ++ v = a ++ x :: 35%N :: b -> x = 92%N.
Proof.
  induction u as [|c u IH]; intros v a x b Hu Hv H.
  - simpl in H. destruct (Hv (a ++ [x]) b) as [a' Ha']; [rewrite H, <- app_assoc; reflexivity|].
    apply app_inj_tail in Ha' as [_ ->]. reflexivity.
  - destruct a as [|d a]; simpl in H; inversion H as [[H1 H2]]; subst.
    + destruct u as [|e u]; simpl in H2.
      * destruct (Hv [] b) as [a' Ha']; [rewrite H2; reflexivity|]. destruct a'; discriminate.
      * inversion H2; subst. exfalso. apply Hu. right; left; reflexivity.
    + apply (IH v a x b); [intros Hi; apply Hu; right; exact Hi|exact Hv|exact H2].
Qed.

Lemma keywords_facts : forall k, In k keywords ->
  (k <> [] /\ (forall c, In c k -> is_space c = false) /\ ~ In 35%N k) /\
  (forall t, startswith ($"endif") (k ++ t) = false /\ startswith ($"else") (k ++ t) = false /\
             startswith ($"require_version") (k ++ t) = false /\ startswith ($"#") (k ++ t) = false) /\
  streqb k ($"include") = false /\ streqb k ($"ifplugin") = false /\ streqb k ($"loadplugin") = false /\
  mem_str k known2 = true /\ streqb k ($"lang") = false.
Proof.
  intros k H. unfold keywords in H.
  repeat (destruct H as [<-|H];
    [split; [split; [discriminate|split; [intros c Hc; vm_compute in Hc; repeat (destruct Hc as [<-|Hc]; [reflexivity|]); destruct Hc|vm_compute; intuition discriminate]]|];
     split; [intros t; repeat split; reflexivity|]; repeat split; reflexivity|]).
  destruct H.
Qed.

Definition entry_value (e : entry) : attr :=
  if streqb (en_kw e) ($"tflags") then AList (words (en_value e)) else AStr (en_value e).

Lemma blanks_front : forall b s, blanks b -> b <> [] -> exists x t, b ++ s = x :: t /\ is_space x = true.
Proof.
  intros [|x b] s H Hne; [congruence|]. unfold blanks in H. simpl in H. apply andb_true_iff in H as [Hx _].
  exists x, (b ++ s). split; [reflexivity|exact Hx].
Qed.
Lemma blanks_no : forall b c, blanks b -> is_space c = false -> ~ In c b.
Proof. intros b c H Hc Hi. unfold blanks in H. rewrite forallb_forall in H. rewrite (H c Hi) in Hc. discriminate. Qed.

Lemma spelled_core : forall line e, entry_ok e -> spells line e ->
  exists b1 b2, blanks b1 /\ b1 <> [] /\ blanks b2 /\ b2 <> [] /\
    strip line = en_kw e ++ b1 ++ en_name e ++ b2 ++ en_value e /\
    bare_line line = en_kw e ++ b1 ++ en_name e ++ b2 ++ en_value e.
Proof.
  intros line e (Hk & (Hn1 & Hn2 & Hn3) & (Hv1 & Hv2) & Hh) (b0 & b1 & b2 & b3 & H0 & H1 & H1' & H2 & H2' & H3 & ->).
  destruct (keywords_facts _ Hk) as ((Hk1 & Hk2 & Hk3) & _).
  exists b1, b2. repeat (split; [assumption|]).
  set (core := en_kw e ++ b1 ++ en_name e ++ b2 ++ en_value e).
  assert (Hcore : strip core = core).
  { apply strip_id.
    - intros c r Ec. unfold core in Ec. destruct (en_kw e) as [|x k]; [congruence|]. inversion Ec; subst. apply Hk2. left; reflexivity.
    - intros c r Ec. destruct (exists_last Hv1) as [v' [x Ev]].
      unfold core in Ec. rewrite Ev in Ec.
      replace (en_kw e ++ b1 ++ en_name e ++ b2 ++ v' ++ [x]) with ((en_kw e ++ b1 ++ en_name e ++ b2 ++ v') ++ [x]) in Ec
        by (repeat rewrite <- app_assoc; reflexivity).
      apply app_inj_tail in Ec as [_ <-]. apply (strip_last (en_value e) x v'). rewrite Hv2. exact Ev. }
  assert (Hs : strip (b0 ++ en_kw e ++ b1 ++ en_name e ++ b2 ++ en_value e ++ b3) = core).
  { replace (b0 ++ en_kw e ++ b1 ++ en_name e ++ b2 ++ en_value e ++ b3) with (b0 ++ core ++ b3)
      by (unfold core; repeat rewrite <- app_assoc; reflexivity).
    rewrite strip_blanks by assumption. exact Hcore. }
  split; [exact Hs|]. unfold bare_line. rewrite Hs.
  rewrite cut_none; [exact Hcore|discriminate|].
  intros a x b Ec. unfold core in Ec.
  replace (en_kw e ++ b1 ++ en_name e ++ b2 ++ en_value e) with ((en_kw e ++ b1 ++ en_name e ++ b2) ++ en_value e) in Ec
    by (repeat rewrite <- app_assoc; reflexivity).
  apply (hash_split _ _ _ _ _) with (2 := Hh) (3 := Ec).
  intros Hi. repeat (apply in_app_or in Hi as [Hi|Hi]); try contradiction.
  - exact (blanks_no b1 35%N H1 eq_refl Hi).
  - exact (blanks_no b2 35%N H2 eq_refl Hi).
Qed.

Section WithEnv2.
Context {X : Type}.
Variable E : penv X.
Notation pstate := (pstate X).

Lemma spelled_line : forall inc f line e (st : pstate), entry_ok e -> spells line e -> p_ignore st = false ->
  handle_line E inc f line st = PDone (store E (en_kw e) (en_name e) (entry_value e) st).
Proof.
  intros inc f line e st Hok Hsp Hig.
  destruct (spelled_core line e Hok Hsp) as (b1 & b2 & H1 & H1' & H2 & H2' & Hst & Hb).
  destruct Hok as (Hk & (Hn1 & Hn2 & Hn3) & (Hv1 & Hv2) & Hh).
  destruct (keywords_facts _ Hk) as ((Hk1 & Hk2 & Hk3) & Hpre & Hinc & Hifp & Hload & Hknown & Hlang).
  assert (Hv3 : forall c r, en_value e = c :: r -> is_space c = false).
  { intros c r Ev. apply (strip_head (en_value e) c r). rewrite Hv2. exact Ev. }
  assert (Hs2 : split_ws_max 2 (bare_line line) = [en_kw e; en_name e; en_value e]).
  { rewrite Hb. change (en_kw e ++ b1 ++ en_name e ++ b2 ++ en_value e) with ([] ++ en_kw e ++ b1 ++ en_name e ++ b2 ++ en_value e).
    rewrite sws_word; [|reflexivity|assumption|assumption|].
    - f_equal. rewrite sws_word; [|assumption|assumption|assumption|].
      + f_equal. apply sws_rest; assumption.
      + right. destruct (blanks_front b2 (en_value e) H2 H2') as (x & t & Ex & Hx). exists x, t; auto.
    - right. destruct (blanks_front b1 (en_name e ++ b2 ++ en_value e) H1 H1') as (x & t & Ex & Hx). exists x, t; auto. }
  assert (Hkw : fst (line_kw line) = en_kw e).
  { unfold line_kw. rewrite Hb.
    change (en_kw e ++ b1 ++ en_name e ++ b2 ++ en_value e) with ([] ++ en_kw e ++ b1 ++ en_name e ++ b2 ++ en_value e).
    rewrite sws_word; [|reflexivity|assumption|assumption|].
    - rewrite sws_rest; [reflexivity|assumption| |].
      + intros c r Ec. destruct (en_name e) as [|x n]; [congruence|]. inversion Ec; subst. apply Hn2. left; reflexivity.
      + destruct (en_name e); [congruence|discriminate].
    - right. destruct (blanks_front b1 (en_name e ++ b2 ++ en_value e) H1 H1') as (x & t & Ex & Hx). exists x, t; auto. }
  rewrite handle_line_eq. cbv zeta. rewrite Hkw, Hinc, Hifp, Hload, Hknown. cbn [orb].
  rewrite Hst. destruct (Hpre (b1 ++ en_name e ++ b2 ++ en_value e)) as (P1 & P2 & P3 & P4).
  rewrite P1, P2, P3, P4. destruct (en_kw e ++ b1 ++ en_name e ++ b2 ++ en_value e) as [|x l] eqn:El.
  { destruct (en_kw e); [congruence|discriminate]. }
  rewrite Hig. cbn [orb]. unfold handle_rule_line. rewrite Hs2, Hlang. reflexivity.
Qed.

(** What a definition line does to the table. *)
Lemma store_effects : forall e (st : pstate) n k, entry_ok e ->
  (forall c, In c [$"score"; $"priority"; $"describe"; $"tflags"] -> ~ In c (e_cmds E (p_ctx st))) ->
  attr_of (p_results (store E (en_kw e) (en_name e) (entry_value e) st)) n k =
  if streqb n (en_name e)
  then match dget k (effects e) with Some v => Some v | None => attr_of (p_results st) n k end
  else attr_of (p_results st) n k.
Proof.
  intros e st n k (Hk & _) Hc. rewrite (streqb_sym n). unfold store. cbn [p_results].
  assert (Hcase : (is_pattern_kw (en_kw e) = true /\ mem_str (en_kw e) rule_types = true /\ streqb (en_kw e) ($"tflags") = false) \/
                  (is_pattern_kw (en_kw e) = false /\ mem_str (en_kw e) rule_types = false /\
                   In (en_kw e) [$"score"; $"priority"; $"describe"; $"tflags"])).
  { unfold keywords in Hk.
    repeat (destruct Hk as [<-|Hk];
      [(left; repeat split; reflexivity) || (right; split; [reflexivity|split; [reflexivity|simpl; tauto]])|]).
    destruct Hk. }
  unfold effects, entry_value. destruct Hcase as [(Hp & Hm & Ht)|(Hp & Hm & Hin)]; rewrite Hp, Hm.
  - rewrite Ht. cbn [orb]. destruct (startswith ($"eval:") (en_value e)) eqn:Ee.
    + rewrite !attr_set, attr_touch. destruct (streqb (en_name e) n); cbn [andb]; [|reflexivity].
      cbn [dget]. rewrite (streqb_sym k ($"type")), (streqb_sym k ($"value")), (streqb_sym k ($"target")).
      destruct (streqb_spec ($"value") k) as [<-|Hv]; [reflexivity|].
      destruct (streqb_spec ($"type") k) as [<-|Hy]; [reflexivity|].
      destruct (streqb ($"target") k); reflexivity.
    + rewrite !attr_set, attr_touch. destruct (streqb (en_name e) n); cbn [andb]; [|reflexivity].
      cbn [dget]. rewrite (streqb_sym k ($"type")), (streqb_sym k ($"value")).
      destruct (streqb_spec ($"value") k) as [<-|Hv]; [reflexivity|].
      destruct (streqb_spec ($"type") k) as [<-|Hy]; reflexivity.
  - rewrite (proj2 (mem_str_notIn _ _) (Hc _ Hin)). cbn [orb].
    rewrite attr_set, attr_touch. destruct (streqb (en_name e) n); cbn [andb]; [|reflexivity].
    destruct (streqb_spec (en_kw e) ($"tflags")) as [Et|Et].
    + rewrite Et. cbn [dget]. rewrite (streqb_sym k). destruct (streqb ($"tflags") k); reflexivity.
    + cbn [dget]. rewrite (streqb_sym k). destruct (streqb (en_kw e) k); reflexivity.
Qed.
End WithEnv2.

(** ** Comments and blank lines *)

Lemma strip_lead : forall b s, blanks b -> strip (b ++ s) = strip s.
Proof. intros b s H. unfold strip, strip_p, lstrip_p. rewrite drop_blanks by exact H. reflexivity. Qed.
Lemma strip_cons : forall x s, is_space x = false -> exists t b, strip (x :: s) = x :: t /\ s = t ++ b /\ blanks b.
Proof.
  intros x s Hx. destruct (strip_split (x :: s)) as (b1 & b2 & E & H1 & H2).
  destruct b1 as [|y b1].
  - simpl in E. destruct (strip (x :: s)) as [|y t] eqn:Es.
    + exfalso. apply strip_nil in Es. unfold blanks in Es. simpl in Es. rewrite Hx in Es. discriminate.
    + simpl in E. injection E as <- Et. exists t, b2. auto.
  - exfalso. simpl in E. injection E as <- _. unfold blanks in H1. simpl in H1. rewrite Hx in H1. discriminate.
Qed.

Lemma startswith_cons : forall c p d s, startswith (c :: p) (d :: s) = N.eqb c d && startswith p s.
Proof. reflexivity. Qed.
Lemma startswith_trunc : forall p s x u, ~ In x p -> startswith p (s ++ x :: u) = startswith p s.
Proof.
  induction p as [|c p IH]; intros s x u H; [reflexivity|].
  destruct s as [|d s]; cbn [app]; rewrite ?startswith_cons.
  - destruct (N.eqb_spec c x); [subst; exfalso; apply H; left; reflexivity|reflexivity].
  - rewrite IH; [reflexivity|]. intros Hi; apply H; right; exact Hi.
Qed.

Lemma cut_app : forall s p u, cut_comment p (s ++ u) = cut_comment p s \/
  (cut_comment p s = s /\ cut_comment p (s ++ u) = s ++ cut_comment (match rev s with [] => p | c :: _ => negb (N.eqb c 92) end) u).
Proof.
  induction s as [|c s IH]; intros p u.
  - right. split; reflexivity.
  - simpl. destruct (p && N.eqb c 35); [left; reflexivity|].
    destruct (IH (negb (N.eqb c 92)) u) as [->|[E1 E2]]; [left; reflexivity|right].
    rewrite E1, E2. split; [reflexivity|]. do 2 f_equal.
    destruct (rev s) as [|d r]; reflexivity.
Qed.

Lemma cut_blank_hash : forall b p t, blanks b -> (b = [] -> p = true) -> cut_comment p (b ++ 35%N :: t) = b.
Proof.
  induction b as [|x b IH]; intros p t Hb Hp.
  - rewrite (Hp eq_refl). reflexivity.
  - unfold blanks in Hb. simpl in Hb. apply andb_true_iff in Hb as [Hx Hb]. cbn [app cut_comment].
    assert (N.eqb x 35 = false) as -> by (destruct (N.eqb_spec x 35); [subst; discriminate|reflexivity]).
    rewrite andb_false_r. f_equal. apply IH; [exact Hb|].
    intros _. destruct (N.eqb_spec x 92); [subst; discriminate|reflexivity].
Qed.

Section WithEnv3.
Context {X : Type}.
Variable E : penv X.
Notation pstate := (pstate X).

Lemma inert_line : forall inc f line (st : pstate), comment_or_blank line -> handle_line E inc f line st = PDone st.
Proof.
  intros inc f line st H. unfold handle_line. cbv zeta. destruct H as [H|(b & c & Hb & ->)].
  - rewrite (proj2 (strip_nil line) H). reflexivity.
  - rewrite strip_lead by exact Hb. destruct (strip_cons 35%N c eq_refl) as (t & b' & -> & _). reflexivity.
Qed.

(** [handle_line] sees a line only through these. *)
Lemma handle_line_ext : forall inc f l l' (st : pstate),
  (forall p, In p [$"endif"; $"else"; $"require_version"; $"#"] -> startswith p (strip l) = startswith p (strip l')) ->
  (strip l = [] <-> strip l' = []) -> bare_line l = bare_line l' ->
  handle_line E inc f l st = handle_line E inc f l' st.
Proof.
  intros inc f l l' st Hp Hn Hb. unfold handle_line. cbv zeta.
  rewrite (Hp ($"endif")), (Hp ($"else")), (Hp ($"require_version")), (Hp ($"#")) by (simpl; auto 10).
  rewrite Hb. destruct (strip l) as [|c s]; destruct (strip l') as [|c' s']; try reflexivity.
  - pose proof (proj1 Hn eq_refl); discriminate.
  - pose proof (proj2 Hn eq_refl); discriminate.
Qed.

Lemma trailing_comment : forall inc f l l' (st : pstate), commented l l' ->
  handle_line E inc f l' st = handle_line E inc f l st.
Proof.
  intros inc f l l' st (Hnb & Hbs & c & ->).
  destruct (strip_split l) as (b1 & b2 & El & Hb1 & Hb2).
  assert (Hs0 : strip l <> []) by (intros H; apply Hnb, strip_nil, H).
  destruct (strip_cons 35%N c eq_refl) as (t & b3 & Ec & Ecc & Hb3).
  set (s := strip l) in *.
  assert (Hl' : strip (l ++ 35%N :: c) = s ++ b2 ++ 35%N :: t).
  { rewrite El. replace ((b1 ++ s ++ b2) ++ 35%N :: c) with (b1 ++ (s ++ b2 ++ 35%N :: t) ++ b3)
      by (rewrite Ecc; repeat rewrite <- app_assoc; reflexivity).
    rewrite strip_blanks by assumption. apply strip_id.
    - intros d r Ed. destruct s as [|d' s'] eqn:Es; [congruence|]. injection Ed as <- _. apply (strip_head l d' s'). exact Es.
    - intros d r Ed. rewrite app_assoc in Ed. destruct (exists_last (l := 35%N :: t)) as [t' [y Ey]]; [discriminate|].
      rewrite Ey, app_assoc in Ed. apply app_inj_tail in Ed as [_ <-]. apply (strip_last (35%N :: c) y t'). rewrite Ec. exact Ey. }
  assert (Htr : forall p, ~ In 35%N p -> (forall x, In x p -> is_space x = false) -> startswith p (s ++ b2 ++ 35%N :: t) = startswith p s).
  { intros p Hp Hsp. destruct b2 as [|x b2]; cbn [app].
    - apply startswith_trunc. exact Hp.
    - apply startswith_trunc. intros Hi. unfold blanks in Hb2. simpl in Hb2.
      rewrite (Hsp x Hi) in Hb2. discriminate. }
  apply handle_line_ext.
  - intros p Hp. rewrite Hl'. fold s.
    destruct Hp as [<-|[<-|[<-|[<-|[]]]]].
    1-3: apply Htr; [vm_compute; intuition discriminate|intros x Hx; vm_compute in Hx;
         repeat (destruct Hx as [<-|Hx]; [reflexivity|]); destruct Hx].
    destruct s as [|x s']; [congruence|]. reflexivity.
  - rewrite Hl'. fold s. split; intros H; [apply app_eq_nil in H as [H _]|]; congruence.
  - unfold bare_line. rewrite Hl'. fold s.
    destruct (cut_app s false (b2 ++ 35%N :: t)) as [->|[E1 E2]]; [reflexivity|].
    rewrite E1, E2, cut_blank_hash; [|exact Hb2|].
    + change (s ++ b2) with ([] ++ s ++ b2). rewrite strip_blanks by (reflexivity || assumption). reflexivity.
    + intros ->. destruct (rev s) as [|d r] eqn:Er.
      * exfalso. apply Hs0. rewrite <- (rev_involutive s), Er. reflexivity.
      * destruct (N.eqb_spec d 92); [|reflexivity]. exfalso. subst d.
        apply (f_equal (@rev N)) in Er. rewrite rev_involutive in Er. simpl in Er.
        apply (Hbs (b1 ++ rev r)). rewrite El, app_nil_r, Er, app_assoc. reflexivity.
Qed.

Lemma handle_line_inc : forall inc inc' f l (st : pstate), (forall g s, inc g s = inc' g s) ->
  handle_line E inc f l st = handle_line E inc' f l st.
Proof.
  intros inc inc' f l st H. rewrite !handle_line_eq. cbv zeta.
  destruct (startswith ($"endif") (strip l)); [reflexivity|].
  destruct (startswith ($"else") (strip l)); [reflexivity|].
  destruct (startswith ($"require_version") (strip l)); [reflexivity|].
  destruct (strip l); [reflexivity|].
  destruct (startswith ($"#") (n :: l0) || p_ignore st); [reflexivity|].
  destruct (streqb (fst (line_kw l)) ($"include")); [apply H|reflexivity].
Qed.
Lemma run_lines_inc : forall inc inc' f ls (st : pstate), (forall g s, inc g s = inc' g s) ->
  run_lines E inc f ls st = run_lines E inc' f ls st.
Proof.
  intros inc inc' f ls. induction ls as [|l ls IH]; intros st H; [reflexivity|]. cbn [run_lines].
  rewrite (handle_line_inc inc inc' f l st H).
  destruct (handle_line E inc' f l st) as [s|[| | |] s]; try reflexivity; try (apply IH; exact H).
  destruct (e_paranoid E); [reflexivity|apply IH; exact H].
Qed.

Lemma run_lines_comments : forall inc f ls ls' (st : pstate), same_up_to_comments ls ls' ->
  run_lines E inc f ls st = run_lines E inc f ls' st.
Proof.
  intros inc f ls ls' st H. revert st. induction H as [|l a b H IH|l a b Hc H IH|l a b Hc H IH|l l' a b Hc H IH|l l' a b Hc H IH]; intros st.
  - reflexivity.
  - cbn [run_lines]. destruct (handle_line E inc f l st) as [s|[| | |] s]; try reflexivity; try apply IH.
    destruct (e_paranoid E); [reflexivity|apply IH].
  - cbn [run_lines]. rewrite inert_line by exact Hc. apply IH.
  - cbn [run_lines]. rewrite inert_line by exact Hc. apply IH.
  - cbn [run_lines]. rewrite (trailing_comment inc f l l' st Hc).
    destruct (handle_line E inc f l st) as [s|[| | |] s]; try reflexivity; try apply IH.
    destruct (e_paranoid E); [reflexivity|apply IH].
  - cbn [run_lines]. rewrite (trailing_comment inc f l l' st Hc).
    destruct (handle_line E inc f l st) as [s|[| | |] s]; try reflexivity; try apply IH.
    destruct (e_paranoid E); [reflexivity|apply IH].
Qed.
End WithEnv3.

Lemma run_lines_files : forall X (E : penv X) fs inc f ls st,
  run_lines (with_files E fs) inc f ls st = run_lines E inc f ls st.
Proof. reflexivity. Qed.

Definition same_files (fs fs' : str -> option (list str)) : Prop :=
  forall f, match fs f, fs' f with
            | Some a, Some b => same_up_to_comments a b
            | None, None => True
            | _, _ => False
            end.
Lemma parse_file_comments : forall X (E : penv X) fs fs', same_files fs fs' ->
  forall n f st, parse_file (with_files E fs) n f st = parse_file (with_files E fs') n f st.
Proof.
  intros X E fs fs' H. induction n as [|n IH]; intros f st; [reflexivity|]. cbn [parse_file].
  cbn [with_files e_files]. specialize (H f).
  destruct (fs f) as [a|]; destruct (fs' f) as [b|]; try contradiction; try reflexivity.
  rewrite (run_lines_inc (with_files E fs) (parse_file (with_files E fs) n) (parse_file (with_files E fs') n) f _ st IH).
  rewrite (run_lines_comments (with_files E fs) _ f a b st H). reflexivity.
Qed.

(** ** Conditional blocks *)

Section WithEnv4.
Context {X : Type}.
Variable E : penv X.
Notation pstate := (pstate X).

Lemma set_ignore_id : forall b (st : pstate), p_ignore st = b -> set_ignore b st = st.
Proof. intros b [r i x] H. simpl in H. subst. reflexivity. Qed.

Lemma skipped_line : forall inc f line (st : pstate), ~ directive line -> p_ignore st = true ->
  handle_line E inc f line st = PDone st.
Proof.
  intros inc f line st Hd Hi. destruct (not_directive line Hd) as (H1 & H2 & _).
  unfold handle_line. cbv zeta. rewrite H1, H2, Hi, orb_true_r.
  destruct (startswith ($"require_version") (strip line)); [reflexivity|]. destruct (strip line); reflexivity.
Qed.
Lemma skipped_lines : forall inc f ls rest (st : pstate), Forall (fun l => ~ directive l) ls -> p_ignore st = true ->
  run_lines E inc f (ls ++ rest) st = run_lines E inc f rest st.
Proof.
  induction ls as [|l ls IH]; intros rest st H Hi; [reflexivity|]. inversion H; subst.
  cbn [app run_lines]. rewrite skipped_line by assumption. apply IH; assumption.
Qed.

Definition then_run (r : pres X) (k : pstate -> pres X) : pres X :=
  match r with PDone s => k s | PRaise e s => PRaise e s end.
Lemma run_lines_app : forall inc f a b (st : pstate),
  run_lines E inc f (a ++ b) st = then_run (run_lines E inc f a st) (run_lines E inc f b).
Proof.
  induction a as [|l a IH]; intros b st; [reflexivity|]. cbn [app run_lines].
  destruct (handle_line E inc f l st) as [s|[| | |] s]; try reflexivity; try apply IH.
  destruct (e_paranoid E); [reflexivity|apply IH].
Qed.
Lemma run_lines_ignore : forall inc f ls (st st' : pstate), Forall (fun l => ~ directive l) ls ->
  run_lines E inc f ls st = PDone st' -> p_ignore st' = p_ignore st.
Proof.
  induction ls as [|l ls IH]; intros st st' H Hr; [inversion Hr; reflexivity|]. inversion H as [|? ? Hl Hls]; subst.
  cbn [run_lines] in Hr. pose proof (line_ignore E inc f l st Hl) as Hi.
  destruct (handle_line E inc f l st) as [s|[| | |] s]; cbn [res_state] in Hi; try discriminate.
  - rewrite (IH s st' Hls Hr). exact Hi.
  - destruct (e_paranoid E); [discriminate|]. rewrite (IH s st' Hls Hr). exact Hi.
  - rewrite (IH s st' Hls Hr). exact Hi.
Qed.

Lemma endif_strip : forall line, endif_line line -> startswith ($"endif") (strip line) = true.
Proof.
  intros line (b & t & Hb & ->). rewrite strip_lead by exact Hb.
  destruct (strip_cons 101%N ($"ndif" ++ t) eq_refl) as (u & b' & E1 & E2 & Hb').
  change ($"endif" ++ t) with (101%N :: $"ndif" ++ t). rewrite E1.
  assert (Hpre : exists v, u = $"ndif" ++ v).
  { destruct u as [|x1 u]; [exfalso; simpl in E2; subst b'; discriminate Hb'|].
    injection E2 as <- E2. destruct u as [|x1 u]; [exfalso; simpl in E2; subst b'; discriminate Hb'|].
    injection E2 as <- E2. destruct u as [|x1 u]; [exfalso; simpl in E2; subst b'; discriminate Hb'|].
    injection E2 as <- E2. destruct u as [|x1 u]; [exfalso; simpl in E2; subst b'; discriminate Hb'|].
    injection E2 as <- E2. exists u. reflexivity. }
  destruct Hpre as [v ->]. reflexivity.
Qed.
Lemma else_strip : forall line, else_line line ->
  startswith ($"else") (strip line) = true /\ startswith ($"endif") (strip line) = false.
Proof.
  intros line (b & t & Hb & ->). rewrite strip_lead by exact Hb.
  destruct (strip_cons 101%N ($"lse" ++ t) eq_refl) as (u & b' & E1 & E2 & Hb').
  change ($"else" ++ t) with (101%N :: $"lse" ++ t). rewrite E1.
  assert (Hpre : exists v, u = $"lse" ++ v).
  { destruct u as [|x1 u]; [exfalso; simpl in E2; subst b'; discriminate Hb'|].
    injection E2 as <- E2. destruct u as [|x1 u]; [exfalso; simpl in E2; subst b'; discriminate Hb'|].
    injection E2 as <- E2. destruct u as [|x1 u]; [exfalso; simpl in E2; subst b'; discriminate Hb'|].
    injection E2 as <- E2. exists u. reflexivity. }
  destruct Hpre as [v ->]. split; reflexivity.
Qed.
Lemma endif_step : forall inc f line (st : pstate), endif_line line -> handle_line E inc f line st = PDone (set_ignore false st).
Proof. intros inc f line st H. unfold handle_line. cbv zeta. rewrite (endif_strip line H). reflexivity. Qed.
Lemma else_step : forall inc f line (st : pstate), else_line line ->
  handle_line E inc f line st = PDone (set_ignore (negb (p_ignore st)) st).
Proof. intros inc f line st H. unfold handle_line. cbv zeta. destruct (else_strip line H) as [-> ->]. reflexivity. Qed.

Lemma names_class_eq : forall P c, names_class E P c -> plugin_class E P = c.
Proof.
  intros P c (q & Hq & Hc). unfold plugin_class.
  assert (match e_known E P with Some p => p | None => P end = q) as -> by (destruct Hq as [-> |[-> ->]]; reflexivity).
  destruct Hc as [[Hno ->]|(m & -> & Hno)].
  - rewrite rsplit1_none by exact Hno. reflexivity.
  - rewrite rsplit1_app by exact Hno. reflexivity.
Qed.

Lemma ifplugin_step : forall inc f line P c (st : pstate), ifplugin_line line P -> names_class E P c ->
  p_ignore st = false ->
  handle_line E inc f line st = PDone (if mem_str c (e_plugins E (p_ctx st)) then st else set_ignore true st).
Proof.
  intros inc f line P c st ((HP1 & HP2 & HP3) & b0 & b1 & b2 & H0 & H1 & H1' & H2 & ->) Hc Hig.
  set (core := $"ifplugin" ++ b1 ++ P).
  assert (Hcore : strip core = core).
  { apply strip_id.
    - intros d r Ed. inversion Ed; subst. reflexivity.
    - intros d r Ed. destruct (exists_last HP1) as [P' [x Ex]]. unfold core in Ed. rewrite Ex in Ed.
      rewrite !app_assoc in Ed. apply app_inj_tail in Ed as [_ <-]. apply HP2. rewrite Ex. apply in_or_app; right; left; reflexivity. }
  assert (Hs : strip (b0 ++ $"ifplugin" ++ b1 ++ P ++ b2) = core).
  { replace (b0 ++ $"ifplugin" ++ b1 ++ P ++ b2) with (b0 ++ core ++ b2)
      by (unfold core; repeat rewrite <- app_assoc; reflexivity).
    rewrite strip_blanks by assumption. exact Hcore. }
  assert (Hb : bare_line (b0 ++ $"ifplugin" ++ b1 ++ P ++ b2) = core).
  { unfold bare_line. rewrite Hs, cut_none; [exact Hcore|discriminate|].
    intros a x b Ea. exfalso. assert (Hi : In 35%N core) by (rewrite Ea; apply in_or_app; right; right; left; reflexivity).
    unfold core in Hi. apply in_app_or in Hi as [Hi|Hi].
    - vm_compute in Hi. intuition discriminate.
    - apply in_app_or in Hi as [Hi|Hi]; [exact (blanks_no b1 35%N H1 eq_refl Hi)|exact (HP3 Hi)]. }
  assert (Hkw : line_kw (b0 ++ $"ifplugin" ++ b1 ++ P ++ b2) = ($"ifplugin", P)).
  { unfold line_kw. rewrite Hb. unfold core.
    change ($"ifplugin" ++ b1 ++ P) with ([] ++ $"ifplugin" ++ b1 ++ P).
    rewrite sws_word; [|reflexivity|discriminate| |].
    - rewrite sws_rest; [reflexivity|exact H1| |exact HP1].
      intros d r Ed. apply HP2. rewrite Ed. left; reflexivity.
    - intros d Hd. vm_compute in Hd. repeat (destruct Hd as [<-|Hd]; [reflexivity|]). destruct Hd.
    - right. destruct (blanks_front b1 P H1 H1') as (x & t & Ex & Hx). exists x, t; auto. }
  rewrite handle_line_eq. cbv zeta. rewrite Hkw, Hs. cbn [fst snd].
  change (startswith ($"endif") core) with false. change (startswith ($"else") core) with false.
  change (startswith ($"require_version") core) with false. change (startswith ($"#") core) with false.
  rewrite Hig. cbn [orb]. unfold core. cbn [app]. change ($"ifplugin" ++ b1 ++ P) with (105%N :: ($"fplugin" ++ b1 ++ P)).
  cbv iota. change (streqb ($"ifplugin") ($"include")) with false. change (streqb ($"ifplugin") ($"ifplugin")) with true.
  cbv iota. unfold handle_ifplugin. rewrite (names_class_eq P c Hc). reflexivity.
Qed.

Lemma run_line_done : forall inc f l rest (st st' : pstate), handle_line E inc f l st = PDone st' ->
  run_lines E inc f (l :: rest) st = run_lines E inc f rest st'.
Proof. intros inc f l rest st st' H. cbn [run_lines]. rewrite H. reflexivity. Qed.

Lemma then_run_block : forall inc f body (st : pstate) k k', Forall (fun l => ~ directive l) body -> p_ignore st = false ->
  (forall s, p_ignore s = false -> k s = k' s) ->
  then_run (run_lines E inc f body st) k = then_run (run_lines E inc f body st) k'.
Proof.
  intros inc f body st k k' Hb Hi Hk. destruct (run_lines E inc f body st) as [s|e s] eqn:Er; [|reflexivity].
  simpl. apply Hk. rewrite (run_lines_ignore inc f body st s Hb Er). exact Hi.
Qed.

Lemma block_with_else : forall inc f l0 P c body1 lelse body2 lend rest (st : pstate),
  ifplugin_line l0 P -> names_class E P c -> Forall (fun l => ~ directive l) body1 -> else_line lelse ->
  Forall (fun l => ~ directive l) body2 -> endif_line lend -> p_ignore st = false ->
  run_lines E inc f (l0 :: body1 ++ lelse :: body2 ++ lend :: rest) st =
  if mem_str c (e_plugins E (p_ctx st)) then run_lines E inc f (body1 ++ rest) st else run_lines E inc f (body2 ++ rest) st.
Proof.
  intros inc f l0 P c body1 lelse body2 lend rest st H0 Hc H1 He H2 Hn Hi.
  rewrite (run_line_done inc f _ _ _ _ (ifplugin_step inc f l0 P c st H0 Hc Hi)).
  destruct (mem_str c (e_plugins E (p_ctx st))).
  - rewrite !run_lines_app. apply then_run_block; [exact H1|exact Hi|].
    intros s Hs. rewrite (run_line_done inc f _ _ _ _ (else_step inc f lelse s He)).
    rewrite skipped_lines; [|exact H2|cbn; now rewrite Hs].
    rewrite (run_line_done inc f _ _ _ _ (endif_step inc f lend _ Hn)). f_equal.
    rewrite Hs. destruct s as [r i x]. simpl in Hs. subst. reflexivity.
  - rewrite skipped_lines by (exact H1 || reflexivity).
    rewrite (run_line_done inc f _ _ _ _ (else_step inc f lelse _ He)).
    assert (set_ignore (negb (p_ignore (set_ignore true st))) (set_ignore true st) = st) as ->
      by (destruct st as [r i x]; simpl in Hi; subst; reflexivity).
    rewrite !run_lines_app. apply then_run_block; [exact H2|exact Hi|].
    intros s Hs. rewrite (run_line_done inc f _ _ _ _ (endif_step inc f lend _ Hn)). f_equal.
    apply set_ignore_id. exact Hs.
Qed.

Lemma block_no_else : forall inc f l0 P c body1 lend rest (st : pstate),
  ifplugin_line l0 P -> names_class E P c -> Forall (fun l => ~ directive l) body1 -> endif_line lend -> p_ignore st = false ->
  run_lines E inc f (l0 :: body1 ++ lend :: rest) st =
  if mem_str c (e_plugins E (p_ctx st)) then run_lines E inc f (body1 ++ rest) st else run_lines E inc f rest st.
Proof.
  intros inc f l0 P c body1 lend rest st H0 Hc H1 Hn Hi.
  rewrite (run_line_done inc f _ _ _ _ (ifplugin_step inc f l0 P c st H0 Hc Hi)).
  destruct (mem_str c (e_plugins E (p_ctx st))).
  - rewrite !run_lines_app. apply then_run_block; [exact H1|exact Hi|].
    intros s Hs. rewrite (run_line_done inc f _ _ _ _ (endif_step inc f lend _ Hn)). f_equal.
    apply set_ignore_id. exact Hs.
  - rewrite skipped_lines by (exact H1 || reflexivity).
    rewrite (run_line_done inc f _ _ _ _ (endif_step inc f lend _ Hn)). f_equal.
    destruct st as [r i x]. simpl in Hi. subst. reflexivity.
Qed.

(** ** Includes *)

Lemma include_kw : forall line, fst (line_kw line) = $"include" <-> exists v, include_line line v.
Proof.
  intros line. unfold line_kw, include_line. split.
  - destruct (split_ws_max 1 (bare_line line)) as [|w [|v [|? ?]]] eqn:Es; cbn [fst]; intros H;
      try (exists []; left; split; [exact H|reflexivity]).
    exists v. right. subst w.
    destruct (sws_S 0 _ _ _ Es) as (b & t & Eb & Hb & _ & _ & Ht & Er). symmetry in Er.
    assert (b = []) as ->.
    { destruct b as [|x b]; [reflexivity|]. exfalso. simpl in Eb. pose proof (strip_head _ _ _ Eb) as Hx.
      unfold blanks in Hb. simpl in Hb. rewrite Hx in Hb. discriminate. }
    destruct (sws_0 _ _ _ Er) as (_ & b' & Et & Hb' & Hv). subst t.
    exists b'. split; [exact Hb'|]. split.
    + intros ->. simpl in Ht. destruct Ht as [->|(x & t' & -> & Hx)]; [discriminate|]. rewrite (Hv x t' eq_refl) in Hx. discriminate.
    + split; [|exact Eb]. split; [intros ->; simpl in Er; rewrite app_nil_r in Er; destruct (drop_while is_space b') eqn:Ed;
        [discriminate|inversion Er]|].
      apply strip_id; [exact Hv|]. intros c r Ec.
      apply (strip_last (cut_comment false (strip line)) c ($"include" ++ b' ++ r)).
      change (bare_line line = ($"include" ++ b' ++ r) ++ [c]). rewrite Eb, Ec. simpl. repeat rewrite <- app_assoc. reflexivity.
  - intros (v & [[Hb ->]|(b & H1 & H2 & (Hv1 & Hv2) & Hb)]).
    + rewrite Hb. reflexivity.
    + rewrite Hb. change ($"include" ++ b ++ v) with ([] ++ $"include" ++ b ++ v).
      rewrite sws_word; [|reflexivity|discriminate| |].
      * rewrite sws_rest; [reflexivity|exact H1| |exact Hv1]. intros c r Ec. apply (strip_head v c r). rewrite Hv2. exact Ec.
      * intros d Hd. vm_compute in Hd. repeat (destruct Hd as [<-|Hd]; [reflexivity|]). destruct Hd.
      * right. destruct (blanks_front b v H1 H2) as (x & t & Ex & Hx). exists x, t; auto.
Qed.
Lemma include_value : forall line v, include_line line v -> line_kw line = ($"include", v).
Proof.
  intros line v [[Hb ->]|(b & H1 & H2 & (Hv1 & Hv2) & Hb)]; unfold line_kw; rewrite Hb; [reflexivity|].
  change ($"include" ++ b ++ v) with ([] ++ $"include" ++ b ++ v).
  rewrite sws_word; [|reflexivity|discriminate| |].
  - rewrite sws_rest; [reflexivity|exact H1| |exact Hv1]. intros c r Ec. apply (strip_head v c r). rewrite Hv2. exact Ec.
  - intros d Hd. vm_compute in Hd. repeat (destruct Hd as [<-|Hd]; [reflexivity|]). destruct Hd.
  - right. destruct (blanks_front b v H1 H2) as (x & t & Ex & Hx). exists x, t; auto.
Qed.
Lemma include_path_eq : forall f v, (v = [] \/ trimmed v) ->
  include_path f v = if isabs v then v else if isabs f then path_join (dirname f) v else v.
Proof.
  intros f v H. unfold include_path.
  assert (strip v = v) as -> by (destruct H as [->|[_ H]]; [reflexivity|exact H]).
  destruct (isabs v); destruct (isabs f); reflexivity.
Qed.

Lemma include_step : forall inc f line (st : pstate) g, asks f line st g -> handle_line E inc f line st = inc g st.
Proof.
  intros inc f line st g (Hi & v & Hv & ->). pose proof (include_value line v Hv) as Hkw.
  destruct (kw_prefix line) as [t Ht]. rewrite Hkw in Ht. cbn [fst] in Ht.
  rewrite handle_line_eq. cbv zeta. rewrite Hkw, Ht. cbn [fst snd].
  change (startswith ($"endif") ($"include" ++ t)) with false. change (startswith ($"else") ($"include" ++ t)) with false.
  change (startswith ($"require_version") ($"include" ++ t)) with false. change (startswith ($"#") ($"include" ++ t)) with false.
  rewrite Hi. change ($"include" ++ t) with (105%N :: ($"nclude" ++ t)). cbn [orb]. cbv iota.
  change (streqb ($"include") ($"include")) with true. cbv iota.
  rewrite include_path_eq; [reflexivity|]. destruct Hv as [[_ ->]|(b & _ & _ & Hv & _)]; auto.
Qed.
Lemma no_include_step : forall inc inc' f line (st : pstate), (forall g, ~ asks f line st g) ->
  handle_line E inc f line st = handle_line E inc' f line st.
Proof.
  intros inc inc' f line st H. rewrite !handle_line_eq. cbv zeta.
  destruct (startswith ($"endif") (strip line)); [reflexivity|].
  destruct (startswith ($"else") (strip line)); [reflexivity|].
  destruct (startswith ($"require_version") (strip line)); [reflexivity|].
  destruct (strip line) as [|x l] eqn:El; [reflexivity|].
  destruct (startswith ($"#") (x :: l) || p_ignore st) eqn:Ei; [reflexivity|].
  destruct (streqb_spec (fst (line_kw line)) ($"include")) as [Ek|_]; [|reflexivity].
  exfalso. apply orb_false_iff in Ei as [_ Ei]. apply include_kw in Ek as [v Hv].
  eapply H. split; [exact Ei|]. exists v. split; [exact Hv|reflexivity].
Qed.
Lemma asks_dec : forall f line (st : pstate), (exists g, asks f line st g) \/ (forall g, ~ asks f line st g).
Proof.
  intros f line st. destruct (p_ignore st) eqn:Ei.
  - right. intros g [Hg _]. congruence.
  - destruct (streqb_spec (fst (line_kw line)) ($"include")) as [Ek|Ek].
    + apply include_kw in Ek as [v Hv]. left. eexists. split; [exact Ei|]. exists v. split; [exact Hv|reflexivity].
    + right. intros g (_ & v & Hv & _). apply Ek, include_kw. exists v; exact Hv.
Qed.

Scheme reads_ind2 := Induction for reads Sort Prop
  with reads_lines_ind2 := Induction for reads_lines Sort Prop.

Lemma one_line_run : forall inc f l rest (st st1 : pstate), (forall g, ~ asks f l st g) -> one_line E f l st = PDone st1 ->
  run_lines E inc f (l :: rest) st = run_lines E inc f rest st1.
Proof.
  intros inc f l rest st st1 Ha H. unfold one_line in H. cbn [run_lines] in *.
  rewrite (no_include_step inc (fun _ s => PDone s) f l st Ha).
  destruct (handle_line E (fun _ s => PDone s) f l st) as [s|[| | |] s]; try discriminate.
  - inversion H; reflexivity.
  - destruct (e_paranoid E); [discriminate|inversion H; reflexivity].
  - inversion H; reflexivity.
Qed.

Lemma reads_parse : forall n f st st', reads E n f st st' -> parse_file E (S n) f st = PDone st'.
Proof.
  apply (reads_ind2 X E (fun n f st st' _ => parse_file E (S n) f st = PDone st')
           (fun n f ls st st' _ => run_lines E (parse_file E n) f ls st = PDone st')).
  - intros n f st Hf. cbn [parse_file]. rewrite Hf. reflexivity.
  - intros n f lines st st' Hf _ IH. cbn [parse_file]. rewrite Hf. exact IH.
  - reflexivity.
  - intros n f l g rest st st1 st2 Ha _ IH1 _ IH2. cbn [run_lines]. rewrite (include_step _ f l st g Ha), IH1. exact IH2.
  - intros n f l rest st st1 st2 Ha H1 _ IH. rewrite (one_line_run _ f l rest st st1 Ha H1). exact IH.
Qed.

(** A file can only complete by completing its includes, so no [ESyntax] or
    [EPluginLoad] comes out of an include that is later swallowed silently. *)
Lemma run_lines_exn : forall inc f ls (st : pstate) e s, run_lines E inc f ls st = PRaise e s ->
  e <> EPluginLoad /\ (e = ESyntax -> e_paranoid E = true).
Proof.
  induction ls as [|l ls IH]; intros st e s H; [discriminate|]. cbn [run_lines] in H.
  destruct (handle_line E inc f l st) as [s'|[| | |] s'].
  - exact (IH _ _ _ H).
  - destruct (e_paranoid E); [inversion H; subst; split; [discriminate|reflexivity]|]. exact (IH _ _ _ H).
  - exact (IH _ _ _ H).
  - inversion H; subst; split; [discriminate|discriminate].
  - inversion H; subst; split; [discriminate|discriminate].
Qed.
Lemma parse_file_exn : forall n f (st : pstate) e s, parse_file E n f st = PRaise e s ->
  e <> EPluginLoad /\ (e = ESyntax -> e_paranoid E = true).
Proof.
  intros [|n] f st e s H; cbn [parse_file] in H.
  - inversion H; subst. split; [discriminate|discriminate].
  - destruct (e_files E f) as [ls|]; [|discriminate]. exact (run_lines_exn _ _ _ _ _ _ H).
Qed.

Lemma parse_file_S : forall n f st, parse_file E (S n) f st =
  match e_files E f with None => PDone st | Some lines => run_lines E (parse_file E n) f lines st end.
Proof. reflexivity. Qed.

Lemma parse_reads : forall n f st st', parse_file E (S n) f st = PDone st' -> reads E n f st st'.
Proof.
  induction n as [|n IHn]; intros f st st' H; rewrite parse_file_S in H;
    (destruct (e_files E f) as [ls|] eqn:Ef; [|inversion H; subst; apply reads_missing; exact Ef]);
    apply (reads_file _ _ _ ls); try exact Ef; clear Ef; revert st H;
    induction ls as [|l ls IHl]; intros st H.
  1,3: inversion H; subst; apply rl_nil.
  - destruct (asks_dec f l st) as [[g Ha]|Ha].
    + cbn [run_lines] in H. rewrite (include_step _ f l st g Ha) in H. discriminate.
    + assert (H1 : exists s1, one_line E f l st = PDone s1).
      { unfold one_line. cbn [run_lines] in *. rewrite (no_include_step _ (fun _ s => PDone s) f l st Ha) in H.
        destruct (handle_line E (fun _ s => PDone s) f l st) as [s|[| | |] s]; try discriminate; try (exists s; reflexivity).
        destruct (e_paranoid E); [discriminate|exists s; reflexivity]. }
      destruct H1 as [s1 H1]. apply rl_line with s1; [exact Ha|exact H1|]. apply IHl.
      rewrite (one_line_run _ f l ls st s1 Ha H1) in H. exact H.
  - destruct (asks_dec f l st) as [[g Ha]|Ha].
    + cbn [run_lines] in H. rewrite (include_step (parse_file E (S n)) f l st g Ha) in H.
      destruct (parse_file E (S n) g st) as [s1|e s1] eqn:Eg.
      * apply rl_include with g s1; [exact Ha|apply IHn; exact Eg|apply IHl; exact H].
      * destruct (parse_file_exn _ _ _ _ _ Eg) as [Hn1 Hn2].
        destruct e; try discriminate; [rewrite (Hn2 eq_refl) in H; discriminate|congruence].
    + assert (H1 : exists s1, one_line E f l st = PDone s1).
      { unfold one_line. cbn [run_lines] in *. rewrite (no_include_step _ (fun _ s => PDone s) f l st Ha) in H.
        destruct (handle_line E (fun _ s => PDone s) f l st) as [s|[| | |] s]; try discriminate; try (exists s; reflexivity).
        destruct (e_paranoid E); [discriminate|exists s; reflexivity]. }
      destruct H1 as [s1 H1]. apply rl_line with s1; [exact Ha|exact H1|]. apply IHl.
      rewrite (one_line_run _ f l ls st s1 Ha H1) in H. exact H.
Qed.

(** Fewer levels only add the depth error. *)
Lemma run_lines_mono : forall inc inc' f ls (st : pstate),
  (forall g s, inc g s = inc' g s \/ exists s', inc g s = PRaise EMaxDepth s') ->
  run_lines E inc f ls st = run_lines E inc' f ls st \/ exists s', run_lines E inc f ls st = PRaise EMaxDepth s'.
Proof.
  intros inc inc' f ls st Hinc. revert st. induction ls as [|l ls IH]; intros st; [left; reflexivity|]. cbn [run_lines].
  assert (Hl : handle_line E inc f l st = handle_line E inc' f l st \/ exists s', handle_line E inc f l st = PRaise EMaxDepth s').
  { destruct (asks_dec f l st) as [[g Ha]|Ha].
    - rewrite !(include_step _ f l st g Ha). apply Hinc.
    - left. apply no_include_step. exact Ha. }
  destruct Hl as [-> |[s' ->]]; [|right; exists s'; reflexivity].
  destruct (handle_line E inc' f l st) as [s|[| | |] s]; try (left; reflexivity); try apply IH.
  destruct (e_paranoid E); [left; reflexivity|apply IH].
Qed.
Lemma parse_file_mono : forall n k f (st : pstate),
  parse_file E n f st = parse_file E (n + k) f st \/ exists s', parse_file E n f st = PRaise EMaxDepth s'.
Proof.
  induction n as [|n IH]; intros k f st; [right; exists st; reflexivity|]. cbn [plus parse_file].
  destruct (e_files E f) as [ls|]; [|left; reflexivity]. apply run_lines_mono. intros g s. apply IH.
Qed.

(** ** Unusable lines *)

Lemma skip_one : forall inc f a l b (st : pstate), e_paranoid E = false ->
  (forall s, handle_line E inc f l s = PDone s \/ handle_line E inc f l s = PRaise ESyntax s) ->
  run_lines E inc f (a ++ l :: b) st = run_lines E inc f (a ++ b) st.
Proof.
  intros inc f a l b st Hp H. rewrite !run_lines_app. destruct (run_lines E inc f a st) as [s|e s]; [|reflexivity].
  simpl. cbn [run_lines]. destruct (H s) as [-> | ->]; [reflexivity|]. rewrite Hp. reflexivity.
Qed.
End WithEnv4.

(** ** Lines in force (C15) *)
Section WithEnv5.
Context {X : Type}.
Variable E : penv X.
Notation pstate := (pstate X).

Lemma asks_ignore : forall f l (st : pstate), p_ignore st = true -> forall g, ~ asks f l st g.
Proof. intros f l st H g [Hi _]. congruence. Qed.

Scheme reads_ind3 := Induction for reads Sort Prop
  with reads_lines_ind3 := Induction for reads_lines Sort Prop.

Lemma reads_takes : forall n f st st', reads E n f st st' -> exists T, takes E n f st T st'.
Proof.
  apply (reads_ind3 X E (fun n f st st' _ => exists T, takes E n f st T st')
           (fun n f ls st st' _ => exists T, takes_lines E n f ls st T st')).
  - intros n f st Hf. exists []. now constructor.
  - intros n f lines st st' Hf _ [T HT]. exists T. now apply takes_file with lines.
  - intros n f st. exists []. constructor.
  - intros n f l g rest st st1 st2 Ha _ [T1 H1] _ [T2 H2]. exists (T1 ++ T2). now apply tl_include with g st1.
  - intros n f l rest st st1 st2 Ha H1 _ [T HT]. destruct (p_ignore st) eqn:Ei.
    + exists T. now apply tl_skip with st1.
    + exists (l :: T). now apply tl_line with st1.
Qed.

Lemma files_take : forall fs st st', parse_files E fs st = PDone st' -> exists T, takes_all E 10 fs st T st'.
Proof.
  induction fs as [|f fs IH]; intros st st' H; cbn [parse_files] in H.
  - inversion H; subst. exists []. constructor.
  - unfold max_levels in H. destruct (parse_file E 11 f st) as [s1|e s1] eqn:Ef; [|discriminate].
    destruct (reads_takes _ _ _ _ (parse_reads E 10 f st s1 Ef)) as [T1 H1].
    destruct (IH _ _ H) as [T2 H2]. exists (T1 ++ T2). now apply ta_cons with s1.
Qed.

(** What one line leaves of a rule it does not name. *)
Lemma one_line_frame : forall f l (st st1 : pstate) name, (p_ignore st = true \/ forall g, ~ asks f l st g) ->
  ~ In name (words l) -> one_line E f l st = PDone st1 -> dget name (p_results st1) = dget name (p_results st).
Proof.
  intros f l st st1 name Ha Hn H. unfold one_line in H. cbn [run_lines] in H.
  assert (Hi : p_ignore st = true \/ fst (line_kw l) <> $"include").
  { destruct Ha as [Ha|Ha]; [left; exact Ha|]. destruct (p_ignore st) eqn:Ei; [left; reflexivity|right].
    intros Hk. apply include_kw in Hk as [v Hv]. apply (Ha (if isabs v then v else if isabs f then path_join (dirname f) v else v)).
    split; [exact Ei|]. exists v. auto. }
  pose proof (line_frame E (fun _ s => PDone s) f l st name Hi Hn) as Hf.
  destruct (handle_line E (fun _ s => PDone s) f l st) as [s|[| | |] s]; cbn [res_state] in Hf; try discriminate.
  - inversion H; subst. exact Hf.
  - destruct (e_paranoid E); [discriminate|]. inversion H; subst. exact Hf.
  - inversion H; subst. exact Hf.
Qed.

Lemma skip_frame : forall f l (st st1 : pstate), p_ignore st = true -> one_line E f l st = PDone st1 ->
  p_results st1 = p_results st.
Proof.
  intros f l st st1 Hi H. unfold one_line in H. cbn [run_lines] in H. rewrite handle_line_eq in H. cbv zeta in H.
  destruct (startswith ($"endif") (strip l)); [inversion H; reflexivity|].
  destruct (startswith ($"else") (strip l)); [inversion H; reflexivity|].
  destruct (startswith ($"require_version") (strip l)); [inversion H; reflexivity|].
  destruct (strip l) as [|c r]; [inversion H; reflexivity|]. rewrite Hi, orb_true_r in H. inversion H; reflexivity.
Qed.

Definition no_clash : Prop := forall x c, In c [$"score"; $"priority"; $"describe"; $"tflags"] -> ~ In c (e_cmds E x).

Scheme takes_ind2 := Induction for takes Sort Prop
  with takes_lines_ind2 := Induction for takes_lines Sort Prop.

Lemma map_split : forall (items : list item) a b, map item_line items = a ++ b ->
  exists i1 i2, items = i1 ++ i2 /\ map item_line i1 = a /\ map item_line i2 = b.
Proof.
  intros items a. revert items. induction a as [|x a IH]; intros items b H.
  - exists [], items. auto.
  - destruct items as [|i items]; [discriminate|]. cbn [map app] in H. injection H as Hx H.
    destruct (IH items b H) as (i1 & i2 & -> & H1 & H2). exists (i :: i1), i2. cbn [map app]. subst. auto.
Qed.
Lemma last_set_app : forall name key a b old,
  last_set name key (a ++ b) old = last_set name key b (last_set name key a old).
Proof. induction a as [|e a IH]; intros b old; [reflexivity|]. cbn [app last_set]. apply IH. Qed.
Lemma entries_app : forall a b, entries (a ++ b) = entries a ++ entries b.
Proof. intros a b. unfold entries. now rewrite flat_map_app. Qed.

Lemma takes_attrs : no_clash -> forall n f st T st', takes E n f st T st' ->
  forall name key items, map item_line items = T -> Forall (item_ok name) items ->
    attr_of (p_results st') name key = last_set name key (entries items) (attr_of (p_results st) name key).
Proof.
  intros Hc.
  apply (takes_ind2 X E (fun n f st T st' _ => forall name key items, map item_line items = T -> Forall (item_ok name) items ->
           attr_of (p_results st') name key = last_set name key (entries items) (attr_of (p_results st) name key))
         (fun n f ls st T st' _ => forall name key items, map item_line items = T -> Forall (item_ok name) items ->
           attr_of (p_results st') name key = last_set name key (entries items) (attr_of (p_results st) name key))).
  - intros n f st Hf name key items Hm _. apply map_eq_nil in Hm. subst. reflexivity.
  - intros n f lines st T st' Hf _ IH. exact IH.
  - intros n f st name key items Hm _. apply map_eq_nil in Hm. subst. reflexivity.
  - intros n f l g rest st st1 st2 T1 T2 Ha _ IH1 _ IH2 name key items Hm Hall.
    destruct (map_split items T1 T2 Hm) as (i1 & i2 & -> & H1 & H2). apply Forall_app in Hall as [Ha1 Ha2].
    rewrite (IH2 name key i2 H2 Ha2), (IH1 name key i1 H1 Ha1), entries_app, last_set_app. reflexivity.
  - intros n f l rest st st1 st2 T Hi Ho _ IH name key items Hm Hall.
    rewrite (IH name key items Hm Hall), (skip_frame f l st st1 Hi Ho). reflexivity.
  - intros n f l rest st st1 st2 T Hi Ha Ho _ IH name key items Hm Hall.
    destruct items as [|i items]; [discriminate|]. cbn [map] in Hm. injection Hm as Hl Hm.
    inversion Hall as [|? ? Hok Hall']; subst.
    rewrite (IH name key items eq_refl Hall'). destruct i as [e l|l]; cbn [item_line item_ok] in *.
    + destruct Hok as [Hok Hsp]. unfold one_line in Ho. cbn [run_lines] in Ho.
      rewrite (spelled_line E _ f l e st Hok Hsp Hi) in Ho. injection Ho as <-.
      change (entries (Def e l :: items)) with (e :: entries items). cbn [last_set]. f_equal.
      apply store_effects; [exact Hok|]. intros c Hin. apply Hc. exact Hin.
    + change (entries (Other l :: items)) with (entries items). f_equal. unfold attr_of.
      rewrite (one_line_frame f l st st1 name (or_intror Ha) Hok Ho). reflexivity.
Qed.

Lemma takes_all_attrs : no_clash -> forall n fs st T st', takes_all E n fs st T st' ->
  forall name key items, map item_line items = T -> Forall (item_ok name) items ->
    attr_of (p_results st') name key = last_set name key (entries items) (attr_of (p_results st) name key).
Proof.
  intros Hc n fs st T st' H. induction H as [st|f fs st st1 st2 T1 T2 H1 H2 IH]; intros name key items Hm Hall.
  - apply map_eq_nil in Hm. subst. reflexivity.
  - destruct (map_split items T1 T2 Hm) as (i1 & i2 & -> & Hm1 & Hm2). apply Forall_app in Hall as [Ha1 Ha2].
    rewrite (IH name key i2 Hm2 Ha2), (takes_attrs Hc _ _ _ _ _ H1 name key i1 Hm1 Ha1), entries_app, last_set_app. reflexivity.
Qed.

Lemma c15 : no_clash -> forall files x st', parse_files E files (mkP [] false x) = PDone st' ->
  exists T, takes_all E 10 files (mkP [] false x) T st' /\
    forall name key items, map item_line items = T -> Forall (item_ok name) items ->
      attr_of (p_results st') name key = last_set name key (entries items) None.
Proof.
  intros Hc files x st' H. destruct (files_take files _ _ H) as [T HT]. exists T. split; [exact HT|].
  intros name key items Hm Hall. apply (takes_all_attrs Hc _ _ _ _ _ HT name key items Hm Hall).
Qed.

(** ** Dropping unusable lines (C19) *)

Lemma words_cons : forall b w t, blanks b -> w <> [] -> (forall c, In c w -> is_space c = false) ->
  (t = [] \/ exists x t', t = x :: t' /\ is_space x = true) -> words (b ++ w ++ t) = w :: words t.
Proof.
  intros b w t Hb Hne Hw Ht. assert (words (b ++ w ++ t) = words (w ++ t)) as ->.
  { induction b as [|x b IH]; [reflexivity|]. unfold blanks in Hb. cbn [forallb] in Hb. apply andb_true_iff in Hb as [Hx Hb].
    change (words ((x :: b) ++ w ++ t)) with (words_aux (x :: (b ++ w ++ t)) []). cbn [words_aux]. rewrite Hx. apply IH. exact Hb. }
  unfold words. rewrite words_aux_word by exact Hw. rewrite app_nil_r.
  assert (Hr : exists z l, rev w = z :: l).
  { destruct (rev w) as [|z l] eqn:Er; [|exists z, l; reflexivity]. exfalso. apply Hne.
    rewrite <- (rev_involutive w), Er. reflexivity. }
  destruct Hr as (z & l & Er). destruct Ht as [->|(x & t' & -> & Hx)].
  - cbn [words_aux]. rewrite Er, <- Er, rev_involutive. reflexivity.
  - cbn [words_aux]. rewrite Hx, Er, <- Er, rev_involutive. reflexivity.
Qed.
Lemma blanks_words : forall s, blanks s <-> words s = [].
Proof.
  intros s. split.
  - intros H. induction s as [|x s IH]; [reflexivity|]. unfold blanks in H. cbn [forallb] in H. apply andb_true_iff in H as [Hx H].
    unfold words. cbn [words_aux]. rewrite Hx. apply IH. exact H.
  - intros H. destruct (split_ws_max 1 s) as [|w r] eqn:Es; [apply sws_nil in Es; exact Es|].
    destruct (sws_S 0 s w r Es) as (b & t & -> & Hb & Hne & Hw & Ht & _). rewrite words_cons in H by assumption. discriminate.
Qed.
Lemma sws_length : forall n s, length (split_ws_max n s) <= length (words s).
Proof.
  induction n as [|n IH]; intros s.
  - destruct (split_ws_max 0 s) as [|w r] eqn:Es; [apply Nat.le_0_l|].
    destruct (sws_0 _ _ _ Es) as (-> & _). destruct (words s) eqn:Ew; [|cbn; lia].
    apply blanks_words in Ew. rewrite (proj2 (sws_nil 0 s) Ew) in Es. discriminate.
  - destruct (split_ws_max (S n) s) as [|w r] eqn:Es; [apply Nat.le_0_l|].
    destruct (sws_S n s w r Es) as (b & t & -> & Hb & Hne & Hw & Ht & ->). rewrite words_cons by assumption.
    cbn [length]. specialize (IH t). lia.
Qed.
(** The first word of a bare line is its keyword. *)
Lemma words_kw : forall line k rest, words (bare_line line) = k :: rest -> fst (line_kw line) = k.
Proof.
  intros line k rest H. unfold line_kw. destruct (split_ws_max 1 (bare_line line)) as [|w r] eqn:Es.
  { apply sws_nil, blanks_words in Es. congruence. }
  destruct (sws_S 0 _ w r Es) as (b & t & Eb & Hb & Hne & Hw & Ht & Er).
  rewrite Eb, words_cons in H by assumption. injection H as Hk Hrest. subst k.
  assert (b = []) as ->.
  { destruct b as [|x b]; [reflexivity|]. exfalso. simpl in Eb. pose proof (strip_head _ _ _ Eb) as Hx.
    unfold blanks in Hb. simpl in Hb. rewrite Hx in Hb. discriminate. }
  destruct r as [|v [|? ?]]; [|reflexivity|].
  - cbn [fst]. rewrite Eb. symmetry in Er. apply sws_nil in Er.
    destruct t as [|x t] using rev_ind; [now rewrite app_nil_r|]. exfalso.
    assert (Hx : is_space x = false) by (apply (strip_last (cut_comment false (strip line)) x (w ++ t)); fold (bare_line line); rewrite Eb; cbn [app]; now rewrite app_assoc).
    unfold blanks in Er. rewrite forallb_app in Er. cbn [forallb] in Er. rewrite Hx, !andb_false_r in Er. discriminate.
  - symmetry in Er. destruct (sws_0 _ _ _ Er) as [Hz _]. discriminate.
Qed.

Lemma kw_first : forall w c k, startswith w k = false -> startswith w (k ++ c) = false \/ length k < length w.
Proof.
  intros w c k H. destruct (Nat.lt_ge_cases (length k) (length w)) as [Hl|Hl]; [right; exact Hl|left].
  destruct (startswith w (k ++ c)) eqn:Es; [|reflexivity]. exfalso. apply startswith_app in Es as [t Et].
  assert (k = w ++ firstn (length k - length w) t).
  { apply (f_equal (firstn (length k))) in Et. rewrite firstn_app, Nat.sub_diag, firstn_all, firstn_O, app_nil_r in Et.
    rewrite firstn_app, firstn_all2 in Et by lia. exact Et. }
  rewrite H0, startswith_self in H. discriminate.
Qed.

Lemma missing_step : forall inc f l (st : pstate), missing_argument l ->
  handle_line E inc f l st = PDone st \/ handle_line E inc f l st = PRaise ESyntax st.
Proof.
  intros inc f l st (k & rest & Hw & Hk & Hlen). pose proof (words_kw l k rest Hw) as Hkw.
  destruct (kw_prefix l) as [t Ht]. rewrite Hkw in Ht.
  assert (Hl2 : length (split_ws_max 2 (bare_line l)) < 3).
  { pose proof (sws_length 2 (bare_line l)) as H. rewrite Hw in H. cbn [length] in H. lia. }
  assert (Hs : forall w, In w [$"endif"; $"else"; $"require_version"; $"#"] -> startswith w (strip l) = false).
  { intros w Hin. rewrite Ht. cbn [In keywords] in Hk, Hin.
    repeat (destruct Hk as [<-|Hk]; [repeat (destruct Hin as [<-|Hin]; [reflexivity|]); destruct Hin|]). destruct Hk. }
  rewrite handle_line_eq. cbv zeta. rewrite !Hs by (simpl; auto 10).
  destruct (strip l) as [|c r]; [left; reflexivity|]. cbn [orb]. destruct (p_ignore st); [left; reflexivity|].
  rewrite Hkw. right.
  assert (streqb k ($"include") = false /\ streqb k ($"ifplugin") = false /\ streqb k ($"loadplugin") = false /\ mem_str k known2 = true) as (-> & -> & -> & ->).
  { cbn [In keywords] in Hk. repeat (destruct Hk as [<-|Hk]; [repeat split; reflexivity|]). destruct Hk. }
  cbn [orb]. unfold handle_rule_line.
  destruct (split_ws_max 2 (bare_line l)) as [|a1 [|a2 [|a3 [|a4 a5]]]]; try reflexivity; cbn [length] in Hl2; lia.
Qed.

Lemma unknown_step : forall inc f l (st : pstate), unknown_option E l -> handle_line E inc f l st = PDone st.
Proof.
  intros inc f l st (Hd & k & v & (Hk1 & Hk2 & Hk3) & Hb & Hnk & Hx). destruct (not_directive l Hd) as (H1 & H2 & H3 & H4).
  assert (Hkw : line_kw l = (k, v)).
  { unfold line_kw. destruct Hb as [[Hb ->]|(b & Hb1 & Hb2 & (Hv1 & Hv2) & Hb)]; rewrite Hb.
    - change k with ([] ++ k) at 1. rewrite <- (app_nil_r ([] ++ k)), <- app_assoc. rewrite sws_word; auto. reflexivity.
    - change (k ++ b ++ v) with ([] ++ k ++ b ++ v) at 1. rewrite sws_word; auto; [|reflexivity|].
      + rewrite sws_rest; [reflexivity|exact Hb1| |exact Hv1]. intros c r Ec. apply (strip_head v c r). rewrite Hv2. exact Ec.
      + right. destruct (blanks_front b v Hb1 Hb2) as (x & t & Ex & Hx'). exists x, t; auto. }
  pose proof (kw_startswith l) as Hs. rewrite Hkw in Hs. cbn [fst] in Hs.
  rewrite handle_line_eq. cbv zeta. rewrite H1, H2, Hkw. cbn [fst snd].
  destruct (startswith ($"require_version") (strip l)); [reflexivity|].
  destruct (strip l) as [|c r] eqn:El; [reflexivity|]. rewrite <- El in *.
  destruct (startswith ($"#") (strip l) || p_ignore st); [reflexivity|].
  destruct (streqb_spec k ($"include")) as [->|_]; [congruence|].
  destruct (streqb_spec k ($"ifplugin")) as [->|_]; [congruence|].
  assert (Hn : forall y, In y ([$"loadplugin"; $"lang"] ++ keywords) -> k <> y) by (intros y Hy ->; exact (Hnk Hy)).
  destruct (streqb_spec k ($"loadplugin")) as [->|_]; [exfalso; apply Hnk; simpl; auto|].
  assert (mem_str k known2 = false) as ->.
  { apply mem_str_notIn. intros Hin. apply Hnk. cbn [In known2] in Hin. cbn [In app keywords]. tauto. }
  destruct (Hx (p_ctx st)) as [Hc Ho]. rewrite (proj2 (mem_str_notIn _ _) Hc). cbn [orb].
  unfold offer. rewrite Ho. destruct st; reflexivity.
Qed.

Lemma run_lines_dropped : forall inc f ls ls' (st : pstate), e_paranoid E = false -> dropped E ls ls' ->
  run_lines E inc f ls st = run_lines E inc f ls' st.
Proof.
  intros inc f ls ls' st Hp H. revert st. induction H as [|l a b H IH|l a b Hl H IH]; intros st; [reflexivity| |].
  - cbn [run_lines]. destruct (handle_line E inc f l st) as [s|[| | |] s]; auto. destruct (e_paranoid E); auto.
  - cbn [run_lines]. destruct Hl as [Hl|Hl].
    + destruct (missing_step inc f l st Hl) as [-> | ->]; [apply IH|]. rewrite Hp. apply IH.
    + rewrite unknown_step by exact Hl. apply IH.
Qed.
End WithEnv5.

Definition files_dropped {X} (E : penv X) (fs fs' : str -> option (list str)) : Prop :=
  forall f, match fs f, fs' f with
            | Some a, Some b => dropped E a b
            | None, None => True
            | _, _ => False
            end.
Lemma dropped_files : forall X (E : penv X) fs a b, dropped E a b -> dropped (with_files E fs) a b.
Proof. intros X E fs a b H. induction H; [apply dr_nil|apply dr_keep|apply dr_drop]; assumption. Qed.
Lemma parse_file_dropped : forall X (E : penv X) fs fs', e_paranoid E = false -> files_dropped E fs fs' ->
  forall n f st, parse_file (with_files E fs) n f st = parse_file (with_files E fs') n f st.
Proof.
  intros X E fs fs' Hp H. induction n as [|n IH]; intros f st; [reflexivity|]. cbn [parse_file].
  cbn [with_files e_files]. specialize (H f).
  destruct (fs f) as [a|]; destruct (fs' f) as [b|]; try contradiction; try reflexivity.
  rewrite (run_lines_inc (with_files E fs) (parse_file (with_files E fs) n) (parse_file (with_files E fs') n) f _ st IH).
  rewrite (run_lines_dropped (with_files E fs) _ f a b st Hp (dropped_files _ _ _ _ _ H)). reflexivity.
Qed.
Lemma parse_files_ext : forall X (E : penv X) fs fs',
  (forall n f st, parse_file (with_files E fs) n f st = parse_file (with_files E fs') n f st) ->
  forall l st, parse_files (with_files E fs) l st = parse_files (with_files E fs') l st.
Proof.
  intros X E fs fs' H. induction l as [|f l IH]; intros st; [reflexivity|]. cbn [parse_files]. rewrite H.
  destruct (parse_file (with_files E fs') max_levels f st); auto.
Qed.

(** Rules that cannot be built. *)
Lemma get_rules_skip : forall R (build : str -> dict attr -> bres R) a name data b,
  (dhas ($"type") data = true -> build name data = BInvalid) ->
  get_rules false build (a ++ (name, data) :: b) = get_rules false build (a ++ b).
Proof.
  intros R build a name data b H. induction a as [|[n d] a IH]; cbn [app get_rules].
  - destruct (dhas ($"type") data); [rewrite H by reflexivity|]; reflexivity.
  - destruct (if dhas ($"type") d then build n d else BInvalid); rewrite ?IH; reflexivity.
Qed.

Lemma line_frame_all : forall X (E : penv X) inc f line (st : pstate X) name,
    (forall g, ~ asks f line st g) -> ~ In name (words line) ->
    match handle_line E inc f line st with
    | PDone s | PRaise _ s => dget name (p_results s) = dget name (p_results st)
    end.
Proof.
  intros X E inc f line st name Ha Hn.
  assert (Hi : p_ignore st = true \/ fst (line_kw line) <> $"include").
  { destruct (p_ignore st) eqn:Ei; [left; reflexivity|right].
    intros Hk. apply include_kw in Hk as [v Hv]. eapply Ha. split; [exact Ei|]. exists v. split; [exact Hv|reflexivity]. }
  pose proof (line_frame E inc f line st name Hi Hn) as Hf. destruct (handle_line E inc f line st); exact Hf.
Qed.

Lemma c16 : forall X (E : penv X) fs fs', same_files fs fs' ->
  forall files st, parse_files (with_files E fs) files st = parse_files (with_files E fs') files st.
Proof. intros X E fs fs' H. apply parse_files_ext. apply parse_file_comments. exact H. Qed.
Lemma c19 : forall X (E : penv X) fs fs', e_paranoid E = false -> files_dropped E fs fs' ->
  forall files st, parse_files (with_files E fs) files st = parse_files (with_files E fs') files st.
Proof. intros X E fs fs' Hp H. apply parse_files_ext. apply parse_file_dropped; assumption. Qed.
Lemma c18 : forall X (E : penv X) f st st', parse_file E max_levels f st = PDone st' <-> reads E 10 f st st'.
Proof. intros X E f st st'. split; [apply parse_reads|apply reads_parse]. Qed.

Lemma skipped_lines_all : forall X (E : penv X) inc f ls rest (st : pstate X),
    Forall (fun l => ~ exists w, In w [$"endif"; $"else"] /\ startswith w (strip l) = true) ls -> p_ignore st = true ->
    run_lines E inc f (ls ++ rest) st = run_lines E inc f rest st.
Proof.
  intros X E inc f ls rest st H Hi. induction H as [|l ls Hl _ IH]; [reflexivity|]. cbn [app run_lines].
  assert (handle_line E inc f l st = PDone st) as ->; [|exact IH].
  rewrite handle_line_eq. cbv zeta.
  destruct (startswith ($"endif") (strip l)) eqn:E1; [exfalso; apply Hl; exists ($"endif"); simpl; auto|].
  destruct (startswith ($"else") (strip l)) eqn:E2; [exfalso; apply Hl; exists ($"else"); simpl; auto|].
  destruct (startswith ($"require_version") (strip l)); [reflexivity|].
  destruct (strip l); [reflexivity|]. rewrite Hi, orb_true_r. reflexivity.
Qed.

Lemma self_include_n : forall X (E : penv X) f before l after,
    e_files E f = Some (before ++ l :: after) ->
    (forall inc st, p_ignore st = false -> exists st', run_lines E inc f before st = PDone st' /\ asks f l st' f) ->
    forall n st, p_ignore st = false -> exists s, parse_file E n f st = PRaise EMaxDepth s.
Proof.
  intros X E f before l after Hf Hb. induction n as [|n IH]; intros st Hi; [exists st; reflexivity|].
  rewrite parse_file_S, Hf, run_lines_app. destruct (Hb (parse_file E n) st Hi) as (st' & -> & Ha).
  unfold then_run. cbn [run_lines]. rewrite (include_step E _ f l st' f Ha). destruct (IH st' (proj1 Ha)) as [s ->]. exists s. reflexivity.
Qed.
Lemma self_include : forall X (E : penv X) f before l after,
    e_files E f = Some (before ++ l :: after) ->
    (forall inc st, p_ignore st = false -> exists st', run_lines E inc f before st = PDone st' /\ asks f l st' f) ->
    forall st, p_ignore st = false -> exists s, parse_file E max_levels f st = PRaise EMaxDepth s.
Proof. intros X E f before l after Hf Hb st. exact (self_include_n X E f before l after Hf Hb max_levels st). Qed.
Lemma hashes_none : forall s, ~ In 35%N s -> hashes_escaped s.
Proof. intros s H a b ->. exfalso. apply H. apply in_or_app. right. left. reflexivity. Qed.

(** Checking examples. *)
Definition wordb (s : str) : bool :=
  match s with [] => false | _ => forallb (fun c => negb (is_space c) && negb (N.eqb c 35)) s end.
Lemma wordb_word : forall s, wordb s = true -> word s.
Proof.
  intros s H. assert (Hs : forallb (fun c => negb (is_space c) && negb (N.eqb c 35)) s = true /\ s <> []) by (destruct s; [discriminate|split; [exact H|discriminate]]).
  destruct Hs as [Hs Hne]. rewrite forallb_forall in Hs. split; [exact Hne|]. split.
  - intros c Hc. specialize (Hs c Hc). apply andb_true_iff in Hs as [Hs _]. now apply negb_true_iff in Hs.
  - intros Hc. specialize (Hs _ Hc). discriminate.
Qed.
Definition entry_okb (e : entry) : bool :=
  mem_str (en_kw e) keywords && wordb (en_name e) &&
  match en_value e with [] => false | _ => streqb (strip (en_value e)) (en_value e) end && negb (mem_char 35%N (en_value e)).
Lemma entry_okb_ok : forall e, entry_okb e = true -> entry_ok e.
Proof.
  intros e H. unfold entry_okb in H. apply andb_true_iff in H as [H H4]. apply andb_true_iff in H as [H H3].
  apply andb_true_iff in H as [H1 H2]. split; [apply mem_str_In; exact H1|]. split; [apply wordb_word; exact H2|]. split.
  - destruct (en_value e); [discriminate|]. split; [discriminate|]. apply streqb_eq. exact H3.
  - apply hashes_none. apply mem_char_notIn. now apply negb_true_iff in H4.
Qed.
Lemma def_ok : forall n e line b0 b1 b2 b3, entry_okb e = true -> forallb is_space b0 = true -> forallb is_space b1 = true ->
  b1 <> [] -> forallb is_space b2 = true -> b2 <> [] -> forallb is_space b3 = true ->
  line = b0 ++ en_kw e ++ b1 ++ en_name e ++ b2 ++ en_value e ++ b3 -> item_ok n (Def e line).
Proof. intros. split; [apply entry_okb_ok; assumption|]. exists b0, b1, b2, b3. repeat split; assumption. Qed.
Lemma other_ok : forall n line, mem_str n (words line) = false -> item_ok n (Other line).
Proof. intros n line H. apply mem_str_notIn. exact H. Qed.
