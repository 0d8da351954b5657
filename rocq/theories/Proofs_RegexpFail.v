(** A check that a pattern cannot match any text of a given shape. *)
From Verif Require Import PyStr Regexp Proofs_Regexp.

(** Shapes: a character; a word (no blanks, none of the given characters); the rest of a word;
    anything. *)
Inductive sym := L (c : char) | W (ex : list char) | S (ex : list char) | Any.
Definition plain (ex : list char) (w : str) : Prop := forall c, In c w -> is_space c = false /\ ~ In c ex.
Inductive den : list sym -> str -> Prop :=
| den_nil : den [] []
| den_L c l s : den l s -> den (L c :: l) (c :: s)
| den_W ex l w s : w <> [] -> plain ex w -> den l s -> den (W ex :: l) (w ++ s)
| den_S ex l w s : plain ex w -> den l s -> den (S ex :: l) (w ++ s)
| den_Any l s : den (Any :: l) s.
(** A place: may it be the start of the text, and the shape of the text after it *)
Definition place : Type := bool * list sym.
Definition at_place (p : place) (st : state) : Prop := (s_before st = [] -> fst p = true) /\ den (snd p) (s_after st).
Definition anywhere : place := (true, [Any]).

Definition no_u (c : char) : bool := false.
(** Can the character be in the class? *)
Definition may_char (ci neg : bool) (l : list item) (c : char) : bool :=
  if N.ltb c 128 then class_in no_u no_u ci neg l c else true.
(** No character of such a word is in the class *)
Definition apart (ex : list char) (ci neg : bool) (l : list item) : bool :=
  negb neg && forallb (fun i => match i with
    | IChar c => (is_space c || mem_char c ex) && (negb ci || N.eqb (swapcase c) c)
    | ISpace => true
    | _ => false end) l.
Fixpoint pass (ci neg : bool) (l : list item) (t : list sym) : list (list sym) :=
  match t with
  | [] => []
  | L c :: r => if may_char ci neg l c then [r] else []
  | W ex :: r => if apart ex ci neg l then [] else [S ex :: r]
  | S ex :: r => (if apart ex ci neg l then [] else [S ex :: r]) ++ pass ci neg l r
  | Any :: r => [[Any]]
  end.
Definition sym_dec (a b : sym) : {a = b} + {a <> b}.
Proof. decide equality; try apply N.eq_dec; apply (list_eq_dec N.eq_dec). Defined.
Definition place_eqb (p q : place) : bool :=
  Bool.eqb (fst p) (fst q) && (if list_eq_dec sym_dec (snd p) (snd q) then true else false).
Definition has (l : list place) (p : place) : bool := existsb (place_eqb p) l.
Fixpoint union (l m : list place) : list place :=
  match l with [] => m | p :: r => if has m p then union r m else union r (p :: m) end.
Fixpoint grow (f : place -> list place) (n : nat) (l : list place) : list place :=
  match n with 0 => l | Datatypes.S k => grow f k (union (flat_map f l) l) end.
(** The places a repetition may reach *)
Definition closure (f : place -> list place) (l : list place) : list place :=
  let r := grow f 40 l in
  if forallb (has r) (flat_map f r) then r else [anywhere].
Fixpoint places (r : re) (p : place) : list place :=
  match r with
  | Eps => [p]
  | Chr ci neg l => map (pair false) (pass ci neg l (snd p))
  | Dot => map (pair false) (pass false true [IChar 10] (snd p))
  | Cat a b => fold_right union [] (map (places b) (places a p))
  | Alt a b => union (places a p) (places b p)
  | Rep _ lo hi a =>
      match lo, hi with
      | Datatypes.S _, Some 0 => [anywhere]
      | Datatypes.S _, _ => closure (places a) (places a p)
      | 0, _ => closure (places a) [p]
      end
  | Grp _ a => places a p
  | Bos => if fst p then [p] else []
  | Eos | Wordb _ | Ahead _ _ | Behind _ _ => [p]
  end.

Section Sound.
Variable udigit uword : char -> bool.
Notation ways := (ways udigit uword).

Lemma place_eqb_eq p q : place_eqb p q = true -> p = q.
Proof.
  destruct p as [a s], q as [b t]. unfold place_eqb. cbn [fst snd]. intros H. apply andb_true_iff in H as [H1 H2].
  apply eqb_prop in H1. destruct (list_eq_dec sym_dec s t); [congruence|discriminate].
Qed.
Lemma has_In l p : has l p = true -> In p l.
Proof. intros H. apply existsb_exists in H as (q & Hq & E). apply place_eqb_eq in E. subst. exact Hq. Qed.
Lemma union_r l : forall m p, In p m -> In p (union l m).
Proof. induction l as [|q l' IH]; intros m p H; [exact H|]. cbn [union]. destruct (has m q); apply IH; [exact H|right; exact H]. Qed.
Lemma union_l l : forall m p, In p l -> In p (union l m).
Proof.
  induction l as [|q l IH]; intros m p H; [destruct H|]. cbn [union]. destruct H as [->|H].
  - destruct (has m p) eqn:E; apply union_r; [apply has_In, E|left; reflexivity].
  - destruct (has m q); apply IH, H.
Qed.
Lemma unions (f : place -> list place) l p q : In p l -> In q (f p) -> In q (fold_right union [] (map f l)).
Proof.
  intros Hp Hq. induction l as [|x l IH]; [destruct Hp|]. cbn [map fold_right]. destruct Hp as [->|Hp]; [apply union_l, Hq|apply union_r, IH, Hp].
Qed.
Lemma grow_In f n : forall l p, In p l -> In p (grow f n l).
Proof. induction n as [|n IH]; intros l p H; [exact H|]. cbn [grow]. apply IH, union_r, H. Qed.

Lemma swap_space_inv c : is_space (swapcase c) = true -> is_space c = true.
Proof.
  intros H. destruct (N.eqb_spec (swapcase c) c) as [E|E]; [congruence|]. exfalso. unfold swapcase in *.
  destruct (N.leb_spec 65 c), (N.leb_spec c 90); cbn [andb] in *; try (destruct (N.leb_spec 97 c), (N.leb_spec c 122); cbn [andb] in *); try congruence;
  unfold is_space in H; rewrite ?orb_true_iff, ?andb_true_iff, ?N.leb_le, ?N.eqb_eq in H; lia.
Qed.
Lemma swap_swap c d : swapcase c = d -> swapcase d = c.
Proof.
  intros <-. unfold swapcase.
  destruct (N.leb_spec 65 c), (N.leb_spec c 90); cbn [andb]; try (destruct (N.leb_spec 97 c), (N.leb_spec c 122); cbn [andb]);
  repeat match goal with |- context [N.leb ?a ?b] => destruct (N.leb_spec a b) end; cbn [andb]; lia.
Qed.
Lemma apart_ok ex ci neg l c : apart ex ci neg l = true -> is_space c = false -> ~ In c ex -> class_in udigit uword ci neg l c = false.
Proof.
  intros H Hs Hx. apply andb_true_iff in H as [Hn Hl]. apply negb_true_iff in Hn. subst neg. rewrite forallb_forall in Hl.
  unfold class_in. cbn [xorb].
  assert (A : existsb (item_in udigit uword c) l = false).
  { destruct (existsb (item_in udigit uword c) l) eqn:E; [|reflexivity]. exfalso. apply existsb_exists in E as (i & Hi & Hc).
    specialize (Hl i Hi). destruct i; try discriminate; cbn [item_in] in Hc; [|congruence].
    apply N.eqb_eq in Hc. subst. apply andb_true_iff in Hl as [Hl _]. rewrite Hs in Hl. cbn in Hl. apply mem_char_In in Hl. contradiction. }
  rewrite A. destruct ci; [|reflexivity]. cbn.
  destruct (existsb (item_in udigit uword (swapcase c)) l) eqn:E; [|reflexivity]. exfalso. apply existsb_exists in E as (i & Hi & Hc).
  specialize (Hl i Hi). destruct i as [x| | | | | | |]; try discriminate; cbn [item_in] in Hc.
  - apply N.eqb_eq in Hc. apply andb_true_iff in Hl as [Hl He]. cbn in He. apply N.eqb_eq in He. apply swap_swap in Hc.
    rewrite He in Hc. subst. rewrite Hs in Hl. cbn in Hl. apply mem_char_In in Hl. contradiction.
  - apply swap_space_inv in Hc. congruence.
Qed.
Lemma swap_small c : (c < 128)%N -> (swapcase c < 128)%N.
Proof.
  intros H. unfold swapcase. destruct (N.leb_spec 65 c), (N.leb_spec c 90); cbn [andb]; try (destruct (N.leb_spec 97 c), (N.leb_spec c 122); cbn [andb]); lia.
Qed.
Lemma may_char_ok ci neg l c : class_in udigit uword ci neg l c = true -> may_char ci neg l c = true.
Proof.
  unfold may_char. destruct (N.ltb_spec c 128) as [Hc|]; [|reflexivity]. intros <-.
  assert (I : forall d i, (d < 128)%N -> item_in no_u no_u d i = item_in udigit uword d i).
  { intros d i Hd. apply N.ltb_lt in Hd. destruct i; cbn [item_in]; unfold is_d, is_w; rewrite ?Hd; reflexivity. }
  assert (J : forall d, (d < 128)%N -> existsb (item_in no_u no_u d) l = existsb (item_in udigit uword d) l).
  { intros d Hd. induction l as [|i l IH]; [reflexivity|]. cbn [existsb]. rewrite (I d i Hd), IH. reflexivity. }
  unfold class_in. rewrite (J c Hc), (J _ (swap_small c Hc)). reflexivity.
Qed.
Lemma plain_tail ex c w : plain ex (c :: w) -> plain ex w.
Proof. intros H x Hx. apply H. right. exact Hx. Qed.
Lemma pass_ok ci neg l t : forall c s, den t (c :: s) -> class_in udigit uword ci neg l c = true ->
  exists t', In t' (pass ci neg l t) /\ den t' s.
Proof.
  induction t as [|x t IH]; intros c s H Hc; [inversion H|].
  destruct x as [d|ex|ex|]; cbn [pass].
  - inversion H; subst. rewrite (may_char_ok _ _ _ _ Hc). exists t. split; [left; reflexivity|assumption].
  - inversion H as [| |? ? w s' Hne Hp Hd E1 E2| |]; subst. destruct w as [|y w]; [congruence|]. cbn [app] in E2. injection E2 as -> <-.
    destruct (Hp c (or_introl eq_refl)) as [P1 P2].
    destruct (apart ex ci neg l) eqn:A; [rewrite (apart_ok _ _ _ _ _ A P1 P2) in Hc; discriminate|].
    exists (S ex :: t). split; [left; reflexivity|]. constructor; [eapply plain_tail, Hp|exact Hd].
  - inversion H as [| | |? ? w s' Hp Hd E1 E2|]; subst. destruct w as [|y w].
    + cbn [app] in E2. subst s'. destruct (IH c s Hd Hc) as (t' & Ht & Hd'). exists t'. split; [apply in_or_app; right; exact Ht|exact Hd'].
    + cbn [app] in E2. injection E2 as -> <-. destruct (Hp c (or_introl eq_refl)) as [P1 P2].
      destruct (apart ex ci neg l) eqn:A; [rewrite (apart_ok _ _ _ _ _ A P1 P2) in Hc; discriminate|].
      exists (S ex :: t). split; [apply in_or_app; left; left; reflexivity|]. constructor; [eapply plain_tail, Hp|exact Hd].
  - exists [Any]. split; [left; reflexivity|constructor].
Qed.
Lemma anywhere_ok st : at_place anywhere st.
Proof. split; [reflexivity|constructor]. Qed.

Lemma closure_ok r f l st st' : (forall p s1 s2, at_place p s1 -> In s2 (ways r s1) -> exists q, In q (f p) /\ at_place q s2) ->
  (exists p, In p l /\ at_place p st) -> reach (ways r) st st' -> exists q, In q (closure f l) /\ at_place q st'.
Proof.
  intros Hf Hl Hr. unfold closure. cbv zeta. destruct (forallb _ _) eqn:E; [|exists anywhere; split; [left; reflexivity|apply anywhere_ok]].
  rewrite forallb_forall in E.
  assert (Hg : exists p, In p (grow f 40 l) /\ at_place p st) by (destruct Hl as (p & H1 & H2); exists p; split; [apply grow_In, H1|exact H2]).
  clear Hl. induction Hr as [st|a b c Hab Hbc IH]; [exact Hg|]. apply IH. destruct Hg as (p & H1 & H2).
  destruct (Hf p a b H2 Hab) as (q & Hq & Aq). exists q. split; [|exact Aq]. apply has_In, E, in_flat_map. exists p. split; [exact H1|exact Hq].
Qed.
Theorem places_ok r : forall p st st', at_place p st -> In st' (ways r st) -> exists q, In q (places r p) /\ at_place q st'.
Proof.
  assert (Stay : forall p st st' b, at_place p st -> In st' (guard b st) -> exists q, In q [p] /\ at_place q st').
  { intros p st st' b H K. apply guard_In in K as [_ ->]. exists p. split; [left; reflexivity|exact H]. }
  assert (Step : forall p st st' ci neg l, at_place p st -> In st' (step (class_in udigit uword ci neg l) st) ->
    exists q, In q (map (pair false) (pass ci neg l (snd p))) /\ at_place q st').
  { intros p st st' ci neg l [_ Hd] K. apply step_In in K as (c & Hc & [E1 E2] & _). cbn [app] in E1. rewrite E1 in Hd.
    destruct (pass_ok ci neg l (snd p) c (s_after st') Hd Hc) as (t' & Ht & Hd'). exists (false, t'). split; [apply in_map, Ht|].
    split; [|exact Hd']. rewrite E2. discriminate. }
  induction r as [|ci neg l| |a IHa b IHb|a IHa b IHb|g lo hi r IH|n r IH| | |neg|neg r IH|neg r IH];
    intros p st st' Hp H; cbn [places].
  - destruct H as [<-|[]]. exists p. split; [left; reflexivity|exact Hp].
  - eapply Step; eauto.
  - eapply Step; [exact Hp|]. cbn [Regexp.ways] in H. revert H. unfold step. destruct (s_after st) as [|c s]; [auto|].
    unfold class_in. cbn [existsb item_in andb orb]. destruct (N.eqb c 10); cbn; auto.
  - cbn [Regexp.ways] in H. apply in_flat_map in H as (s1 & H1 & H2). destruct (IHa p st s1 Hp H1) as (q & Hq & Aq).
    destruct (IHb q s1 st' Aq H2) as (q' & Hq' & Aq'). exists q'. split; [eapply unions; eauto|exact Aq'].
  - cbn [Regexp.ways] in H. apply in_app_or in H as [H|H].
    + destruct (IHa p st st' Hp H) as (q & Hq & Aq). exists q. split; [apply union_l, Hq|exact Aq].
    + destruct (IHb p st st' Hp H) as (q & Hq & Aq). exists q. split; [apply union_r, Hq|exact Aq].
  - cbn [Regexp.ways] in H. destruct lo as [|lo].
    + apply repeats_reach in H. apply (closure_ok r (places r) [p] st st' IH); [exists p; split; [left; reflexivity|exact Hp]|exact H].
    + assert (Case : hi = Some 0 \/ hi <> Some 0) by (destruct hi as [[|h]|]; auto; right; discriminate).
      destruct Case as [->|Hh]; [exists anywhere; split; [left; reflexivity|apply anywhere_ok]|].
      apply repeats_first in H as (s1 & H1 & H2); [|exact Hh].
      replace (match hi with Some 0 => [anywhere] | _ => closure (places r) (places r p) end) with (closure (places r) (places r p))
        by (destruct hi as [[|h]|]; congruence).
      apply (closure_ok r (places r) (places r p) s1 st' IH); [apply (IH p st s1 Hp H1)|exact H2].
  - cbn [Regexp.ways] in H. apply in_map_iff in H as (x & <- & Hx). destruct (IH p st x Hp Hx) as (q & Hq & [A1 A2]). exists q. split; [exact Hq|]. split; assumption.
  - cbn [Regexp.ways] in H. apply guard_In in H as [B ->]. destruct Hp as [H1 H2]. destruct (s_before st) eqn:E; [|discriminate].
    rewrite (H1 eq_refl). exists p. split; [left; reflexivity|]. split; [intros _; apply H1; reflexivity|exact H2].
  - eapply Stay; eauto.
  - eapply Stay; eauto.
  - eapply Stay; eauto.
  - eapply Stay; eauto.
Qed.
(** No match of a text of that shape. *)
Corollary no_match r t s k : places r (true, t) = [] -> den t s -> ways r (mkS [] s k) = [].
Proof.
  intros H Hd. destruct (ways r (mkS [] s k)) as [|st l] eqn:E; [reflexivity|]. exfalso.
  destruct (places_ok r (true, t) (mkS [] s k) st) as (q & Hq & _).
  - split; [reflexivity|exact Hd].
  - rewrite E. left. reflexivity.
  - rewrite H in Hq. destruct Hq.
Qed.
Corollary no_search r t s : places (Cat Bos r) (true, t) = [] -> den t s -> matched (re_search udigit uword (Cat Bos r) s) = false.
Proof.
  intros H Hd. destruct (matched (re_search udigit uword (Cat Bos r) s)) eqn:E; [|reflexivity]. exfalso.
  apply search_iff in E as (u & v & st & -> & K).
  assert (U : u = []).
  { cbn [Regexp.ways] in K. apply in_flat_map in K as (s1 & K1 & _). apply guard_In in K1 as [B _]. cbn [s_before] in B.
    destruct (rev u) eqn:Eu; [|discriminate]. rewrite <- (rev_involutive u), Eu. reflexivity. }
  subst u. cbn [rev app] in *. rewrite (no_match (Cat Bos r) t v [] H Hd) in K. destruct K.
Qed.
End Sound.
