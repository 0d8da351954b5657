(** C251: expressions that are compiled when they are used. *)
From Verif Require Import PyStr Model_Lazy.

Section Lazy.
Context {P R : Type} (re_compile : str -> N -> option P) (answer : P -> method -> str -> R).
Notation uses := (uses re_compile answer).
(** What the object may hold: nothing, or its own expression, compiled. *)
Lemma uses_holding pattern flags l : forall z, z_pattern z = pattern -> z_flags z = flags ->
  (z_compiled z = None \/ z_compiled z = re_compile pattern flags) ->
  fst (uses z l) = map (fun x => option_map (fun p => answer p (called (snd (fst x))) (snd x)) (re_compile pattern flags)) l.
Proof.
  induction l as [|[[mode m] text] l IH]; intros z E F H; [reflexivity|].
  cbn [Model_Lazy.uses map fst snd]. unfold use, compile. rewrite E, F. destruct mode.
  - specialize (IH z E F H). destruct (uses z l) as [rs z']. cbn [fst] in *. f_equal. exact IH.
  - destruct (z_compiled z) as [p|] eqn:C.
    + destruct H as [H|H]; [discriminate|]. specialize (IH z E F (or_intror (eq_trans C H))).
      destruct (uses z l) as [rs z']. cbn [fst] in *. rewrite <- H. f_equal. rewrite IH, <- H. reflexivity.
    + destruct (re_compile pattern flags) as [p|] eqn:K.
      * specialize (IH (mkLazy pattern flags (Some p)) eq_refl eq_refl (or_intror eq_refl)).
        destruct (uses (mkLazy pattern flags (Some p)) l) as [rs z']. cbn [fst] in *. f_equal. exact IH.
      * specialize (IH z E F (or_introl C)). destruct (uses z l) as [rs z']. cbn [fst] in *. f_equal. exact IH.
Qed.
End Lazy.

(** However often an expression is used, in whichever mode, by whichever methods: each answer is that of the
    expression freshly compiled, and an expression that does not compile fails at each use.
    Missing: [subn], see below. *)
Theorem C251_as_fresh_partial : forall P R (re_compile : str -> N -> option P) (answer : P -> method -> str -> R) pattern flags l,
  (forall mode m text r c, In (mode, m, text) l -> m <> Subn r c) ->
  fst (uses re_compile answer (make pattern flags) l) =
  map (fun x => match re_compile pattern flags with
                | Some p => Some (answer p (snd (fst x)) (snd x))
                | None => None
                end) l.
Proof.
  intros P R re_compile answer pattern flags l H.
  rewrite (uses_holding re_compile answer pattern flags l (make pattern flags) eq_refl eq_refl (or_introl eq_refl)).
  apply map_ext_in. intros [[mode m] text] K. cbn [fst snd]. destruct (re_compile pattern flags); [|reflexivity]. cbn [option_map].
  specialize (H mode m text). destruct m; try reflexivity. exfalso. exact (H repl count K eq_refl).
Qed.
Print Assumptions C251_as_fresh_partial.
(** Outside lazy mode the expression is compiled once: what is held after the first use stays. *)
Theorem C251_compiled_once : forall P R (re_compile : str -> N -> option P) (answer : P -> method -> str -> R) other pattern flags p before l,
  re_compile pattern flags = Some p -> (exists m text, In (false, m, text) before) ->
  let z := snd (uses re_compile answer (make pattern flags) before) in
  z_compiled z = Some p /\
  ((forall mode m text, In (mode, m, text) l -> mode = false) ->
   uses other answer z l = uses re_compile answer z l).
Proof.
  intros P R re_compile answer other pattern flags p before l Hp (m & text & Hin).
  assert (SHAPE : forall l z, z_pattern z = pattern -> z_flags z = flags ->
    (z_compiled z = Some p \/ z_compiled z = None) ->
    z_pattern (snd (uses re_compile answer z l)) = pattern /\ z_flags (snd (uses re_compile answer z l)) = flags /\
    (z_compiled z = Some p \/ (exists m text, In (false, m, text) l) -> z_compiled (snd (uses re_compile answer z l)) = Some p)).
  { clear before l Hin m text. induction l as [|[[mode m] text] l IH]; intros z E F H.
    - cbn [uses snd]. split; [exact E|]. split; [exact F|]. intros [K|(? & ? & [])]; exact K.
    - cbn [uses]. unfold use, compile. rewrite E, F, Hp. destruct mode.
      + specialize (IH z E F H). destruct (uses re_compile answer z l) as [rs z']. cbn [snd] in *. destruct IH as (I1 & I2 & I3).
        split; [exact I1|]. split; [exact I2|]. intros [K|(m' & t' & [K|K])]; [apply I3; left; exact K | discriminate K | apply I3; right; exists m', t'; exact K].
      + destruct (z_compiled z) as [p'|] eqn:C.
        * destruct H as [H|H]; [|discriminate H]. injection H as ->. specialize (IH z E F (or_introl C)).
          destruct (uses re_compile answer z l) as [rs z']. cbn [snd] in *. destruct IH as (I1 & I2 & I3).
          split; [exact I1|]. split; [exact I2|]. intros _. apply I3. left. exact C.
        * specialize (IH (mkLazy pattern flags (Some p)) eq_refl eq_refl (or_introl eq_refl)).
          destruct (uses re_compile answer (mkLazy pattern flags (Some p)) l) as [rs z']. cbn [snd] in *. destruct IH as (I1 & I2 & I3).
          split; [exact I1|]. split; [exact I2|]. intros _. apply I3. left. reflexivity. }
  intros z. destruct (SHAPE before (make pattern flags) eq_refl eq_refl (or_intror eq_refl)) as (S1 & S2 & S3).
  assert (Hz : z_compiled z = Some p) by (apply S3; right; exists m, text; exact Hin).
  split; [exact Hz|]. clearbody z. intros Hl. clear - Hz Hl. revert Hl. induction l as [|[[mode m] text] l IH]; intros Hl; [reflexivity|].
  assert (mode = false) as -> by (apply (Hl mode m text); left; reflexivity).
  cbn [uses]. unfold use, compile. rewrite Hz. rewrite IH; [reflexivity|]. intros mode' m' t' K. apply (Hl mode' m' t'). right. exact K.
Qed.
Print Assumptions C251_compiled_once.
(** [subn] does not answer as the library's does: the number of replacements is missing. *)
Theorem C251_subn_refuted : forall P R (re_compile : str -> N -> option P) (answer : P -> method -> str -> R) pattern flags p mode repl count text,
  re_compile pattern flags = Some p -> answer p (Sub repl count) text <> answer p (Subn repl count) text ->
  fst (uses re_compile answer (make pattern flags) [(mode, Subn repl count, text)]) <> [Some (answer p (Subn repl count) text)].
Proof.
  intros P R re_compile answer pattern flags p mode repl count text Hp N K.
  rewrite (uses_holding re_compile answer pattern flags _ (make pattern flags) eq_refl eq_refl (or_introl eq_refl)) in K.
  cbn [map fst snd] in K. rewrite Hp in K. cbn [option_map called] in K. injection K as K. contradiction.
Qed.
Print Assumptions C251_subn_refuted.
Example C251_case :
  fst (uses (fun s (_ : N) => match s with [] => None | _ => Some s end) (fun p m t => match m with Search => contains p t | _ => streqb p t end)
        (make ($"ab") 0) [(true, Search, $"cab"); (false, Match, $"cab"); (false, Search, $"abc"); (true, Match, $"ab")])
  = [Some true; Some false; Some true; Some true].
Proof. reflexivity. Qed.
