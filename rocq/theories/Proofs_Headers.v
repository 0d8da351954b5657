(** Proofs about header lookup, line breaks, regular expressions and header
    rules. *)
From Verif Require Import PyStr PyDict Model_Rules Model_Headers Spec_Headers.

(** ** Case-insensitive lookup *)

Lemma h_get_append : forall V k k' (v : V) h,
  h_get k (h_append k' v h) = h_get k h ++ (if same_name k k' then [v] else []).
Proof.
  intros V k k' v h. unfold h_get, h_append, same_name. rewrite dget_dset.
  rewrite (streqb_sym (lower k) (lower k')).
  destruct (streqb_spec (lower k') (lower k)) as [E|E].
  - unfold h_get. rewrite E. reflexivity.
  - rewrite app_nil_r. reflexivity.
Qed.

Lemma h_get_fold : forall fields k h,
  h_get k (fold_left (fun h f => h_append (fst f) (snd f) h) fields h) = h_get k h ++ values_of k fields.
Proof.
  induction fields as [|[n v] fields IH]; intros k h; simpl.
  - unfold values_of. simpl. now rewrite app_nil_r.
  - rewrite IH, h_get_append. unfold values_of. simpl. rewrite <- app_assoc. f_equal.
    destruct (same_name k n); reflexivity.
Qed.

Lemma h_get_raw : forall fields k, h_get k (raw_of fields) = values_of k fields.
Proof. intros fields k. unfold raw_of. rewrite h_get_fold. reflexivity. Qed.

Lemma h_in_append : forall V k k' (v : V) h, h_in k (h_append k' v h) = h_in k h || same_name k k'.
Proof.
  intros V k k' v h. unfold h_in, h_append, same_name, dhas. rewrite dget_dset, (streqb_sym (lower k)).
  destruct (streqb (lower k') (lower k)); [now rewrite orb_true_r|now rewrite orb_false_r].
Qed.

Lemma h_in_raw : forall fields k,
  h_in k (raw_of fields) = existsb (fun f => same_name k (fst f)) fields.
Proof.
  intros fields k. unfold raw_of.
  assert (H : forall h, h_in k (fold_left (fun h f => h_append (fst f) (snd f) h) fields h) =
              h_in k h || existsb (fun f => same_name k (fst f)) fields).
  { induction fields as [|[n v] fields IH]; intros h; simpl; [now rewrite orb_false_r|].
    rewrite IH, h_in_append, orb_assoc. reflexivity. }
  rewrite H. reflexivity.
Qed.

(** ** The cache is transparent *)

Definition cache_ok (decode : str -> option str) (m : hmsg) : Prop :=
  forall k l, dget (lower k) (h_cache m) = Some l -> l = map decode (h_get k (h_raw m)).

Lemma lower_lower : forall s, lower (lower s) = lower s.
Proof. exact lower_idem. Qed.

Lemma get_decoded_ok : forall decode k m, cache_ok decode m ->
  fst (get_decoded decode k m) = map decode (h_get k (h_raw m)) /\
  cache_ok decode (snd (get_decoded decode k m)) /\ h_raw (snd (get_decoded decode k m)) = h_raw m.
Proof.
  intros decode k m H. unfold get_decoded. destruct (dget (lower k) (h_cache m)) as [l|] eqn:E; simpl.
  - rewrite (H k l E). auto.
  - assert (h_get k (h_cache m) = []) as -> by (unfold h_get; rewrite E; reflexivity).
    rewrite app_nil_r. split; [reflexivity|]. split; [|reflexivity].
    intros k' l Hl. simpl in *. rewrite dget_dset in Hl.
    destruct (streqb_spec (lower k) (lower k')) as [E'|E'].
    + inversion Hl; subst. unfold h_get. rewrite E'. reflexivity.
    + apply H; exact Hl.
Qed.

Lemma lookups_ok : forall decode ks m, cache_ok decode m ->
  cache_ok decode (lookups decode ks m) /\ h_raw (lookups decode ks m) = h_raw m.
Proof.
  induction ks as [|k ks IH]; intros m H; simpl; [auto|].
  destruct (get_decoded_ok decode k m H) as (_ & H1 & H2).
  destruct (IH _ H1) as [H3 H4]. split; [exact H3|]. now rewrite H4, H2.
Qed.

Lemma fresh_cache_ok : forall decode fields, cache_ok decode (fresh_h fields).
Proof. intros decode fields k l H. discriminate. Qed.

(** ** Line breaks *)

Lemma replace_cr : forall s, replace [13%N] [10%N] s = map (fun c => if N.eqb c 13 then 10%N else c) s.
Proof.
  unfold replace. induction s as [|c s IH]; [reflexivity|].
  cbn [replace_aux map]. change (startswith [13%N] (c :: s)) with (N.eqb 13 c && true).
  rewrite andb_true_r, N.eqb_sym. destruct (N.eqb c 13); cbn [app]; simpl length; simpl Nat.sub; rewrite IH; reflexivity.
Qed.

Fixpoint crlf_lf (s : str) : str :=
  match s with
  | [] => []
  | c :: s' => if N.eqb c 13 then match s' with
                                  | d :: s'' => if N.eqb d 10 then 10%N :: crlf_lf s'' else c :: crlf_lf s'
                                  | [] => [c]
                                  end
               else c :: crlf_lf s'
  end.

Lemma replace_crlf : forall s, replace [13%N; 10%N] [10%N] s = crlf_lf s.
Proof.
  assert (H : forall n s, length s <= n -> replace_aux [13%N; 10%N] [10%N] s 0 = crlf_lf s).
  { induction n as [|n IH]; intros s Hl; [destruct s; [reflexivity|simpl in Hl; lia]|].
    destruct s as [|c s]; [reflexivity|]. simpl in Hl.
    cbn [replace_aux crlf_lf].
    change (startswith [13%N; 10%N] (c :: s)) with
      (N.eqb 13 c && match s with [] => false | d :: _ => N.eqb 10 d && true end).
    rewrite (N.eqb_sym 13 c). destruct (N.eqb c 13) eqn:Ec; cbn [andb].
    - destruct s as [|d s]; [reflexivity|]. rewrite andb_true_r, (N.eqb_sym 10 d).
      destruct (N.eqb d 10) eqn:Ed.
      + cbn [app length Nat.sub replace_aux]. f_equal. apply IH. simpl in Hl; lia.
      + f_equal. apply IH. simpl in *; lia.
    - f_equal. apply IH; lia. }
  intros s. unfold replace. apply (H (length s)); lia.
Qed.

Definition to_lf (c : char) : char := if N.eqb c 13 then 10%N else c.
Lemma tlb_eq : forall s, translate_line_breaks s = map to_lf (crlf_lf s).
Proof. intros s. unfold translate_line_breaks. rewrite replace_cr, replace_crlf. reflexivity. Qed.

Lemma tlb_no_cr : forall s, ~ In 13%N (translate_line_breaks s).
Proof.
  intros s. rewrite tlb_eq. intros H. apply in_map_iff in H as [c [H _]]. unfold to_lf in H.
  destruct (N.eqb_spec c 13); congruence.
Qed.

Lemma crlf_no_cr : forall s, ~ In 13%N s -> crlf_lf s = s.
Proof.
  induction s as [|c s IH]; intros H; [reflexivity|]. cbn [crlf_lf].
  destruct (N.eqb_spec c 13); [subst; exfalso; apply H; left; reflexivity|].
  rewrite IH; [reflexivity|]. intros H'; apply H; right; exact H'.
Qed.
Lemma map_to_lf_no_cr : forall s, ~ In 13%N s -> map to_lf s = s.
Proof.
  induction s as [|c s IH]; intros H; [reflexivity|]. simpl. unfold to_lf at 1.
  destruct (N.eqb_spec c 13); [subst; exfalso; apply H; left; reflexivity|].
  rewrite IH; [reflexivity|]. intros H'; apply H; right; exact H'.
Qed.

Lemma tlb_idem : forall s, translate_line_breaks (translate_line_breaks s) = translate_line_breaks s.
Proof.
  intros s. rewrite (tlb_eq (translate_line_breaks s)).
  rewrite crlf_no_cr by apply tlb_no_cr. apply map_to_lf_no_cr, tlb_no_cr.
Qed.

Lemma crlf_line : forall l s, ~ In 13%N l -> crlf_lf (l ++ s) = l ++ crlf_lf s.
Proof.
  induction l as [|c l IH]; intros s H; [reflexivity|]. cbn [app crlf_lf].
  destruct (N.eqb_spec c 13); [subst; exfalso; apply H; left; reflexivity|].
  rewrite IH; [reflexivity|]. intros H'; apply H; right; exact H'.
Qed.

Lemma tlb_lines : forall lines tail,
  Forall (fun p => clean_line (fst p)) lines -> clean_line tail -> unambiguous lines ->
  translate_line_breaks (text_of lines tail) = text_of (with_lf lines) tail.
Proof.
  intros lines tail. rewrite tlb_eq. induction lines as [|[l e] lines IH]; intros Hc Ht Hu.
  - simpl. rewrite crlf_no_cr by apply Ht. apply map_to_lf_no_cr, Ht.
  - inversion Hc as [|? ? Hl Hc']; subst. simpl in Hl. destruct Hu as [Hu1 Hu2].
    cbn [text_of with_lf map fst]. rewrite crlf_line by apply Hl. rewrite map_app, map_to_lf_no_cr by apply Hl.
    f_equal. specialize (IH Hc' Ht Hu2). fold (with_lf lines). destruct e; cbn [eol_text app].
    + change (crlf_lf (10%N :: text_of lines tail)) with (10%N :: crlf_lf (text_of lines tail)).
      exact (f_equal (cons 10%N) IH).
    + change (crlf_lf (13%N :: 10%N :: text_of lines tail)) with (10%N :: crlf_lf (text_of lines tail)).
      exact (f_equal (cons 10%N) IH).
    + assert (Hcr : crlf_lf (13%N :: text_of lines tail) = 13%N :: crlf_lf (text_of lines tail)).
      { cbn [crlf_lf]. change (N.eqb 13 13) with true. cbv iota.
        assert (Hne : match text_of lines tail with [] => True | d :: _ => N.eqb d 10 = false end).
        { destruct lines as [|[l2 e2] lines].
          - simpl. destruct tail as [|d tail]; [exact I|]. destruct (N.eqb_spec d 10); [|reflexivity].
            subst. exfalso. apply (proj1 Ht). left; reflexivity.
          - cbn [text_of]. inversion Hc' as [|? ? Hl2 _]; subst. destruct l2 as [|d l2].
            + destruct e2; simpl; [|reflexivity|reflexivity]. specialize (Hu1 eq_refl). destruct Hu1.
            + simpl. destruct (N.eqb_spec d 10); [|reflexivity]. subst. exfalso. apply (proj1 Hl2). left; reflexivity. }
        destruct (text_of lines tail) as [|d s]; [reflexivity|]. rewrite Hne. reflexivity. }
      etransitivity; [exact (f_equal (map to_lf) Hcr)|]. exact (f_equal (cons 10%N) IH).
Qed.

(** ** perl2re *)

Lemma conv1_plain : forall s, contains ($"(?") s = false -> conv1 s = s.
Proof.
  unfold conv1. induction s as [|c s IH]; intros H; [reflexivity|].
  cbn [conv1_aux]. change (contains ($"(?") (c :: s)) with (startswith ($"(?") (c :: s) || contains ($"(?") s) in H.
  apply orb_false_iff in H as [H1 H2].
  change (startswith ($"(?") (c :: s)) with (N.eqb 40 c && match s with [] => false | d :: _ => N.eqb 63 d && true end) in H1.
  destruct s as [|d s]; [reflexivity|].
  rewrite andb_true_r, (N.eqb_sym 40 c), (N.eqb_sym 63 d) in H1. rewrite H1. f_equal. apply IH; exact H2.
Qed.

Lemma conv3_plain : forall s, contains ($"(?") s = false -> conv3 s = s.
Proof.
  induction s as [|c s IH]; intros H; [reflexivity|].
  change (contains ($"(?") (c :: s)) with (startswith ($"(?") (c :: s) || contains ($"(?") s) in H.
  apply orb_false_iff in H as [H1 H2]. specialize (IH H2).
  change (startswith ($"(?") (c :: s)) with (N.eqb 40 c && match s with [] => false | d :: _ => N.eqb 63 d && true end) in H1.
  destruct s as [|d s]; [reflexivity|]. destruct s as [|e s]; [reflexivity|].
  rewrite andb_true_r, (N.eqb_sym 40 c), (N.eqb_sym 63 d) in H1.
  change (conv3 (c :: d :: e :: s)) with
    (if N.eqb c 40 && N.eqb d 63 && N.eqb e 62 then c :: d :: 58%N :: conv3 s else c :: conv3 (d :: e :: s)).
  rewrite H1. cbn [andb]. rewrite IH. reflexivity.
Qed.

Lemma conv2_plain : forall s, contains ($"\b?") s = false -> contains ($"\B?") s = false -> conv2 s = s.
Proof.
  induction s as [|c s IH]; intros H1 H2; [reflexivity|].
  change (contains ($"\b?") (c :: s)) with (startswith ($"\b?") (c :: s) || contains ($"\b?") s) in H1.
  change (contains ($"\B?") (c :: s)) with (startswith ($"\B?") (c :: s) || contains ($"\B?") s) in H2.
  apply orb_false_iff in H1 as [H1 H1']. apply orb_false_iff in H2 as [H2 H2']. specialize (IH H1' H2').
  destruct s as [|d s]; [reflexivity|]. destruct s as [|e s]; [reflexivity|].
  change (startswith ($"\b?") (c :: d :: e :: s)) with (N.eqb 92 c && (N.eqb 98 d && (N.eqb 63 e && true))) in H1.
  change (startswith ($"\B?") (c :: d :: e :: s)) with (N.eqb 92 c && (N.eqb 66 d && (N.eqb 63 e && true))) in H2.
  rewrite andb_true_r, (N.eqb_sym 92 c), (N.eqb_sym 98 d), (N.eqb_sym 63 e) in H1.
  rewrite andb_true_r, (N.eqb_sym 92 c), (N.eqb_sym 66 d), (N.eqb_sym 63 e) in H2.
  change (conv2 (c :: d :: e :: s)) with
    (if N.eqb c 92 && (N.eqb d 98 || N.eqb d 66) && N.eqb e 63 then 40%N :: c :: d :: 41%N :: conv2 (e :: s) else c :: conv2 (d :: e :: s)).
  rewrite IH. destruct (N.eqb c 92), (N.eqb d 98), (N.eqb d 66), (N.eqb e 63); simpl in *; congruence.
Qed.

Lemma rsplit1_app : forall c a b, ~ In c b -> rsplit1 c (a ++ c :: b) = Some (a, b).
Proof.
  intros c a b Hb. induction a as [|x a IH]; simpl.
  - assert (rsplit1 c b = None) as ->.
    { clear - Hb. induction b as [|y b IH]; [reflexivity|]. simpl. rewrite IH by (intros H; apply Hb; right; exact H).
      destruct (N.eqb_spec y c); [subst; exfalso; apply Hb; left; reflexivity|reflexivity]. }
    rewrite N.eqb_refl. reflexivity.
  - rewrite IH. reflexivity.
Qed.

Lemma strip_id : forall s, (forall c r, s = c :: r -> is_space c = false) ->
  (forall c r, s = r ++ [c] -> is_space c = false) -> strip s = s.
Proof.
  intros s H1 H2. unfold strip, strip_p, lstrip_p, rstrip_p.
  assert (drop_while is_space s = s) as ->.
  { destruct s as [|c r]; [reflexivity|]. simpl. rewrite (H1 c r eq_refl). reflexivity. }
  destruct (rev s) as [|c r] eqn:E.
  - simpl. apply (f_equal (@rev char)) in E. rewrite rev_involutive in E. now rewrite E.
  - simpl. assert (Hs : s = rev r ++ [c]) by (rewrite <- (rev_involutive s), E; reflexivity).
    rewrite (H2 c (rev r) Hs). simpl. now rewrite Hs.
Qed.

Lemma drop_while_none : forall A (p : A -> bool) s, (forall c r, s = c :: r -> p c = false) -> drop_while p s = s.
Proof. intros A p [|c r] H; [reflexivity|]. simpl. rewrite (H c r eq_refl). reflexivity. Qed.

Lemma drop_while_all : forall A (p : A -> bool) b s, forallb p b = true -> drop_while p (b ++ s) = drop_while p s.
Proof.
  induction b as [|c b IH]; intros s H; [reflexivity|]. simpl in *. apply andb_true_iff in H as [H1 H2].
  rewrite H1. auto.
Qed.

Lemma forallb_rev : forall A (p : A -> bool) l, forallb p (rev l) = forallb p l.
Proof.
  intros A p l. destruct (forallb p l) eqn:E.
  - apply forallb_forall. rewrite forallb_forall in E. intros x Hx. apply E. now apply in_rev.
  - destruct (forallb p (rev l)) eqn:E'; [|reflexivity]. rewrite forallb_forall in E'.
    assert (forallb p l = true) by (apply forallb_forall; intros x Hx; apply E'; now apply in_rev in Hx).
    congruence.
Qed.

(** Blanks around a text are stripped. *)
Lemma strip_blanks : forall b1 s b2, forallb is_space b1 = true -> forallb is_space b2 = true ->
  strip (b1 ++ s ++ b2) = strip s.
Proof.
  intros b1 s b2 H1 H2. unfold strip, strip_p, lstrip_p, rstrip_p.
  rewrite drop_while_all by exact H1.
  destruct (forallb is_space s) eqn:Es.
  - assert (Hd : forall t, forallb is_space t = true -> drop_while is_space t = []).
    { intros t Ht. rewrite <- (app_nil_r t). rewrite drop_while_all by exact Ht. reflexivity. }
    rewrite (Hd (s ++ b2)), (Hd s) by (rewrite ?forallb_app, ?Es, ?H2; reflexivity). reflexivity.
  - assert (Hsp : drop_while is_space (s ++ b2) = drop_while is_space s ++ b2).
    { clear - Es. induction s as [|c s IH]; [discriminate|]. simpl in *. destruct (is_space c); [apply IH; exact Es|reflexivity]. }
    rewrite Hsp, rev_app_distr, drop_while_all by (rewrite forallb_rev; exact H2). reflexivity.
Qed.

(** The text between the delimiters. *)
Lemma perl2re_delimited : forall re_compile b1 pre d rd body flags b2,
  forallb is_space b1 = true -> forallb is_space b2 = true ->
  forallb (fun c => mem_char c ($"mgs")) pre = true ->
  rev_delim d = Some rd -> (forall c r, body = c :: r -> c <> d) -> (body = [] -> d <> rd) ->
  ~ In rd flags -> forallb (fun c => negb (is_space c)) flags = true ->
  perl2re re_compile (b1 ++ (pre ++ d :: body ++ rd :: flags) ++ b2) =
  match re_compile (conv3 (conv2 (conv1 body))) (flags_of flags) with
  | Some f => ReOk f
  | None => ReInvalid
  end.
Proof.
  intros rc b1 pre d rd body flags b2 H1 H2 Hpre Hd Hbody Hbody0 Hfl Hsp. unfold perl2re.
  assert (Hdns : is_space d = false /\ mem_char d ($"mgs") = false /\ is_space rd = false).
  { unfold rev_delim in Hd.
    repeat match type of Hd with
           | (if N.eqb ?x ?y then _ else _) = _ => destruct (N.eqb_spec x y); [subst; inversion Hd; subst; repeat split|]
           end. discriminate. }
  destruct Hdns as (Hds & Hdm & Hrs).
  rewrite strip_blanks by assumption.
  assert (strip (pre ++ d :: body ++ rd :: flags) = pre ++ d :: body ++ rd :: flags) as ->.
  { apply strip_id.
    - intros c r E. destruct pre as [|c' pre].
      + simpl in E. inversion E; subst. exact Hds.
      + inversion E; subst. cbn [forallb] in Hpre. apply andb_true_iff in Hpre as [Hp _].
        apply mem_char_In in Hp. destruct Hp as [<-|[<-|[<-|[]]]]; reflexivity.
    - intros c r E. replace (pre ++ d :: body ++ rd :: flags) with ((pre ++ d :: body) ++ rd :: flags) in E
        by (rewrite <- app_assoc; reflexivity).
      destruct (rev flags) as [|x fl] eqn:Ef.
      + apply (f_equal (@rev N)) in Ef. rewrite rev_involutive in Ef. simpl in Ef. subst flags.
        apply app_inj_tail in E as [_ <-]. exact Hrs.
      + apply (f_equal (@rev N)) in Ef. rewrite rev_involutive in Ef. simpl in Ef. subst flags.
        replace ((pre ++ d :: body) ++ rd :: rev fl ++ [x]) with (((pre ++ d :: body) ++ rd :: rev fl) ++ [x]) in E
          by (rewrite <- app_assoc; reflexivity).
        apply app_inj_tail in E as [_ <-]. rewrite forallb_app in Hsp. apply andb_true_iff in Hsp as [_ Hsp].
        simpl in Hsp. rewrite andb_true_r in Hsp. now apply negb_true_iff in Hsp. }
  assert (Hl : lstrip_chars ($"mgs") (pre ++ d :: body ++ rd :: flags) = d :: body ++ rd :: flags).
  { unfold lstrip_chars, lstrip_p. rewrite drop_while_all by exact Hpre. cbn [drop_while]. rewrite Hdm. reflexivity. }
  cbv zeta. rewrite Hl, Hd.
  unfold lstrip_chars, lstrip_p. cbn [drop_while]. change (mem_char d [d]) with (N.eqb d d || false).
  rewrite N.eqb_refl. cbn [orb].
  assert (Hdrop : drop_while (fun c => mem_char c [d]) (body ++ rd :: flags) = body ++ rd :: flags).
  { apply drop_while_none. intros c r E. change (mem_char c [d]) with (N.eqb c d || false). rewrite orb_false_r.
    apply N.eqb_neq. destruct body as [|x body].
    - simpl in E. inversion E; subst. intros <-. apply Hbody0; reflexivity.
    - inversion E; subst. apply (Hbody c body eq_refl). }
  rewrite Hdrop, rsplit1_app by exact Hfl. reflexivity.
Qed.

(** ** Header rules *)

Lemma contains_op_none : forall a s, ~ In 126%N a ->
  contains ($"=~") (a ++ 33%N :: 126%N :: s) = contains ($"=~") s.
Proof.
  induction a as [|x a IH]; intros s H.
  - cbn [app]. change (contains ($"=~") (33%N :: 126%N :: s)) with
      (false || (false || contains ($"=~") s)). reflexivity.
  - cbn [app]. change (contains ($"=~") (x :: a ++ 33%N :: 126%N :: s)) with
      (startswith ($"=~") (x :: a ++ 33%N :: 126%N :: s) || contains ($"=~") (a ++ 33%N :: 126%N :: s)).
    rewrite IH by (intros Hi; apply H; right; exact Hi).
    assert (startswith ($"=~") (x :: a ++ 33%N :: 126%N :: s) = false) as ->; [|reflexivity].
    change (startswith ($"=~") (x :: a ++ 33%N :: 126%N :: s)) with
      (N.eqb 61 x && match a ++ 33%N :: 126%N :: s with [] => false | d :: _ => N.eqb 126 d && true end).
    destruct a as [|y a]; cbn [app]; [now rewrite andb_false_r|].
    destruct (N.eqb_spec 126 y); [|now rewrite andb_false_r].
    subst. exfalso. apply H. right; left; reflexivity.
Qed.

Lemma split_op : forall o a s, ~ In 126%N a -> (o = 61%N \/ o = 33%N) ->
  split1_sub [o; 126%N] (a ++ o :: 126%N :: s) = Some (a, s).
Proof.
  induction a as [|x a IH]; intros s H Ho.
  - cbn [app split1_sub]. change (startswith [o; 126%N] (o :: 126%N :: s)) with (N.eqb o o && true).
    rewrite N.eqb_refl. reflexivity.
  - cbn [app split1_sub].
    change (startswith [o; 126%N] (x :: a ++ o :: 126%N :: s)) with
      (N.eqb o x && match a ++ o :: 126%N :: s with [] => false | d :: _ => N.eqb 126 d && true end).
    assert (N.eqb o x && match a ++ o :: 126%N :: s with [] => false | d :: _ => N.eqb 126 d && true end = false) as ->.
    { destruct a as [|y a]; cbn [app].
      - destruct Ho as [->| ->]; now rewrite andb_false_r.
      - destruct (N.eqb_spec 126 y); [|now rewrite andb_false_r].
        subst. exfalso. apply H. right; left; reflexivity. }
    rewrite IH; [reflexivity| |exact Ho]. intros Hi; apply H; right; exact Hi.
Qed.

Lemma contains_op : forall a s, contains ($"=~") (a ++ 61%N :: 126%N :: s) = true.
Proof.
  induction a as [|x a IH]; intros s; cbn [app]; [reflexivity|].
  change (contains ($"=~") (x :: a ++ 61%N :: 126%N :: s)) with
      (startswith ($"=~") (x :: a ++ 61%N :: 126%N :: s) || contains ($"=~") (a ++ 61%N :: 126%N :: s)).
  rewrite IH. apply orb_true_r.
Qed.
Lemma contains_nop : forall a s, contains ($"!~") (a ++ 33%N :: 126%N :: s) = true.
Proof.
  induction a as [|x a IH]; intros s; cbn [app]; [reflexivity|].
  change (contains ($"!~") (x :: a ++ 33%N :: 126%N :: s)) with
      (startswith ($"!~") (x :: a ++ 33%N :: 126%N :: s) || contains ($"!~") (a ++ 33%N :: 126%N :: s)).
  rewrite IH. apply orb_true_r.
Qed.

Lemma blank_no_tilde : forall b, blank b -> ~ In 126%N b.
Proof.
  intros b H Hi. unfold blank in H. rewrite forallb_forall in H. specialize (H _ Hi). discriminate.
Qed.

Lemma rsplit1_none : forall c s, ~ In c s -> rsplit1 c s = None.
Proof.
  intros c s H. induction s as [|x s IH]; [reflexivity|]. simpl.
  rewrite IH by (intros Hi; apply H; right; exact Hi).
  destruct (N.eqb_spec x c); [subst; exfalso; apply H; left; reflexivity|reflexivity].
Qed.

(** A test on a plain name is read as written. *)
Lemma header_rule_plain : forall re_compile (neg : bool) b1 n b2 pat search,
  plain_name n -> blank b1 -> blank b2 ->
  (neg = true -> contains ($"=~") pat = false) ->
  perl2re re_compile pat = ReOk search ->
  header_rule re_compile (b1 ++ n ++ b2 ++ (if neg then $"!~" else $"=~") ++ pat) = HOk (mkHR (HPlain n) neg search).
Proof.
  intros rc neg b1 n b2 pat search (Hn0 & Hs & Ht & Hc & Ha & Htc & Hm) Hb1 Hb2 Hneg Hp.
  set (a := b1 ++ n ++ b2).
  assert (Hta : ~ In 126%N a).
  { unfold a. intros Hi. apply in_app_or in Hi as [Hi|Hi]; [exact (blank_no_tilde _ Hb1 Hi)|].
    apply in_app_or in Hi as [Hi|Hi]; [exact (Ht Hi)|exact (blank_no_tilde _ Hb2 Hi)]. }
  assert (Hsa : strip a = n) by (unfold a; rewrite strip_blanks; assumption).
  assert (Hend : (if streqb n ($"ALL") then HOk (mkHR HAll neg search)
              else if streqb n ($"ToCc") then HOk (mkHR (HMulti tocc) neg search)
              else if streqb n ($"MESSAGEID") then HOk (mkHR (HMulti messageid) neg search)
              else match rsplit1 58%N n with
                   | Some (h, md) =>
                       if streqb md ($"raw") then HOk (mkHR (HRaw (strip h)) neg search)
                       else if streqb md ($"addr") then HOk (mkHR (HAddr (strip h)) neg search)
                       else if streqb md ($"name") then HOk (mkHR (HName (strip h)) neg search)
                       else HNone
                   | None => HOk (mkHR (HPlain (strip n)) neg search)
                   end) = HOk (mkHR (HPlain n) neg search)).
  { rewrite (proj2 (streqb_neq _ _) Ha), (proj2 (streqb_neq _ _) Htc), (proj2 (streqb_neq _ _) Hm).
    rewrite rsplit1_none by exact Hc. rewrite Hs. reflexivity. }
  replace (b1 ++ n ++ b2 ++ (if neg then $"!~" else $"=~") ++ pat) with (a ++ (if neg then $"!~" else $"=~") ++ pat)
    by (unfold a; rewrite <- !app_assoc; reflexivity).
  unfold header_rule. destruct neg.
  - change (a ++ $"!~" ++ pat) with (a ++ 33%N :: 126%N :: pat).
    rewrite contains_op_none by exact Hta. rewrite (Hneg eq_refl), contains_nop.
    change ($"!~") with [33%N; 126%N]. rewrite split_op by auto. cbv zeta. rewrite Hp, Hsa. exact Hend.
  - change (a ++ $"=~" ++ pat) with (a ++ 61%N :: 126%N :: pat).
    rewrite contains_op. change ($"=~") with [61%N; 126%N]. rewrite split_op by auto. cbv zeta. rewrite Hp, Hsa. exact Hend.
Qed.

(** The same with one of the modifiers. *)
Lemma header_rule_mod : forall re_compile (neg : bool) b1 n md b2 pat search,
  plain_name n -> blank b1 -> blank b2 -> In md [$"raw"; $"addr"; $"name"] ->
  (neg = true -> contains ($"=~") pat = false) ->
  perl2re re_compile pat = ReOk search ->
  header_rule re_compile (b1 ++ (n ++ $":" ++ md) ++ b2 ++ (if neg then $"!~" else $"=~") ++ pat) =
  HOk (mkHR (if streqb md ($"raw") then HRaw n else if streqb md ($"addr") then HAddr n else HName n) neg search).
Proof.
  intros rc neg b1 n md b2 pat search (Hn0 & Hs & Ht & Hc & Ha & Htc & Hm) Hb1 Hb2 Hmd Hneg Hp.
  set (a := b1 ++ (n ++ $":" ++ md) ++ b2).
  assert (Hmd' : ~ In 126%N md /\ ~ In 58%N md /\ exists c r, md = r ++ [c] /\ is_space c = false).
  { destruct Hmd as [<-|[<-|[<-|[]]]]; (split; [intros H; vm_compute in H; intuition discriminate|]);
      (split; [intros H; vm_compute in H; intuition discriminate|]).
    - exists 119%N, ($"ra"). split; reflexivity.
    - exists 114%N, ($"add"). split; reflexivity.
    - exists 101%N, ($"nam"). split; reflexivity. }
  destruct Hmd' as (Hmt & Hmc & c & r & Hmr & Hcs).
  assert (Hta : ~ In 126%N a).
  { unfold a. intros Hi. apply in_app_or in Hi as [Hi|Hi]; [exact (blank_no_tilde _ Hb1 Hi)|].
    apply in_app_or in Hi as [Hi|Hi]; [|exact (blank_no_tilde _ Hb2 Hi)].
    apply in_app_or in Hi as [Hi|Hi]; [exact (Ht Hi)|]. apply in_app_or in Hi as [Hi|Hi]; [|exact (Hmt Hi)].
    vm_compute in Hi. intuition discriminate. }
  assert (Hnm : strip (n ++ $":" ++ md) = n ++ $":" ++ md).
  { apply strip_id.
    - intros x y E. destruct n as [|x' n]; [congruence|]. inversion E; subst.
      assert (Hn1 : strip (x :: n) <> [] ) by (rewrite Hs; discriminate).
      destruct (is_space x) eqn:Ex; [|reflexivity]. exfalso.
      (* strip removes the leading blank *)
      assert (Hlen : length (strip (x :: n)) <= length n).
      { unfold strip, strip_p, lstrip_p, rstrip_p. cbn [drop_while]. rewrite Ex. rewrite rev_length.
        assert (Hd : forall p (l : str), length (drop_while p l) <= length l).
        { clear. induction l as [|z l IH]; simpl; [lia|]. destruct (p z); simpl; lia. }
        etransitivity; [apply Hd|]. rewrite rev_length. apply Hd. }
      rewrite Hs in Hlen. simpl in Hlen. lia.
    - intros x y E. rewrite Hmr in E. replace (n ++ $":" ++ r ++ [c]) with ((n ++ $":" ++ r) ++ [c]) in E
        by (rewrite <- !app_assoc; reflexivity).
      apply app_inj_tail in E as [_ <-]. exact Hcs. }
  assert (Hsa : strip a = n ++ $":" ++ md) by (unfold a; rewrite strip_blanks; assumption).
  assert (Hspec : forall k, In k [$"ALL"; $"ToCc"; $"MESSAGEID"] -> streqb (n ++ $":" ++ md) k = false).
  { intros k Hk. apply streqb_neq. intros E. assert (Hi : In 58%N k).
    { rewrite <- E. apply in_or_app; right. left; reflexivity. }
    destruct Hk as [<-|[<-|[<-|[]]]]; vm_compute in Hi; intuition discriminate. }
  assert (Hend : (if streqb (n ++ $":" ++ md) ($"ALL") then HOk (mkHR HAll neg search)
              else if streqb (n ++ $":" ++ md) ($"ToCc") then HOk (mkHR (HMulti tocc) neg search)
              else if streqb (n ++ $":" ++ md) ($"MESSAGEID") then HOk (mkHR (HMulti messageid) neg search)
              else match rsplit1 58%N (n ++ $":" ++ md) with
                   | Some (h, md) =>
                       if streqb md ($"raw") then HOk (mkHR (HRaw (strip h)) neg search)
                       else if streqb md ($"addr") then HOk (mkHR (HAddr (strip h)) neg search)
                       else if streqb md ($"name") then HOk (mkHR (HName (strip h)) neg search)
                       else HNone
                   | None => HOk (mkHR (HPlain (strip (n ++ $":" ++ md))) neg search)
                   end) = HOk (mkHR (if streqb md ($"raw") then HRaw n else if streqb md ($"addr") then HAddr n else HName n) neg search)).
  { rewrite !Hspec by (simpl; auto). change (n ++ $":" ++ md) with (n ++ 58%N :: md).
    rewrite rsplit1_app by exact Hmc. rewrite Hs.
    destruct Hmd as [<-|[<-|[<-|[]]]]; reflexivity. }
  replace (b1 ++ (n ++ $":" ++ md) ++ b2 ++ (if neg then $"!~" else $"=~") ++ pat) with (a ++ (if neg then $"!~" else $"=~") ++ pat)
    by (unfold a; rewrite <- !app_assoc; reflexivity).
  unfold header_rule. destruct neg.
  - change (a ++ $"!~" ++ pat) with (a ++ 33%N :: 126%N :: pat).
    rewrite contains_op_none by exact Hta. rewrite (Hneg eq_refl), contains_nop.
    change ($"!~") with [33%N; 126%N]. rewrite split_op by auto. cbv zeta. rewrite Hp, Hsa. exact Hend.
  - change (a ++ $"=~" ++ pat) with (a ++ 61%N :: 126%N :: pat).
    rewrite contains_op. change ($"=~") with [61%N; 126%N]. rewrite split_op by auto. cbv zeta. rewrite Hp, Hsa. exact Hend.
Qed.

(** Matching a list of decoded values. *)
Lemma values_match_spec : forall neg search l, ~ In None l ->
  exists b, values_match neg search l = Returns (VBool b) /\
            (b = true <-> exists d, In (Some d) l /\ search d = negb neg).
Proof.
  intros neg search. induction l as [|[v|] l IH]; intros H.
  - exists false. split; [reflexivity|]. split; [discriminate|intros [d [[] _]]].
  - destruct (IH (fun Hi => H (or_intror Hi))) as [b [E Hb]]. cbn [values_match].
    unfold pat_match. destruct neg; destruct (search v) eqn:Es; simpl.
    + exists b. split; [exact E|]. rewrite Hb. split; intros [d [Hd Hs]]; exists d; (split; [|exact Hs]); [right; exact Hd|].
      destruct Hd as [Hd|Hd]; [inversion Hd; subst; simpl in Hs; congruence|exact Hd].
    + exists true. split; [reflexivity|]. split; [|reflexivity]. intros _. exists v. split; [left; reflexivity|exact Es].
    + exists true. split; [reflexivity|]. split; [|reflexivity]. intros _. exists v. split; [left; reflexivity|exact Es].
    + exists b. split; [exact E|]. rewrite Hb. split; intros [d [Hd Hs]]; exists d; (split; [|exact Hs]); [right; exact Hd|].
      destruct Hd as [Hd|Hd]; [inversion Hd; subst; simpl in Hs; congruence|exact Hd].
  - exfalso. apply H. left; reflexivity.
Qed.

Lemma hplain_match : forall decode addresses neg search n fields ks,
  (forall v, In v (values_of n fields) -> decode v <> None) ->
  exists b, hrule_match decode addresses (mkHR (HPlain n) neg search) (lookups decode ks (fresh_h fields)) = Returns (VBool b) /\
    (b = true <-> exists v d, In v (values_of n fields) /\ decode v = Some d /\ search d = negb neg).
Proof.
  intros decode addresses neg search n fields ks Hd.
  destruct (lookups_ok decode ks (fresh_h fields) (fresh_cache_ok decode fields)) as [Hc Hr].
  destruct (get_decoded_ok decode n _ Hc) as [He _].
  unfold hrule_match. cbn [hr_kind hr_neg hr_search]. rewrite He, Hr. cbn [h_raw fresh_h].
  unfold fresh_h. cbn [h_raw]. rewrite h_get_raw.
  destruct (values_match_spec neg search (map decode (values_of n fields))) as [b [E Hb]].
  { intros Hi. apply in_map_iff in Hi as [v [Hv Hi]]. exact (Hd v Hi Hv). }
  exists b. split; [exact E|]. rewrite Hb. split.
  - intros [d [Hi Hs]]. apply in_map_iff in Hi as [v [Hv Hi]]. exists v, d. auto.
  - intros [v [d (Hi & Hv & Hs)]]. exists d. split; [|exact Hs]. apply in_map_iff. exists v; auto.
Qed.

(** ** The statements of Props_Headers *)

Lemma c51 : forall (fields : list (str * str)) (k : str),
    h_get k (raw_of fields) = values_of k fields /\
    (h_in k (raw_of fields) = true <-> exists f, In f fields /\ same_name k (fst f) = true) /\
    (forall k', same_name k k' = true -> h_get k' (raw_of fields) = h_get k (raw_of fields)).
Proof.
  intros fields k. split; [apply h_get_raw|]. split.
  - rewrite h_in_raw. apply existsb_exists.
  - intros k' H. unfold same_name in H. apply streqb_eq in H. unfold h_get. rewrite H. reflexivity.
Qed.

Lemma c52 : (forall s, ~ In 13%N (translate_line_breaks s)) /\
  (forall s, translate_line_breaks (translate_line_breaks s) = translate_line_breaks s) /\
  (forall lines tail, Forall (fun p => clean_line (fst p)) lines -> clean_line tail -> unambiguous lines ->
     translate_line_breaks (text_of lines tail) = text_of (with_lf lines) tail).
Proof. split; [exact tlb_no_cr|]. split; [exact tlb_idem|exact tlb_lines]. Qed.

Lemma c54 : forall re_compile b1 pre d rd body flags b2,
    blank b1 -> blank b2 -> (forall c, In c pre -> In c ($"mgs")) ->
    In (d, rd) [(47, 47); (123, 125); (37, 37); (60, 62); (39, 39); (126, 126); (44, 44); (33, 33); (59, 59)]%N ->
    (forall c r, body = c :: r -> c <> d) -> (body = [] -> d <> rd) ->
    ~ In rd flags -> (forall c, In c flags -> is_space c = false) ->
    contains ($"(?") body = false -> contains ($"\b?") body = false -> contains ($"\B?") body = false ->
    perl2re re_compile (b1 ++ (pre ++ [d] ++ body ++ [rd] ++ flags) ++ b2) =
    match re_compile body (mkFlags (mem_char 105%N flags) (mem_char 115%N flags)
                                   (mem_char 109%N flags) (mem_char 120%N flags)) with
    | Some f => ReOk f
    | None => ReInvalid
    end.
Proof.
  intros rc b1 pre d rd body flags b2 H1 H2 Hpre Hd Hb Hb0 Hf Hfs Hc1 Hc2 Hc3.
  change (pre ++ [d] ++ body ++ [rd] ++ flags) with (pre ++ d :: body ++ rd :: flags).
  rewrite (perl2re_delimited rc b1 pre d rd body flags b2); try assumption.
  - rewrite (conv1_plain _ Hc1), (conv2_plain _ Hc2 Hc3), (conv3_plain _ Hc1). reflexivity.
  - apply forallb_forall. intros c Hc. apply mem_char_In. apply Hpre; exact Hc.
  - repeat (destruct Hd as [Hd|Hd]; [inversion Hd; subst; reflexivity|]). destruct Hd.
  - apply forallb_forall. intros c Hc. rewrite (Hfs c Hc). reflexivity.
Qed.

Lemma rsplit1_lstrip_none : forall rd cs r, ~ In rd r -> rsplit1 rd (lstrip_chars cs r) = None.
Proof.
  intros rd cs r H. apply rsplit1_none. intros Hi. apply H. unfold lstrip_chars, lstrip_p in Hi.
  clear H. induction r as [|x r IH]; simpl in Hi; [exact Hi|].
  destruct (mem_char x cs); [right; apply IH; exact Hi|exact Hi].
Qed.

Lemma c54_bad : forall re_compile p c r,
    lstrip_chars ($"mgs") (strip p) = c :: r ->
    (~ In c ($"/{%<'~,!;") -> perl2re re_compile p = ReInvalid) /\
    (forall d, In (c, d) [(123, 125); (60, 62)]%N -> ~ In d r -> perl2re re_compile p = ReInvalid) /\
    (In c ($"/%'~,!;") -> ~ In c r -> perl2re re_compile p = ReInvalid).
Proof.
  intros rc p c r E. unfold perl2re. cbv zeta. rewrite E. split; [|split].
  - intros H. assert (rev_delim c = None) as ->; [|reflexivity].
    unfold rev_delim.
    repeat match goal with
    | |- (if N.eqb ?x ?y then _ else _) = _ =>
        destruct (N.eqb_spec x y); [exfalso; apply H; subst; vm_compute; tauto|]
    end. reflexivity.
  - intros d Hd Hi. assert (Hrd : rev_delim c = Some d /\ c <> d).
    { destruct Hd as [Hd|[Hd|[]]]; inversion Hd; subst; split; (reflexivity || discriminate). }
    destruct Hrd as [-> Hne]. rewrite rsplit1_lstrip_none; [reflexivity|].
    intros [Hx|Hx]; [congruence|exact (Hi Hx)].
  - intros Hc Hi. assert (Hrd : rev_delim c = Some c).
    { repeat (destruct Hc as [Hc|Hc]; [subst; reflexivity|]). destruct Hc. }
    rewrite Hrd. change (lstrip_chars [c] (c :: r)) with (if N.eqb c c || false then lstrip_chars [c] r else c :: r).
    rewrite N.eqb_refl. cbn [orb]. rewrite rsplit1_lstrip_none by exact Hi. reflexivity.
Qed.

Lemma c54_refuted :
  (forall re_compile, perl2re re_compile ($" ") = ReCrash /\ perl2re re_compile ($"m") = ReCrash) /\
  (exists re_compile f, perl2re re_compile ($"<<a>b>") = ReOk f /\ re_compile ($"<a>b") (mkFlags false false false false) = None).
Proof.
  split; [intros rc; split; reflexivity|].
  exists (fun p _ => if streqb p ($"a>b") then Some (fun _ => true) else None), (fun _ => true).
  split; reflexivity.
Qed.

Lemma c56 : forall decode fields (history : list str) (k : str),
    fst (get_decoded decode k (lookups decode history (fresh_h fields))) = map decode (values_of k fields) /\
    h_raw (lookups decode history (fresh_h fields)) = raw_of fields.
Proof.
  intros decode fields ks k.
  destruct (lookups_ok decode ks (fresh_h fields) (fresh_cache_ok decode fields)) as [Hc Hr].
  destruct (get_decoded_ok decode k _ Hc) as [He _]. split; [|exact Hr].
  rewrite He, Hr. unfold fresh_h. cbn [h_raw]. rewrite h_get_raw. reflexivity.
Qed.

Lemma all_some_map : forall l, ~ In None l -> exists r, l = map Some r /\ all_some l = Some r.
Proof.
  induction l as [|[x|] l IH]; intros H.
  - exists []; split; reflexivity.
  - destruct IH as [r [E1 E2]]; [intros Hi; apply H; right; exact Hi|].
    exists (x :: r). cbn [all_some map]. rewrite E2. split; [now rewrite E1|reflexivity].
  - exfalso. apply H. left; reflexivity.
Qed.

Lemma c57 : forall decode fields rest,
    (forall v, In v (values_of ($"Subject") fields) -> decode v <> None) ->
    exists m text, load_fields decode fields rest = Some (m, text) /\
      h_raw m = raw_of fields /\
      exists subjects, map decode (values_of ($"subject") fields) = map Some subjects /\
                       text = join ($" ") (subjects ++ rest).
Proof.
  intros decode fields rest H. unfold load_fields. cbv zeta.
  pose proof (get_decoded_ok decode ($"Subject") (mkH (raw_of fields) []) (fresh_cache_ok decode fields)) as (He & _ & Hr).
  destruct (get_decoded decode ($"Subject") (mkH (raw_of fields) [])) as [subj m'] eqn:E.
  cbn [fst snd h_raw] in *. rewrite h_get_raw in He.
  destruct (all_some_map subj) as [l [El Ea]].
  { rewrite He. intros Hi. apply in_map_iff in Hi as [v [Hv Hi]]. exact (H v Hi Hv). }
  rewrite Ea. exists m', (join ($" ") (l ++ rest)). split; [reflexivity|]. split; [exact Hr|].
  exists l. split; [|reflexivity]. rewrite <- El, He. reflexivity.
Qed.

Lemma c57_refuted : forall decode v rest, decode v = None -> load_fields decode [($"Subject", v)] rest = None.
Proof.
  intros decode v rest H. unfold load_fields. cbv zeta.
  pose proof (get_decoded_ok decode ($"Subject") (mkH (raw_of [($"Subject", v)]) []) (fresh_cache_ok decode [($"Subject", v)])) as (He & _ & _).
  destruct (get_decoded decode ($"Subject") (mkH (raw_of [($"Subject", v)]) [])) as [subj m'].
  cbn [fst h_raw] in He. rewrite h_get_raw in He.
  change (values_of ($"Subject") [($"Subject", v)]) with [v] in He. rewrite He. cbn [map]. rewrite H. reflexivity.
Qed.

Lemma c13_match : forall re_compile decode addresses fields history b1 n b2 pat search,
    plain_name n -> blank b1 -> blank b2 ->
    perl2re re_compile pat = ReOk search ->
    (forall v, In v (values_of n fields) -> decode v <> None) ->
    exists r hit, header_rule re_compile (b1 ++ n ++ b2 ++ $"=~" ++ pat) = HOk r /\
      hrule_match decode addresses r (lookups decode history (fresh_h fields)) = Returns (VBool hit) /\
      (hit = true <-> exists v d, In v (values_of n fields) /\ decode v = Some d /\ search d = true).
Proof.
  intros rc decode addresses fields ks b1 n b2 pat search Hn H1 H2 Hp Hd.
  destruct (hplain_match decode addresses false search n fields ks Hd) as [b [E Hb]].
  exists (mkHR (HPlain n) false search), b. split; [|split; [exact E|exact Hb]].
  apply (header_rule_plain rc false b1 n b2 pat search); auto. discriminate.
Qed.

Lemma c13_not_match : forall re_compile decode addresses fields history b1 n b2 pat search v,
    plain_name n -> blank b1 -> blank b2 ->
    contains ($"=~") pat = false ->
    perl2re re_compile pat = ReOk search ->
    values_of n fields = [v] -> decode v <> None ->
    exists r hit, header_rule re_compile (b1 ++ n ++ b2 ++ $"!~" ++ pat) = HOk r /\
      hrule_match decode addresses r (lookups decode history (fresh_h fields)) = Returns (VBool hit) /\
      (hit = true <-> ~ exists v d, In v (values_of n fields) /\ decode v = Some d /\ search d = true).
Proof.
  intros rc decode addresses fields ks b1 n b2 pat search v Hn H1 H2 Hc Hp Hv Hd.
  destruct (hplain_match decode addresses true search n fields ks) as [b [E Hb]].
  { rewrite Hv. intros v' [<-|[]]. exact Hd. }
  exists (mkHR (HPlain n) true search), b. split; [|split; [exact E|]].
  - apply (header_rule_plain rc true b1 n b2 pat search); auto.
  - rewrite Hb, Hv. split.
    + intros (v1 & d1 & [<-|[]] & E1 & S1) (v2 & d2 & [<-|[]] & E2 & S2). simpl in S1. congruence.
    + intros Hno. destruct (decode v) as [d|] eqn:Ed; [|congruence]. exists v, d.
      split; [left; reflexivity|]. split; [exact Ed|]. simpl.
      destruct (search d) eqn:Es; [|reflexivity]. exfalso. apply Hno. exists v, d.
      split; [left; reflexivity|]. split; assumption.
Qed.

Lemma contains_skip : forall a b x s, is_space x = true -> is_space a = false ->
  contains [a; b] (x :: s) = contains [a; b] s.
Proof.
  intros a b x s Hx Ha. change (contains [a; b] (x :: s)) with (startswith [a; b] (x :: s) || contains [a; b] s).
  assert (startswith [a; b] (x :: s) = false) as ->; [|reflexivity].
  change (startswith [a; b] (x :: s)) with (N.eqb a x && startswith [b] s).
  destruct (N.eqb_spec a x); [congruence|reflexivity].
Qed.
Lemma contains_blank_front : forall a b bl s, blank bl -> is_space a = false ->
  contains [a; b] (bl ++ s) = contains [a; b] s.
Proof.
  induction bl as [|x bl IH]; intros s H Ha; [reflexivity|]. unfold blank in H. simpl in H.
  apply andb_true_iff in H as [Hx H]. cbn [app]. rewrite contains_skip by assumption. apply IH; assumption.
Qed.
Lemma contains_blank_back : forall a b bl s, blank bl -> is_space a = false -> is_space b = false ->
  contains [a; b] s = false -> contains [a; b] (s ++ bl) = false.
Proof.
  induction s as [|x s IH]; intros H Ha Hb Hs; cbn [app].
  - rewrite <- (app_nil_r bl). rewrite contains_blank_front by assumption. reflexivity.
  - change (contains [a; b] (x :: s ++ bl)) with (startswith [a; b] (x :: s ++ bl) || contains [a; b] (s ++ bl)).
    change (contains [a; b] (x :: s)) with (startswith [a; b] (x :: s) || contains [a; b] s) in Hs.
    apply orb_false_iff in Hs as [Hs1 Hs2]. rewrite IH by assumption. rewrite orb_false_r.
    change (startswith [a; b] (x :: s ++ bl)) with (N.eqb a x && startswith [b] (s ++ bl)).
    change (startswith [a; b] (x :: s)) with (N.eqb a x && startswith [b] s) in Hs1.
    destruct (N.eqb a x); [|reflexivity]. cbn [andb] in *. destruct s as [|y s].
    + cbn [app]. destruct bl as [|y bl]; [reflexivity|]. unfold blank in H. simpl in H.
      apply andb_true_iff in H as [Hy _].
      change (startswith [b] (y :: bl)) with (N.eqb b y && true). destruct (N.eqb_spec b y); [congruence|reflexivity].
    + cbn [app]. exact Hs1.
Qed.

Lemma c13_exists : forall re_compile decode addresses fields history b1 n b2,
    strip n = n -> n <> [] -> blank b1 -> blank b2 ->
    (forall c r, n = c :: r -> ~ In c ($"exist:")) ->
    contains ($"=~") n = false -> contains ($"!~") n = false ->
    exists r hit, header_rule re_compile ($"exists:" ++ b1 ++ n ++ b2) = HOk r /\
      hrule_match decode addresses r (lookups decode history (fresh_h fields)) = Returns (VBool hit) /\
      (hit = true <-> exists f, In f fields /\ same_name n (fst f) = true).
Proof.
  intros rc decode addresses fields ks b1 n b2 Hs Hn0 H1 H2 Hc Ho1 Ho2.
  assert (Hops : forall a, (a = 61%N \/ a = 33%N) -> contains [a; 126%N] n = false ->
                 contains [a; 126%N] ($"exists:" ++ b1 ++ n ++ b2) = false).
  { intros a Ha Hno.
    assert (contains [a; 126%N] ($"exists:" ++ b1 ++ n ++ b2) = contains [a; 126%N] (b1 ++ n ++ b2)) as ->
      by (destruct Ha as [-> | ->]; reflexivity).
    destruct Ha as [-> | ->]; (rewrite contains_blank_front; [|exact H1|reflexivity]); apply contains_blank_back; auto. }
  assert (Hstrip : strip (lstrip_chars ($"exists:") ($"exists:" ++ b1 ++ n ++ b2)) = n).
  { change (lstrip_chars ($"exists:") ($"exists:" ++ b1 ++ n ++ b2)) with (lstrip_chars ($"exists:") (b1 ++ n ++ b2)).
    assert (lstrip_chars ($"exists:") (b1 ++ n ++ b2) = b1 ++ n ++ b2) as ->.
    { unfold lstrip_chars, lstrip_p. apply drop_while_none. intros c r E.
      destruct (mem_char c ($"exists:")) eqn:Em; [|reflexivity]. exfalso. apply mem_char_In in Em.
      destruct b1 as [|x b1].
      - destruct n as [|x n]; [congruence|]. simpl in E. inversion E; subst.
        apply (Hc c n eq_refl). vm_compute in Em. vm_compute. tauto.
      - inversion E; subst. unfold blank in H1. simpl in H1. apply andb_true_iff in H1 as [Hx _].
        vm_compute in Em. repeat (destruct Em as [Em|Em]; [subst; discriminate|]). destruct Em. }
    rewrite strip_blanks by assumption. exact Hs. }
  exists (mkHR (HExists n) false (fun _ => false)). unfold header_rule.
  change ($"=~") with [61%N; 126%N] in *. change ($"!~") with [33%N; 126%N] in *.
  rewrite !Hops by auto. rewrite Hstrip.
  change (startswith ($"exists:") ($"exists:" ++ b1 ++ n ++ b2)) with true.
  destruct (lookups_ok decode ks (fresh_h fields) (fresh_cache_ok decode fields)) as [_ Hr].
  exists (h_in n (raw_of fields)). split; [reflexivity|]. split.
  - unfold hrule_match. cbn [hr_kind]. rewrite Hr. reflexivity.
  - rewrite h_in_raw. apply existsb_exists.
Qed.

Lemma c13_raw : forall re_compile decode addresses fields history b1 n b2 pat search,
    plain_name n -> blank b1 -> blank b2 ->
    perl2re re_compile pat = ReOk search ->
    exists r hit, header_rule re_compile (b1 ++ (n ++ $":raw") ++ b2 ++ $"=~" ++ pat) = HOk r /\
      hrule_match decode addresses r (lookups decode history (fresh_h fields)) = Returns (VBool hit) /\
      (hit = true <-> exists v, In v (values_of n fields) /\ search v = true).
Proof.
  intros rc decode addresses fields ks b1 n b2 pat search Hn H1 H2 Hp.
  pose proof (header_rule_mod rc false b1 n ($"raw") b2 pat search Hn H1 H2 (or_introl eq_refl)
                (fun H => False_ind _ (diff_false_true H)) Hp) as E.
  destruct (lookups_ok decode ks (fresh_h fields) (fresh_cache_ok decode fields)) as [_ Hr].
  destruct (values_match_spec false search (map Some (values_of n fields))) as [b [Eb Hb]].
  { intros Hi. apply in_map_iff in Hi as [v [Hv _]]. discriminate. }
  exists (mkHR (HRaw n) false search), b. split; [exact E|]. split.
  - unfold hrule_match. cbn [hr_kind hr_neg hr_search]. rewrite Hr. unfold fresh_h. cbn [h_raw].
    rewrite h_get_raw. exact Eb.
  - rewrite Hb. split.
    + intros [d [Hi Hs]]. apply in_map_iff in Hi as [v [Hv Hi]]. inversion Hv; subst. exists d; auto.
    + intros [v [Hi Hs]]. exists v. split; [|exact Hs]. apply in_map; exact Hi.
Qed.

Lemma filter_first : forall A (f : A -> bool) l p r, filter f l = p :: r ->
  exists before after, l = before ++ p :: after /\ (forall q, In q before -> f q = false) /\ f p = true.
Proof.
  induction l as [|x l IH]; intros p r H; simpl in H; [discriminate|].
  destruct (f x) eqn:E.
  - inversion H; subst. exists [], l. split; [reflexivity|]. split; [intros q []|exact E].
  - destruct (IH p r H) as (b & a & Hl & Hb & Hp). exists (x :: b), a. rewrite Hl.
    split; [reflexivity|]. split; [|exact Hp]. intros q [<-|Hq]; [exact E|apply Hb; exact Hq].
Qed.
Lemma filter_skip : forall A (f : A -> bool) before p after, (forall q, In q before -> f q = false) -> f p = true ->
  filter f (before ++ p :: after) = p :: filter f after.
Proof.
  induction before as [|x b IH]; intros p a Hb Hp; simpl; [now rewrite Hp|].
  rewrite (Hb x (or_introl eq_refl)). apply IH; [|exact Hp]. intros q Hq; apply Hb; right; exact Hq.
Qed.

Lemma in_first_of : forall sel v x,
  In x (first_of sel v) <->
  exists before p after, v = before ++ p :: after /\ (forall q, In q before -> sel q = []) /\
                         sel p <> [] /\ x = sel p.
Proof.
  intros sel v x. unfold first_of.
  set (f := fun p : str * str => match sel p with [] => false | _ => true end).
  assert (Hf : forall q, f q = false <-> sel q = []).
  { intros q. unfold f. destruct (sel q); split; congruence. }
  assert (Hf' : forall q, f q = true <-> sel q <> []).
  { intros q. unfold f. destruct (sel q); split; congruence. }
  split.
  - destruct (filter f v) as [|p r] eqn:E; [intros []|]. intros [<-|[]].
    destruct (filter_first _ _ _ _ _ E) as (b & a & Hl & Hb & Hp).
    exists b, p, a. split; [exact Hl|]. split; [intros q Hq; apply Hf, Hb, Hq|]. split; [now apply Hf'|reflexivity].
  - intros (b & p & a & Hl & Hb & Hp & ->). rewrite Hl, filter_skip.
    + left; reflexivity.
    + intros q Hq. apply Hf, Hb, Hq.
    + now apply Hf'.
Qed.

Lemma c13_addr_name : forall re_compile decode addresses fields history b1 n b2 pat search (md : str) (sel : str * str -> str),
    (md = $":addr" /\ sel = snd) \/ (md = $":name" /\ sel = fst) ->
    plain_name n -> blank b1 -> blank b2 ->
    perl2re re_compile pat = ReOk search ->
    (forall v, In v (values_of n fields) -> decode v <> None) ->
    (forall v d, In v (values_of n fields) -> decode v = Some d -> addresses d <> None) ->
    exists r hit, header_rule re_compile (b1 ++ (n ++ md) ++ b2 ++ $"=~" ++ pat) = HOk r /\
      hrule_match decode addresses r (lookups decode history (fresh_h fields)) = Returns (VBool hit) /\
      (hit = true <-> exists v d before p after,
          In v (values_of n fields) /\ decode v = Some d /\
          addresses d = Some (before ++ p :: after) /\ (forall q, In q before -> sel q = []) /\
          sel p <> [] /\ search (sel p) = true).
Proof.
  intros rc decode addresses fields ks b1 n b2 pat search md sel Hmd Hn H1 H2 Hp Hd Hadr.
  destruct (lookups_ok decode ks (fresh_h fields) (fresh_cache_ok decode fields)) as [Hc Hr].
  destruct (get_decoded_ok decode n _ Hc) as [He _]. rewrite Hr in He. unfold fresh_h in He at 2. cbn [h_raw] in He.
  rewrite h_get_raw in He.
  destruct (all_some_map (map decode (values_of n fields))) as [l [El Ea]].
  { intros Hi. apply in_map_iff in Hi as [v [Hv Hi]]. exact (Hd v Hi Hv). }
  set (adr := fun d => match addresses d with Some ps => ps | None => [] end).
  assert (Hsome : forall d, In d l -> addresses d = Some (adr d)).
  { intros d Hi. assert (Hy : In (Some d) (map decode (values_of n fields))) by (rewrite El; apply in_map; exact Hi).
    apply in_map_iff in Hy as [v [Hv Hy]]. specialize (Hadr v d Hy Hv). unfold adr. destruct (addresses d); [reflexivity|contradiction]. }
  assert (Hav : addr_values decode addresses sel n (lookups decode ks (fresh_h fields)) = Some (flat_map (fun d => first_of sel (adr d)) l)).
  { unfold addr_values. rewrite He, El. clear - Hsome. induction l as [|d l IH]; [reflexivity|]. cbn [map collect flat_map].
    rewrite (Hsome d (or_introl eq_refl)), IH; [reflexivity|]. intros d' Hd'. apply Hsome. now right. }
  destruct (values_match_spec false search (map Some (flat_map (fun d => first_of sel (adr d)) l))) as [b [Eb Hb]].
  { intros Hi. apply in_map_iff in Hi as [v [Hv _]]. discriminate. }
  assert (Hspec : b = true <-> exists v d before p after,
          In v (values_of n fields) /\ decode v = Some d /\
          addresses d = Some (before ++ p :: after) /\ (forall q, In q before -> sel q = []) /\
          sel p <> [] /\ search (sel p) = true).
  { rewrite Hb. split.
    - intros [d [Hi Hs]]. apply in_map_iff in Hi as [x [Hx Hi]]. inversion Hx; subst x.
      apply in_flat_map in Hi as [y [Hy Hi]]. apply in_first_of in Hi as (bf & p & af & Ha & Hbf & Hne & ->).
      assert (Hy' : In (Some y) (map decode (values_of n fields))) by (rewrite El; apply in_map; exact Hy).
      apply in_map_iff in Hy' as [v [Hv Hi]]. exists v, y, bf, p, af. rewrite (Hsome y Hy), Ha. auto 10.
    - intros (v & d & bf & p & af & Hi & Hv & Ha & Hbf & Hne & Hs). exists (sel p). split; [|exact Hs].
      apply in_map, in_flat_map. exists d. split.
      + assert (Hy : In (Some d) (map Some l)) by (rewrite <- El, <- Hv; apply in_map; exact Hi).
        apply in_map_iff in Hy as [d' [E' Hy]]. inversion E'; subst. exact Hy.
      + apply in_first_of. exists bf, p, af. unfold adr. rewrite Ha. auto. }
  destruct Hmd as [[-> ->]|[-> ->]].
  - exists (mkHR (HAddr n) false search), b. split; [|split; [|exact Hspec]].
    + apply (header_rule_mod rc false b1 n ($"addr") b2 pat search); auto; [simpl; auto|discriminate].
    + unfold hrule_match. cbn [hr_kind hr_neg hr_search]. rewrite Hav. exact Eb.
  - exists (mkHR (HName n) false search), b. split; [|split; [|exact Hspec]].
    + apply (header_rule_mod rc false b1 n ($"name") b2 pat search); auto; [simpl; auto|discriminate].
    + unfold hrule_match. cbn [hr_kind hr_neg hr_search]. rewrite Hav. exact Eb.
Qed.
