(** Patterns with a text from the message inserted: what they compile to. *)
From Coq Require Import Lia.
From Verif Require Import PyStr Regexp Spec_Regexp Proofs_Regexp Proofs_RegexpLang Spec_Template Proofs_Template Spec_Dynamic.

Section Parse.
Variable i x : bool.
Notation parse_alt := (parse_alt i x).
Notation parse_seq := (parse_seq i x).
Notation parse_atom := (parse_atom i x).

(** ** The equations of the parser *)
Lemma alt_eq f n s : parse_alt (S f) n s =
      match parse_seq f n s with
      | None => None
      | Some (a, n1, s1) =>
          match s1 with
          | c :: s2 => if ch c "|" then match parse_alt f n1 s2 with
                                        | Some (b, n2, s3) => Some (Alt a b, n2, s3)
                                        | None => None
                                        end
                       else Some (a, n1, s1)
          | [] => Some (a, n1, s1)
          end
      end.
Proof. reflexivity. Qed.
Lemma seq_eq f n s : parse_seq (S f) n s =
      match skip x s with
      | [] => Some (Eps, n, [])
      | c :: r =>
          if ch c "|" || ch c ")" then Some (Eps, n, c :: r)
          else match parse_atom f n c r with
               | None => None
               | Some (a, n1, s1) =>
                   let '(a', s2) := quantified a (skip x s1) in
                   match parse_seq f n1 s2 with
                   | Some (Eps, n2, s3) => Some (a', n2, s3)
                   | Some (b, n2, s3) => Some (Cat a' b, n2, s3)
                   | None => None
                   end
               end
      end.
Proof. reflexivity. Qed.
Lemma atom_eq f n c r : parse_atom (S f) n c r =
      let close (k : re -> re) (n' : nat) (s : str) :=
        match parse_alt f n' s with
        | Some (a, n1, d :: s1) => if ch d ")" then Some (k a, n1, s1) else None
        | _ => None
        end in
      if ch c "." then Some (Dot, n, r)
      else if ch c "^" then Some (Bos, n, r)
      else if ch c "$" then Some (Eos, n, r)
      else if ch c "\" then
        match r with
        | [] => None
        | e :: r' =>
            if ch e "b" then Some (Wordb false, n, r')
            else if ch e "B" then Some (Wordb true, n, r')
            else match class_of e with
                 | Some it => Some (Chr i false [it], n, r')
                 | None => Some (Chr i false [IChar (control e)], n, r')
                 end
        end
      else if ch c "[" then
        match r with
        | d :: r' =>
            if ch d "^" then match class_items f true r' with Some (l, s1) => Some (Chr i true l, n, s1) | None => None end
            else match class_items f true r with Some (l, s1) => Some (Chr i false l, n, s1) | None => None end
        | [] => None
        end
      else if ch c "(" then
        if startswith ($"?:") r then close (fun a => a) n (skipn 2 r)
        else if startswith ($"?=") r then close (Ahead false) n (skipn 2 r)
        else if startswith ($"?!") r then close (Ahead true) n (skipn 2 r)
        else if startswith ($"?<=") r then close (Behind false) n (skipn 3 r)
        else if startswith ($"?<!") r then close (Behind true) n (skipn 3 r)
        else if startswith ($"?") r then None
        else close (Grp n) (S n) r
      else if in_s c "*+?" then None
      else Some (Chr i false [IChar c], n, r).
Proof. reflexivity. Qed.

(** ** More fuel changes nothing *)
Lemma class_items_more : forall f g first s v, f <= g -> class_items f first s = Some v -> class_items g first s = Some v.
Proof.
  induction f as [|f IH]; intros [|g] first s v L H; try discriminate H; [lia|]. cbn [class_items] in *. apply le_S_n in L.
  destruct s as [|c r]; [discriminate|]. destruct (negb first && ch c "]"); [exact H|].
  assert (R : forall r1 (k : list item * str -> option (list item * str)), match class_items f false r1 with Some p => k p | None => None end = Some v ->
    match class_items g false r1 with Some p => k p | None => None end = Some v).
  { intros r1 k K. destruct (class_items f false r1) as [p|] eqn:E; [|discriminate]. rewrite (IH g false r1 p L E). exact K. }
  destruct (if ch c "\" then _ else _) as [[[it|y] r1]|]; [| |exact H].
  - apply (R r1 (fun p => let (l, r2) := p in Some (it :: l, r2))). exact H.
  - destruct r1 as [|d [|e r2]].
    + apply (R [] (fun p => let (l, r2) := p in Some (IChar y :: l, r2))). exact H.
    + apply (R [d] (fun p => let (l, r2) := p in Some (IChar y :: l, r2))). exact H.
    + destruct (ch d "-" && negb (ch e "]")).
      * apply (R r2 (fun p => let (l, r2) := p in Some (IRange y e :: l, r2))). exact H.
      * apply (R (d :: e :: r2) (fun p => let (l, r2) := p in Some (IChar y :: l, r2))). exact H.
Qed.
Lemma parse_more : forall f,
  (forall g n s v, f <= g -> parse_alt f n s = Some v -> parse_alt g n s = Some v) /\
  (forall g n s v, f <= g -> parse_seq f n s = Some v -> parse_seq g n s = Some v) /\
  (forall g n c r v, f <= g -> parse_atom f n c r = Some v -> parse_atom g n c r = Some v).
Proof.
  induction f as [|f (IA & IS & IT)]; [split; [|split]; intros; discriminate|]. split; [|split].
  - intros [|g] n s v L H; [lia|]. apply le_S_n in L. rewrite alt_eq in H |- *. destruct (parse_seq f n s) as [[[a n1] s1]|] eqn:E; [|discriminate].
    rewrite (IS g _ _ _ L E). destruct s1 as [|c s2]; [exact H|]. destruct (ch c "|"); [|exact H].
    destruct (parse_alt f n1 s2) as [[[b n2] s3]|] eqn:E2; [|discriminate]. rewrite (IA g _ _ _ L E2). exact H.
  - intros [|g] n s v L H; [lia|]. apply le_S_n in L. rewrite seq_eq in H |- *. destruct (skip x s) as [|c r]; [exact H|]. destruct (ch c "|" || ch c ")"); [exact H|].
    destruct (parse_atom f n c r) as [[[a n1] s1]|] eqn:E; [|discriminate]. rewrite (IT g _ _ _ _ L E). destruct (quantified a (skip x s1)) as [a' s2].
    destruct (parse_seq f n1 s2) as [[[b n2] s3]|] eqn:E2; [|discriminate]. rewrite (IS g _ _ _ L E2). exact H.
  - intros [|g] n c r v L H; [lia|]. apply le_S_n in L. rewrite atom_eq in H |- *; cbv zeta in H |- *.
    assert (C : forall (k : re -> re) n' s, match parse_alt f n' s with Some (a, n1, d :: s1) => if ch d ")" then Some (k a, n1, s1) else None | _ => None end = Some v ->
      match parse_alt g n' s with Some (a, n1, d :: s1) => if ch d ")" then Some (k a, n1, s1) else None | _ => None end = Some v).
    { intros k n' s K. destruct (parse_alt f n' s) as [[[a n1] s1]|] eqn:E; [|discriminate]. rewrite (IA g _ _ _ L E). exact K. }
    assert (D : forall first s (k : list item * str -> option (re * nat * str)), match class_items f first s with Some p => k p | None => None end = Some v ->
      match class_items g first s with Some p => k p | None => None end = Some v).
    { intros first s k K. destruct (class_items f first s) as [p|] eqn:E; [|discriminate]. rewrite (class_items_more f g first s p L E). exact K. }
    destruct (ch c "."); [exact H|]. destruct (ch c "^"); [exact H|]. destruct (ch c "$"); [exact H|]. destruct (ch c "\"); [exact H|]. destruct (ch c "[").
    { destruct r as [|d r']; [exact H|]. destruct (ch d "^").
      - apply (D true r' (fun p => let (l, s1) := p in Some (Chr i true l, n, s1))). exact H.
      - apply (D true (d :: r') (fun p => let (l, s1) := p in Some (Chr i false l, n, s1))). exact H. }
    destruct (ch c "("); [|exact H].
    destruct (startswith ($"?:") r); [apply (C (fun a => a)); exact H|]. destruct (startswith ($"?=") r); [apply C; exact H|]. destruct (startswith ($"?!") r); [apply C; exact H|].
    destruct (startswith ($"?<=") r); [apply C; exact H|]. destruct (startswith ($"?<!") r); [apply C; exact H|]. destruct (startswith ($"?") r); [exact H|apply C; exact H].
Qed.
End Parse.

(** ** Steps through a concrete beginning *)
Lemma seq_step i f n c r a n1 s1 a' s2 b n2 s3 : ch c "|" || ch c ")" = false -> parse_atom i false f n c r = Some (a, n1, s1) -> quantified a s1 = (a', s2) ->
  parse_seq i false f n1 s2 = Some (b, n2, s3) -> b <> Eps -> parse_seq i false (S f) n (c :: r) = Some (Cat a' b, n2, s3).
Proof.
  intros A B C D E. rewrite seq_eq. change (skip false (c :: r)) with (c :: r). cbv iota. rewrite A, B. change (skip false s1) with s1. rewrite C, D. destruct b; try reflexivity. congruence.
Qed.
Lemma compile_seq i s f b n : f <= 2 * length s + 2 -> parse_seq i false f 1 s = Some (b, n, []) -> compile i false s = Some b.
Proof.
  intros L H. unfold compile. replace (2 * length s + 3) with (S (2 * length s + 2)) by lia. rewrite alt_eq.
  rewrite (proj1 (proj2 (parse_more i false f)) _ _ _ _ L H). reflexivity.
Qed.

(** ** An inserted text *)
Definition atom (i : bool) (c : char) : re := if ch c "." then Dot else Chr i false [IChar c].
Definition lits (i : bool) (w : str) (r : re) : re := fold_right (fun c k => Cat (atom i c) k) r w.
Lemma lits_eps i w r : r <> Eps -> lits i w r <> Eps.
Proof. destruct w; [auto|discriminate]. Qed.
Definition special : String.string := "\^$[(*+?{|)"%string.
Lemma ch_not l a c : in_s c l = false -> in_s (Ascii.N_of_ascii a) l = true -> ch c a = false.
Proof. intros H K. unfold ch. destruct (N.eqb_spec c (Ascii.N_of_ascii a)) as [->|]; [congruence|reflexivity]. Qed.
Lemma quantified_plain l a c s : in_s c l = false -> l = "*+?{"%string \/ l = special -> quantified a (c :: s) = (a, c :: s).
Proof.
  intros H K. unfold quantified, quantifier.
  rewrite (ch_not l "*" c H), (ch_not l "+" c H), (ch_not l "?" c H), (ch_not l "{" c H) by (destruct K as [-> | ->]; reflexivity). reflexivity.
Qed.
Lemma parse_lits i f n s r n' rest w : (forall c, In c w -> in_s c special = false) -> match s with c :: _ => in_s c "*+?{" = false | [] => False end ->
  parse_seq i false (S f) n s = Some (r, n', rest) -> r <> Eps -> parse_seq i false (length w + S f) n (w ++ s) = Some (lits i w r, n', rest).
Proof.
  intros W Hs H N. induction w as [|c w IH]; [exact H|]. cbn [length Nat.add app lits fold_right].
  assert (Wc : in_s c special = false) by (apply W; left; reflexivity).
  assert (IH' := IH (fun d Hd => W d (or_intror Hd))). clear IH.
  apply (seq_step i (length w + S f) n c (w ++ s) (atom i c) n (w ++ s) (atom i c) (w ++ s) (lits i w r) n' rest).
  - rewrite (ch_not special "|" c Wc), (ch_not special ")" c Wc) by reflexivity. reflexivity.
  - rewrite Nat.add_succ_r. rewrite atom_eq. cbv zeta. unfold atom. destruct (ch c "."); [reflexivity|].
    rewrite (ch_not special "^" c Wc), (ch_not special "$" c Wc), (ch_not special "\" c Wc), (ch_not special "[" c Wc), (ch_not special "(" c Wc) by reflexivity.
    destruct (in_s c "*+?") eqn:E; [|reflexivity]. exfalso. unfold in_s in *. apply mem_char_In in E.
    assert (X : mem_char c (of_string special) = true) by (apply mem_char_In; vm_compute in E |- *; tauto). congruence.
  - destruct w as [|d w]; cbn [app].
    + destruct s as [|d s]; [destruct Hs|]. apply (quantified_plain _ _ _ _ Hs). auto.
    + apply (quantified_plain special); [apply W; right; left; reflexivity|auto].
  - exact IH'.
  - apply lits_eps, N.
Qed.
Lemma lits_ordered i w r : ordered (lits i w r) = ordered r.
Proof. induction w as [|c w IH]; [reflexivity|]. cbn [lits fold_right ordered]. unfold atom. destruct (ch c "."); exact IH. Qed.
Section Forms.
Variable udigit uword : char -> bool.
Notation forms := (forms udigit uword).
Lemma tame_special w : tame w -> forall c, In c w -> in_s c special = false.
Proof.
  intros T c Hc. unfold in_s. destruct (mem_char c (of_string special)) eqn:E; [|reflexivity]. exfalso. apply mem_char_In in E. exact (T c Hc E).
Qed.
Lemma lits_forms w r ls ms : forms r = Some ls -> Forall2 (Forall2 like) ls ms ->
  exists ls', forms (lits false w r) = Some ls' /\ Forall2 (Forall2 like) ls' (map (app (loosely w)) ms).
Proof.
  intros F L. induction w as [|c w IH].
  - exists ls. split; [exact F|]. cbn. rewrite map_id. exact L.
  - destruct IH as (ls' & F' & L'). cbn [lits fold_right]. fold (lits false w r). unfold atom, ch. change (Ascii.N_of_ascii ".") with 46%N. cbn [Proofs_Template.forms].
    cbn [loosely map]. fold (loosely w). rewrite <- (map_map (app (loosely w)) (cons (if N.eqb c 46 then Run anyc 1 (Some 1) else Run (eq c) 1 (Some 1)))).
    destruct (N.eqb c 46); cbn [Proofs_Template.forms]; rewrite F'; eexists; (split; [reflexivity|]); cbn [flat_map]; rewrite app_nil_r.
    + clear - L'. induction L' as [|x y l m H L IH]; [constructor|]. cbn [map app]. constructor; [|exact IH]. constructor; [constructor; reflexivity|exact H].
    + clear - L'. induction L' as [|x y l m H L IH]; [constructor|]. cbn [map app]. constructor; [|exact IH]. constructor; [|exact H]. constructor.
      intros d. unfold class_in. cbn. rewrite !orb_false_r. destruct (N.eqb_spec d c); split; congruence.
Qed.
End Forms.
