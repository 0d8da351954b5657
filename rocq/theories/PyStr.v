(** Python strings as lists of code points, and the [str] methods the project
    uses.  Library file: these are the semantics of Python built-ins, not of
    code in /repo.  Simplification: [lower]/[upper] only map ASCII letters. *)
From Coq Require Export Ascii String.
From Coq Require Export NArith ZArith QArith Bool Lia List.
Export ListNotations.
Open Scope list_scope.
Open Scope nat_scope.

Notation char := N (only parsing).
Notation str := (list N) (only parsing).

(** String literals: [$"abc"]. *)
Definition of_string (s : String.string) : str := map Ascii.N_of_ascii (String.list_ascii_of_string s).
Arguments of_string : simpl never.
Notation "$ s" := (of_string s%string) (at level 1, s constr at level 0, format "$ s").

Fixpoint streqb (a b : str) : bool :=
  match a, b with
  | [], [] => true
  | x :: a', y :: b' => N.eqb x y && streqb a' b'
  | _, _ => false
  end.

(** [x in (a, b, c)] for strings. *)
Definition mem_str (x : str) (l : list str) : bool := existsb (streqb x) l.

(** [s.startswith(p)] *)
Fixpoint startswith (p s : str) : bool :=
  match p, s with
  | [], _ => true
  | x :: p', y :: s' => N.eqb x y && startswith p' s'
  | _ :: _, [] => false
  end.

(** [s.endswith(p)] *)
Definition endswith (p s : str) : bool := startswith (rev p) (rev s).

(** [p in s] (substring) *)
Fixpoint contains (p s : str) : bool :=
  startswith p s || match s with [] => false | _ :: s' => contains p s' end.

Definition mem_char (c : char) (s : str) : bool := existsb (N.eqb c) s.

(** Python's [str.isspace] on one code point. *)
Definition is_space (c : char) : bool :=
  (N.leb 9 c && N.leb c 13) || (N.leb 28 c && N.leb c 32) ||
  N.eqb c 133 || N.eqb c 160 || N.eqb c 5760 ||
  (N.leb 8192 c && N.leb c 8202) || N.eqb c 8232 || N.eqb c 8233 ||
  N.eqb c 8239 || N.eqb c 8287 || N.eqb c 12288.

Fixpoint drop_while {A} (p : A -> bool) (s : list A) : list A :=
  match s with
  | [] => []
  | x :: s' => if p x then drop_while p s' else s
  end.

Fixpoint take_while {A} (p : A -> bool) (s : list A) : list A :=
  match s with
  | [] => []
  | x :: s' => if p x then x :: take_while p s' else []
  end.

Definition lstrip_p (p : char -> bool) (s : str) : str := drop_while p s.
Definition rstrip_p (p : char -> bool) (s : str) : str := rev (drop_while p (rev s)).
Definition strip_p (p : char -> bool) (s : str) : str := rstrip_p p (lstrip_p p s).

(** [s.strip()], [s.lstrip()], [s.lstrip(chars)], [s.strip(chars)] *)
Definition strip (s : str) : str := strip_p is_space s.
Definition lstrip_chars (cs s : str) : str := lstrip_p (fun c => mem_char c cs) s.
Definition rstrip_chars (cs s : str) : str := rstrip_p (fun c => mem_char c cs) s.
Definition strip_chars (cs s : str) : str := strip_p (fun c => mem_char c cs) s.

(** [s.split(c)] for a one-character separator: never empty. *)
Fixpoint split_char (c : char) (s : str) : list str :=
  match s with
  | [] => [[]]
  | x :: s' =>
      if N.eqb x c then [] :: split_char c s'
      else match split_char c s' with
           | [] => [[x]]
           | w :: ws => (x :: w) :: ws
           end
  end.

(** [a, b = s.split(c, 1)]: [None] when the separator is absent. *)
Fixpoint split1 (c : char) (s : str) : option (str * str) :=
  match s with
  | [] => None
  | x :: s' =>
      if N.eqb x c then Some ([], s')
      else match split1 c s' with
           | None => None
           | Some (a, b) => Some (x :: a, b)
           end
  end.

(** [a, b = s.rsplit(c, 1)] *)
Fixpoint rsplit1 (c : char) (s : str) : option (str * str) :=
  match s with
  | [] => None
  | x :: s' =>
      match rsplit1 c s' with
      | Some (a, b) => Some (x :: a, b)
      | None => if N.eqb x c then Some ([], s') else None
      end
  end.

(** [a, b = s.split(p, 1)] for a longer separator [p]. *)
Fixpoint split1_sub (p s : str) : option (str * str) :=
  if startswith p s then Some ([], skipn (length p) s)
  else match s with
       | [] => None
       | x :: s' => match split1_sub p s' with
                    | None => None
                    | Some (a, b) => Some (x :: a, b)
                    end
       end.

Fixpoint join (sep : str) (l : list str) : str :=
  match l with
  | [] => []
  | [w] => w
  | w :: ws => w ++ sep ++ join sep ws
  end.

(** [s.split()] *)
Fixpoint words_aux (s cur : str) : list str :=
  match s with
  | [] => match cur with [] => [] | _ => [rev cur] end
  | x :: s' =>
      if is_space x
      then match cur with [] => words_aux s' [] | _ => rev cur :: words_aux s' [] end
      else words_aux s' (x :: cur)
  end.
Definition words (s : str) : list str := words_aux s [].

(** [s.split(None, n)]: at most [n] splits, the remainder keeps its inner and
    trailing blanks but loses the leading ones, and is dropped when blank. *)
Fixpoint split_ws_max (n : nat) (s : str) : list str :=
  match drop_while is_space s with
  | [] => []
  | t => match n with
         | 0 => [t]
         | S n' => take_while (fun c => negb (is_space c)) t ::
                   split_ws_max n' (drop_while (fun c => negb (is_space c)) t)
         end
  end.

Definition lower_char (c : char) : char := if N.leb 65 c && N.leb c 90 then (c + 32)%N else c.
Definition upper_char (c : char) : char := if N.leb 97 c && N.leb c 122 then (c - 32)%N else c.
Definition lower (s : str) : str := map lower_char s.
Definition upper (s : str) : str := map upper_char s.

(** [s.replace(p, r)] for non-empty [p]: left to right, non-overlapping.
    [k] characters of the current occurrence are still to be skipped. *)
Fixpoint replace_aux (p r s : str) (k : nat) : str :=
  match s with
  | [] => []
  | x :: s' =>
      match k with
      | S k' => replace_aux p r s' k'
      | 0 => if startswith p s then r ++ replace_aux p r s' (length p - 1)
             else x :: replace_aux p r s' 0
      end
  end.
Definition replace (p r s : str) : str :=
  match p with [] => s | _ => replace_aux p r s 0 end.

Definition count_char (c : char) (s : str) : nat := length (filter (N.eqb c) s).

(** Decimal digits. *)
Definition is_digit (c : char) : bool := N.leb 48 c && N.leb c 57.

(** ** Characterising lemmas *)

Lemma streqb_eq a b : streqb a b = true <-> a = b.
Proof.
  revert b; induction a as [|x a IH]; intros [|y b]; simpl; try (split; congruence).
  rewrite andb_true_iff, N.eqb_eq, IH. split; [intros [-> ->]; reflexivity|intros H; inversion H; auto].
Qed.

Lemma streqb_refl a : streqb a a = true.
Proof. apply streqb_eq; reflexivity. Qed.

Lemma streqb_neq a b : streqb a b = false <-> a <> b.
Proof.
  split; intros H.
  - intros ->. rewrite streqb_refl in H; discriminate.
  - destruct (streqb a b) eqn:E; auto. apply streqb_eq in E; contradiction.
Qed.

Lemma streqb_spec a b : reflect (a = b) (streqb a b).
Proof. destruct (streqb a b) eqn:E; constructor; [apply streqb_eq|apply streqb_neq]; exact E. Qed.

Lemma streqb_sym a b : streqb a b = streqb b a.
Proof.
  destruct (streqb_spec a b) as [->|H]; [symmetry; apply streqb_refl|].
  symmetry; apply streqb_neq; congruence.
Qed.

Definition str_eq_dec (a b : str) : {a = b} + {a <> b}.
Proof. destruct (streqb a b) eqn:E; [left; apply streqb_eq|right; apply streqb_neq]; exact E. Defined.

Lemma mem_str_In x l : mem_str x l = true <-> In x l.
Proof.
  unfold mem_str. rewrite existsb_exists. split.
  - intros [y [Hin He]]. apply streqb_eq in He; subst; exact Hin.
  - intros H; exists x; split; [exact H|apply streqb_refl].
Qed.

Lemma mem_str_notIn x l : mem_str x l = false <-> ~ In x l.
Proof. rewrite <- mem_str_In. destruct (mem_str x l); split; congruence. Qed.

Lemma mem_char_In c s : mem_char c s = true <-> In c s.
Proof.
  unfold mem_char. rewrite existsb_exists. split.
  - intros [y [Hin He]]. apply N.eqb_eq in He; subst; exact Hin.
  - intros H; exists c; split; [exact H|apply N.eqb_refl].
Qed.

Lemma mem_char_notIn c s : mem_char c s = false <-> ~ In c s.
Proof. rewrite <- mem_char_In. destruct (mem_char c s); split; congruence. Qed.

Lemma startswith_app p s : startswith p s = true <-> exists t, s = p ++ t.
Proof.
  revert s; induction p as [|x p IH]; intros s; simpl.
  - split; [intros _; exists s; reflexivity|auto].
  - destruct s as [|y s].
    + split; [discriminate|intros [t H]; discriminate].
    + rewrite andb_true_iff, N.eqb_eq, IH. split.
      * intros [-> [t ->]]; exists t; reflexivity.
      * intros [t H]; inversion H; subst. split; [reflexivity|exists t; reflexivity].
Qed.

Lemma startswith_self p t : startswith p (p ++ t) = true.
Proof. apply startswith_app; exists t; reflexivity. Qed.

Lemma endswith_app p s : endswith p s = true <-> exists t, s = t ++ p.
Proof.
  unfold endswith. rewrite startswith_app. split; intros [t H].
  - exists (rev t). rewrite <- (rev_involutive s), H, rev_app_distr, rev_involutive; reflexivity.
  - exists (rev t). rewrite H, rev_app_distr; reflexivity.
Qed.

Lemma contains_app p s : contains p s = true <-> exists a b, s = a ++ p ++ b.
Proof.
  induction s as [|x s IH]; simpl.
  - rewrite orb_false_r, startswith_app. split.
    + intros [t H]; exists [], t; exact H.
    + intros [a [b H]]. destruct a; simpl in H; [exists b; exact H|discriminate].
  - rewrite orb_true_iff, startswith_app, IH. split.
    + intros [[t H]|[a [b H]]]; [exists [], t; exact H|exists (x :: a), b; simpl; congruence].
    + intros [a [b H]]. destruct a as [|y a]; simpl in H.
      * left; exists b; exact H.
      * inversion H; subst. right; exists a, b; reflexivity.
Qed.

Lemma split1_Some c s a b : split1 c s = Some (a, b) <-> s = a ++ c :: b /\ ~ In c a.
Proof.
  revert a b; induction s as [|x s IH]; intros a b; simpl.
  - split; [discriminate|intros [H _]; destruct a; discriminate].
  - destruct (N.eqb_spec x c) as [->|Hx].
    + split.
      * intros H; inversion H; subst; split; auto.
      * intros [H Hn]. destruct a as [|y a]; inversion H; subst; [reflexivity|].
        exfalso; apply Hn; left; reflexivity.
    + destruct (split1 c s) as [[a' b']|] eqn:E.
      * split.
        -- intros H; inversion H; subst. destruct (proj1 (IH a' b) eq_refl) as [-> Hn].
           split; [reflexivity|]. intros [->|Hi]; [apply Hx; reflexivity|exact (Hn Hi)].
        -- intros [H Hn]. destruct a as [|y a]; inversion H; subst; [exfalso; apply Hx; reflexivity|].
           assert (Hi : ~ In c a) by (intros Hi; apply Hn; right; exact Hi).
           pose proof (proj2 (IH a b) (conj eq_refl Hi)) as H2. inversion H2; subst; reflexivity.
      * split; [discriminate|]. intros [H Hn].
        destruct a as [|y a]; inversion H; subst; [exfalso; apply Hx; reflexivity|].
        assert (Hi : ~ In c a) by (intros Hi; apply Hn; right; exact Hi).
        pose proof (proj2 (IH a b) (conj eq_refl Hi)) as H2. discriminate.
Qed.

Lemma split1_None c s : split1 c s = None <-> ~ In c s.
Proof.
  induction s as [|x s IH]; simpl; [tauto|].
  destruct (N.eqb_spec x c) as [->|Hx]; [split; [discriminate|tauto]|].
  destruct (split1 c s) as [[a b]|].
  - split; [discriminate|]. intros H. exfalso. apply H; right.
    destruct IH as [_ IH]. destruct (in_dec N.eq_dec c s) as [Hi|Hi]; [exact Hi|].
    specialize (IH Hi); discriminate.
  - split; [|auto]. intros _ [->|Hi]; [apply Hx; reflexivity|]. exact (proj1 IH eq_refl Hi).
Qed.

Lemma rsplit1_None c s : rsplit1 c s = None <-> ~ In c s.
Proof.
  induction s as [|x s IH]; simpl; [tauto|].
  destruct (rsplit1 c s) as [[a b]|].
  - split; [discriminate|]. intros H; exfalso; apply H; right.
    destruct (in_dec N.eq_dec c s) as [Hi|Hi]; [exact Hi|]. apply IH in Hi; discriminate.
  - destruct (N.eqb_spec x c) as [->|Hx]; [split; [discriminate|tauto]|].
    split; [|auto]. intros _ [->|Hi]; [apply Hx; reflexivity|]. exact (proj1 IH eq_refl Hi).
Qed.

Lemma rsplit1_Some c s a b : rsplit1 c s = Some (a, b) <-> s = a ++ c :: b /\ ~ In c b.
Proof.
  revert a b; induction s as [|x s IH]; intros a b; simpl.
  - split; [discriminate|intros [H _]; destruct a; discriminate].
  - destruct (rsplit1 c s) as [[a' b']|] eqn:E.
    + split.
      * intros H; inversion H; subst. destruct (proj1 (IH a' b) eq_refl) as [-> Hn]. auto.
      * intros [H Hn]. destruct a as [|y a]; inversion H; subst.
        -- exfalso. apply Hn. destruct (proj1 (IH a' b') eq_refl) as [-> _].
           apply in_or_app; right; left; reflexivity.
        -- pose proof (proj2 (IH a b) (conj eq_refl Hn)) as H2. inversion H2; subst; reflexivity.
    + apply rsplit1_None in E. destruct (N.eqb_spec x c) as [->|Hx].
      * split.
        -- intros H; inversion H; subst; auto.
        -- intros [H Hn]. destruct a as [|y a]; inversion H; subst; [reflexivity|].
           exfalso; apply E; apply in_or_app; right; left; reflexivity.
      * split; [discriminate|]. intros [H Hn]. exfalso.
        destruct a as [|y a]; inversion H; subst; [apply Hx; reflexivity|].
        apply E; apply in_or_app; right; left; reflexivity.
Qed.

Lemma split_char_nonempty c s : split_char c s <> [].
Proof.
  destruct s as [|x s]; simpl; [discriminate|].
  destruct (N.eqb x c); [discriminate|]. destruct (split_char c s); discriminate.
Qed.

Lemma split_char_no_sep c s w : In w (split_char c s) -> ~ In c w.
Proof.
  revert w; induction s as [|x s IH]; intros w; simpl.
  - intros [<-|[]] [].
  - destruct (N.eqb_spec x c) as [->|Hx].
    + intros [<-|Hi]; [intros []|apply IH; exact Hi].
    + destruct (split_char c s) as [|v vs] eqn:E.
      * intros [<-|[]] [->|[]]; apply Hx; reflexivity.
      * intros [<-|Hi].
        -- intros [->|Hi]; [apply Hx; reflexivity|]. apply (IH v); [left; reflexivity|exact Hi].
        -- apply IH; right; exact Hi.
Qed.

Lemma join_cons_sep c w l : l <> [] -> join [c] (w :: l) = w ++ c :: join [c] l.
Proof. destruct l; [congruence|intros _; reflexivity]. Qed.

Lemma join_split_char c s : join [c] (split_char c s) = s.
Proof.
  induction s as [|x s IH]; simpl; [reflexivity|].
  pose proof (split_char_nonempty c s) as Hne.
  destruct (N.eqb_spec x c) as [->|Hx].
  - rewrite join_cons_sep by exact Hne. simpl. rewrite IH; reflexivity.
  - destruct (split_char c s) as [|v vs] eqn:E; [congruence|].
    destruct vs as [|u us]; simpl in *; rewrite <- IH; reflexivity.
Qed.

Lemma split_char_join c l :
  l <> [] -> Forall (fun w => ~ In c w) l -> split_char c (join [c] l) = l.
Proof.
  assert (Hw : forall w, ~ In c w -> split_char c w = [w]).
  { induction w as [|x w IH]; intros Hn; simpl; [reflexivity|].
    destruct (N.eqb_spec x c) as [->|Hx]; [exfalso; apply Hn; left; reflexivity|].
    rewrite IH by (intros Hi; apply Hn; right; exact Hi). reflexivity. }
  assert (Hc : forall w t, ~ In c w -> split_char c (w ++ c :: t) = w :: split_char c t).
  { induction w as [|x w IH]; intros t Hn; simpl.
    - rewrite N.eqb_refl; reflexivity.
    - destruct (N.eqb_spec x c) as [->|Hx]; [exfalso; apply Hn; left; reflexivity|].
      rewrite IH by (intros Hi; apply Hn; right; exact Hi). reflexivity. }
  induction l as [|w l IH]; intros Hne Hf; [congruence|].
  inversion Hf; subst. destruct l as [|v l].
  - simpl. apply Hw; assumption.
  - rewrite join_cons_sep by discriminate. rewrite Hc by assumption.
    rewrite IH by (discriminate || assumption). reflexivity.
Qed.

Lemma lower_char_idem c : lower_char (lower_char c) = lower_char c.
Proof.
  unfold lower_char. destruct (N.leb 65 c && N.leb c 90) eqn:E; [|rewrite E; reflexivity].
  apply andb_true_iff in E. rewrite !N.leb_le in E.
  destruct (N.leb 65 (c + 32) && N.leb (c + 32) 90) eqn:E2; [|reflexivity].
  apply andb_true_iff in E2. rewrite !N.leb_le in E2. lia.
Qed.

Lemma lower_idem s : lower (lower s) = lower s.
Proof. unfold lower. rewrite map_map. apply map_ext. exact lower_char_idem. Qed.

Lemma drop_while_app_all {A} (p : A -> bool) a b :
  forallb p a = true -> drop_while p (a ++ b) = drop_while p b.
Proof.
  induction a as [|x a IH]; simpl; intros H; [reflexivity|].
  apply andb_true_iff in H as [H1 H2]. rewrite H1; apply IH; exact H2.
Qed.

Lemma take_drop_while {A} (p : A -> bool) s : take_while p s ++ drop_while p s = s.
Proof. induction s as [|x s IH]; simpl; [reflexivity|]. destruct (p x); simpl; congruence. Qed.

Lemma drop_while_suffix {A} (p : A -> bool) s : exists a, s = a ++ drop_while p s /\ forallb p a = true.
Proof.
  exists (take_while p s). split; [symmetry; apply take_drop_while|].
  induction s as [|x s IH]; simpl; [reflexivity|]. destruct (p x) eqn:E; simpl; [rewrite E; exact IH|reflexivity].
Qed.

Lemma drop_while_head {A} (p : A -> bool) s x t : drop_while p s = x :: t -> p x = false.
Proof.
  induction s as [|y s IH]; simpl; [discriminate|].
  destruct (p y) eqn:E; [exact IH|]. intros H; inversion H; subst; exact E.
Qed.

Lemma drop_while_idem {A} (p : A -> bool) s : drop_while p (drop_while p s) = drop_while p s.
Proof.
  destruct (drop_while p s) as [|x t] eqn:E; [reflexivity|].
  simpl. rewrite (drop_while_head _ _ _ _ E). reflexivity.
Qed.

Lemma drop_while_nil {A} (p : A -> bool) s : drop_while p s = [] <-> forallb p s = true.
Proof.
  induction s as [|x s IH]; simpl; [tauto|]. destruct (p x); simpl; [exact IH|split; discriminate].
Qed.

Global Arguments startswith : simpl never.
Global Arguments contains : simpl never.
Global Arguments streqb : simpl never.
Global Arguments mem_str : simpl never.
