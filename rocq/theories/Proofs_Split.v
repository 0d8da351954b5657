(** What the parts of a message are made of: its rows, in order; and that texts without asterisks
    in their heads are split. *)
From Coq Require Import Lia.
From Verif Require Import PyStr PyDict PyMime PyEmail Spec_Message Proofs_Email.

(** ** Subsequences *)
Lemma from_refl {A} (l : list A) : from l l.
Proof. induction l; [apply from_nothing|apply from_with; assumption]. Qed.
Lemma from_nil {A} (l : list A) : from [] l.
Proof. induction l; [apply from_nothing|apply from_without; assumption]. Qed.
Lemma from_trans {A} (b c : list A) : from b c -> forall a, from a b -> from a c.
Proof.
  induction 1 as [|x b c H IH|x b c H IH]; intros a F; [exact F|apply from_without, IH, F|].
  inversion F; subst; [apply from_without, IH; assumption|apply from_with, IH; assumption].
Qed.
Lemma from_app {A} (a b : list A) : from a b -> forall c d, from c d -> from (a ++ c) (b ++ d).
Proof. induction 1; intros c d F; cbn [app]; [exact F|apply from_without; auto|apply from_with; auto]. Qed.
Lemma from_incl {A} (a b : list A) : from a b -> incl a b.
Proof. induction 1; intros y Y; [exact Y|right; auto|destruct Y as [<-|Y]; [left; reflexivity|right; auto]]. Qed.
Lemma from_tail {A} (a b : list A) : from a (b ++ a).
Proof. induction b; [apply from_refl|apply from_without; assumption]. Qed.
Lemma from_map {A B} (f : A -> B) a b : from a b -> from (map f a) (map f b).
Proof. induction 1; cbn [map]; [apply from_nothing|apply from_without; assumption|apply from_with; assumption]. Qed.
Lemma from_filter {A} (f : A -> bool) a b : from a b -> from (filter f a) (filter f b).
Proof. induction 1 as [|x|x]; cbn [filter]; [apply from_nothing|destruct (f x); [apply from_without|]; assumption|destruct (f x); [apply from_with|]; assumption]. Qed.

(** ** Lines of a text, put together again *)
Definition ended (l : str) : Prop := exists x, l = x ++ [10%N] /\ ~ In 10%N x.
Fixpoint proper_lines (ls : list str) : Prop :=
  match ls with
  | [] => True
  | l :: r => (ended l \/ (~ In 10%N l /\ r = [])) /\ l <> [] /\ proper_lines r
  end.
Lemma lines_proper s : proper_lines (lines s).
Proof.
  induction s as [|c s IH]; [exact I|]. cbn [lines]. destruct (N.eqb_spec c 10) as [->|N].
  - cbn [proper_lines]. split; [left; exists []; split; [reflexivity|intros []]|]. split; [discriminate|exact IH].
  - destruct (lines s) as [|l ls]; cbn [proper_lines] in *.
    + split; [right; split; [intros [K|[]]; congruence|reflexivity]|]. split; [discriminate|exact I].
    + destruct IH as (A & _ & B). split; [|split; [discriminate|exact B]]. destruct A as [(x & -> & X)|[A ->]]; [left; exists (c :: x); split; [reflexivity|]|right; split; [|reflexivity]]; intros [K|K]; try congruence; contradiction.
Qed.
Lemma proper_from a b : from a b -> proper_lines b -> proper_lines a.
Proof.
  induction 1 as [|x a b H IH|x a b H IH]; intros P; [exact P|apply IH, P|]. cbn [proper_lines] in *. destruct P as (A & B & C). split; [|split; [exact B|apply IH, C]].
  destruct A as [A|[A ->]]; [left; exact A|right; split; [exact A|inversion H; reflexivity]].
Qed.
Lemma lines_concat ls : proper_lines ls -> lines (concat ls) = ls.
Proof.
  induction ls as [|l r IH]; intros P; [reflexivity|]. cbn [proper_lines] in P. destruct P as (A & B & C). cbn [concat]. destruct A as [(x & -> & X)|[A ->]].
  - rewrite <- app_assoc. cbn [app]. rewrite lines_row by exact X. rewrite IH by exact C. reflexivity.
  - cbn [concat]. rewrite app_nil_r. rewrite lines_last by exact A. destruct l; [contradiction|reflexivity].
Qed.
Definition filled (x : str) : bool := match x with [] => false | _ => true end.
Definition R (ls : list str) : list str := filter filled (map chomp ls).
Lemma R_app a b : R (a ++ b) = R a ++ R b.
Proof. unfold R. rewrite map_app. apply filter_app. Qed.
Lemma R_chomp t : R (lines (chomp t)) = R (lines t).
Proof.
  unfold chomp. destruct (endswith [10%N] t) eqn:E; [|reflexivity]. apply endswith_app in E as [x ->]. rewrite removelast_last.
  assert (G : forall y, R (lines (y ++ [10%N])) = R (lines y)); [|symmetry; apply G]. clear. intros y.
  assert (H := rows_lines y). assert (H' := rows_lines (y ++ [10%N])). 
  assert (K : split_char 10%N (y ++ [10%N]) = split_char 10%N y ++ [[]]). { clear. induction y as [|c y IH]; [reflexivity|]. cbn [app split_char]. rewrite IH. destruct (N.eqb c 10); [reflexivity|]. assert (NE : split_char 10%N y <> []). { clear. destruct y as [|d y]; [discriminate|]. cbn [split_char]. destruct (N.eqb d 10); [discriminate|]. destruct (split_char 10%N y); discriminate. } destruct (split_char 10%N y); [contradiction|reflexivity]. }
  assert (LR : forall z, filter filled (last_row z) = []). { intros [|c z]; [reflexivity|]. unfold last_row. destruct (endswith _ _); reflexivity. }
  apply (f_equal (filter filled)) in H, H'. rewrite filter_app, LR, app_nil_r in H, H'. unfold R. rewrite <- H, <- H', K, filter_app. cbn. apply app_nil_r.
Qed.
Lemma R_rows s : R (lines s) = filled_rows s.
Proof.
  unfold filled_rows, rows, R. rewrite rows_lines, filter_app.
  assert (LR : forall z, filter filled (last_row z) = []). { intros [|c z]; [reflexivity|]. unfold last_row. destruct (endswith _ _); reflexivity. }
  fold filled. change (fun r : list N => match r with [] => false | _ :: _ => true end) with filled. rewrite LR, app_nil_r. reflexivity.
Qed.

(** ** Messages *)
Fixpoint message_ind' (P : message -> Prop) (H1 : forall d hs t, P (Message d hs (inl t))) (H2 : forall d hs l, Forall P l -> P (Message d hs (inr l))) (m : message) : P m :=
  match m with
  | Message d hs (inl t) => H1 d hs t
  | Message d hs (inr l) => H2 d hs l ((fix all (l : list message) : Forall P l := match l with [] => Forall_nil P | x :: r => Forall_cons x (message_ind' P H1 H2 x) (all r) end) l)
  end.
Definition text_of (m : message) : list str := match m with Message _ _ (inl t) => [t] | _ => [] end.
Definition texts (m : message) : list str := flat_map text_of (walk m).
Fixpoint chomp_end (l : list message) : list message := match l with [] => [] | [x] => [chomp_last x] | x :: r => x :: chomp_end r end.
Lemma chomp_last_eq m : chomp_last m =
  let '(Message d hs p) := m in
  if streqb (maintype (content_type d hs)) ($"multipart") then m
  else match p with inl t => Message d hs (inl (chomp t)) | inr l => Message d hs (inr (chomp_end l)) end.
Proof.
  destruct m as [d hs p]. cbn [chomp_last]. destruct (streqb _ _); [reflexivity|]. destruct p as [t|l]; [reflexivity|]. reflexivity.
Qed.
Lemma texts_inr d hs l : texts (Message d hs (inr l)) = flat_map texts l.
Proof. unfold texts. cbn [walk flat_map text_of app]. induction l as [|x r IH]; [reflexivity|]. cbn [flat_map]. rewrite flat_map_app, IH. reflexivity. Qed.
Lemma chomp_texts m : R (flat_map lines (texts (chomp_last m))) = R (flat_map lines (texts m)).
Proof.
  induction m as [d hs t|d hs l F] using message_ind'; rewrite chomp_last_eq; cbv beta iota; destruct (streqb _ _); try reflexivity.
  - unfold texts. cbn [walk flat_map text_of app]. rewrite !app_nil_r. apply R_chomp.
  - rewrite !texts_inr. induction l as [|x r IH]; [reflexivity|]. inversion F; subst. destruct r as [|y r].
    + cbn [chomp_end flat_map]. rewrite !app_nil_r. assumption.
    + change (chomp_end (x :: y :: r)) with (x :: chomp_end (y :: r)). cbn [flat_map]. rewrite !flat_map_app, !R_app. f_equal. rewrite IH by assumption. cbn [flat_map]. rewrite !flat_map_app, !R_app. reflexivity.
Qed.
(** Where the fields come from, and that a text is a text *)
Definition ok1 (src : list str) (m : message) : Prop :=
  let '(Message d hs p) := m in
  (exists hl, Forall (fun l => In l src /\ header_line l = true) hl /\ hs = fst (parse_headers true [] hl)) /\
  match p with inl _ => True | inr _ => maintype (content_type d hs) <> $"text" end.
Lemma walk_chomp src m : Forall (ok1 src) (walk m) -> Forall (ok1 src) (walk (chomp_last m)).
Proof.
  induction m as [d hs t|d hs l F] using message_ind'; rewrite chomp_last_eq; cbv beta iota; destruct (streqb _ _); intros O; try exact O.
  - cbn [walk] in *. inversion O; subst. constructor; [assumption|constructor].
  - cbn [walk] in *. inversion O as [|? ? O1 O2]; subst. constructor; [exact O1|]. clear O O1. induction l as [|x r IH]; [constructor|]. inversion F as [|? ? F1 F2]; subst. cbn [flat_map] in O2. apply Forall_app in O2 as [A B]. destruct r as [|y r].
    + cbn [chomp_end flat_map]. rewrite app_nil_r. apply F1, A.
    + change (chomp_end (x :: y :: r)) with (x :: chomp_end (y :: r)). cbn [flat_map]. apply Forall_app. split; [exact A|]. apply IH; assumption.
Qed.

Section Codecs.
Variable decode : str -> bool -> list N -> option (option str).
Notation parse := (parse decode).
Notation blocks := (blocks decode).
Notation parts := (parts decode).
Variable src : list str.
(** [a]: the lines the texts are made of *)
Definition made (ls : list str) (ms : list message) (r : list str) : Prop :=
  exists a, from (a ++ r) ls /\ R (flat_map lines (flat_map texts ms)) = R a /\ Forall (ok1 src) (flat_map walk ms).
Lemma made_more ls ls' ms r : made ls ms r -> from ls ls' -> made ls' ms r.
Proof. intros (a & A & B & C) F. exists a. split; [exact (from_trans _ _ F _ A)|auto]. Qed.
Lemma made_then ls m ms r r' r'' : made ls [m] r -> from r' r -> made r' ms r'' -> made ls (m :: ms) r''.
Proof.
  intros (a & A & B & C) F (a' & A' & B' & C'). exists (a ++ a'). split; [|split].
  - rewrite <- app_assoc. apply (from_trans _ _ A). apply from_app; [apply from_refl|]. exact (from_trans _ _ F _ A').
  - cbn [flat_map] in *. rewrite app_nil_r in B. rewrite flat_map_app, !R_app, B, B'. reflexivity.
  - cbn [flat_map] in *. rewrite app_nil_r in C. apply Forall_app. auto.
Qed.
Lemma made_less ls ms r r' : made ls ms r -> from r' r -> made ls ms r'.
Proof. intros (a & A & B & C) F. exists a. split; [|auto]. apply (from_trans _ _ A). apply from_app; [apply from_refl|exact F]. Qed.
Lemma made_chomp ls m r : made ls [m] r -> made ls [chomp_last m] r.
Proof. intros (a & A & B & C). exists a. cbn [flat_map] in *. rewrite app_nil_r in B, C. rewrite !app_nil_r. split; [exact A|]. split; [rewrite chomp_texts; exact B|apply walk_chomp, C]. Qed.
Lemma readline_from st ls : from (snd (readline st ls)) ls.
Proof. destruct ls as [|l r]; [apply from_nothing|]. cbn [readline]. destruct (stops st l); [apply from_refl|apply from_without, from_refl]. Qed.
Lemma full_from a b : from a b -> full b -> full a.
Proof. intros F H. apply Forall_forall. intros x X. unfold full in H. rewrite Forall_forall in H. apply H. exact (from_incl _ _ F _ X). Qed.
Lemma find_first_from b st ls : st_ok st -> full ls -> let '(a, found, r) := find_first ($"--" ++ b) st ls in from (a ++ r) ls.
Proof.
  intros S F. induction ls as [|l r IH]; [cbn; apply from_nothing|]. cbn [find_first]. inversion F as [|? ? F1 F2]; subst. destruct (stops st l) eqn:E; [apply from_refl|].
  destruct l as [|c l]; [contradiction|]. destruct (separator_line ($"--" ++ b) (c :: l)) as [e|]; [apply from_without, from_refl|].
  specialize (IH F2). destruct (find_first _ st r) as [[a found] r']. cbn [app]. apply from_with, IH.
Qed.
Lemma skip_from b st ls : st_ok st -> full ls -> from (eff (skip_separators ($"--" ++ b) st ls)) ls.
Proof.
  intros S F. induction ls as [|l r IH]; [cbn; apply from_nothing|]. cbn [skip_separators]. inversion F as [|? ? F1 F2]; subst. destruct (stops st l) eqn:E; [apply from_refl|].
  destruct l as [|c l]; [contradiction|]. destruct (separator_line ($"--" ++ b) (c :: l)) as [e|]; [apply from_without; auto|apply from_refl].
Qed.
Lemma all_made f :
  (forall st d ls m r, st_ok st -> incl (eff ls) src -> proper_lines (eff ls) -> parse f st d ls = Got m r -> made (eff ls) [m] r) /\
  (forall st ls ms r, st_ok st -> incl ls src -> proper_lines ls -> blocks f st ls = Got ms r -> made ls ms r) /\
  (forall st b d ls ms r, st_ok st -> incl ls src -> proper_lines ls -> parts f st ($"--" ++ b) d ls = Got ms r -> made ls ms r).
Proof.
  assert (PF : forall ls, proper_lines ls -> full ls). { induction ls as [|l ls IH]; intros P; [constructor|]. destruct P as (_ & A & B). constructor; [exact A|exact (IH B)]. }
  assert (EF : forall ls, full ls -> eff ls = ls). { intros [|[|c l] r] F; try reflexivity. inversion F; contradiction. }
  induction f as [|f (IH1 & IH2 & IH3)]; [split; [|split]; intros; discriminate|]. split; [|split].
  - intros st d ls m r SO IN PL. rewrite parse_S; cbv zeta. assert (RH := read_headers_spec st ls SO (PF _ PL)). destruct (read_headers st ls) as [hl r0]. destruct RH as (F0 & HL & mid & E & M).
    assert (OK : exists hl', Forall (fun l => In l src /\ header_line l = true) hl' /\ fst (parse_headers true [] hl) = fst (parse_headers true [] hl')).
    { exists hl. split; [|reflexivity]. apply Forall_forall. intros l L. split; [apply IN; rewrite E; apply in_or_app; left; exact L|]. rewrite Forall_forall in HL. apply HL, L. }
    assert (PH := parse_headers_spec hl true []). destruct (parse_headers true [] hl) as [hs back]. cbn [fst] in OK.
    set (r1 := back ++ r0). assert (FR : from r1 (eff ls)).
    { subst r1. rewrite E. destruct PH as [[-> _]|(p & l & -> & -> & _)].
      - cbn [app]. rewrite app_assoc. apply from_tail.
      - rewrite <- app_assoc. apply (from_trans (([l] ++ mid ++ r0))); [apply from_tail|]. cbn [app]. apply from_with, from_tail. }
    clearbody r1. assert (P1 := proper_from _ _ FR PL). assert (F1 := PF _ P1). assert (I1 : incl r1 src) by (intros x X; apply IN, (from_incl _ _ FR), X).
    assert (TX : forall a r, from (a ++ r) r1 -> made (eff ls) [Message d hs (inl (concat a))] r).
    { intros a b A. exists a. split; [exact (from_trans _ _ FR _ A)|]. assert (PA : proper_lines a). { apply (proper_from a r1); [|exact P1]. apply (from_trans _ _ A). rewrite <- (app_nil_r a) at 1. apply from_app; [apply from_refl|apply from_nil]. }
      split; [|cbn [flat_map walk app]; constructor; [split; [exact OK|exact I]|constructor]]. cbn [flat_map texts walk text_of app]. unfold texts. cbn [walk flat_map text_of app]. rewrite !app_nil_r, lines_concat by exact PA. reflexivity. }
    assert (TEXT : (let '(a, b) := read_all st r1 in Got (Message d hs (inl (concat a))) b) = Got m r -> made (eff ls) [m] r).
    { assert (RA := read_all_spec st r1 SO F1). destruct (read_all st r1) as [a b]. destruct RA as (-> & _). intros X. injection X as <- <-. apply TX, from_refl. }
    assert (WP : forall x : result (list message), (forall l b, x = Got l b -> made r1 l b) -> maintype (content_type d hs) <> $"text" ->
       match x with Got l b => Got (Message d hs (inr l)) b | Raised => Raised | NoFuel => NoFuel end = Got m r -> made (eff ls) [m] r).
    { intros [l b| |] G T X; [|discriminate|discriminate]. injection X as <- <-. destruct (G l b eq_refl) as (a & A & B & C). exists a. split; [exact (from_trans _ _ FR _ A)|].
      cbn [flat_map]. rewrite !app_nil_r, texts_inr. split; [exact B|]. cbn [walk]. constructor; [split; [exact OK|exact T]|exact C]. }
    destruct (streqb_spec (content_type d hs) ($"message/delivery-status")) as [T|T].
    { apply WP; [intros l b X; apply (IH2 st); assumption|]. rewrite T. discriminate. }
    destruct (streqb_spec (maintype (content_type d hs)) ($"message")) as [T1|T1].
    { intros X. apply (WP (match parse f st ($"text/plain") r1 with Got m b => Got [m] b | Raised => Raised | NoFuel => NoFuel end)); [| |exact X]; [|rewrite T1; discriminate].
      intros l b. destruct (parse f st ($"text/plain") r1) as [m' b'| |] eqn:EP; [|discriminate|discriminate]. intros Y. injection Y as <- <-. rewrite <- (EF r1 F1). apply (IH1 st ($"text/plain")); try (rewrite (EF r1 F1)); assumption. }
    destruct (streqb_spec (maintype (content_type d hs)) ($"multipart")) as [T2|T2]; [|exact TEXT].
    destruct (get_boundary decode hs) as [[b|]|]; [|exact TEXT|discriminate].
    assert (FF := find_first_from b st r1 SO F1). destruct (find_first ($"--" ++ b) st r1) as [[pre found] r2].
    assert (FR2 : from r2 r1) by (exact (from_trans _ _ FF _ (from_tail _ _))). assert (P2 := proper_from _ _ FR2 P1). assert (I2 : incl r2 src) by (intros x X; apply I1, (from_incl _ _ FR2), X). destruct found.
    + apply WP; [|rewrite T2; discriminate]. intros l b' X. apply (made_more r2); [|exact FR2]. apply (IH3 st b _ r2) with (4 := X); assumption.
    + intros X. injection X as <- <-. apply TX. assert (RA := read_all_spec st r2 SO (PF _ P2)). destruct (read_all st r2) as [a b']. destruct RA as (-> & _). cbn [snd]. apply (from_trans _ _ FF). apply from_app; [apply from_refl|apply from_tail].
  - intros st ls ms r SO IN PL. rewrite blocks_S.
    assert (S' : st_ok (AtEmpty :: st)). { intros m [<-|I]; [reflexivity|apply SO, I]. }
    assert (F := PF _ PL). destruct (parse f (AtEmpty :: st) ($"text/plain") ls) as [m r1| |] eqn:EP; [|discriminate|discriminate].
    apply IH1 in EP; [|exact S'|rewrite (EF ls F); exact IN|rewrite (EF ls F); exact PL]. rewrite (EF ls F) in EP.
    assert (FR1 : from r1 ls). { destruct EP as (a & A & _). exact (from_trans _ _ A _ (from_tail _ _)). }
    assert (FR2 := readline_from st r1). set (r2 := snd (readline st r1)) in *. clearbody r2. assert (FR3 := readline_from st r2). destruct (readline st r2) as [l r3] eqn:ER. cbn [snd] in FR3.
    assert (Q := proper_from _ _ (from_trans _ _ FR1 _ FR2) PL).
    destruct l as [|c l]; [intros X; injection X as <- <-; apply (made_less ls [m] r1); [exact EP|exact (from_trans _ _ FR2 _ FR3)]|].
    assert (ER' : r2 = (c :: l) :: r3). { destruct r2 as [|x r2]; [discriminate|]. cbn [readline] in ER. destruct (stops st x); [discriminate|]. injection ER as -> ->. reflexivity. }
    rewrite <- ER'. destruct (blocks f st r2) as [ms' b| |] eqn:EB; [|discriminate|discriminate]. intros X. injection X as <- <-.
    apply (made_then ls m ms' r1 r2 b); [exact EP|exact FR2|]. apply (IH2 st r2) with (4 := EB); [exact SO| |exact Q]. intros x X. apply IN, (from_incl _ _ FR1), (from_incl _ _ FR2), X.
  - intros st b d ls ms r SO IN PL. rewrite parts_S.
    assert (S' : st_ok (AtSeparator ($"--" ++ b) :: st)). { intros m [<-|I]; [apply sep_ok|apply SO, I]. }
    assert (F := PF _ PL). assert (SK := skip_from b st ls SO F). destruct (parse f _ d _) as [m r1| |] eqn:EP; [|discriminate|discriminate].
    apply IH1 in EP; [|exact S'|intros x X; apply IN, (from_incl _ _ SK), X|exact (proper_from _ _ SK PL)].
    apply (made_more _ ls) in EP; [|exact SK]. assert (FR1 : from r1 ls). { destruct EP as (a & A & _). exact (from_trans _ _ A _ (from_tail _ _)). }
    assert (FR2 := readline_from st r1). destruct (readline st r1) as [l r2]. cbn [snd] in FR2. assert (EC := made_chomp _ _ _ EP).
    destruct l as [|c l]; [intros X; injection X as <- <-; apply (made_less _ _ _ _ EC FR2)|].
    assert (Q := proper_from _ _ (from_trans _ _ FR1 _ FR2) PL).
    destruct (separator_line ($"--" ++ b) (c :: l)) as [[|]|]; [| |discriminate].
    + intros X. injection X as <- <-. apply (made_less _ _ _ _ EC). assert (RA := read_all_spec st r2 SO (PF _ Q)). destruct (read_all st r2) as [a r']. destruct RA as (-> & _). cbn [snd]. exact (from_trans _ _ FR2 _ (from_tail _ _)).
    + destruct (parts f st ($"--" ++ b) d r2) as [ms' b'| |] eqn:EB; [|discriminate|discriminate]. intros X. injection X as <- <-.
      apply (made_then ls _ ms' r1 r2 b'); [exact EC|exact FR2|]. apply (IH3 st b d r2) with (4 := EB); [exact SO| |exact Q]. intros x X. apply IN, (from_incl _ _ FR1), (from_incl _ _ FR2), X.
Qed.
End Codecs.

(** ** Heads without asterisks *)
Lemma drop_while_incl {A} (p : A -> bool) s : incl (drop_while p s) s.
Proof. induction s as [|c s IH]; [apply incl_refl|]. cbn [drop_while]. destruct (p c); [apply incl_tl, IH|apply incl_refl]. Qed.
Lemma lstrip_p_incl p s : incl (lstrip_p p s) s.
Proof. apply drop_while_incl. Qed.
Lemma rstrip_p_incl p s : incl (rstrip_p p s) s.
Proof. unfold rstrip_p. intros c C. apply in_rev. apply in_rev in C. exact (drop_while_incl p (rev s) c C). Qed.
Lemma strip_incl s : incl (strip s) s.
Proof. intros c C. apply (lstrip_p_incl is_space). exact (rstrip_p_incl is_space _ c C). Qed.
Lemma split1_incl c s a b : split1 c s = Some (a, b) -> incl a s /\ incl b s.
Proof.
  revert a b. induction s as [|x s IH]; intros a b E; [discriminate|]. cbn [split1] in E. destruct (N.eqb x c); [injection E as <- <-; split; [intros ? []|apply incl_tl, incl_refl]|].
  destruct (split1 c s) as [[a' b']|]; [|discriminate]. injection E as <- <-. destruct (IH _ _ eq_refl) as [A B]. split; [intros y [<-|Y]; [left; reflexivity|right; apply A, Y]|intros y Y; right; apply B, Y].
Qed.
Lemma split1_nothing c s : ~ In c s -> split1 c s = None.
Proof.
  induction s as [|x s IH]; intros N; [reflexivity|]. cbn [split1]. destruct (N.eqb_spec x c) as [->|_]; [destruct N; left; reflexivity|]. rewrite IH; [reflexivity|]. intros K. apply N. right. exact K.
Qed.
Lemma lower_star s : In 42%N (lower s) -> In 42%N s.
Proof.
  unfold lower. intros K. apply in_map_iff in K as (c & E & K). unfold lower_char in E. destruct (N.leb_spec 65 c); cbn [andb] in E; [|subst; exact K]. destruct (N.leb_spec c 90); cbn in E; [lia|subst; exact K].
Qed.
Lemma fields_star k ls : Forall (fun l => ~ In k l) ls -> forall first cur, Forall (fun l => ~ In k l) cur ->
  Forall (fun p : str * str => ~ In k (snd p)) (fst (parse_headers first cur ls)).
Proof.
  assert (FO : forall cur, Forall (fun l => ~ In k l) cur -> Forall (fun p : str * str => ~ In k (snd p)) (field_of cur)).
  { intros [|l more] C; [constructor|]. cbn [field_of]. inversion C as [|? ? C1 C2]; subst. destruct (split1 58%N l) as [[n v]|] eqn:E; [|constructor]. constructor; [|constructor]. cbn [snd].
    intros K. apply rstrip_p_incl in K. apply in_app_or in K as [K|K]; [apply lstrip_p_incl in K; apply split1_incl in E as [_ E]; apply C1, E, K|].
    apply in_concat in K as (x & X & K). rewrite Forall_forall in C2. exact (C2 x X K). }
  induction ls as [|l r IH]; intros NS first cur C; [apply FO, C|]. cbn [parse_headers]. inversion NS as [|? ? N1 N2]; subst.
  assert (GO : forall c, Forall (fun l => ~ In k l) c -> Forall (fun p : str * str => ~ In k (snd p)) (fst (let '(a, b) := parse_headers false c r in (field_of cur ++ a, b)))).
  { intros c H. specialize (IH N2 false c H). destruct (parse_headers false c r) as [a b]. cbn [fst] in *. apply Forall_app. auto. }
  destruct (indented l); [apply IH; [exact N2|]; destruct cur; [constructor|apply Forall_app; auto]|].
  destruct (startswith ($"From ") l); [destruct first; [apply GO; constructor|]; destruct r; [apply FO, C|apply GO; constructor]|].
  destruct (startswith ($":") l); apply GO; auto.
Qed.
Lemma get_in name hs v : get name hs = Some v -> exists k, In (k, v) hs.
Proof. induction hs as [|[k w] hs IH]; intros E; [discriminate|]. cbn [get] in E. destruct (streqb _ _); [injection E as ->; exists k; left; reflexivity|]. destruct (IH E) as [k' K]. exists k'. right. exact K. Qed.
Lemma param_end_incl s : forall e q, let '(a, b) := param_end e q s in incl a s /\ incl b s.
Proof.
  induction s as [|c s IH]; intros e q; [cbn; split; apply incl_refl|]. cbn [param_end]. destruct (N.eqb c 59 && negb q); [split; [intros ? []|apply incl_refl]|].
  specialize (IH (N.eqb c 92) (if N.eqb c 34 && negb e then negb q else q)). destruct (param_end _ _ s) as [a b]. destruct IH as [A B]. split; [intros y [<-|Y]; [left; reflexivity|right; apply A, Y]|intros y Y; right; apply B, Y].
Qed.
Lemma params_from_incl f s x : In x (params_from f s) -> incl x s.
Proof.
  revert s. induction f as [|f IH]; intros s K; [destruct K|]. cbn [params_from] in K. assert (PE := param_end_incl s false false). destruct (param_end false false s) as [a b]. destruct PE as [A B].
  destruct K as [<-|K]; [exact A|]. destruct b as [|c b]; [destruct K|]. intros y Y. apply B. right. exact (IH b K y Y).
Qed.
Lemma params_star v : ~ In 42%N v -> Forall (fun p => continuation (fst p) = None) (raw_params v).
Proof.
  intros N. unfold raw_params. apply Forall_map, Forall_forall. intros x X. assert (NX : ~ In 42%N x) by (intros K; apply N; exact (params_from_incl _ _ _ X _ K)).
  unfold continuation. rewrite split1_nothing; [reflexivity|]. unfold param_of. destruct (split1 61%N x) as [[n w]|] eqn:E; cbn [fst].
  - intros K. apply strip_incl in K. apply lower_star in K. apply strip_incl in K. apply split1_incl in E as [E _]. exact (NX (E _ K)).
  - intros K. apply strip_incl in K. exact (NX K).
Qed.
(** The parameters are then as they stand there *)
Definition plain_params (ps : list (str * str)) : list (str * value) :=
  match ps with [] => [] | (n, v) :: r => (n, Plain v) :: map (fun p => (fst p, Plain (in_quotes (quote (unquote (snd p)))))) r end.
Lemma decode_plain ps : Forall (fun p => continuation (fst p) = None) ps -> decode_params ps = Some (plain_params ps).
Proof.
  intros F. destruct ps as [|[n v] r]; [reflexivity|]. inversion F as [|? ? _ F2]; subst. cbn [decode_params plain_params].
  assert (S0 : forall d, sections r d = d). { clear -F2. induction r as [|[n v] r IH]; intros d; [reflexivity|]. inversion F2 as [|? ? A B]; subst. cbn [sections]. cbn [fst] in A. rewrite A. apply IH, B. }
  rewrite S0. cbn [assemble_all option_map]. f_equal. f_equal. rewrite app_nil_r. clear -F2. induction r as [|p r IH]; [reflexivity|]. inversion F2 as [|? ? A B]; subst. cbn [flat_map map]. rewrite A, IH by exact B. reflexivity.
Qed.
Lemma get_param_star name hs : Forall (fun p : str * str => ~ In 42%N (snd p)) hs -> get_param name hs = Some None \/ exists t, get_param name hs = Some (Some (Plain t)).
Proof.
  intros F. unfold get_param. destruct (get ($"content-type") hs) as [v|] eqn:E; [|left; reflexivity]. apply get_in in E as [k K]. rewrite Forall_forall in F. assert (N := F _ K). cbn [snd] in N.
  rewrite decode_plain by (apply params_star, N). cbn [option_map]. 
  assert (P : forall l, Forall (fun p : str * value => exists t, snd p = Plain t) l -> find_param name l = None \/ exists t, find_param name l = Some (Plain t)).
  { induction l as [|[x y] l IH]; intros Q; [left; reflexivity|]. inversion Q as [|? ? Q1 Q2]; subst. cbn [find_param]. destruct (streqb _ _); [|apply IH, Q2]. destruct Q1 as [t Q1]. cbn [snd] in Q1. rewrite Q1. right. eauto. }
  destruct (P (plain_params (raw_params v))) as [->|[t ->]]; [|left; reflexivity|right; eauto]. destruct (raw_params v) as [|[x y] l]; [constructor|]. cbn [plain_params]. constructor; [cbn; eauto|]. apply Forall_map, Forall_forall. intros p _. cbn. eauto.
Qed.
Lemma header_row s l : In l (lines s) -> header_line l = true -> head_row (chomp l) /\ (In 42%N l -> In 42%N (chomp l)).
Proof.
  intros I0 H. destruct (lines_cases s l I0) as [(x & -> & X)|[NE X]].
  - rewrite chomp_row. split; [|intros K; apply in_app_or in K as [K|[K|[]]]; [exact K|discriminate]]. unfold header_line in H. apply orb_prop in H as [H|H]; [apply orb_prop in H as [H|H]|].
    + right. left. apply startswith_app in H as [t E]. destruct (@exists_last _ t) as (t' & c & ->). { intros ->. rewrite app_nil_r in E. apply (f_equal (@rev N)) in E. rewrite rev_app_distr in E. discriminate. }
      rewrite app_assoc in E. apply app_inj_tail in E as [E _]. eauto.
    + right. right. clear I0. revert H. clear X. assert (G : forall y, name_colon (y ++ [10%N]) = true -> exists n r, y = n ++ $":" ++ r /\ Forall (fun c => (33 <= c)%N /\ (c <= 126)%N /\ c <> 58%N) n); [|apply G].
      induction y as [|c y IH]; intros H; [discriminate|]. cbn [app name_colon] in H. destruct (N.eqb_spec c 58) as [->|N]; [exists [], y; split; [reflexivity|constructor]|].
      apply andb_prop in H as [A B]. destruct (IH B) as (n & r & -> & F). exists (c :: n), r. split; [reflexivity|]. constructor; [|exact F]. unfold ftext in A. apply orb_prop in A as [A|A]; apply andb_prop in A as [A A']; apply N.leb_le in A, A'; lia.
    + left. destruct x as [|c x]; [discriminate|]. cbn in H. unfold blank in H. exists x. apply orb_prop in H as [H|H]; apply N.eqb_eq in H; subst; auto.
  - rewrite chomp_no by exact X. split; [|auto]. unfold header_line in H. apply orb_prop in H as [H|H]; [apply orb_prop in H as [H|H]|].
    + right. left. apply startswith_app in H as [t E]. eauto.
    + right. right. clear I0 NE X. revert H. induction l as [|c y IH]; intros H; [discriminate|]. cbn [name_colon] in H. destruct (N.eqb_spec c 58) as [->|N]; [exists [], y; split; [reflexivity|constructor]|].
      apply andb_prop in H as [A B]. destruct (IH B) as (n & r & -> & F). exists (c :: n), r. split; [reflexivity|]. constructor; [|exact F]. unfold ftext in A. apply orb_prop in A as [A|A]; apply andb_prop in A as [A A']; apply N.leb_le in A, A'; lia.
    + left. destruct l as [|c x]; [discriminate|]. cbn in H. unfold blank in H. exists x. apply orb_prop in H as [H|H]; apply N.eqb_eq in H; subst; auto.
Qed.
Section Star.
Variable decode : str -> bool -> list N -> option (option str).
Definition tame (s : str) : Prop := forall row, In row (rows s) -> head_row row -> ~ In 42%N row.
Lemma tame_lines s hl : tame s -> Forall (fun l => In l (lines s) /\ header_line l = true) hl -> Forall (fun l => ~ In 42%N l) hl.
Proof. intros T F. eapply Forall_impl; [|exact F]. intros l [A B] K. destruct (header_row s l A B) as [C D]. exact (T _ (line_row s l A) C (D K)). Qed.
Theorem split_tame s : tame s -> exists m, message_from_string decode s = Some m.
Proof.
  intros T. assert (K := splitting_ends decode (fun l => In l (lines s)) s ltac:(apply Forall_forall; auto)). unfold message_from_string.
  destruct (parse decode _ _ _ (lines s)) as [m r| |]; [eauto| |destruct K]. exfalso. apply K. intros hl F. assert (ST := fields_star 42%N hl (tame_lines s hl T F) true [] (Forall_nil _)).
  unfold get_boundary. destruct (get_param_star ($"boundary") _ ST) as [->|[t ->]]; discriminate.
Qed.
Theorem made_of s m : message_from_string decode s = Some m -> from (filter filled (flat_map rows (texts m))) (filled_rows s) /\ Forall (ok1 (lines s)) (walk m).
Proof.
  unfold message_from_string. destruct (parse decode _ _ _ (lines s)) as [m' r| |] eqn:E; [|discriminate|discriminate]. intros X. injection X as ->.
  assert (EF : eff (lines s) = lines s). { assert (F := lines_full s). destruct (lines s) as [|[|c l] r']; try reflexivity. inversion F; contradiction. }
  destruct (all_made decode (lines s) (S (3 * S (length (lines s))))) as (G & _ & _). apply G in E; [|intros x []|rewrite EF; apply incl_refl|rewrite EF; apply lines_proper]. rewrite EF in E.
  destruct E as (a & A & B & C). cbn [flat_map] in B, C. rewrite app_nil_r in B, C. split; [|exact C].
  assert (RW : forall l, filter filled (flat_map rows l) = R (flat_map lines l)). { induction l as [|x l IH]; [reflexivity|]. cbn [flat_map]. rewrite filter_app, R_app, IH, R_rows. reflexivity. }
  rewrite RW, B, <- R_rows. unfold R. apply from_filter, from_map. apply (from_trans _ _ A). rewrite <- (app_nil_r a) at 1. apply from_app; [apply from_refl|apply from_nil].
Qed.
End Star.
