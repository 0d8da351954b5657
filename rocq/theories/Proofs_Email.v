(** The model of the [email] package: lines, and that splitting a message always ends. *)
From Coq Require Import Lia.
From Verif Require Import PyStr PyDict PyMime PyEmail.

(** ** Lines *)
Lemma concat_lines s : concat (lines s) = s.
Proof.
  induction s as [|c s IH]; [reflexivity|]. cbn [lines]. destruct (N.eqb_spec c 10) as [->|N]; [cbn [concat app]; rewrite IH; reflexivity|].
  destruct (lines s) as [|l ls]; cbn [concat app] in *; [rewrite <- IH; reflexivity|rewrite IH; reflexivity].
Qed.
Definition full (ls : list str) : Prop := Forall (fun l => l <> []) ls.
Lemma lines_full s : full (lines s).
Proof.
  induction s as [|c s IH]; [constructor|]. cbn [lines]. destruct (N.eqb c 10); [constructor; [discriminate|exact IH]|].
  destruct (lines s) as [|l ls]; constructor; try discriminate; [constructor|]. inversion IH; assumption.
Qed.
Lemma lines_row x s : ~ In 10%N x -> lines (x ++ 10%N :: s) = (x ++ [10%N]) :: lines s.
Proof.
  induction x as [|c x IH]; intros N; [cbn [app lines]; rewrite N.eqb_refl; reflexivity|]. cbn [app lines]. destruct (N.eqb_spec c 10) as [->|_]; [destruct N; left; reflexivity|].
  rewrite IH by (intros I; apply N; right; exact I). reflexivity.
Qed.
Lemma lines_last x : ~ In 10%N x -> lines x = match x with [] => [] | _ => [x] end.
Proof.
  induction x as [|c x IH]; intros N; [reflexivity|]. cbn [lines]. destruct (N.eqb_spec c 10) as [->|_]; [destruct N; left; reflexivity|].
  rewrite IH by (intros I; apply N; right; exact I). destruct x; reflexivity.
Qed.
Lemma lines_app x y : lines (x ++ 10%N :: y) = lines (x ++ [10%N]) ++ lines y.
Proof.
  induction x as [|c x IH]; [cbn [app lines]; rewrite N.eqb_refl; reflexivity|]. cbn [app lines]. destruct (N.eqb c 10); [rewrite IH; reflexivity|].
  rewrite IH. assert (K : lines (x ++ [10%N]) <> []). { clear. destruct x as [|d x]; [discriminate|]. cbn [app lines]. destruct (N.eqb d 10); [discriminate|]. destruct (lines (x ++ [10%N])); discriminate. }
  destruct (lines (x ++ [10%N])); [contradiction|]. reflexivity.
Qed.
Lemma chomp_row x : chomp (x ++ [10%N]) = x.
Proof. unfold chomp. assert (E : endswith [10%N] (x ++ [10%N]) = true) by (apply endswith_app; eauto). rewrite E. apply removelast_last. Qed.
Lemma chomp_no x : ~ In 10%N x -> chomp x = x.
Proof. intros N. unfold chomp. destruct (endswith [10%N] x) eqn:E; [|reflexivity]. apply endswith_app in E as [t ->]. destruct N. apply in_or_app. right. left. reflexivity. Qed.
(** The lines of a text are its rows, each with a line feed but perhaps the last *)
Lemma lines_cases s l : In l (lines s) -> (exists x, l = x ++ [10%N] /\ ~ In 10%N x) \/ (l <> [] /\ ~ In 10%N l).
Proof.
  revert l. induction s as [|c s IH]; intros l I; [destruct I|]. cbn [lines] in I. destruct (N.eqb_spec c 10) as [->|N].
  - destruct I as [<-|I]; [left; exists []; split; [reflexivity|intros []]|exact (IH l I)].
  - destruct (lines s) as [|x ls] eqn:E; [destruct I as [<-|[]]; right; split; [discriminate|intros [K|[]]; congruence]|].
    destruct I as [<-|I]; [|exact (IH l (or_intror I))]. destruct (IH x (or_introl eq_refl)) as [(y & -> & Y)|[A B]]; [left; exists (c :: y); split; [reflexivity|intros [K|K]; [congruence|contradiction]]|right; split; [discriminate|intros [K|K]; [congruence|contradiction]]].
Qed.
Lemma chomp_cons c x : x <> [] -> chomp (c :: x) = c :: chomp x.
Proof.
  intros NE. unfold chomp. assert (E : endswith [10%N] (c :: x) = endswith [10%N] x).
  { apply eq_true_iff_eq. rewrite !endswith_app. split; intros [t E]; [|exists (c :: t); rewrite E; reflexivity]. destruct t as [|d t]; [injection E as -> ->; contradiction|]. injection E as -> ->. eauto. }
  rewrite E. destruct (endswith [10%N] x); [|reflexivity]. destruct x; [contradiction|reflexivity].
Qed.
Definition last_row (s : str) : list str := match s with [] => [[]] | _ => if endswith [10%N] s then [[]] else [] end.
Lemma rows_lines s : split_char 10%N s = map chomp (lines s) ++ last_row s.
Proof.
  induction s as [|c s IH]; [reflexivity|]. cbn [lines split_char]. rewrite IH.
  assert (L : last_row (c :: s) = match s with [] => if N.eqb c 10 then [[]] else [] | _ => last_row s end).
  { unfold last_row. destruct s as [|d s]; [destruct (N.eqb_spec c 10) as [->|N]; [reflexivity|]; destruct (endswith [10%N] [c]) eqn:E; [|reflexivity]; apply endswith_app in E as [[|x t] E]; cbn [app] in E; [congruence|destruct t; discriminate]|].
    assert (E : endswith [10%N] (c :: d :: s) = endswith [10%N] (d :: s)); [|rewrite E; reflexivity].
    apply eq_true_iff_eq. rewrite !endswith_app. split; intros [t E]; [|exists (c :: t); rewrite E; reflexivity]. destruct t as [|x t]; [discriminate|]. injection E as -> ->. eauto. }
  rewrite L. destruct (N.eqb_spec c 10) as [->|N].
  - cbn [map app]. destruct s; reflexivity.
  - destruct s as [|d s]; [cbn; f_equal; apply eq_sym, chomp_no; intros [X|[]]; congruence|]. destruct (lines (d :: s)) as [|x ls] eqn:E.
    + exfalso. assert (K := concat_lines (d :: s)). rewrite E in K. discriminate.
    + cbn [map app]. rewrite chomp_cons; [reflexivity|]. assert (F := lines_full (d :: s)). rewrite E in F. inversion F; assumption.
Qed.
Lemma line_row s l : In l (lines s) -> In (chomp l) (split_char 10%N s).
Proof. intros I. rewrite rows_lines. apply in_or_app. left. apply in_map, I. Qed.

(** ** Reading *)
Definition st_ok (st : list matcher) : Prop := forall m, In m st -> matches [] m = false.
Lemma st_stops st : st_ok st -> stops st [] = false.
Proof. intros S. unfold stops. destruct (existsb (matches []) st) eqn:E; [|reflexivity]. apply existsb_exists in E as (m & I & M). rewrite (S m I) in M. discriminate. Qed.
Lemma sep_ok b : matches [] (AtSeparator ($"--" ++ b)) = false.
Proof. reflexivity. Qed.
Definition eff (ls : list str) : list str := match ls with [] :: r => r | _ => ls end.
Definition at_end (st : list matcher) (ls : list str) : Prop := match ls with [] => True | l :: _ => stops st l = true end.
Lemma read_all_spec st ls : st_ok st -> full ls -> let '(a, b) := read_all st ls in ls = a ++ b /\ at_end st b /\ Forall (fun l => stops st l = false) a.
Proof.
  intros S F. induction ls as [|l r IH]; [cbn; auto|]. cbn [read_all]. inversion F as [|? ? F1 F2]; subst. destruct (stops st l) eqn:E; [cbn; auto|].
  destruct l as [|c l]; [contradiction|]. specialize (IH F2). destruct (read_all st r) as [a b]. destruct IH as (-> & A & B). split; [reflexivity|]. split; [exact A|]. constructor; assumption.
Qed.
Lemma read_headers_spec st ls : st_ok st -> full (eff ls) -> let '(a, b) := read_headers st ls in
  full b /\ Forall (fun l => header_line l = true /\ stops st l = false) a /\ exists m, eff ls = a ++ m ++ b /\ length m <= 1.
Proof.
  intros S. revert ls. assert (G : forall ls, full ls -> let '(a, b) := read_headers st ls in full b /\ Forall (fun l => header_line l = true /\ stops st l = false) a /\ exists m, ls = a ++ m ++ b /\ length m <= 1).
  { induction ls as [|l r IH]; intros F; [cbn; repeat split; auto; exists []; auto|]. cbn [read_headers]. inversion F as [|? ? F1 F2]; subst. destruct (stops st l) eqn:E; [repeat split; auto; exists []; auto|].
    destruct l as [|c l]; [contradiction|]. destruct (header_line (c :: l)) eqn:H.
    - specialize (IH F2). destruct (read_headers st r) as [a b]. destruct IH as (A & B & m & -> & M). repeat split; auto. exists m. auto.
    - destruct (empty_line (c :: l)); repeat split; auto; [exists [c :: l]; auto|exists []; auto]. }
  intros [|[|c l] r] F; [apply G; constructor| |apply G; exact F]. cbn [read_headers]. rewrite (st_stops st S). repeat split; auto. exists []. auto.
Qed.
(** A line is put back only if it is the last one, and then there is no field unless there are more lines *)
Lemma parse_headers_spec ls : forall first cur, let '(hs, back) := parse_headers first cur ls in
  (back = [] /\ (hs <> [] -> cur <> [] \/ ls <> [])) \/ exists p l, ls = p ++ [l] /\ back = [l] /\ (hs <> [] -> cur <> [] \/ p <> []).
Proof.
  assert (FO : forall cur, field_of cur <> [] -> cur <> []). { intros [|x cur] H; [contradiction|discriminate]. }
  induction ls as [|l r IH]; intros first cur; [cbn; left; split; [reflexivity|]; intros H; left; apply FO, H|]. cbn [parse_headers].
  assert (GO : forall c, let '(hs, back) := (let '(a, b) := parse_headers false c r in (field_of cur ++ a, b)) in
     (back = [] /\ (hs <> [] -> cur <> [] \/ l :: r <> [])) \/ exists p x, l :: r = p ++ [x] /\ back = [x] /\ (hs <> [] -> cur <> [] \/ p <> [])).
  { intros c. specialize (IH false c). destruct (parse_headers false c r) as [hs back]. destruct IH as [[-> H]|(p & x & -> & -> & H)]; [left; split; [reflexivity|]; intros _; right; discriminate|].
    right. exists (l :: p), x. repeat split. intros _. right. discriminate. }
  destruct (indented l).
  - specialize (IH false (match cur with [] => [] | _ => cur ++ [l] end)). destruct (parse_headers false _ r) as [hs back]. destruct IH as [[-> H]|(p & x & -> & -> & H)]; [left; split; [reflexivity|]; intros _; right; discriminate|].
    right. exists (l :: p), x. repeat split. intros _. right. discriminate.
  - destruct (startswith ($"From ") l).
    + destruct first; [apply GO|]. destruct r as [|x r]; [|apply GO]. right. exists [], l. repeat split. intros H. left. apply FO, H.
    + destruct (startswith ($":") l); apply GO.
Qed.
Lemma find_first_spec b st ls : st_ok st -> full ls -> let '(a, found, r) := find_first ($"--" ++ b) st ls in
  full r /\ incl r ls /\ (if found then S (length r) <= length ls else True) /\ length r <= length ls /\ incl a ls.
Proof.
  intros S F. induction ls as [|l r IH]; [cbn; repeat split; auto using incl_nil_l|]. cbn [find_first]. inversion F as [|? ? F1 F2]; subst. destruct (stops st l) eqn:E; [repeat split; auto using incl_refl, incl_nil_l|].
  destruct l as [|c l]; [contradiction|]. destruct (separator_line ($"--" ++ b) (c :: l)) as [e|].
  - cbv beta iota. split; [exact F2|]. split; [intros x I; right; exact I|]. split; [destruct (negb e); cbn [length]; lia|]. split; [cbn [length]; lia|intros ? []].
  - specialize (IH F2). destruct (find_first _ st r) as [[a found] r']. destruct IH as (A & B & C & D & I). split; [exact A|]. split; [intros x X; right; apply B, X|]. split; [destruct found; cbn [length] in *; lia|]. split; [cbn [length]; lia|]. intros x [X|X]; [left; exact X|right; apply I, X].
Qed.
Lemma skip_spec b st ls : st_ok st -> full ls -> let r := skip_separators ($"--" ++ b) st ls in full (eff r) /\ length (eff r) <= length ls /\ length r <= S (length ls) /\ incl (eff r) ls.
Proof.
  intros S F. induction ls as [|l r IH]; [cbn; repeat split; auto using incl_nil_l|]. cbn [skip_separators]. inversion F as [|? ? F1 F2]; subst. destruct (stops st l) eqn:E; [cbn; repeat split; auto using incl_refl|].
  destruct l as [|c l]; [contradiction|]. destruct (separator_line ($"--" ++ b) (c :: l)) as [e|].
  - specialize (IH F2). cbv zeta in IH. destruct IH as (A & B & C & D). repeat split; [exact A|cbn [length] in *; lia|cbn [length] in *; lia|intros x X; right; apply D, X].
  - cbn [eff]. repeat split; [exact F|cbn [length]; lia|cbn [length]; lia|intros x X; exact X].
Qed.

(** ** Splitting ends *)
Section Codecs.
Variable decode : str -> bool -> list N -> option (option str).
Notation parse := (parse decode).
Notation blocks := (blocks decode).
Notation parts := (parts decode).
Lemma parse_S f st default ls : parse (S f) st default ls =
      let '(hl, r0) := read_headers st ls in
      let '(hs, back) := parse_headers true [] hl in
      let r := back ++ r0 in
      let t := content_type default hs in
      let text (r : list str) := let '(a, b) := read_all st r in Got (Message default hs (inl (concat a))) b in
      let with_parts (x : result (list message)) := match x with Got l b => Got (Message default hs (inr l)) b | Raised => Raised | NoFuel => NoFuel end in
      if streqb t ($"message/delivery-status") then with_parts (blocks f st r)
      else if streqb (maintype t) ($"message") then with_parts (match parse f st ($"text/plain") r with Got m b => Got [m] b | Raised => Raised | NoFuel => NoFuel end)
      else if streqb (maintype t) ($"multipart") then
        match get_boundary decode hs with
        | None => Raised
        | Some None => text r
        | Some (Some b) =>
            let sep := $"--" ++ b in
            match find_first sep st r with
            | (_, true, r1) => with_parts (parts f st sep (if streqb t ($"multipart/digest") then $"message/rfc822" else $"text/plain") r1)
            | (pre, false, r1) => Got (Message default hs (inl (concat pre))) (snd (read_all st r1))
            end
        end
      else text r.
Proof. reflexivity. Qed.
Lemma blocks_S f st ls : blocks (S f) st ls =
      match parse f (AtEmpty :: st) ($"text/plain") ls with
      | Got m r =>
          match readline st (snd (readline st r)) with
          | ([], r') => Got [m] r'
          | (l, r') => match blocks f st (l :: r') with Got ms b => Got (m :: ms) b | x => x end
          end
      | Raised => Raised
      | NoFuel => NoFuel
      end.
Proof. reflexivity. Qed.
Lemma parts_S f st sep default ls : parts (S f) st sep default ls =
      match parse f (AtSeparator sep :: st) default (skip_separators sep st ls) with
      | Got m r =>
          match readline st r with
          | ([], r') => Got [chomp_last m] r'
          | (l, r') =>
              match separator_line sep l with
              | Some true => Got [chomp_last m] (snd (read_all st r'))
              | Some false => match parts f st sep default r' with Got ms b => Got (chomp_last m :: ms) b | x => x end
              | None => Raised
              end
          end
      | Raised => Raised
      | NoFuel => NoFuel
      end.
Proof. reflexivity. Qed.
Section Safe.
Variable safe : str -> Prop.
Definition fine : Prop := forall hl, Forall (fun l => safe l /\ header_line l = true) hl -> get_boundary decode (fst (parse_headers true [] hl)) <> None.
Definition extra (d : str) : nat := if streqb (maintype d) ($"message") then 1 else 0.
Definition good {A} (st : list matcher) (ls : list str) (x : result A) : Prop :=
  match x with
  | Got _ r => full r /\ at_end st r /\ length r <= length (eff ls) /\ incl r (eff ls)
  | Raised => ~ fine
  | NoFuel => False
  end.
Lemma all_good f :
  (forall st d ls, st_ok st -> full (eff ls) -> Forall safe (eff ls) -> d = $"text/plain" \/ d = $"message/rfc822" -> 3 * length ls + 2 + extra d <= f -> good st ls (parse f st d ls)) /\
  (forall st ls, st_ok st -> full ls -> Forall safe ls -> 3 * length ls + 3 <= f -> good st ls (blocks f st ls)) /\
  (forall st b d ls, st_ok st -> full ls -> Forall safe ls -> d = $"text/plain" \/ d = $"message/rfc822" -> 3 * length ls + 7 <= f -> good st ls (parts f st ($"--" ++ b) d ls)).
Proof.
  induction f as [|f IH]; [repeat split; intros; lia|]. destruct IH as (IH1 & IH2 & IH3).
  assert (EF : forall ls, full ls -> eff ls = ls). { intros [|[|c l] r] F; try reflexivity. inversion F; contradiction. }
  assert (EL : forall ls, length (eff ls) <= length ls). { intros [|[|c l] r]; cbn [eff length]; lia. }
  split; [|split].
  - intros st d ls SO F SF D L. rewrite parse_S; cbv zeta. assert (RH := read_headers_spec st ls SO F). destruct (read_headers st ls) as [hl r0]. destruct RH as (F0 & HL & mid & E & M).
    assert (SH : Forall (fun l => safe l /\ header_line l = true) hl). { rewrite E in SF. apply Forall_app in SF as [SF _]. clear -SF HL. induction hl; constructor; inversion SF; inversion HL; tauto. }
    assert (B : fine -> get_boundary decode (fst (parse_headers true [] hl)) <> None) by (intros FI; apply FI, SH). assert (PH := parse_headers_spec hl true []). destruct (parse_headers true [] hl) as [hs back]. cbn [fst] in B.
    set (r := back ++ r0). assert (R : full r /\ length r <= length (eff ls) /\ incl r (eff ls) /\ (hs <> [] -> S (length r) <= length (eff ls))).
    { subst r. rewrite E. rewrite !app_length. destruct PH as [[-> H]|(p & l & EH & EB & H)].
      - cbn [app]. repeat split; [exact F0|cbn [length]; lia|intros x X; apply in_or_app; right; apply in_or_app; right; exact X|]. intros X. destruct (H X) as [K|K]; [contradiction|]. destruct hl; [contradiction|]. cbn [length]. lia.
      - rewrite EH in *. rewrite EB in *. rewrite app_length. cbn [length app]. repeat split.
        + constructor; [|exact F0]. apply Forall_app in HL as [_ HL]. inversion HL as [|? ? [HA _] _]; subst. intros ->. discriminate HA.
        + lia.
        + intros x [X|X]; [subst x; apply in_or_app; left; apply in_or_app; right; left; reflexivity|apply in_or_app; right; apply in_or_app; right; exact X].
        + intros X. destruct (H X) as [K|K]; [contradiction|]. destruct p; [contradiction|]. cbn [length]. lia. }
    clearbody r. destruct R as (R1 & R2 & R3 & R4).
    assert (SR : Forall safe r). { apply Forall_forall. intros x X. rewrite Forall_forall in SF. apply SF, R3, X. }
    assert (TEXT : good st ls (let '(a, b) := read_all st r in Got (Message d hs (inl (concat a))) b)).
    { assert (RA := read_all_spec st r SO R1). destruct (read_all st r) as [a b]. destruct RA as (-> & A & _). cbn [good]. rewrite app_length in R2. repeat split; [apply Forall_app in R1 as [_ R1]; exact R1|exact A|lia|]. intros x X. apply R3, in_or_app. right. exact X. }
    assert (WP : forall x : result (list message), good st r x -> good st ls (match x with Got l b => Got (Message d hs (inr l)) b | Raised => Raised | NoFuel => NoFuel end)).
    { intros [l b| |] G; [|exact G|destruct G]. cbn [good] in *. destruct G as (G1 & G2 & G3 & G4). rewrite (EF r R1) in G3, G4. repeat split; [exact G1|exact G2|lia|]. intros x X. apply R3, G4, X. }
    assert (NH : hs = [] -> content_type d hs = d). { intros ->. reflexivity. }
    assert (EL0 := EL ls).
    destruct (streqb_spec (content_type d hs) ($"message/delivery-status")) as [T|T].
    { apply WP, IH2; auto. assert (hs <> []). { intros X. rewrite (NH X) in T. destruct D as [->| ->]; discriminate. } specialize (R4 H). lia. }
    destruct (streqb_spec (maintype (content_type d hs)) ($"message")) as [T1|T1].
    { apply (WP (match parse f st ($"text/plain") r with Got m b => Got [m] b | Raised => Raised | NoFuel => NoFuel end)).
      assert (G : good st r (parse f st ($"text/plain") r)); [|destruct (parse f st ($"text/plain") r) as [m b| |]; exact G].
      apply IH1; auto; [rewrite (EF r R1); exact R1|rewrite (EF r R1); exact SR|]. change (extra ($"text/plain")) with 0. destruct hs as [|h hs]; [|assert (K := R4 ltac:(discriminate)); lia].
      rewrite (NH eq_refl) in T1. unfold extra in L. rewrite T1, streqb_refl in L. lia. }
    destruct (streqb_spec (maintype (content_type d hs)) ($"multipart")) as [T2|T2]; [|exact TEXT].
    destruct (get_boundary decode hs) as [[b|]|]; [|exact TEXT|exact (fun FI => B FI eq_refl)]. clear B.
    assert (HN : hs <> []). { intros X. rewrite (NH X) in T2. destruct D as [->| ->]; discriminate. } specialize (R4 HN).
    assert (FF := find_first_spec b st r SO R1). destruct (find_first ($"--" ++ b) st r) as [[pre found] r1]. destruct FF as (A1 & A2 & A3 & A4 & _). destruct found.
    + apply WP. assert (G : good st r1 (parts f st ($"--" ++ b) (if streqb (content_type d hs) ($"multipart/digest") then $"message/rfc822" else $"text/plain") r1)).
      { apply IH3; auto; [apply Forall_forall; intros x X; rewrite Forall_forall in SR; apply SR, A2, X|destruct (streqb _ _); auto|lia]. }
      destruct (parts f st _ _ r1) as [l b'| |]; [|exact G|destruct G]. cbn [good] in *. destruct G as (G1 & G2 & G3 & G4). rewrite (EF r1 A1) in G3, G4. rewrite (EF r R1). repeat split; [exact G1|exact G2|lia|]. intros x X. apply A2, G4, X.
    + assert (RA := read_all_spec st r1 SO A1). destruct (read_all st r1) as [a b']. destruct RA as (-> & A & _). cbn [good snd]. rewrite app_length in A4. repeat split; [apply Forall_app in A1 as [_ A1]; exact A1|exact A|lia|]. intros x X. apply R3, A2, in_or_app. right. exact X.
  - intros st ls SO F SF L. rewrite blocks_S.
    assert (S' : st_ok (AtEmpty :: st)). { intros m [<-|I]; [reflexivity|apply SO, I]. }
    assert (G : good (AtEmpty :: st) ls (parse f (AtEmpty :: st) ($"text/plain") ls)). { apply IH1; auto; try (rewrite (EF ls F); assumption). change (extra ($"text/plain")) with 0. lia. }
    destruct (parse f (AtEmpty :: st) ($"text/plain") ls) as [m r| |]; [|exact G|destruct G]. cbn [good] in G. destruct G as (G1 & G2 & G3 & G4). rewrite (EF ls F) in G3, G4.
    assert (RL : exists r2, snd (readline st r) = r2 /\ full r2 /\ incl r2 r /\ (at_end st r2 /\ r2 = r \/ S (length r2) <= length r)).
    { destruct r as [|l r]; [exists []; split; [reflexivity|]; split; [constructor|]; split; [apply incl_nil_l|left; split; [exact I|reflexivity]]|]. cbn [readline]. inversion G1; subst. destruct (stops st l) eqn:E; cbn [snd]; [exists (l :: r); split; [reflexivity|]; split; [exact G1|]; split; [apply incl_refl|left; split; [exact E|reflexivity]]|].
      exists r. split; [reflexivity|]. split; [assumption|]. split; [apply incl_tl, incl_refl|]. right. cbn [length]. lia. }
    destruct RL as (r2 & -> & F2 & I2 & CASE). destruct r2 as [|l2 r3].
    + cbn [readline good]. repeat split; [constructor|cbn [length]; lia|intros ? []].
    + cbn [readline]. destruct (stops st l2) eqn:E2.
      * cbn [good]. assert (length (l2 :: r3) <= length r) by (destruct CASE as [[_ ->]|K]; lia). rewrite (EF ls F). repeat split; [exact F2|exact E2|lia|]. intros x X. apply G4, I2, X.
      * inversion F2 as [|? ? F2a F2b]; subst. destruct l2 as [|c l2]; [contradiction|]. destruct CASE as [[K _]|K]; [cbn in K; congruence|].
        assert (G' : good st ((c :: l2) :: r3) (blocks f st ((c :: l2) :: r3))). { apply IH2; auto; [apply Forall_forall; intros x X; rewrite Forall_forall in SF; apply SF, G4, I2, X|lia]. }
        destruct (blocks f st ((c :: l2) :: r3)) as [ms b| |]; [|exact G'|destruct G']. cbn [good eff] in *. destruct G' as (H1 & H2 & H3 & H4). rewrite (EF ls F). repeat split; [exact H1|exact H2|lia|]. intros x X. apply G4, I2, H4, X.
  - intros st b d ls SO F SF D L. rewrite parts_S.
    assert (S' : st_ok (AtSeparator ($"--" ++ b) :: st)). { intros m [<-|I]; [apply sep_ok|apply SO, I]. }
    assert (SK := skip_spec b st ls SO F). cbv zeta in SK. destruct SK as (K1 & K2 & K3 & K4).
    assert (G : good (AtSeparator ($"--" ++ b) :: st) (skip_separators ($"--" ++ b) st ls) (parse f (AtSeparator ($"--" ++ b) :: st) d (skip_separators ($"--" ++ b) st ls))).
    { apply IH1; auto; [apply Forall_forall; intros x X; rewrite Forall_forall in SF; apply SF, K4, X|]. unfold extra. destruct (streqb _ _); lia. }
    destruct (parse f _ d _) as [m r| |]; [|exact G|destruct G]. cbn [good] in G. destruct G as (G1 & G2 & G3 & G4).
    destruct r as [|l r]; cbn [readline]; [cbn [good]; repeat split; [constructor|cbn [length]; lia|intros ? []]|].
    destruct (stops st l) eqn:E; [cbn [good]; rewrite (EF ls F); repeat split; [exact G1|exact E|lia|]; intros x X; apply K4, G4, X|].
    inversion G1 as [|? ? G1a G1b]; subst. destruct l as [|c l]; [contradiction|]. cbn [at_end stops existsb] in G2. unfold stops in E. rewrite E, orb_false_r in G2. cbn [matches] in G2.
    destruct (separator_line ($"--" ++ b) (c :: l)) as [[|]|]; [| |discriminate].
    + assert (RA := read_all_spec st r SO G1b). destruct (read_all st r) as [a r']. destruct RA as (-> & A & _). cbn [good snd]. cbn [length] in G3. rewrite app_length in G3. rewrite (EF ls F). repeat split; [apply Forall_app in G1b as [_ G1b]; exact G1b|exact A|lia|]. intros x X. apply K4, G4. right. apply in_or_app. right. exact X.
    + assert (G' : good st r (parts f st ($"--" ++ b) d r)). { apply IH3; auto; [apply Forall_forall; intros x X; rewrite Forall_forall in SF; apply SF, K4, G4; right; exact X|cbn [length] in G3; lia]. }
      destruct (parts f st ($"--" ++ b) d r) as [ms b'| |]; [|exact G'|destruct G']. cbn [good] in *. destruct G' as (H1 & H2 & H3 & H4). rewrite (EF r G1b) in H3, H4. rewrite (EF ls F). cbn [length] in G3. repeat split; [exact H1|exact H2|lia|]. intros x X. apply K4, G4. right. apply H4, X.
Qed.
Theorem splitting_ends s : Forall safe (lines s) ->
  match parse (S (3 * S (length (lines s)))) [] ($"text/plain") (lines s) with Got _ _ => True | Raised => ~ fine | NoFuel => False end.
Proof.
  intros SF. assert (F := lines_full s). assert (EF : eff (lines s) = lines s). { destruct (lines s) as [|[|c l] r]; try reflexivity. inversion F; contradiction. }
  destruct (all_good (S (3 * S (length (lines s))))) as (G & _ & _). assert (K := G [] ($"text/plain") (lines s)).
  assert (K' : good [] (lines s) (parse (S (3 * S (length (lines s)))) [] ($"text/plain") (lines s))).
  { apply K; auto; try (rewrite EF; assumption); [intros m []|]. change (extra ($"text/plain")) with 0. lia. }
  destruct (parse _ [] ($"text/plain") (lines s)); [exact I|exact K'|exact K'].
Qed.
End Safe.

(** ** More fuel makes no difference *)
Lemma more_fuel f :
  (forall st d ls, parse f st d ls <> NoFuel -> parse (S f) st d ls = parse f st d ls) /\
  (forall st ls, blocks f st ls <> NoFuel -> blocks (S f) st ls = blocks f st ls) /\
  (forall st sep d ls, parts f st sep d ls <> NoFuel -> parts (S f) st sep d ls = parts f st sep d ls).
Proof.
  induction f as [|f (IH1 & IH2 & IH3)]; [split; [|split]; intros; contradiction|]. split; [|split].
  - intros st d ls. rewrite (parse_S (S f)), (parse_S f). cbv zeta. destruct (read_headers st ls) as [hl r0]. destruct (parse_headers true [] hl) as [hs back].
    destruct (streqb (content_type d hs) ($"message/delivery-status")).
    { intros N. rewrite IH2; [reflexivity|]. intros E. rewrite E in N. contradiction. }
    destruct (streqb (maintype (content_type d hs)) ($"message")).
    { intros N. rewrite IH1; [reflexivity|]. intros E. rewrite E in N. contradiction. }
    destruct (streqb (maintype (content_type d hs)) ($"multipart")); [|reflexivity]. destruct (get_boundary decode hs) as [[b|]|]; [|reflexivity|reflexivity].
    destruct (find_first ($"--" ++ b) st (back ++ r0)) as [[pre [|]] r1]; [|reflexivity]. intros N. rewrite IH3; [reflexivity|]. intros E. rewrite E in N. contradiction.
  - intros st ls. rewrite (blocks_S (S f)), (blocks_S f). intros N. assert (N1 : parse f (AtEmpty :: st) ($"text/plain") ls <> NoFuel) by (intros E; rewrite E in N; contradiction).
    rewrite (IH1 _ _ _ N1). destruct (parse f (AtEmpty :: st) ($"text/plain") ls) as [m r| |]; [|reflexivity|contradiction]. destruct (readline st (snd (readline st r))) as [[|c l] r']; [reflexivity|].
    rewrite IH2; [reflexivity|]. intros E. rewrite E in N. contradiction.
  - intros st sep d ls. rewrite (parts_S (S f)), (parts_S f). intros N. assert (N1 : parse f (AtSeparator sep :: st) d (skip_separators sep st ls) <> NoFuel) by (intros E; rewrite E in N; contradiction).
    rewrite (IH1 _ _ _ N1). destruct (parse f (AtSeparator sep :: st) d _) as [m r| |]; [|reflexivity|contradiction]. destruct (readline st r) as [[|c l] r']; [reflexivity|].
    destruct (separator_line sep (c :: l)) as [[|]|]; try reflexivity. rewrite IH3; [reflexivity|]. intros E. rewrite E in N. contradiction.
Qed.
Lemma much_fuel f f' st d ls : f <= f' -> parse f st d ls <> NoFuel -> parse f' st d ls = parse f st d ls.
Proof. intros L N. induction L as [|f' L IH]; [reflexivity|]. destruct (more_fuel f') as (M & _ & _). rewrite M; [exact IH|]. rewrite IH. exact N. Qed.
(** If a message is split with some fuel, then with the fuel it gets *)
Lemma split_with f s m r : parse f [] ($"text/plain") (lines s) = Got m r -> message_from_string decode s = Some m.
Proof.
  intros P. unfold message_from_string. set (F := S (3 * S (length (lines s)))).
  assert (K : parse F [] ($"text/plain") (lines s) = Got m r); [|rewrite K; reflexivity].
  destruct (Nat.le_ge_cases f F) as [L|L]; [rewrite <- P; apply much_fuel; [exact L|rewrite P; discriminate]|].
  rewrite <- P. symmetry. apply much_fuel; [exact L|]. assert (K := splitting_ends (fun _ => True) s ltac:(apply Forall_forall; intros; exact I)). fold F in K. intros NF. rewrite NF in K. exact K.
Qed.
End Codecs.
