(** What is composed is what is read: the parts of a proper mail. *)
From Coq Require Import Lia.
From Verif Require Import PyStr PyDict PyMime PyEmail Spec_Message Proofs_PyRe Proofs_Email Proofs_Split.

(** ** Rows and lines *)
Definition nl (r : str) : str := r ++ [10%N].
Lemma lines_rows l s : Forall (fun r => ~ In 10%N r) l -> lines (flat_map nl l ++ s) = map nl l ++ lines s.
Proof.
  induction 1 as [|r l A B IH]; [reflexivity|]. cbn [flat_map map app]. unfold nl at 1. rewrite <- !app_assoc. cbn [app]. rewrite lines_row by exact A. f_equal. exact IH.
Qed.
Definition frows (f : field) : list str := (f_name f ++ $": " ++ f_first f) :: f_more f.
Definition field_ok (f : field) : Prop :=
  a_field_name (f_name f) /\ one_row (f_first f) /\ ~ begins_blank (f_first f) /\ Forall (fun r => one_row r /\ begins_blank r) (f_more f).
Lemma join_rows x l : join [10%N] (x :: l) ++ [10%N] = flat_map nl (x :: l).
Proof.
  revert x. induction l as [|y l IH]; intros x; [cbn; rewrite app_nil_r; reflexivity|]. change (join [10%N] (x :: y :: l)) with (x ++ [10%N] ++ join [10%N] (y :: l)).
  cbn [flat_map] in *. rewrite <- !app_assoc. unfold nl at 1. rewrite <- app_assoc. f_equal. f_equal. rewrite IH. reflexivity.
Qed.
Lemma field_rows f : field_text f = flat_map nl (frows f).
Proof.
  unfold field_text, value_text, frows. rewrite join_rows. cbn [flat_map]. unfold nl at 1 3. rewrite <- !app_assoc. reflexivity.
Qed.
Lemma flat_map_flat_map {A B C} (f : A -> list B) (g : B -> list C) l : flat_map g (flat_map f l) = flat_map (fun x => flat_map g (f x)) l.
Proof. induction l as [|x l IH]; [reflexivity|]. cbn [flat_map]. rewrite flat_map_app, IH. reflexivity. Qed.
Lemma head_rows h : head_text h = flat_map nl (flat_map frows (all_fields h)) ++ [10%N].
Proof. unfold head_text. f_equal. rewrite flat_map_flat_map. apply flat_map_ext. apply field_rows. Qed.
Lemma name_no n : a_field_name n -> ~ In 10%N n /\ ~ In 58%N n.
Proof. intros [_ F]. rewrite Forall_forall in F. split; intros K; apply F in K; lia. Qed.
Lemma frows_ok f : field_ok f -> Forall (fun r => ~ In 10%N r) (frows f).
Proof.
  intros (A & [B _] & _ & C). destruct (name_no _ A) as [N _]. constructor; [|eapply Forall_impl; [|exact C]; intros r [[D _] _]; exact D].
  intros K. apply in_app_or in K as [K|K]; [exact (N K)|]. apply in_app_or in K as [[K|[K|[]]]|K]; try discriminate. exact (B K).
Qed.
Lemma hrows_ok fs : Forall field_ok fs -> Forall (fun r => ~ In 10%N r) (flat_map frows fs).
Proof. induction 1; [constructor|]. cbn [flat_map]. apply Forall_app. split; [apply frows_ok|]; assumption. Qed.
Lemma head_lines h s : Forall field_ok (all_fields h) -> lines (head_text h ++ s) = map nl (flat_map frows (all_fields h)) ++ [10%N] :: lines s.
Proof. intros F. rewrite head_rows, <- app_assoc. rewrite lines_rows by (apply hrows_ok, F). reflexivity. Qed.

(** ** Reading a head *)
Lemma name_header n x : a_field_name n -> header_line (n ++ $": " ++ x) = true.
Proof.
  intros [NE F]. unfold header_line. assert (K : name_colon (n ++ $": " ++ x) = true); [|rewrite K, orb_true_r; reflexivity]. clear NE. induction F as [|c n A B IH]; [reflexivity|]. cbn [app name_colon]. destruct (N.eqb_spec c 58); [reflexivity|]. rewrite IH, andb_true_r. unfold ftext.
  destruct (N.leb_spec 33 c), (N.leb_spec c 57), (N.leb_spec 59 c), (N.leb_spec c 126); cbn [andb orb]; try reflexivity; lia.
Qed.
Lemma blank_header r x : begins_blank r -> indented (r ++ x) = true.
Proof. intros [y [->| ->]]; reflexivity. Qed.
Lemma name_plain n x : a_field_name n -> indented (n ++ $": " ++ x) = false /\ startswith ($"From ") (n ++ $": " ++ x) = false /\ startswith ($":") (n ++ $": " ++ x) = false.
Proof.
  intros [NE F]. destruct n as [|c n]; [contradiction|]. inversion F as [|? ? A B]; subst. split; [|split].
  - cbn [app indented]. unfold blank. destruct (N.eqb_spec c 32), (N.eqb_spec c 9); cbn [orb]; try reflexivity; lia.
  - destruct (startswith ($"From ") ((c :: n) ++ $": " ++ x)) eqn:E; [|reflexivity]. apply startswith_app in E as [t E]. exfalso. revert E F. clear. generalize (c :: n). intros m. do 5 (destruct m as [|? m]; [cbn; intros; discriminate|]). cbn. intros E F. injection E as -> -> -> -> -> E. do 4 (inversion F as [|? ? _ F']; clear F; rename F' into F; subst). inversion F; lia.
  - destruct (startswith ($":") ((c :: n) ++ $": " ++ x)) eqn:E; [|reflexivity]. apply startswith_app in E as [t E]. injection E as -> _. lia.
Qed.
Lemma read_head st rws Y : Forall (fun r => header_line (nl r) = true /\ stops st (nl r) = false) rws -> stops st [10%N] = false ->
  read_headers st (map nl rws ++ [10%N] :: Y) = (map nl rws, Y).
Proof.
  intros F N. induction F as [|r l [A B] _ IH]; [cbn [map app read_headers]; rewrite N; reflexivity|]. cbn [map app read_headers]. rewrite B. destruct (nl r) as [|c t] eqn:E; [destruct r; discriminate|]. rewrite A, IH. reflexivity.
Qed.
Lemma header_rows f : field_ok f -> Forall (fun r => header_line (nl r) = true) (frows f).
Proof.
  intros (A & _ & _ & C). unfold frows. constructor; [unfold nl; rewrite <- !app_assoc; apply name_header, A|]. eapply Forall_impl; [|exact C]. intros r [_ D]. unfold header_line, nl. rewrite (blank_header r [10%N] D). apply orb_true_r.
Qed.
Lemma field_parsed f : field_ok f -> field_of (map nl (frows f)) = [(f_name f, value_text f)].
Proof.
  intros (A & [B B'] & C & D). unfold frows. cbn [map field_of]. destruct (name_no _ A) as [_ N]. unfold nl at 1. rewrite <- !app_assoc.
  assert (SP : forall n x, ~ In 58%N n -> split1 58%N (n ++ $": " ++ x) = Some (n, 32%N :: x)).
  { induction n as [|c n IH]; intros x K; [reflexivity|]. cbn [app split1]. destruct (N.eqb_spec c 58) as [->|_]; [destruct K; left; reflexivity|]. rewrite IH by (intros Q; apply K; right; exact Q). reflexivity. }
  rewrite SP by exact N. f_equal. f_equal.
  assert (L : lstrip_chars [32; 9]%N (32%N :: f_first f ++ [10%N]) = f_first f ++ [10%N]).
  { unfold lstrip_chars, lstrip_p. cbn [drop_while]. change (mem_char 32%N [32; 9]%N) with true. cbv iota. destruct (f_first f) as [|c x]; [reflexivity|]. cbn [app drop_while]. destruct (mem_char c [32; 9]%N) eqn:E; [|reflexivity]. apply mem_char_In in E. destruct C. exists x. destruct E as [<-|[<-|[]]]; auto. }
  rewrite L. assert (J : (f_first f ++ [10%N]) ++ concat (map nl (f_more f)) = value_text f ++ [10%N]).
  { unfold value_text. rewrite join_rows. cbn [flat_map]. rewrite flat_map_concat_map. reflexivity. }
  rewrite J. unfold rstrip_chars, rstrip_p. rewrite rev_app_distr. cbn [rev app drop_while]. change (mem_char 10%N [13; 10]%N) with true. cbv iota.
  assert (Z : drop_while (fun c => mem_char c [13; 10]%N) (rev (value_text f)) = rev (value_text f)); [|rewrite Z, rev_involutive; reflexivity].
  assert (G : forall l x, one_row x -> Forall (fun r => one_row r /\ begins_blank r) l -> drop_while (fun c => mem_char c [13; 10]%N) (rev (join [10%N] (x :: l))) = rev (join [10%N] (x :: l))); [|apply G; [split; assumption|exact D]].
  clear. assert (Q : forall x y, one_row x -> x <> [] -> drop_while (fun c => mem_char c [13; 10]%N) (rev (y ++ x)) = rev (y ++ x)).
  { intros x y [A B] NE. destruct (@exists_last _ x NE) as (z & c & ->). rewrite app_assoc, rev_app_distr. cbn [rev app drop_while]. destruct (mem_char c [13; 10]%N) eqn:E; [|reflexivity]. apply mem_char_In in E. exfalso. destruct E as [<-|[<-|[]]]; [apply B|apply A]; apply in_or_app; right; left; reflexivity. }
  induction l as [|r l IH]; intros x X F.
  - cbn [join]. destruct x as [|c x]; [reflexivity|]. apply (Q (c :: x) []); [exact X|discriminate].
  - inversion F as [|? ? [F1 F1'] F2]; subst. change (join [10%N] (x :: r :: l)) with (x ++ [10%N] ++ join [10%N] (r :: l)).
    assert (E : forall l x, begins_blank x -> Forall (fun r => one_row r /\ begins_blank r) l -> one_row x -> exists p z, join [10%N] (x :: l) = p ++ z /\ one_row z /\ z <> []).
    { clear. induction l as [|y l IH]; intros x BX F X; [exists [], x; repeat split; try apply X; destruct BX as [? [->| ->]]; discriminate|]. inversion F as [|? ? [F1 F1'] F2]; subst. destruct (IH y F1' F2 F1) as (p & z & E & Z). exists (x ++ [10%N] ++ p), z. split; [|exact Z]. change (join [10%N] (x :: y :: l)) with (x ++ [10%N] ++ join [10%N] (y :: l)). rewrite E, <- !app_assoc. reflexivity. }
    destruct (E l r F1' F2 F1) as (p & z & -> & Z & NZ). rewrite !app_assoc. apply Q; assumption.
Qed.
Lemma parse_more cur more rest : cur <> [] -> Forall begins_blank more -> parse_headers false cur (map nl more ++ rest) = parse_headers false (cur ++ map nl more) rest.
Proof.
  revert cur. induction more as [|r more IH]; intros cur NE F; [cbn [map app]; rewrite app_nil_r; reflexivity|]. inversion F; subst. cbn [map app parse_headers]. unfold nl at 1. rewrite blank_header by assumption. destruct cur as [|c cur]; [contradiction|]. fold (nl r).
  rewrite IH; [rewrite <- app_assoc; reflexivity|discriminate|assumption].
Qed.
Lemma parse_fields fs : Forall field_ok fs -> forall first cur, parse_headers first cur (map nl (flat_map frows fs)) = (field_of cur ++ map (fun f => (f_name f, value_text f)) fs, []).
Proof.
  induction 1 as [|f fs A B IH]; intros first cur; [cbn; rewrite app_nil_r; reflexivity|]. cbn [flat_map]. unfold frows at 1. cbn [app map parse_headers].
  assert (E : nl (f_name f ++ $": " ++ f_first f) = f_name f ++ $": " ++ nl (f_first f)). { unfold nl. rewrite <- !app_assoc. reflexivity. }
  destruct (name_plain (f_name f) (nl (f_first f)) (proj1 A)) as (P1 & P2 & P3). rewrite <- E in P1, P2, P3. rewrite P1, P2, P3. rewrite map_app.
  rewrite parse_more; [|discriminate|destruct A as (_ & _ & _ & A); eapply Forall_impl; [|exact A]; intros r [_ Q]; exact Q]. change ([nl (f_name f ++ $": " ++ f_first f)] ++ map nl (f_more f)) with (map nl (frows f)). rewrite IH.
  rewrite field_parsed by exact A. reflexivity.
Qed.
Lemma token_chars s : token s -> forall c, In c s -> (c <> 10 /\ c <> 13 /\ c <> 32 /\ c <> 9 /\ c <> 59 /\ c <> 47 /\ c <> 61 /\ c <> 42 /\ c <> 34 /\ c <> 92)%N /\ is_space c = false /\ (c < 128)%N.
Proof.
  intros [_ F] c K. rewrite Forall_forall in F. apply F in K. unfold token_char in K. cbn [In] in K.
  split; [lia|]. split; [|lia]. unfold is_space. repeat (apply orb_false_intro); try (apply N.eqb_neq; lia); apply andb_false_iff; rewrite !N.leb_gt; lia.
Qed.
Lemma type_ok t : proper_type t -> field_ok (type_field t).
Proof.
  intros (A & B & C). assert (NA := token_chars _ A). assert (NB := token_chars _ B). unfold field_ok, type_field. cbn [f_name f_first f_more]. split; [|split; [|split; [|constructor]]].
  - split; [discriminate|]. apply Forall_forall. intros c K. vm_compute in K. repeat (destruct K as [<-|K]; [lia|]). destruct K.
  - assert (G : forall c, (c = 10 \/ c = 13)%N -> ~ In c (type_text t)).
    { intros c Q K. unfold type_text in K. apply in_app_or in K as [K|K]; [apply NA in K; lia|]. apply in_app_or in K as [[K|[]]|K]; [destruct Q; subst; discriminate|]. apply in_app_or in K as [K|K]; [apply NB in K; lia|].
      apply in_flat_map in K as (p & P & K). rewrite Forall_forall in C. destruct (C p P) as (T & [V V'] & _).
      apply in_app_or in K as [[K|[K|[]]]|K]; [destruct Q; subst; discriminate|destruct Q; subst; discriminate|]. apply in_app_or in K as [K|K]; [apply (token_chars _ T) in K; lia|].
      apply in_app_or in K as [[K|[K|[]]]|K]; [destruct Q; subst; discriminate|destruct Q; subst; discriminate|]. apply in_app_or in K as [K|[K|[]]]; [destruct Q; subst; contradiction|destruct Q; subst; discriminate]. }
    split; apply G; auto.
  - intros [r E]. unfold type_text in E. destruct A as [NE _]. destruct (t_main t) as [|c m]; [contradiction|]. destruct (NA c (or_introl eq_refl)) as (K & _). destruct E as [E|E]; injection E as -> _; lia.
Qed.
Lemma head_ok h : proper_head h -> Forall field_ok (all_fields h).
Proof.
  intros (A & B & C). assert (P : forall l, Forall proper_field l -> Forall field_ok l). { intros l F. eapply Forall_impl; [|exact F]. intros f (X & _ & Y). split; assumption. }
  unfold all_fields. apply Forall_app. split; [apply P, A|]. apply Forall_app. split; [|apply P, B]. destruct (h_type h) as [t|]; [|constructor]. constructor; [apply type_ok, C|constructor].
Qed.
Lemma read_proper st h Y : proper_head h -> Forall (fun l => stops st l = false) (map nl (flat_map frows (all_fields h)) ++ [[10%N]]) ->
  read_headers st (map nl (flat_map frows (all_fields h)) ++ [10%N] :: Y) = (map nl (flat_map frows (all_fields h)), Y) /\ parse_headers true [] (map nl (flat_map frows (all_fields h))) = (fields_of h, []).
Proof.
  intros P F. apply head_ok in P. apply Forall_app in F as [F1 F2]. split; [|rewrite parse_fields by exact P; reflexivity]. apply read_head; [|inversion F2; assumption]. rewrite Forall_map in F1.
  assert (H : Forall (fun r => header_line (nl r) = true) (flat_map frows (all_fields h))). { clear F1 F2. induction P; [constructor|]. cbn [flat_map]. apply Forall_app. split; [apply header_rows|]; assumption. }
  clear -H F1. induction H; constructor; inversion F1; auto.
Qed.

(** ** The content type *)
Lemma get_fields h : proper_head h -> get ($"content-type") (fields_of h) = option_map type_text (h_type h).
Proof.
  intros (A & B & _). unfold fields_of, all_fields.
  assert (G : forall l rest, Forall proper_field l -> get ($"content-type") (map (fun f => (f_name f, value_text f)) l ++ rest) = get ($"content-type") rest).
  { intros l rest F. induction F as [|f l (_ & N & _) _ IH]; [reflexivity|]. cbn [map app get]. destruct (streqb_spec (lower (f_name f)) (lower ($"content-type"))) as [E|_]; [destruct (N E)|exact IH]. }
  rewrite map_app, G by exact A. destruct (h_type h) as [t|]; cbn [app map option_map].
  - cbn [map get type_field f_name]. change (streqb (lower ($"Content-Type")) (lower ($"content-type"))) with true. cbv iota. reflexivity.
  - rewrite <- (app_nil_r (map _ _)), G by exact B. reflexivity.
Qed.
Lemma drop_while_first {A} (p : A -> bool) c s : p c = false -> drop_while p (c :: s) = c :: s.
Proof. intros E. cbn [drop_while]. rewrite E. reflexivity. Qed.
Lemma strip_solid s : (forall c, In c s -> is_space c = false) -> strip s = s.
Proof.
  intros F. unfold strip, strip_p, lstrip_p, rstrip_p. assert (D : forall l, (forall c, In c l -> is_space c = false) -> drop_while is_space l = l). { intros [|c l] G; [reflexivity|]. apply drop_while_first, G. left. reflexivity. }
  rewrite (D s) by exact F. rewrite (D (rev s)) by (intros c C; apply F, in_rev, C). apply rev_involutive.
Qed.
Lemma split1_at c a b : ~ In c a -> split1 c (a ++ c :: b) = Some (a, b).
Proof.
  induction a as [|x a IH]; intros N; [cbn [app split1]; rewrite N.eqb_refl; reflexivity|]. cbn [app split1]. destruct (N.eqb_spec x c) as [->|_]; [destruct N; left; reflexivity|]. rewrite IH by (intros K; apply N; right; exact K). reflexivity.
Qed.
Definition kind (t : ctype) : str := t_main t ++ $"/" ++ t_sub t.
Definition params_text (ps : list (str * str)) : str := flat_map (fun p => $"; " ++ fst p ++ $"=""" ++ snd p ++ $"""") ps.
Lemma type_kind t : type_text t = kind t ++ params_text (t_params t).
Proof. unfold type_text, kind. rewrite <- !app_assoc. reflexivity. Qed.
Lemma kind_chars t c : proper_type t -> In c (kind t) -> (c <> 59 /\ c <> 61 /\ c <> 42 /\ c <> 34 /\ c <> 92)%N /\ is_space c = false.
Proof.
  intros (A & B & _) K. unfold kind in K. apply in_app_or in K as [K|K]; [destruct (token_chars _ A c K) as (Q & S0 & _); split; [lia|exact S0]|]. apply in_app_or in K as [[<-|[]]|K]; [split; [repeat split; discriminate|reflexivity]|]. destruct (token_chars _ B c K) as (Q & S0 & _); split; [lia|exact S0].
Qed.
Lemma before_kind t : proper_type t -> before 59%N (type_text t) = kind t.
Proof.
  intros P. rewrite type_kind. unfold before. assert (N : ~ In 59%N (kind t)) by (intros K; apply (kind_chars t) in K; [lia|exact P]). destruct (t_params t) as [|[n v] ps]; [cbn [params_text flat_map]; rewrite app_nil_r, split1_nothing by exact N; reflexivity|].
  cbn [params_text flat_map]. change (kind t ++ ($"; " ++ fst (n, v) ++ $"=""" ++ snd (n, v) ++ $"""") ++ flat_map (fun p => $"; " ++ fst p ++ $"=""" ++ snd p ++ $"""") ps) with (kind t ++ 59%N :: (32%N :: n ++ $"=""" ++ v ++ $"""") ++ flat_map (fun p => $"; " ++ fst p ++ $"=""" ++ snd p ++ $"""") ps).
  rewrite split1_at by exact N. reflexivity.
Qed.
Lemma lower_no c s : (c < 65)%N -> In c (lower s) -> In c s.
Proof.
  intros L K. unfold lower in K. apply in_map_iff in K as (d & E & K). unfold lower_char in E. destruct (N.leb_spec 65 d); cbn [andb] in E; [|subst; exact K]. destruct (N.leb_spec d 90); cbn in E; [lia|subst; exact K].
Qed.
Lemma count_app c a b : count_char c (a ++ b) = count_char c a + count_char c b.
Proof. unfold count_char. rewrite filter_app, app_length. reflexivity. Qed.
Lemma count_none c a : ~ In c a -> count_char c a = 0.
Proof. unfold count_char. intros N. destruct (filter (N.eqb c) a) as [|x l] eqn:E; [reflexivity|]. exfalso. assert (K : In x (filter (N.eqb c) a)) by (rewrite E; left; reflexivity). apply filter_In in K as [K Q]. apply N.eqb_eq in Q. subst. exact (N K). Qed.
Lemma read_type h : proper_head h -> content_type ($"text/plain") (fields_of h) = main_of h ++ $"/" ++ sub_of h /\ ~ In 47%N (main_of h) /\ ~ In 47%N (sub_of h).
Proof.
  intros P. unfold content_type. rewrite get_fields by exact P. destruct P as (_ & _ & P). unfold main_of, sub_of. destruct (h_type h) as [t|]; cbn [option_map]; [|split; [reflexivity|]; split; intros K; cbn in K; repeat destruct K as [K|K]; try discriminate; contradiction].
  rewrite before_kind by exact P. rewrite strip_solid by (intros c K; apply (kind_chars t c P K)).
  assert (E : lower (kind t) = lower (t_main t) ++ $"/" ++ lower (t_sub t)). { unfold kind, lower. rewrite !map_app. reflexivity. }
  rewrite E. destruct P as (A & B & _). assert (NA : ~ In 47%N (lower (t_main t))) by (intros K; apply lower_no in K; [apply (token_chars _ A) in K; lia|lia]). assert (NB : ~ In 47%N (lower (t_sub t))) by (intros K; apply lower_no in K; [apply (token_chars _ B) in K; lia|lia]).
  rewrite !count_app, (count_none _ _ NA), (count_none _ _ NB). cbn. auto.
Qed.
Lemma read_main h : proper_head h -> maintype (content_type ($"text/plain") (fields_of h)) = main_of h.
Proof. intros P. destruct (read_type h P) as (-> & N & _). unfold maintype, before. cbn [of_string app]. change ($"/" ++ sub_of h) with (47%N :: sub_of h). rewrite split1_at by exact N. reflexivity. Qed.
Lemma read_sub h : proper_head h -> subtype (content_type ($"text/plain") (fields_of h)) = sub_of h.
Proof. intros P. destruct (read_type h P) as (-> & N & _). unfold subtype. change ($"/" ++ sub_of h) with (47%N :: sub_of h). rewrite split1_at by exact N. reflexivity. Qed.

(** ** Parameters *)
Definition passes (a : str) : Prop := forall s, param_end false false (a ++ s) = let '(x, y) := param_end false false s in (a ++ x, y).
Lemma passes_solid a : (forall c, In c a -> c <> 59 /\ c <> 34 /\ c <> 92)%N -> passes a.
Proof.
  induction a as [|c a IH]; intros F s; [cbn [app]; destruct (param_end false false s); reflexivity|]. destruct (F c (or_introl eq_refl)) as (A & B & C). cbn [app param_end]. apply N.eqb_neq in A, B, C. rewrite A, B, C. cbn [andb].
  rewrite IH by (intros d D; apply F; right; exact D). destruct (param_end false false s). reflexivity.
Qed.
Lemma passes_app a b : passes a -> passes b -> passes (a ++ b).
Proof. intros A B s. rewrite <- app_assoc, A, B. destruct (param_end false false s). rewrite <- app_assoc. reflexivity. Qed.
Lemma passes_quoted v : ~ In 34%N v -> ~ In 92%N v -> passes (in_quotes v).
Proof.
  intros A B s. unfold in_quotes. cbn [app param_end]. change (N.eqb 34 59) with false. change (N.eqb 34 34) with true. change (N.eqb 34 92) with false. cbn [andb negb].
  assert (G : forall v, ~ In 34%N v -> ~ In 92%N v -> param_end false true ((v ++ [34%N]) ++ s) = let '(x, y) := param_end false false s in ((v ++ [34%N]) ++ x, y)).
  { clear. induction v as [|c v IH]; intros A B.
    - cbn [app param_end]. change (N.eqb 34 59) with false. change (N.eqb 34 34) with true. change (N.eqb 34 92) with false. cbn [andb negb]. destruct (param_end false false s). reflexivity.
    - cbn [app param_end]. rewrite andb_false_r. destruct (N.eqb_spec c 34) as [->|_]; [destruct A; left; reflexivity|]. destruct (N.eqb_spec c 92) as [->|_]; [destruct B; left; reflexivity|]. cbn [andb]. rewrite IH; [|intros K; apply A; right; exact K|intros K; apply B; right; exact K]. destruct (param_end false false s). reflexivity. }
  rewrite G by assumption. destruct (param_end false false s). reflexivity.
Qed.
Definition param_ok (p : str * str) : Prop := token (fst p) /\ one_row (snd p) /\ ~ In 34%N (snd p) /\ ~ In 92%N (snd p) /\ Forall (fun c => (c < 128)%N) (snd p).
Definition item (p : str * str) : str := 32%N :: fst p ++ 61%N :: in_quotes (snd p).
Lemma item_passes p : param_ok p -> passes (item p).
Proof.
  intros (A & _ & B & C & _). unfold item. change (32%N :: fst p ++ 61%N :: in_quotes (snd p)) with ([32%N] ++ fst p ++ [61%N] ++ in_quotes (snd p)). repeat apply passes_app.
  - apply passes_solid. intros c [<-|[]]. repeat split; discriminate.
  - apply passes_solid. intros c K. apply (token_chars _ A) in K. lia.
  - apply passes_solid. intros c [<-|[]]. repeat split; discriminate.
  - apply passes_quoted; assumption.
Qed.
Lemma params_item p ps : params_text (p :: ps) = 59%N :: item p ++ params_text ps.
Proof. unfold params_text. cbn [flat_map]. unfold item, in_quotes. cbn [app]. rewrite <- !app_assoc. cbn [app]. rewrite <- !app_assoc. reflexivity. Qed.
Lemma params_split ps : Forall param_ok ps -> forall f a, passes a -> length ps < f -> params_from f (a ++ params_text ps) = a :: map item ps.
Proof.
  induction 1 as [|p ps A B IH]; intros f a P L; (destruct f as [|f]; [cbn in L; lia|]); cbn [params_from]; rewrite P.
  - cbn [params_text flat_map param_end]. rewrite app_nil_r. reflexivity.
  - rewrite params_item. cbn [param_end]. change (N.eqb 59 59 && negb false) with true. cbv iota. rewrite app_nil_r. f_equal. rewrite IH; [reflexivity|apply item_passes, A|cbn [length] in L; lia].
Qed.
Lemma params_length ps : length ps <= length (params_text ps).
Proof. induction ps as [|p ps IH]; [apply le_n|]. rewrite params_item. cbn [length]. rewrite app_length. lia. Qed.
Lemma strip_ends a b x : is_space a = false -> is_space b = false -> strip (a :: x ++ [b]) = a :: x ++ [b].
Proof.
  intros A B. unfold strip, strip_p, lstrip_p, rstrip_p. rewrite drop_while_first by exact A. cbn [rev]. rewrite rev_app_distr. cbn [rev app]. rewrite drop_while_first by exact B. cbn [rev]. rewrite rev_app_distr. cbn [rev app]. rewrite rev_involutive. reflexivity.
Qed.
Lemma param_item p : param_ok p -> param_of (item p) = (lower (fst p), in_quotes (snd p)).
Proof.
  intros (A & _). unfold param_of, item. assert (N : ~ In 61%N (32%N :: fst p)). { intros [K|K]; [discriminate|]. apply (token_chars _ A) in K. lia. }
  change (32%N :: fst p ++ 61%N :: in_quotes (snd p)) with ((32%N :: fst p) ++ 61%N :: in_quotes (snd p)). rewrite split1_at by exact N.
  assert (E : strip (32%N :: fst p) = fst p). { unfold strip, strip_p, lstrip_p. cbn [drop_while]. change (is_space 32%N) with true. cbv iota. apply strip_solid. intros c K. apply (token_chars _ A) in K. apply K. }
  rewrite E, (strip_solid (lower (fst p))).
  - unfold in_quotes. rewrite !strip_ends by reflexivity. reflexivity.
  - intros c K. unfold lower in K. apply in_map_iff in K as (d & <- & K). destruct A as [_ A]. rewrite Forall_forall in A. apply A in K. unfold token_char in K. cbn [In] in K. unfold lower_char.
    assert (Z : forall x, (33 <= x < 128)%N -> is_space x = false). { intros x L. unfold is_space. repeat (apply orb_false_intro); try (apply N.eqb_neq; lia); apply andb_false_iff; rewrite !N.leb_gt; lia. }
    apply Z. destruct (N.leb_spec 65 d), (N.leb_spec d 90); cbn [andb]; lia.
Qed.
Lemma raw_type t : proper_type t -> raw_params (type_text t) = (kind t, []) :: map (fun p => (lower (fst p), in_quotes (snd p))) (t_params t).
Proof.
  intros P. assert (PO : Forall param_ok (t_params t)) by apply P. unfold raw_params. rewrite type_kind, params_split; [|exact PO|apply passes_solid; intros c K; apply (kind_chars t) in K; [|exact P]; lia|rewrite app_length; assert (L := params_length (t_params t)); lia].
  cbn [map]. f_equal.
  - unfold param_of. rewrite split1_nothing by (intros K; apply (kind_chars t) in K; [lia|exact P]). rewrite strip_solid; [reflexivity|]. intros c K. apply (kind_chars t c P K).
  - rewrite map_map. apply map_ext_in. intros p I0. rewrite Forall_forall in PO. apply param_item, PO, I0.
Qed.
Lemma replace_absent x p r s : ~ In x s -> replace (x :: p) r s = s.
Proof.
  induction s as [|c s IH]; intros N; [reflexivity|]. rewrite replace_step; [|discriminate|].
  - rewrite IH; [reflexivity|]. intros K. apply N. right. exact K.
  - destruct (startswith (x :: p) (c :: s)) eqn:E; [|reflexivity]. apply startswith_app in E as [t E]. injection E as -> _. destruct N. left. reflexivity.
Qed.
Lemma unquote_quoted v : ~ In 34%N v -> ~ In 92%N v -> unquote (in_quotes v) = v.
Proof.
  intros A B. unfold unquote, in_quotes. assert (E : bracketed 34%N 34%N (34%N :: v ++ [34%N]) = Some v).
  { unfold bracketed. destruct (v ++ [34%N]) as [|c l] eqn:E; [destruct v; discriminate|]. rewrite <- E. assert (Q : endswith [34%N] (v ++ [34%N]) = true) by (apply endswith_app; eauto). rewrite Q. change (N.eqb 34 34 && true) with true. cbv iota. cbn [tl]. rewrite removelast_last. reflexivity. }
  rewrite E. rewrite (replace_absent 92%N [92%N]) by exact B. apply replace_absent. exact B.
Qed.
Lemma quote_plain v : ~ In 34%N v -> ~ In 92%N v -> quote v = v.
Proof. intros A B. unfold quote. rewrite (replace_absent 92%N) by exact B. apply replace_absent, A. Qed.
Lemma read_param name h : proper_head h -> ~ In 47%N name -> get_param name (fields_of h) = Some (option_map Plain (param_of_head name h)).
Proof.
  intros P NS. unfold get_param, param_of_head. rewrite get_fields by exact P. destruct P as (_ & _ & P). destruct (h_type h) as [t|]; cbn [option_map]; [|reflexivity].
  rewrite raw_type by exact P. assert (PO : Forall param_ok (t_params t)) by apply P. rewrite decode_plain.
  - cbn [option_map plain_params find_param]. f_equal. destruct (streqb_spec (lower (kind t)) name) as [E|_].
    + exfalso. apply NS. rewrite <- E. unfold kind, lower. rewrite !map_app. apply in_or_app. right. left. reflexivity.
    + rewrite map_map. clear P. induction PO as [|[n v] ps (A & _ & B & C & _) _ IH]; [reflexivity|]. cbn [map find_param param fst snd] in *. assert (LL : lower (lower n) = lower n). { unfold lower. rewrite map_map. apply map_ext. intros c. unfold lower_char. destruct (N.leb_spec 65 c), (N.leb_spec c 90); cbn [andb]; try reflexivity; destruct (N.leb_spec 65 c), (N.leb_spec c 90), (N.leb_spec 65 (c + 32)), (N.leb_spec (c + 32) 90); cbn [andb]; try reflexivity; lia. }
      rewrite LL. destruct (streqb (lower n) name); [|exact IH]. rewrite (unquote_quoted v), quote_plain, (unquote_quoted v) by assumption. reflexivity.
  - constructor.
    + cbn [fst]. unfold continuation. rewrite split1_nothing; [reflexivity|]. intros K. apply (kind_chars t) in K; [lia|exact P].
    + apply Forall_map. eapply Forall_impl; [|exact PO]. intros p (A & _). cbn [fst]. unfold continuation. rewrite split1_nothing; [reflexivity|]. intros K. apply lower_no in K; [|lia]. apply (token_chars _ A) in K. lia.
Qed.
Lemma param_value name h v : proper_head h -> param_of_head name h = Some v -> Forall (fun c => (c < 128)%N) v.
Proof.
  intros (_ & _ & P). unfold param_of_head. destruct (h_type h) as [t|]; [|discriminate]. destruct P as (_ & _ & P). induction P as [|[n w] ps (_ & _ & _ & _ & A) _ IH]; [discriminate|]. cbn [param]. destruct (streqb _ _); [|exact IH]. intros E. injection E as <-. exact A.
Qed.
Lemma boundary_chars b c : a_boundary b -> In c b -> (c <> 10 /\ c <> 34 /\ c <> 60 /\ c <> 13)%N.
Proof.
  intros [F _] K. rewrite Forall_forall in F. apply F in K. unfold boundary_char in K. destruct K as [K|[K|[K|K]]]; [lia|lia|lia|]. vm_compute in K. repeat (destruct K as [<-|K]; [repeat split; discriminate|]). destruct K.
Qed.
Section Codecs.
Variable decode : str -> bool -> list N -> option (option str).
Lemma read_boundary h : proper_head h -> a_boundary (boundary h) -> get_boundary decode (fields_of h) = Some (Some (boundary h)).
Proof.
  intros P B. unfold get_boundary. rewrite read_param; [|exact P|intros K; vm_compute in K; repeat (destruct K as [K|K]; [discriminate|]); destruct K].
  unfold boundary in *. destruct (param_of_head ($"boundary") h) as [b|]; [|destruct B as [_ (r & c & E & _)]; destruct r; discriminate]. cbn [option_map].
  assert (BC := fun c => boundary_chars b c B). assert (U : unquote b = b).
  { unfold unquote, bracketed. destruct b as [|c [|d b]]; try reflexivity. destruct (BC c (or_introl eq_refl)) as (_ & A & A' & _). apply N.eqb_neq in A, A'. rewrite A, A'. reflexivity. }
  rewrite U. f_equal. f_equal. destruct B as [F (r & c & E & N)]. rewrite E. unfold rstrip_p. rewrite rev_app_distr. cbn [rev app]. rewrite drop_while_first; [cbn [rev]; rewrite rev_involutive; reflexivity|].
  rewrite Forall_forall in F. assert (K : In c b) by (rewrite E; apply in_or_app; right; left; reflexivity). apply F in K. unfold boundary_char in K.
  assert (Z : forall x, (33 <= x < 128)%N -> is_space x = false). { intros x L. unfold is_space. repeat (apply orb_false_intro); try (apply N.eqb_neq; lia); apply andb_false_iff; rewrite !N.leb_gt; lia. }
  apply Z. destruct K as [K|[K|[K|K]]]; [lia|lia|lia|]. vm_compute in K. repeat (destruct K as [K|K]; [subst c; first [lia|destruct N; reflexivity]|]). destruct K.
Qed.
Lemma read_charset h : proper_head h -> get_content_charset decode (fields_of h) = Some (option_map lower (param_of_head ($"charset") h)).
Proof.
  intros P. unfold get_content_charset. rewrite read_param; [|exact P|intros K; vm_compute in K; repeat (destruct K as [K|K]; [discriminate|]); destruct K].
  destruct (param_of_head ($"charset") h) as [v|] eqn:E; cbn [option_map]; [|reflexivity]. apply param_value in E; [|exact P]. assert (A : ascii v = true). { unfold ascii. apply forallb_forall. intros c K. rewrite Forall_forall in E. apply N.ltb_lt, E, K. }
  rewrite A. reflexivity.
Qed.

(** ** Separators *)
Lemma separator_row b l row : (forall c, In c b -> c <> 10%N) -> ~ In 10%N row -> l = nl row \/ l = row -> separator_line ($"--" ++ b) l <> None -> separates b row.
Proof.
  intros NB NR L S0. unfold separator_line in S0. destruct (startswith ($"--" ++ b) l) eqn:E; [|contradiction]. apply startswith_app in E as [t E].
  assert (T : exists t', row = ($"--" ++ b) ++ t' /\ chomp t = t').
  { destruct L as [->| ->].
    - destruct (@exists_last _ t) as (t' & c & ->).
      + intros ->. rewrite app_nil_r in E. unfold nl in E. assert (K : In 10%N ($"--" ++ b)) by (rewrite <- E; apply in_or_app; right; left; reflexivity). apply in_app_or in K as [K|K]; [vm_compute in K; repeat (destruct K as [K|K]; [discriminate|]); destruct K|exact (NB _ K eq_refl)].
      + unfold nl in E. rewrite app_assoc in E. apply app_inj_tail in E as [E <-]. exists t'. split; [exact E|]. apply chomp_row.
    - exists t. split; [exact E|]. apply chomp_no. intros K. apply NR. rewrite E. apply in_or_app. right. exact K. }
  destruct T as (t' & -> & CT). rewrite E in S0. rewrite skipn_app, skipn_all, Nat.sub_diag in S0. change ([] ++ skipn 0 t) with t in S0. rewrite CT in S0.
  assert (BL : forall w, forallb blank w = true -> Forall (fun c => c = 32%N \/ c = 9%N) w). { intros w W. rewrite forallb_forall in W. apply Forall_forall. intros c K. apply W in K. unfold blank in K. apply orb_prop in K as [K|K]; apply N.eqb_eq in K; auto. }
  destruct (startswith ($"--") t') eqn:S1.
  - apply startswith_app in S1 as [w ->]. change (skipn 2 ($"--" ++ w)) with w in S0. destruct (forallb blank w) eqn:W.
    + exists ($"--"), w. split; [right; reflexivity|]. split; [apply BL, W|]. rewrite <- app_assoc. reflexivity.
    + cbn [andb] in S0. change (forallb blank ($"--" ++ w)) with false in S0. destruct S0. reflexivity.
  - cbn [andb] in S0. destruct (forallb blank t') eqn:W; [|destruct S0; reflexivity]. exists [], t'. split; [left; reflexivity|]. split; [apply BL, W|]. rewrite <- app_assoc. reflexivity.
Qed.
Lemma startswith_self p s : startswith p (p ++ s) = true.
Proof. apply startswith_app. eauto. Qed.
Lemma separator_next b : separator_line ($"--" ++ b) (nl ($"--" ++ b)) = Some false.
Proof. unfold separator_line, nl. rewrite startswith_self, skipn_app, skipn_all, Nat.sub_diag. reflexivity. Qed.
Lemma separator_end b : separator_line ($"--" ++ b) (nl ($"--" ++ b ++ $"--")) = Some true.
Proof. unfold separator_line, nl. rewrite app_assoc, <- (app_assoc ($"--" ++ b)), startswith_self, skipn_app, skipn_all, Nat.sub_diag. reflexivity. Qed.

(** ** Mails *)
Fixpoint mail_ind' (P : mail -> Prop) (H1 : forall h t, P (One h t)) (H2 : forall h pre ps epi, Forall P ps -> P (Several h pre ps epi)) (H3 : forall h m, P m -> P (Inside h m)) (m : mail) : P m :=
  match m with
  | One h t => H1 h t
  | Several h pre ps epi => H2 h pre ps epi ((fix all (l : list mail) : Forall P l := match l with [] => Forall_nil P | x :: r => Forall_cons x (mail_ind' P H1 H2 H3 x) (all r) end) ps)
  | Inside h m => H3 h m (mail_ind' P H1 H2 H3 m)
  end.
Fixpoint tree (e : str) (m : mail) : message :=
  match m with
  | One h t => Message ($"text/plain") (fields_of h) (inl (t ++ e))
  | Several h _ ps _ => Message ($"text/plain") (fields_of h) (inr (map (tree []) ps))
  | Inside h m => Message ($"text/plain") (fields_of h) (inr [tree e m])
  end.
Lemma tree_chomp m : proper_mail m -> chomp_last (tree [10%N] m) = tree [] m.
Proof.
  induction m as [h t|h pre ps epi _|h m IH] using mail_ind'; intros (PH & P); cbn [head_of] in PH; cbn [tree]; rewrite chomp_last_eq; cbv beta iota; rewrite read_main by exact PH.
  - destruct P as [P _]. destruct (streqb_spec (main_of h) ($"multipart")) as [E|_]; [destruct P; left; symmetry; exact E|]. rewrite chomp_row, app_nil_r. reflexivity.
  - destruct P as (-> & _). reflexivity.
  - destruct P as (-> & _ & P). change (streqb ($"message") ($"multipart")) with false. cbv iota. cbn [chomp_end]. rewrite IH by exact P. reflexivity.
Qed.
Lemma read_all_to st L X : full L -> Forall (fun l => stops st l = false) L -> at_end st X -> read_all st (L ++ X) = (L, X).
Proof.
  intros F N A. induction L as [|l L IH].
  - cbn [app]. destruct X as [|x X]; [reflexivity|]. cbn [read_all]. cbn [at_end] in A. rewrite A. reflexivity.
  - inversion F; subst. inversion N as [|? ? N1 N2]; subst. cbn [app read_all]. rewrite N1. destruct l; [contradiction|]. rewrite IH by assumption. reflexivity.
Qed.
Definition body (b : str) (ps : list mail) : list str := flat_map (fun p => nl ($"--" ++ b) :: lines (mail_text p ++ [10%N])) ps.
Lemma lines_body b ps X : (forall c, In c b -> c <> 10%N) -> lines (flat_map (fun p => $"--" ++ b ++ [10%N] ++ mail_text p ++ [10%N]) ps ++ X) = body b ps ++ lines X.
Proof.
  intros NB. assert (N : ~ In 10%N ($"--" ++ b)). { intros K. apply in_app_or in K as [K|K]; [vm_compute in K; repeat (destruct K as [K|K]; [discriminate|]); destruct K|exact (NB _ K eq_refl)]. }
  induction ps as [|p ps IH]; [reflexivity|]. cbn [flat_map body]. rewrite <- !app_assoc. rewrite (app_assoc ($"--") b). cbn [app]. rewrite lines_row by exact N. f_equal. rewrite lines_app. f_equal. exact IH.
Qed.
Lemma several_lines h pre ps epi e : proper_head h -> (forall c, In c (boundary h) -> c <> 10%N) -> Forall (fun r => ~ In 10%N r) pre ->
  lines (mail_text (Several h pre ps epi) ++ e) =
  map nl (flat_map frows (all_fields h)) ++ [10%N] :: map nl pre ++ body (boundary h) ps ++ nl ($"--" ++ boundary h ++ $"--") :: lines (epi ++ e).
Proof.
  intros PH NB NP. cbn [mail_text]. rewrite <- !app_assoc. rewrite head_lines by (apply head_ok, PH). f_equal. f_equal. fold nl. change (fun r : list N => r ++ [10%N]) with nl. rewrite lines_rows by exact NP. f_equal. rewrite lines_body by exact NB. f_equal.
  rewrite !app_assoc. rewrite <- (app_assoc _ [10%N]). rewrite <- (app_assoc _ ([10%N] ++ epi)). cbn [app]. rewrite <- (app_assoc ($"--")). apply lines_row.
  intros K. apply in_app_or in K as [K|K]; [vm_compute in K; repeat (destruct K as [K|K]; [discriminate|]); destruct K|]. apply in_app_or in K as [K|K]; [exact (NB _ K eq_refl)|]. vm_compute in K; repeat (destruct K as [K|K]; [discriminate|]); destruct K.
Qed.
Notation parse := (parse decode).
Notation parts := (parts decode).
Definition quiet (st : list matcher) (ls : list str) : Prop := Forall (fun l => stops st l = false) ls.
Definition reads (F : nat) (m : mail) : Prop :=
  forall f st e X, F <= f -> st_ok st -> e = [] \/ e = [10%N] -> full X -> at_end st X -> quiet st (lines (mail_text m ++ e)) ->
  (e = [] -> X = []) -> parse f st ($"text/plain") (lines (mail_text m ++ e) ++ X) = Got (tree e m) X.
Lemma reads_more F F' m : F <= F' -> reads F m -> reads F' m.
Proof. intros L H f st e X L'. apply H. lia. Qed.
Lemma text_not_empty m : mail_text m <> [].
Proof. assert (H : forall h x, head_text h ++ x <> []). { intros h x E. unfold head_text in E. destruct (flat_map field_text (all_fields h)); discriminate. } destruct m; cbn [mail_text]; apply H. Qed.
Definition apart (b : str) (p : mail) : Prop := forall row, In row (rows (mail_text p)) -> ~ separates b row.
Lemma apart_lines b p l : (forall c, In c b -> c <> 10%N) -> apart b p -> In l (lines (mail_text p ++ [10%N])) -> separator_line ($"--" ++ b) l = None.
Proof.
  intros NB A K. destruct (separator_line ($"--" ++ b) l) as [x|] eqn:E; [|reflexivity]. exfalso.
  assert (S0 : separates b (chomp l)). { destruct (lines_cases _ _ K) as [(y & -> & Y)|[NE Y]].
    - rewrite chomp_row. apply (separator_row b (nl y)); [exact NB|exact Y|left; reflexivity|]. unfold nl. rewrite E. discriminate.
    - rewrite chomp_no by exact Y. apply (separator_row b l); [exact NB|exact Y|right; reflexivity|]. rewrite E. discriminate. }
  assert (R0 := line_row _ _ K). assert (KK : forall y, split_char 10%N (y ++ [10%N]) = split_char 10%N y ++ [[]]). { clear. induction y as [|c y IH]; [reflexivity|]. cbn [app split_char]. rewrite IH. destruct (N.eqb c 10); [reflexivity|]. assert (NE := split_char_nonempty 10%N y). destruct (split_char 10%N y); [contradiction|reflexivity]. }
  rewrite KK in R0. apply in_app_or in R0 as [R0|[R0|[]]]; [exact (A _ R0 S0)|]. rewrite <- R0 in S0. destruct S0 as (? & ? & _ & _ & Q). discriminate.
Qed.
Lemma nl_not_empty x : nl x <> [].
Proof. destruct x; discriminate. Qed.
Lemma stops_next b st : stops (AtSeparator ($"--" ++ b) :: st) (nl ($"--" ++ b)) = true.
Proof. unfold stops. cbn [existsb matches]. rewrite separator_next. reflexivity. Qed.
Lemma stops_end b st : stops (AtSeparator ($"--" ++ b) :: st) (nl ($"--" ++ b ++ $"--")) = true.
Proof. unfold stops. cbn [existsb matches]. rewrite separator_end. reflexivity. Qed.
Lemma body_cons b p ps : body b (p :: ps) = nl ($"--" ++ b) :: lines (mail_text p ++ [10%N]) ++ body b ps.
Proof. reflexivity. Qed.
Lemma body_full b ps : full (body b ps).
Proof. unfold body. induction ps as [|p ps IH]; [constructor|]. cbn [flat_map app]. constructor; [apply nl_not_empty|]. apply Forall_app. split; [apply lines_full|exact IH]. Qed.
Lemma full_app a b : full a -> full b -> full (a ++ b).
Proof. intros A B. apply Forall_app. auto. Qed.
Lemma parts_read F b ps : (forall c, In c b -> c <> 10%N) -> forall p, Forall (fun p => reads F p /\ proper_mail p /\ apart b p) (p :: ps) -> forall f st L X,
  F + length ps < f -> st_ok st -> full L -> full X -> at_end st X -> quiet st (lines (mail_text p ++ [10%N]) ++ body b ps ++ nl ($"--" ++ b ++ $"--") :: L) ->
  parts f st ($"--" ++ b) ($"text/plain") (lines (mail_text p ++ [10%N]) ++ body b ps ++ nl ($"--" ++ b ++ $"--") :: L ++ X) = Got (map (tree []) (p :: ps)) X.
Proof.
  intros NB. induction ps as [|q ps IH]; intros p PS f st L X LF SO FL FX AX Q; inversion PS as [|? ? (P1 & P2 & P3) PS']; subst; (destruct f as [|f]; [lia|]); rewrite parts_S.
  all: apply Forall_app in Q as [Q1 Q2]; unfold quiet in Q2.
  all: assert (S' : st_ok (AtSeparator ($"--" ++ b) :: st)) by (intros x [<-|K]; [apply sep_ok|apply SO, K]).
  all: assert (QP : quiet (AtSeparator ($"--" ++ b) :: st) (lines (mail_text p ++ [10%N]))) by
    (apply Forall_forall; intros l K; unfold stops; cbn [existsb matches]; rewrite (apart_lines b p l NB P3 K); cbn [orb]; unfold quiet in Q1; rewrite Forall_forall in Q1; apply Q1, K).
  all: assert (SK : forall Y, skip_separators ($"--" ++ b) st (lines (mail_text p ++ [10%N]) ++ Y) = lines (mail_text p ++ [10%N]) ++ Y) by
    (intros Y; assert (AL := apart_lines b p); destruct (lines (mail_text p ++ [10%N])) as [|l ls] eqn:EL;
     [exfalso; assert (C := concat_lines (mail_text p ++ [10%N])); rewrite EL in C; destruct (mail_text p); discriminate|];
     cbn [app skip_separators]; inversion Q1; subst; rewrite (AL l NB P3 (or_introl eq_refl)); destruct (stops st l); [discriminate|reflexivity]).
  all: rewrite SK.
  - change (body b [] ++ nl ($"--" ++ b ++ $"--") :: L) with (nl ($"--" ++ b ++ $"--") :: L) in Q2. change (body b [] ++ nl ($"--" ++ b ++ $"--") :: L ++ X) with (nl ($"--" ++ b ++ $"--") :: L ++ X). rewrite (P1 f _ [10%N]); [|cbn in LF; lia|exact S'|right; reflexivity| | |exact QP|discriminate].
    + cbn [readline]. apply Forall_cons_iff in Q2 as [Q3 Q4]. rewrite Q3. assert (NE := nl_not_empty ($"--" ++ b ++ $"--")). assert (SE := separator_end b). destruct (nl ($"--" ++ b ++ $"--")) as [|c l]; [contradiction|]. rewrite SE.
      rewrite read_all_to by assumption. cbn [snd map]. rewrite tree_chomp by exact P2. reflexivity.
    + constructor; [apply nl_not_empty|apply full_app; assumption].
    + cbn [at_end]. apply stops_end.
  - rewrite body_cons, <- app_comm_cons, <- app_assoc in Q2. rewrite body_cons, <- app_comm_cons, <- app_assoc. rewrite (P1 f _ [10%N]); [|cbn in LF; lia|exact S'|right; reflexivity| | |exact QP|discriminate].
    + cbn [readline]. apply Forall_cons_iff in Q2 as [Q3 Q4]. rewrite Q3. assert (NE := nl_not_empty ($"--" ++ b)). assert (SE := separator_next b). destruct (nl ($"--" ++ b)) as [|c l]; [contradiction|]. rewrite SE.
      rewrite IH; [cbn [map]; rewrite tree_chomp by exact P2; reflexivity|exact PS'|cbn [length] in LF; lia|assumption..].
    + constructor; [apply nl_not_empty|]. apply full_app; [apply lines_full|]. apply full_app; [apply body_full|]. constructor; [apply nl_not_empty|apply full_app; assumption].
    + cbn [at_end]. apply stops_next.
Qed.
Lemma all_proper b ps : (fix all (l : list mail) : Prop := match l with [] => True | p :: r => proper_mail p /\ (forall row, In row (rows (mail_text p)) -> ~ separates b row) /\ all r end) ps -> Forall (fun p => proper_mail p /\ apart b p) ps.
Proof. induction ps as [|p ps IH]; intros H; [constructor|]. destruct H as (A & B & C). constructor; [split; assumption|apply IH, C]. Qed.
Lemma find_first_to b st pre Y : Forall (fun r => ~ In 10%N r /\ ~ separates b r) pre -> (forall c, In c b -> c <> 10%N) -> quiet st (map nl pre ++ [nl ($"--" ++ b)]) ->
  find_first ($"--" ++ b) st (map nl pre ++ nl ($"--" ++ b) :: Y) = (map nl pre, true, Y).
Proof.
  intros F NB Q. induction F as [|r pre [A B] _ IH].
  - change (map nl [] ++ nl ($"--" ++ b) :: Y) with (nl ($"--" ++ b) :: Y). change (map nl [] ++ [nl ($"--" ++ b)]) with [nl ($"--" ++ b)] in Q. cbn [find_first]. apply Forall_cons_iff in Q as [Q1 _]. rewrite Q1. assert (NE := nl_not_empty ($"--" ++ b)). assert (SE := separator_next b). destruct (nl ($"--" ++ b)); [contradiction|]. rewrite SE. reflexivity.
  - change (map nl (r :: pre) ++ nl ($"--" ++ b) :: Y) with (nl r :: map nl pre ++ nl ($"--" ++ b) :: Y). change (map nl (r :: pre) ++ [nl ($"--" ++ b)]) with (nl r :: map nl pre ++ [nl ($"--" ++ b)]) in Q. cbn [find_first]. apply Forall_cons_iff in Q as [Q1 Q2]. rewrite Q1. assert (NE := nl_not_empty r). assert (SE : separator_line ($"--" ++ b) (nl r) = None). { destruct (separator_line ($"--" ++ b) (nl r)) eqn:E; [|reflexivity]. destruct B. apply (separator_row b (nl r)); [exact NB|exact A|left; reflexivity|]. rewrite E. discriminate. }
    rewrite (IH Q2). change (map nl (r :: pre)) with (nl r :: map nl pre). destruct (nl r) as [|c l]; [contradiction|]. rewrite SE. reflexivity.
Qed.
Theorem mail_read m : proper_mail m -> exists F, reads F m.
Proof.
  induction m as [h t|h pre ps epi IH|h m IH] using mail_ind'; intros (PH & P); cbn [head_of] in PH.
  - exists 1. intros f st e X L SO E FX AX Q EX. destruct f as [|f]; [lia|]. rewrite parse_S. cbn [mail_text] in *. rewrite <- app_assoc in *. rewrite head_lines in * by (apply head_ok, PH). rewrite <- app_assoc. cbn [app].
    assert (Q' : quiet st ((map nl (flat_map frows (all_fields h)) ++ [[10%N]]) ++ lines (t ++ e))) by (rewrite <- app_assoc; exact Q). clear Q. apply Forall_app in Q' as [Q1 Q2].
    destruct (read_proper st h (lines (t ++ e) ++ X) PH Q1) as [R1 R2]. rewrite R1, R2. cbv zeta. cbn [app]. rewrite read_main by exact PH.
    destruct P as [P _]. destruct (streqb_spec (content_type ($"text/plain") (fields_of h)) ($"message/delivery-status")) as [E1|_]; [exfalso; apply P; right; left; rewrite <- read_main by exact PH; rewrite E1; reflexivity|].
    destruct (streqb_spec (main_of h) ($"message")) as [E2|_]; [destruct P; right; left; symmetry; exact E2|]. destruct (streqb_spec (main_of h) ($"multipart")) as [E2|_]; [destruct P; left; symmetry; exact E2|].
    rewrite read_all_to; [|apply lines_full|exact Q2|exact AX]. rewrite concat_lines. reflexivity.
  - destruct P as (PM & PD & PB & NE & PP & PS & _). apply all_proper in PS.
    assert (FS : exists F, Forall (fun p => reads F p /\ proper_mail p /\ apart (boundary h) p) ps).
    { clear NE PP. induction ps as [|p ps IHps]; [exists 0; constructor|]. inversion IH as [|? ? I1 I2]; subst. inversion PS as [|? ? [A B] C]; subst. destruct (I1 A) as [F1 H1]. destruct (IHps I2 C) as [F2 H2]. exists (F1 + F2).
      constructor; [split; [apply (reads_more F1); [lia|exact H1]|split; assumption]|]. eapply Forall_impl; [|exact H2]. intros x (X1 & X2). split; [apply (reads_more F2); [lia|exact X1]|exact X2]. }
    destruct FS as [F FS]. exists (S (S (F + length ps))). intros f st e X L SO E FX AX Q EX. destruct f as [|f]; [lia|]. rewrite parse_S.
    assert (NB : forall c, In c (boundary h) -> c <> 10%N) by (intros c K; apply (boundary_chars _ _ PB) in K; lia).
    assert (NP : Forall (fun r => ~ In 10%N r) pre) by (eapply Forall_impl; [|exact PP]; intros r [[A _] _]; exact A).
    rewrite several_lines in * by assumption. rewrite <- app_assoc. cbn [app].
    set (Y := map nl pre ++ body (boundary h) ps ++ nl ($"--" ++ boundary h ++ $"--") :: lines (epi ++ e)) in *.
    assert (Q' : quiet st ((map nl (flat_map frows (all_fields h)) ++ [[10%N]]) ++ Y)) by (rewrite <- app_assoc; exact Q). clear Q. apply Forall_app in Q' as [Q1 Q2].
    destruct (read_proper st h (Y ++ X) PH Q1) as [R1 R2]. rewrite R1, R2. cbv zeta. cbn [app]. rewrite read_main by exact PH.
    destruct (streqb_spec (content_type ($"text/plain") (fields_of h)) ($"message/delivery-status")) as [E1|_]; [exfalso; assert (K := read_main h PH); rewrite E1, PM in K; discriminate|].
    rewrite PM. change (streqb ($"multipart") ($"message")) with false. change (streqb ($"multipart") ($"multipart")) with true. cbv iota. rewrite read_boundary by assumption.
    destruct (streqb_spec (content_type ($"text/plain") (fields_of h)) ($"multipart/digest")) as [E1|_]; [exfalso; assert (K := read_sub h PH); rewrite E1 in K; apply PD; rewrite <- K; reflexivity|].
    destruct ps as [|p ps]; [contradiction|]. subst Y. rewrite body_cons, <- app_comm_cons, <- app_assoc in Q2. rewrite body_cons, <- app_comm_cons, <- !app_assoc, <- !app_comm_cons, <- !app_assoc, <- app_comm_cons.
    assert (Q3 : quiet st ((map nl pre ++ [nl ($"--" ++ boundary h)]) ++ lines (mail_text p ++ [10%N]) ++ body (boundary h) ps ++ nl ($"--" ++ boundary h ++ $"--") :: lines (epi ++ e))) by (rewrite <- app_assoc; exact Q2). apply Forall_app in Q3 as [Q3 Q4].
    rewrite find_first_to; [|eapply Forall_impl; [|exact PP]; intros r [[A _] B]; split; assumption|exact NB|exact Q3].
    rewrite parts_read with (F := F); [reflexivity|exact NB|exact FS|cbn [length] in L; lia|exact SO|apply lines_full|exact FX|exact AX|exact Q4].
  - destruct P as (PM & PD & P). destruct (IH P) as [F H]. exists (S F). intros f st e X L SO E FX AX Q EX. destruct f as [|f]; [lia|]. rewrite parse_S. cbn [mail_text] in *. rewrite <- app_assoc in *. rewrite head_lines in * by (apply head_ok, PH). rewrite <- app_assoc. cbn [app].
    assert (Q' : quiet st ((map nl (flat_map frows (all_fields h)) ++ [[10%N]]) ++ lines (mail_text m ++ e))) by (rewrite <- app_assoc; exact Q). clear Q. apply Forall_app in Q' as [Q1 Q2].
    destruct (read_proper st h (lines (mail_text m ++ e) ++ X) PH Q1) as [R1 R2]. rewrite R1, R2. cbv zeta. cbn [app]. rewrite read_main by exact PH.
    destruct (streqb_spec (content_type ($"text/plain") (fields_of h)) ($"message/delivery-status")) as [E1|_]; [exfalso; assert (K := read_sub h PH); rewrite E1 in K; apply PD; rewrite <- K; reflexivity|].
    rewrite PM. change (streqb ($"message") ($"message")) with true. cbv iota. rewrite H; [reflexivity|lia|assumption..].
Qed.
Theorem mail_split m : proper_mail m -> message_from_string decode (mail_text m) = Some (tree [] m).
Proof.
  intros P. destruct (mail_read m P) as [F H]. specialize (H F [] [] [] (le_n F)). rewrite !app_nil_r in H. apply (split_with decode F (mail_text m) (tree [] m) []). apply H; auto; [intros x []|constructor|exact I|]. apply Forall_forall. intros l _. reflexivity.
Qed.
(** The parts in order *)
Definition shown (x : head * option str) (m : message) : Prop :=
  let '(Message d hs p) := m in
  d = $"text/plain" /\ hs = fields_of (fst x) /\ match snd x, p with Some t, inl t' => t' = t | None, inr _ => True | _, _ => False end.
Lemma walk_tree m : Forall2 shown (contents m) (walk (tree [] m)).
Proof.
  induction m as [h t|h pre ps epi IH|h m IH] using mail_ind'; cbn [contents tree walk].
  - constructor; [|constructor]. cbn. rewrite app_nil_r. auto.
  - constructor; [cbn; auto|]. induction IH as [|p ps A _ IHps]; [constructor|]. cbn [flat_map map]. apply Forall2_app; assumption.
  - constructor; [cbn; auto|]. cbn [flat_map]. rewrite app_nil_r. exact IH.
Qed.
End Codecs.
