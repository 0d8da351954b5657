(** Loading a message from its text. *)
From Coq Require Import Lia.
From Verif Require Import PyStr PyDict PyMime PyEmail Model_Headers Spec_Headers Proofs_Headers Model_Load Spec_Load Proofs_Load Proofs_Mime Model_Message Spec_Message Proofs_Email Proofs_Split Proofs_Round.

(** ** No carriage returns *)
Lemma no_cr_id s : ~ In 13%N s -> translate_line_breaks s = s.
Proof. intros N. rewrite tlb_eq, crlf_no_cr by exact N. apply map_to_lf_no_cr, N. Qed.
Lemma head_no_cr h : proper_head h -> ~ In 13%N (head_text h).
Proof.
  intros P K. apply head_ok in P. rewrite head_rows in K. apply in_app_or in K as [K|[K|[]]]; [|discriminate]. apply in_flat_map in K as (r & R0 & K). apply in_flat_map in R0 as (f & F & R0). rewrite Forall_forall in P. destruct (P f F) as ((NE & A) & B & C & D).
  unfold nl in K. apply in_app_or in K as [K|[K|[]]]; [|discriminate]. destruct R0 as [<-|R0].
  - apply in_app_or in K as [K|K]; [rewrite Forall_forall in A; apply A in K; lia|]. apply in_app_or in K as [K|K]; [vm_compute in K; repeat (destruct K as [K|K]; [discriminate|]); destruct K|]. exact (proj2 B K).
  - rewrite Forall_forall in D. destruct (D r R0) as [[_ Q] _]. exact (Q K).
Qed.
Lemma mail_no_cr m : proper_mail m -> ~ In 13%N (mail_text m).
Proof.
  induction m as [h t|h pre ps epi IH|h m IH] using mail_ind'; intros (PH & P) K; cbn [head_of] in PH; cbn [mail_text] in K; (apply in_app_or in K as [K|K]; [exact (head_no_cr h PH K)|]).
  - destruct P as [_ P]. exact (P K).
  - destruct P as (_ & _ & PB & _ & PP & PS & PE). apply all_proper in PS. apply in_app_or in K as [K|K]; [apply in_flat_map in K as (r & R0 & K); rewrite Forall_forall in PP; destruct (PP r R0) as [[_ Q] _]; apply in_app_or in K as [K|[K|[]]]; [exact (Q K)|discriminate]|].
    assert (B : ~ In 13%N (boundary h)) by (intros Q; apply (boundary_chars _ _ PB) in Q; lia). assert (D : ~ In 13%N ($"--")) by (intros Q; vm_compute in Q; repeat (destruct Q as [Q|Q]; [discriminate|]); destruct Q).
    apply in_app_or in K as [K|K].
    + apply in_flat_map in K as (p & I0 & K). apply in_app_or in K as [K|K]; [exact (D K)|]. apply in_app_or in K as [K|K]; [exact (B K)|]. apply in_app_or in K as [[K|[]]|K]; [discriminate|]. apply in_app_or in K as [K|[K|[]]]; [|discriminate].
      rewrite Forall_forall in IH, PS. exact (IH p I0 (proj1 (PS p I0)) K).
    + apply in_app_or in K as [K|K]; [exact (D K)|]. apply in_app_or in K as [K|K]; [exact (B K)|]. apply in_app_or in K as [K|K]; [exact (D K)|]. apply in_app_or in K as [[K|[]]|K]; [discriminate|exact (PE K)].
  - destruct P as (_ & _ & P). exact (IH P K).
Qed.
(** Rows with another end *)
Lemma crlf_rows ls : Forall one_row ls -> translate_line_breaks (join [13; 10]%N ls) = join [10%N] ls.
Proof.
  intros F. rewrite tlb_eq.
  assert (G : forall x s, ~ In 13%N x -> map to_lf (crlf_lf (x ++ s)) = x ++ map to_lf (crlf_lf s)).
  { induction x as [|c x IH]; intros s N; [reflexivity|]. cbn [app crlf_lf]. destruct (N.eqb_spec c 13) as [->|NE]; [destruct N; left; reflexivity|]. cbn [map]. rewrite IH by (intros K; apply N; right; exact K). unfold to_lf at 1. apply N.eqb_neq in NE. rewrite NE. reflexivity. }
  induction F as [|x l [A B] C IH]; [reflexivity|]. destruct l as [|y l]; [cbn [join]; rewrite <- (app_nil_r x) at 1; rewrite G by exact B; apply app_nil_r|].
  change (join [13; 10]%N (x :: y :: l)) with (x ++ [13; 10]%N ++ join [13; 10]%N (y :: l)). change (join [10%N] (x :: y :: l)) with (x ++ [10%N] ++ join [10%N] (y :: l)). rewrite G by exact B. f_equal. cbn [app crlf_lf]. change (N.eqb 13 13) with true. change (N.eqb 10 10) with true. cbv iota. cbn [map]. rewrite IH. reflexivity.
Qed.
Lemma cr_rows ls : Forall one_row ls -> translate_line_breaks (join [13%N] ls) = join [10%N] ls.
Proof.
  intros F. rewrite tlb_eq.
  assert (NB : forall s, ~ In 10%N s -> crlf_lf s = s). { induction s as [|c s IH]; intros N; [reflexivity|]. cbn [crlf_lf]. assert (E : crlf_lf s = s) by (apply IH; intros K; apply N; right; exact K). destruct (N.eqb c 13); [|rewrite E; reflexivity]. destruct s as [|d s]; [reflexivity|]. destruct (N.eqb_spec d 10) as [->|_]; [destruct N; right; left; reflexivity|]. rewrite E. reflexivity. }
  rewrite NB.
  - induction F as [|x l [A B] C IH]; [reflexivity|]. destruct l as [|y l]; [cbn [join]; apply map_to_lf_no_cr, B|].
    change (join [13]%N (x :: y :: l)) with (x ++ [13]%N ++ join [13]%N (y :: l)). change (join [10%N] (x :: y :: l)) with (x ++ [10%N] ++ join [10%N] (y :: l)). rewrite map_app, map_to_lf_no_cr by exact B. f_equal. cbn [app map]. rewrite IH. reflexivity.
  - clear NB. induction F as [|x l [A B] C IH]; [intros []|]. destruct l as [|y l]; [cbn [join]; exact A|]. change (join [13]%N (x :: y :: l)) with (x ++ [13]%N ++ join [13]%N (y :: l)). intros K. apply in_app_or in K as [K|[K|K]]; [exact (A K)|discriminate|exact (IH K)].
Qed.
Lemma lf_rows ls : Forall one_row ls -> translate_line_breaks (join [10%N] ls) = join [10%N] ls.
Proof.
  intros F. apply no_cr_id. induction F as [|x l [A B] C IH]; [intros []|]. destruct l as [|y l]; [cbn [join]; exact B|]. change (join [10]%N (x :: y :: l)) with (x ++ [10]%N ++ join [10]%N (y :: l)). intros K. apply in_app_or in K as [K|[K|K]]; [exact (B K)|discriminate|exact (IH K)].
Qed.

Section Message.
Variable udigit uword : char -> bool.
Variable codec : str -> bool -> list N -> option str.
Variable feed : str -> list str * bool.
Variable header_parts : str -> option (list hpart).
Variable decode : str -> bool -> list N -> option (option str).
Variable repair : list N -> list N.
Notation load_text := (load_text udigit uword codec feed header_parts decode repair).
Notation load := (load udigit uword codec feed header_parts).

(** ** The parts of a mail *)
Definition part_for (x : head * option str) : part :=
  let h := fst x in
  if streqb (main_of h) ($"text") then mkPart (fields_of h) (main_of h) (sub_of h) (charset_of h) (get_payload repair (transfer_of h) (match snd x with Some t => t | None => [] end))
  else mkPart (fields_of h) (main_of h) (sub_of h) None [].
Lemma read_transfer h : lower (match get ($"content-transfer-encoding") (fields_of h) with Some v => v | None => [] end) = transfer_of h.
Proof.
  unfold fields_of, transfer_of. induction (all_fields h) as [|f l IH]; [reflexivity|]. cbn [map get filter]. change (lower ($"content-transfer-encoding")) with ($"content-transfer-encoding"). destruct (streqb (lower (f_name f)) ($"content-transfer-encoding")); [reflexivity|exact IH].
Qed.
Lemma contents_proper m : proper_mail m -> Forall (fun x => proper_head (fst x) /\ (snd x = None -> In (main_of (fst x)) [$"multipart"; $"message"])) (contents m).
Proof.
  induction m as [h t|h pre ps epi IH|h m IH] using mail_ind'; intros (PH & P); cbn [head_of] in PH; cbn [contents].
  - constructor; [split; [exact PH|discriminate]|constructor].
  - destruct P as (PM & _ & _ & _ & _ & PS & _). apply all_proper in PS. constructor; [split; [exact PH|intros _; left; symmetry; exact PM]|]. apply Forall_forall. intros x X. apply in_flat_map in X as (p & I0 & X). rewrite Forall_forall in IH, PS. specialize (IH p I0 (proj1 (PS p I0))). rewrite Forall_forall in IH. apply IH, X.
  - destruct P as (PM & _ & P). constructor; [split; [exact PH|intros _; right; left; symmetry; exact PM]|apply IH, P].
Qed.
Lemma parts_shown l ms : Forall2 shown l ms -> Forall (fun x => proper_head (fst x) /\ (snd x = None -> In (main_of (fst x)) [$"multipart"; $"message"])) l -> parts_of decode repair ms = Some (map part_for l).
Proof.
  induction 1 as [|[h o] [d hs p] l ms S0 _ IH]; intros F; [reflexivity|]. apply Forall_cons_iff in F as [[PH PC] F]. cbn [fst snd] in *. cbn [parts_of map]. rewrite (IH F). destruct S0 as (-> & -> & S0). cbn [fst snd] in *.
  unfold part_of. rewrite read_main, read_sub by exact PH. unfold part_for. cbn [fst snd]. destruct (streqb_spec (main_of h) ($"text")) as [E|E]; [|reflexivity].
  destruct o as [t|]; [|exfalso; rewrite E in PC; destruct (PC eq_refl) as [K|[K|[]]]; discriminate]. destruct p as [t'|]; [|contradiction]. subst t'. rewrite read_charset by exact PH. fold (charset_of h). rewrite read_transfer. reflexivity.
Qed.
Theorem mail_loaded m : proper_mail m -> load_text (mail_text m) = load (map part_for (contents m)).
Proof.
  intros P. unfold Model_Message.load_text. rewrite no_cr_id by (apply mail_no_cr, P). rewrite mail_split by exact P. rewrite (parts_shown (contents m)); [reflexivity|apply walk_tree|apply contents_proper, P].
Qed.
Theorem flag_mail m : proper_mail m -> exists t, message_from_string decode (mail_text m) = Some t /\ (missing_boundary_header t = true <-> exists x, In x (contents m) /\ all_fields (fst x) = []).
Proof.
  intros P. exists (tree [] m). split; [apply mail_split, P|]. unfold missing_boundary_header. rewrite existsb_exists. assert (W := walk_tree m). clear P. split.
  - intros (x & X & T). induction W as [|a b l l' S0 W IH]; [destruct X|]. destruct X as [->|X]; [|destruct (IH X) as (y & Y & Z); exists y; split; [right; exact Y|exact Z]].
    exists a. split; [left; reflexivity|]. destruct x as [d hs p]. destruct S0 as (_ & E & _). unfold fields_of in E. destruct (all_fields (fst a)); [reflexivity|]. cbn [map] in E. rewrite E in T. discriminate.
  - intros (x & X & E). induction W as [|a b l l' S0 W IH]; [destruct X|]. destruct X as [->|X]; [|destruct (IH X) as (y & Y & Z); exists y; split; [right; exact Y|exact Z]].
    exists b. split; [left; reflexivity|]. destruct b as [d hs p]. destruct S0 as (_ & E' & _). unfold fields_of in E'. rewrite E in E'. rewrite E'. reflexivity.
Qed.
(** Texts that are written as they are meant *)
Definition as_written (x : head * str) : Prop :=
  ~ In (transfer_of (fst x)) [$"quoted-printable"; $"base64"] /\ Forall (fun c => (c < 128)%N) (snd x) /\
  ~ In 0%N (declared (charset_of (fst x))) /\ forall strict, codec (declared (charset_of (fst x))) strict (snd x) = Some (snd x).
Lemma payload_written h t : streqb (main_of h) ($"text") = true -> as_written (h, t) -> payload codec (part_for (h, Some t)) = Ok t.
Proof.
  intros M (A & B & C & D). cbn [fst snd] in *. unfold part_for. cbn [fst snd]. rewrite M.
  assert (N1 : transfer_of h <> $"quoted-printable") by (intros E; apply A; left; symmetry; exact E). assert (N2 : transfer_of h <> $"base64") by (intros E; apply A; right; left; symmetry; exact E).
  rewrite (get_plain repair _ t N1 N2). rewrite raw_low by (eapply Forall_impl; [|exact B]; cbv beta; lia).
  destruct (proj2 (payload_ok codec (mkPart (fields_of h) (main_of h) (sub_of h) (charset_of h) t)) C) as [t' E]. rewrite E.
  destruct (payload_is codec _ _ E) as (strict & _ & K). cbn [p_charset p_bytes] in K. rewrite D in K. congruence.
Qed.
Lemma part_for_main x : p_main (part_for x) = main_of (fst x) /\ p_sub (part_for x) = sub_of (fst x) /\ p_headers (part_for x) = fields_of (fst x).
Proof. unfold part_for. destruct (streqb _ _); auto. Qed.
Lemma texts_split m : proper_mail m -> filter (fun p => streqb (p_main p) ($"text")) (map part_for (contents m)) = map (fun x => part_for (fst x, Some (snd x))) (texts_of m).
Proof.
  intros P. apply contents_proper in P. unfold texts_of. induction P as [|[h o] l [PH PC] _ IH]; [reflexivity|]. cbn [map filter flat_map fst snd] in *. destruct (part_for_main (h, o)) as (-> & _). cbn [fst] in *. destruct (streqb_spec (main_of h) ($"text")) as [E|E].
  - destruct o as [t|]; [|exfalso; rewrite E in PC; destruct (PC eq_refl) as [K|[K|[]]]; discriminate]. cbn [app map fst snd]. rewrite IH. reflexivity.
  - destruct o; exact IH.
Qed.
Lemma texts_main m h t : In (h, t) (texts_of m) -> streqb (main_of h) ($"text") = true.
Proof. unfold texts_of. rewrite in_flat_map. intros ([h' [t'|]] & _ & K); cbn [fst snd] in K; [|destruct K]. destruct (streqb (main_of h') ($"text")) eqn:E; [|destruct K]. destruct K as [K|[]]. injection K as <- <-. exact E. Qed.
Lemma one_line_fun a b b' : one_line a b -> one_line a b' -> b = b'.
Proof. intros H. revert b'. induction H as [|c d s t A _ IH]; intros b' H'; inversion H' as [|? d' ? t' A' B']; subst; [reflexivity|]. f_equal; [lia|apply IH, B']. Qed.
Theorem mail_texts m l : proper_mail m -> Forall as_written (texts_of m) -> load_text (mail_text m) = Some l ->
  l_raw_text l = join [10%N] (map snd (texts_of m)) /\
  exists subjects shown, Forall2 (fun h t => decode_header codec header_parts h = Ok (Some t)) (values_of ($"Subject") (fields_of (head_of m))) subjects /\
    Forall2 (fun x t => rendered (streqb (sub_of (fst x)) ($"html")) feed (snd x) t) (texts_of m) shown /\ l_text l = join ($" ") (subjects ++ shown).
Proof.
  intros P W L. rewrite mail_loaded in L by exact P. apply load_some in L as (subj & texts & A & B & C & D & _).
  assert (E : map snd texts = map snd (texts_of m) /\ Forall2 (fun x t => rendered (streqb (sub_of (fst x)) ($"html")) feed (snd x) t) (texts_of m) (map fst texts)).
  { rewrite texts_split in B by exact P. assert (TM := texts_main m). clear P A C D. revert texts B TM. generalize dependent (texts_of m). intros tl W. induction W as [|[h t] tl W1 _ IH]; intros texts B TM; [inversion B; split; [reflexivity|constructor]|]. cbn [map fst snd] in B. inversion B as [|? [r s] ? ts [P1 P2] B']; subst. cbn [fst snd] in *.
    assert (M := TM h t (or_introl eq_refl)). rewrite (payload_written h t M W1) in P1. injection P1 as <-. destruct (IH ts B' (fun h t K => TM h t (or_intror K))) as [E1 E2]. cbn [map fst snd]. split; [rewrite E1; reflexivity|]. constructor; [|exact E2]. cbn [fst snd]. destruct (part_for_main (h, Some t)) as (_ & Q & _). unfold html in P2. rewrite Q in P2. exact P2. }
  destruct E as [E1 E2]. split; [rewrite D, E1; reflexivity|]. exists subj, (map fst texts). split; [|split; [exact E2|exact C]].
  assert (H : headers_of (map part_for (contents m)) = fields_of (head_of m)). { destruct m; cbn [contents map headers_of head_of]; apply part_for_main. }
  rewrite H in A. exact A.
Qed.

(** ** Texts that are always loaded *)
Lemma replace_in p r s c : In c (replace p r s) -> In c s \/ In c r.
Proof.
  unfold replace. destruct p as [|y q]; [auto|]. set (p := y :: q). clearbody p. generalize 0. induction s as [|x s IH]; intros k K; [cbn [replace_aux] in K; destruct K|]. destruct k as [|k]; cbn [replace_aux] in K; [|destruct (IH _ K); [left; right; assumption|auto]].
  destruct (startswith p (x :: s)).
  - apply in_app_or in K as [K|K]; [auto|]. destruct (IH _ K); [left; right; assumption|auto].
  - destruct K as [K|K]; [left; left; exact K|]. destruct (IH _ K); [left; right; assumption|auto].
Qed.
Lemma bracketed_incl a b s t : bracketed a b s = Some t -> incl t s.
Proof.
  unfold bracketed. destruct s as [|c [|d r]]; try discriminate. destruct (N.eqb c a && endswith [b] (d :: r)); [|discriminate]. intros E. injection E as <-. cbn [tl].
  assert (RI : forall l : str, incl (removelast l) l). { induction l as [|x l IH]; [apply incl_refl|]. cbn [removelast]. destruct l as [|y l]; [intros ? []|]. intros z [<-|Z]; [left; reflexivity|right; apply IH, Z]. }
  intros x X. right. apply RI, X.
Qed.
Lemma unquote_nul s : In 0%N (unquote s) -> In 0%N s.
Proof.
  unfold unquote. destruct (bracketed 34%N 34%N s) as [t|] eqn:E.
  - intros K. apply (bracketed_incl _ _ _ _ E). apply replace_in in K as [K|[K|[]]]; [|discriminate]. apply replace_in in K as [K|[K|[]]]; [exact K|discriminate].
  - destruct (bracketed 60%N 62%N s) as [t|] eqn:E2; [|auto]. intros K. exact (bracketed_incl _ _ _ _ E2 _ K).
Qed.
Lemma quote_nul s : In 0%N (in_quotes (quote s)) -> In 0%N s.
Proof.
  unfold in_quotes, quote. intros [K|K]; [discriminate|]. apply in_app_or in K as [K|[K|[]]]; [|discriminate]. apply replace_in in K as [K|[K|[K|[]]]]; try discriminate. apply replace_in in K as [K|[K|[K|[]]]]; [exact K|discriminate|discriminate].
Qed.
Lemma charset_tame hs : Forall (fun p : str * str => ~ In 42%N (snd p)) hs -> Forall (fun p : str * str => ~ In 0%N (snd p)) hs -> exists cs, get_content_charset decode hs = Some cs /\ ~ In 0%N (declared cs).
Proof.
  intros S0 N0. assert (AS : ~ In 0%N ($"ascii")) by (intros K; vm_compute in K; repeat (destruct K as [K|K]; [discriminate|]); destruct K).
  unfold get_content_charset. assert (G : get_param ($"charset") hs = Some None \/ exists t, get_param ($"charset") hs = Some (Some (Plain t)) /\ ~ In 0%N t).
  { destruct (get_param_star ($"charset") hs S0) as [E|[t E]]; [left; exact E|right; exists t; split; [exact E|]]. unfold get_param in E. destruct (get ($"content-type") hs) as [v|] eqn:EG; [|discriminate]. apply get_in in EG as [k K]. rewrite Forall_forall in S0, N0. assert (Sv := S0 _ K). assert (Nv := N0 _ K). cbn [snd] in *.
    rewrite decode_plain in E by (apply params_star, Sv). cbn [option_map] in E. injection E as E.
    assert (Q : Forall (fun p : str * str => ~ In 0%N (snd p)) (raw_params v)).
    { unfold raw_params. apply Forall_map, Forall_forall. intros x X. assert (I0 := params_from_incl _ _ _ X). unfold param_of. destruct (split1 61%N x) as [[n w]|] eqn:E1; cbn [snd]; [|intros []]. intros Z. apply strip_incl, strip_incl in Z. apply split1_incl in E1 as [_ E1]. exact (Nv (I0 _ (E1 _ Z))). }
    assert (Q2 : Forall (fun p : str * value => match snd p with Plain t => ~ In 0%N t | _ => True end) (plain_params (raw_params v))).
    { destruct (raw_params v) as [|[n w] l]; [constructor|]. apply Forall_cons_iff in Q as [Q1 Q2]. cbn [plain_params]. constructor; [exact Q1|]. apply Forall_map. eapply Forall_impl; [|exact Q2]. intros p Z Y. apply Z. apply unquote_nul. apply quote_nul. exact Y. }
    clear -E Q2. induction Q2 as [|[n w] l A _ IH]; [discriminate|]. cbn [find_param] in E. destruct (streqb _ _); [|apply IH, E]. destruct w; [|discriminate]. injection E as <-. cbn [snd] in A. intros Z. apply A, unquote_nul, Z. }
  destruct G as [->|(t & -> & N)]; [exists None; split; [reflexivity|exact AS]|]. destruct (ascii t); [|exists None; split; [reflexivity|exact AS]]. exists (Some (lower t)). split; [reflexivity|]. unfold declared. destruct (lower t) eqn:E; [exact AS|]. rewrite <- E. intros K. apply N. apply (lower_no 0%N); [lia|exact K].
Qed.
Lemma parts_tame s ms : tame s -> ~ In 0%N s -> Forall (ok1 (lines s)) ms -> exists ps, parts_of decode repair ms = Some ps /\ Forall (fun p => p_main p = $"text" -> ~ In 0%N (declared (p_charset p))) ps.
Proof.
  intros T N0 F. induction F as [|[d hs p] ms [(hl & H & ->) Q] _ (ps & E & FP)]; [exists []; split; [reflexivity|constructor]|]. cbn [parts_of]. rewrite E.
  assert (NZ : Forall (fun l => ~ In 0%N l) hl). { eapply Forall_impl; [|exact H]. intros l [L _] K. apply N0. rewrite <- (concat_lines s). apply in_concat. exists l. auto. }
  destruct (charset_tame (fst (parse_headers true [] hl))) as (cs & C & NC); [apply fields_star; [apply (tame_lines s), H; exact T|constructor]|apply fields_star; [exact NZ|constructor]|].
  unfold part_of. destruct (streqb_spec (maintype (content_type d (fst (parse_headers true [] hl)))) ($"text")) as [M|M].
  - rewrite C. destruct p as [t|]; [|contradiction]. eexists. split; [reflexivity|]. constructor; [intros _; exact NC|exact FP].
  - eexists. split; [reflexivity|]. constructor; [intros K; contradiction|exact FP].
Qed.
Lemma tlb_in c s : In c (translate_line_breaks s) -> In c s \/ c = 10%N.
Proof.
  unfold translate_line_breaks. intros K. apply replace_in in K as [K|[K|[]]]; [|auto]. apply replace_in in K as [K|[K|[]]]; auto.
Qed.
Theorem loads raw : tame (translate_line_breaks raw) -> ~ In 0%N raw -> (forall h, exists t, decode_header codec header_parts h = Ok (Some t)) -> (forall x, snd (feed x) = false) -> load_text raw <> None.
Proof.
  intros T N0 HD HF. unfold Model_Message.load_text. destruct (split_tame decode _ T) as [m E]. rewrite E. apply made_of in E as [_ E].
  destruct (parts_tame _ _ T (fun K => match tlb_in 0%N raw K with or_introl L => N0 L | or_intror L => ltac:(discriminate L) end) E) as (ps & P & FP). rewrite P. apply load_iff. split; [intros h _; apply HD|]. split; [|intros; apply HF].
  intros p I0. rewrite Forall_forall in FP. exact (FP p I0).
Qed.
Lemma rows_join ls : ls <> [] -> Forall one_row ls -> rows (join [10%N] ls) = ls.
Proof. intros NE F. unfold rows. apply split_char_join; [exact NE|]. eapply Forall_impl; [|exact F]. intros r [A _]. exact A. Qed.

(** ** A multipart without its separator *)
Theorem unseen h t : proper_head h -> main_of h = $"multipart" -> a_boundary (boundary h) -> ~ In 13%N t -> (forall row, In row (rows t) -> ~ separates (boundary h) row) ->
  load_text (head_text h ++ t) = load [mkPart (fields_of h) ($"multipart") (sub_of h) None []].
Proof.
  intros PH PM PB N13 NS. unfold Model_Message.load_text. rewrite no_cr_id by (intros K; apply in_app_or in K as [K|K]; [exact (head_no_cr h PH K)|exact (N13 K)]).
  assert (E : exists x, message_from_string decode (head_text h ++ t) = Some (Message ($"text/plain") (fields_of h) (inl x))).
  { eexists. apply (split_with decode 1 _ _ []). rewrite parse_S. rewrite head_lines by (apply head_ok, PH). destruct (read_proper [] h (lines t) PH) as [R1 R2]; [apply Forall_forall; reflexivity|]. rewrite R1, R2. cbv zeta. cbn [app]. rewrite read_main, PM by exact PH.
    destruct (streqb_spec (content_type ($"text/plain") (fields_of h)) ($"message/delivery-status")) as [E1|_]; [exfalso; assert (K := read_main h PH); rewrite E1, PM in K; discriminate|].
    change (streqb ($"multipart") ($"message")) with false. change (streqb ($"multipart") ($"multipart")) with true. cbv iota. rewrite read_boundary by assumption.
    assert (NB : forall c, In c (boundary h) -> c <> 10%N) by (intros c K; apply (boundary_chars _ _ PB) in K; lia).
    assert (FF : forall ls, full ls -> (forall l, In l ls -> In l (lines t)) -> find_first ($"--" ++ boundary h) [] ls = (ls, false, [])).
    { induction ls as [|l r IH]; intros F I0; [reflexivity|]. apply Forall_cons_iff in F as [F1 F2]. cbn [find_first]. change (stops [] l) with false. cbv iota.
      assert (SE : separator_line ($"--" ++ boundary h) l = None). { destruct (separator_line ($"--" ++ boundary h) l) eqn:SE; [|reflexivity]. exfalso. apply (NS (chomp l) (line_row t l (I0 l (or_introl eq_refl)))). destruct (lines_cases t l (I0 l (or_introl eq_refl))) as [(x & -> & X)|[_ X]].
        - rewrite chomp_row. apply (separator_row (boundary h) (nl x)); [exact NB|exact X|left; reflexivity|]. unfold nl. rewrite SE. discriminate.
        - rewrite chomp_no by exact X. apply (separator_row (boundary h) l); [exact NB|exact X|right; reflexivity|]. rewrite SE. discriminate. }
      rewrite (IH F2 (fun l K => I0 l (or_intror K))). destruct l as [|c l]; [contradiction|]. rewrite SE. reflexivity. }
    rewrite FF; [|apply lines_full|auto]. reflexivity. }
  destruct E as [x ->]. cbn [walk parts_of part_of]. rewrite read_main, read_sub, PM by exact PH. reflexivity.
Qed.
(** ** A multipart whose closing separator comes first *)
Lemma find_first_end b pre Y : Forall (fun r => ~ In 10%N r /\ ~ separates b r) pre -> (forall c, In c b -> c <> 10%N) ->
  find_first ($"--" ++ b) [] (map nl pre ++ nl ($"--" ++ b ++ $"--") :: Y) = (map nl pre, false, Y).
Proof.
  intros F NB. induction F as [|r pre [A B] F IH].
  - cbn [map app find_first]. change (stops [] (nl ($"--" ++ b ++ $"--"))) with false. cbv iota. assert (NE := nl_not_empty ($"--" ++ b ++ $"--")). assert (SE := separator_end b). destruct (nl ($"--" ++ b ++ $"--")); [contradiction|]. rewrite SE. reflexivity.
  - cbn [map app find_first]. change (stops [] (nl r)) with false. cbv iota. assert (NE := nl_not_empty r).
    assert (SE : separator_line ($"--" ++ b) (nl r) = None). { destruct (separator_line ($"--" ++ b) (nl r)) eqn:E; [|reflexivity]. destruct B. apply (separator_row b (nl r)); [exact NB|exact A|left; reflexivity|]. rewrite E. discriminate. }
    rewrite IH. destruct (nl r) as [|c l]; [contradiction|]. rewrite SE. reflexivity.
Qed.
Theorem unseen_closed h pre t : proper_head h -> main_of h = $"multipart" -> a_boundary (boundary h) ->
  Forall (fun r => one_row r /\ ~ separates (boundary h) r) pre -> ~ In 13%N t ->
  load_text (head_text h ++ flat_map (fun r => r ++ [10%N]) pre ++ $"--" ++ boundary h ++ $"--" ++ [10%N] ++ t) =
  load [mkPart (fields_of h) ($"multipart") (sub_of h) None []].
Proof.
  intros PH PM PB FP N13.
  assert (NB : forall c, In c (boundary h) -> c <> 10%N) by (intros c K; apply (boundary_chars _ _ PB) in K; lia).
  assert (NC : ~ In 13%N (boundary h)) by (intros K; apply (boundary_chars _ _ PB) in K; lia).
  assert (NP : Forall (fun r => ~ In 10%N r /\ ~ separates (boundary h) r) pre) by (eapply Forall_impl; [|exact FP]; intros r [[A _] B]; split; assumption).
  assert (NS : ~ In 10%N ($"--" ++ boundary h ++ $"--")).
  { intros K. repeat (apply in_app_or in K as [K|K]); [vm_compute in K; intuition discriminate|exact (NB _ K eq_refl)|vm_compute in K; intuition discriminate]. }
  unfold Model_Message.load_text. rewrite no_cr_id.
  2: { intros K. apply in_app_or in K as [K|K]; [exact (head_no_cr h PH K)|]. apply in_app_or in K as [K|K].
       - apply in_flat_map in K as (r & R & K). rewrite Forall_forall in FP. apply in_app_or in K as [K|[K|[]]]; [|discriminate]. exact (proj2 (proj1 (FP r R)) K).
       - repeat (apply in_app_or in K as [K|K]); try (vm_compute in K; intuition discriminate); contradiction. }
  set (body := flat_map _ pre ++ _).
  assert (EL : lines body = map nl pre ++ nl ($"--" ++ boundary h ++ $"--") :: lines t).
  { unfold body. change (flat_map (fun r => r ++ [10%N]) pre) with (flat_map nl pre). rewrite lines_rows by (eapply Forall_impl; [|exact NP]; tauto). f_equal.
    replace ($"--" ++ boundary h ++ $"--" ++ [10%N] ++ t) with (($"--" ++ boundary h ++ $"--") ++ 10%N :: t) by (rewrite <- !app_assoc; reflexivity).
    now rewrite lines_row. }
  assert (E : exists x, message_from_string decode (head_text h ++ body) = Some (Message ($"text/plain") (fields_of h) (inl x))).
  { eexists. apply (split_with decode 1 _ _ (snd (read_all [] (lines t)))). rewrite parse_S. rewrite head_lines by (apply head_ok, PH). destruct (read_proper [] h (lines body) PH) as [R1 R2]; [apply Forall_forall; reflexivity|]. rewrite R1, R2. cbv zeta. cbn [app]. rewrite read_main, PM by exact PH.
    destruct (streqb_spec (content_type ($"text/plain") (fields_of h)) ($"message/delivery-status")) as [E1|_]; [exfalso; assert (K := read_main h PH); rewrite E1, PM in K; discriminate|].
    change (streqb ($"multipart") ($"message")) with false. change (streqb ($"multipart") ($"multipart")) with true. cbv iota. rewrite read_boundary by assumption.
    rewrite EL, find_first_end by assumption. reflexivity. }
  destruct E as [x ->]. cbn [walk parts_of part_of]. rewrite read_main, read_sub, PM by exact PH. reflexivity.
Qed.
End Message.
