(** C255, C256: the places named in errors about the configuration. *)
From Coq Require Import Lia.
From Verif Require Import PyStr PyDict PyPath Model_Rules Model_Parser Spec_Parser Proofs_Parser Model_Where Spec_Where Proofs_Where.

(** C255.  When the includes are nested too deep, the list shown is a way of
    eleven includes from one of the configuration files, innermost first: each
    line of it has the number and the text of a line of the file before that
    includes the next.  Missing: each line of the list should name the file that
    its number counts in; it names the file that is included. *)
Theorem C255_chain_partial : forall (X : Type) (E : penv X) files st calls s log,
  parse_files_at E files st = WRaise (WMaxDepth calls) s log ->
  length calls = 11 /\ exists f, In f files /\ leads (e_files E) f (rev calls).
Proof.
  intros X E. induction files as [|f fs IH]; intros st calls s log H; [discriminate|]. cbn [parse_files_at] in H.
  pose proof (file_told E max_levels f st) as Ht.
  destruct (parse_file_at E max_levels f st) as [s1 log1|e1 s1 log1].
  - destruct (parse_files_at E fs s1) as [s2 log2|e2 s2 log2] eqn:Er; [discriminate|]. cbn [after] in H. inversion H; subst.
    destruct (IH _ _ _ _ Er) as [Hl (g & Hg & Hc)]. split; [exact Hl|]. exists g. split; [right; exact Hg|exact Hc].
  - inversion H; subst. cbn [told] in Ht. destruct Ht as (_ & Hl & Hc). split; [exact Hl|]. exists f. split; [left; reflexivity|exact Hc].
Qed.
Print Assumptions C255_chain_partial.

(** There is such a list whenever the nesting is too deep. *)
Theorem C255_shown : forall (X : Type) (E : penv X) files st s,
  parse_files E files st = PRaise EMaxDepth s ->
  exists calls log, parse_files_at E files st = WRaise (WMaxDepth calls) s log.
Proof.
  intros X E files st s H. rewrite <- files_outcome in H. destruct (parse_files_at E files st) as [s1 l|e s1 l]; [discriminate|].
  cbn [outcome] in H. inversion H. destruct e as [p| |calls|]; try discriminate. eexists. eexists. reflexivity.
Qed.
Print Assumptions C255_shown.

(** An environment for the examples. *)
Definition where_env (paranoid : bool) (fs : dict (list str)) : penv unit :=
  mkEnv paranoid (fun _ => []) (fun _ => []) (fun x _ _ => CUnknown x) (fun x _ _ => LLoaded x) (fun _ => None)
    (Some ($"en_US")) (fun f => dget f fs).

(** Not every line of the list names the file that holds the include: here line 2
    of "/b" is said to include something, but it is line 2 of "/a" that does. *)
Theorem C255_file_refuted :
  let fs := [($"/a", [$"body A /a/"; $"include b"]); ($"/b", [$"include a"])] in
  exists calls s log, parse_files_at (where_env false fs) [$"/a"] (mkP [] false tt) = WRaise (WMaxDepth calls) s log /\
    In ($"/b", 2, $"include b") calls /\
    (forall raw, ~ line_of (fun f => dget f fs) ($"/b") 2 raw) /\
    line_of (fun f => dget f fs) ($"/a") 2 ($"include b").
Proof.
  cbv zeta. do 3 eexists. split; [vm_compute; reflexivity|]. split; [vm_compute; auto|]. split.
  - intros raw (ls & H & _ & Hn). vm_compute in H. inversion H; subst. discriminate.
  - eexists. split; [vm_compute; reflexivity|]. split; [lia|reflexivity].
Qed.
Print Assumptions C255_file_refuted.

(** C256.  The errors about missing arguments tell the truth: each one names a
    configuration file or a file included from there, and the number (from one)
    and the text of a line of it that is incomplete. *)
Theorem C256_true : forall (X : Type) (E : penv X) files st,
  match parse_files_at E files st with
  | WDone _ log => Forall (fun p => exists f, In f files /\ true_place (e_files E) f p) log
  | WRaise e _ log => Forall (fun p => exists f, In f files /\ true_place (e_files E) f p) log /\
                      (forall p, e = WSyntax p -> exists f, In f files /\ true_place (e_files E) f p)
  end.
Proof.
  intros X E. induction files as [|f fs IH]; intros st; [constructor|]. cbn [parse_files_at].
  pose proof (file_told E max_levels f st) as Ht.
  assert (Hup : forall log, Forall (true_place (e_files E) f) log -> Forall (fun p => exists g, In g (f :: fs) /\ true_place (e_files E) g p) log).
  { intros log. apply Forall_impl. intros p Hp. exists f. split; [left; reflexivity|exact Hp]. }
  assert (Hdn : forall log, Forall (fun p => exists g, In g fs /\ true_place (e_files E) g p) log ->
    Forall (fun p => exists g, In g (f :: fs) /\ true_place (e_files E) g p) log).
  { intros log. apply Forall_impl. intros p (g & Hg & Hp). exists g. split; [right; exact Hg|exact Hp]. }
  destruct (parse_file_at E max_levels f st) as [s1 log1|e1 s1 log1]; cbn [told] in Ht.
  - specialize (IH s1). destruct (parse_files_at E fs s1) as [s2 log2|e2 s2 log2]; cbn [after].
    + apply Forall_app. auto.
    + destruct IH as [IH1 IH2]. split; [apply Forall_app; auto|]. intros p Hp.
      destruct (IH2 p Hp) as (g & Hg & Hx). exists g. split; [right; exact Hg|exact Hx].
  - destruct Ht as [Ht Hx]. split; [auto|]. intros p ->. exists f. split; [left; reflexivity|exact Hx].
Qed.
Print Assumptions C256_true.

(** And no such line is passed over.  A line without name or text, outside of a
    block that is left out, is reported with its place, after what was reported
    before; when asked to die upon errors nothing after it is read, and otherwise
    the parser goes on with the next line as if it was not there. *)
Theorem C256_reported : forall (X : Type) (E : penv X) levels f before l rest st st1 log,
  e_files E f = Some (before ++ l :: rest) ->
  run_lines_at E (parse_file_at E levels) f 1 before st = WDone st1 log ->
  p_ignore st1 = false -> missing_argument l ->
  let here := (f, S (length before), bare_line l) in
  parse_file_at E (S levels) f st =
    if e_paranoid E then WRaise (WSyntax here) st1 (log ++ [here])
    else match run_lines_at E (parse_file_at E levels) f (S (S (length before))) rest st1 with
         | WDone s further => WDone s (log ++ here :: further)
         | WRaise e s further => WRaise e s (log ++ here :: further)
         end.
Proof.
  intros X E levels f before l rest st st1 log Hf Hb Hi Hm here. cbn [parse_file_at]. rewrite Hf.
  rewrite (run_at_app E _ f before 1 (l :: rest) st st1 log Hb). cbn [Nat.add run_lines_at].
  rewrite (missing_at E _ f _ l st1 Hi Hm). cbn [app]. fold here. destruct (e_paranoid E); [reflexivity|].
  destruct (run_lines_at E (parse_file_at E levels) f (S (S (length before))) rest st1); reflexivity.
Qed.
Print Assumptions C256_reported.

(** What is reported about an included file stands where the include stands. *)
Theorem C256_included : forall (X : Type) (E : penv X) levels f before l rest st st1 log g st2 inner,
  e_files E f = Some (before ++ l :: rest) ->
  run_lines_at E (parse_file_at E levels) f 1 before st = WDone st1 log ->
  asks f l st1 g -> parse_file_at E levels g st1 = WDone st2 inner ->
  parse_file_at E (S levels) f st =
    match run_lines_at E (parse_file_at E levels) f (S (S (length before))) rest st2 with
    | WDone s further => WDone s (log ++ inner ++ further)
    | WRaise e s further => WRaise e s (log ++ inner ++ further)
    end.
Proof.
  intros X E levels f before l rest st st1 log g st2 inner Hf Hb Ha Hg. cbn [parse_file_at]. rewrite Hf.
  rewrite (run_at_app E _ f before 1 (l :: rest) st st1 log Hb). cbn [Nat.add run_lines_at].
  rewrite (include_at E _ f _ l st1 g Ha), Hg. cbn [add_call].
  destruct (run_lines_at E (parse_file_at E levels) f (S (S (length before))) rest st2); reflexivity.
Qed.
Print Assumptions C256_included.

(** The files are reported about in order. *)
Theorem C256_in_order : forall (X : Type) (E : penv X) files more st st1 log,
  parse_files_at E files st = WDone st1 log ->
  parse_files_at E (files ++ more) st =
    match parse_files_at E more st1 with
    | WDone s further => WDone s (log ++ further)
    | WRaise e s further => WRaise e s (log ++ further)
    end /\
  forall f, parse_files_at E [f] st = parse_file_at E 11 f st.
Proof.
  intros X E files more st st1 log H. split.
  - revert st st1 log H. induction files as [|f files IH]; intros st st1 log H.
    + cbn in H. inversion H; subst. cbn [app]. destruct (parse_files_at E more st1); reflexivity.
    + cbn [parse_files_at app] in *. destruct (parse_file_at E max_levels f st) as [s2 log2|]; [|discriminate].
      destruct (parse_files_at E files s2) as [s3 log3|] eqn:E3; [|discriminate]. cbn [after] in H. inversion H; subst.
      rewrite (IH _ _ _ E3). destruct (parse_files_at E more st1); cbn [after]; rewrite <- app_assoc; reflexivity.
  - intros f. cbn [parse_files_at]. change max_levels with 11. destruct (parse_file_at E 11 f st) as [s l|e s l]; [|reflexivity].
    cbn [after]. rewrite app_nil_r. reflexivity.
Qed.
Print Assumptions C256_in_order.

(** Naming places changes nothing else: the outcome is that of the parser of
    C15-C19. *)
Theorem C256_outcome : forall (X : Type) (E : penv X) files st,
  match parse_files_at E files st with
  | WDone s _ => parse_files E files st = PDone s
  | WRaise (WSyntax _) s _ => parse_files E files st = PRaise ESyntax s
  | WRaise WPluginLoad s _ => parse_files E files st = PRaise EPluginLoad s
  | WRaise (WMaxDepth _) s _ => parse_files E files st = PRaise EMaxDepth s
  | WRaise WFatal s _ => parse_files E files st = PRaise EFatal s
  end.
Proof.
  intros X E files st. pose proof (files_outcome E files st) as H.
  destruct (parse_files_at E files st) as [s l|[p| |c|] s l]; symmetry; exact H.
Qed.
Print Assumptions C256_outcome.

Example C256_case :
  let fs := [($"/a", [$"# rules"; $"include b"; $"score A 1"]); ($"/b", [$"body A /a/"; $"score A  # none"])] in
  (exists s, parse_files_at (where_env false fs) [$"/a"] (mkP [] false tt) = WDone s [($"/b", 2, $"score A")]) /\
  (exists s, parse_files_at (where_env true fs) [$"/a"] (mkP [] false tt) =
     WRaise (WSyntax ($"/b", 2, $"score A")) s [($"/b", 2, $"score A"); ($"/b", 2, $"score A")]) /\
  missing_argument ($"score A  # none").
Proof.
  cbv zeta. split; [eexists; vm_compute; reflexivity|]. split; [eexists; vm_compute; reflexivity|].
  exists ($"score"), [$"A"]. split; [vm_compute; reflexivity|]. split; [vm_compute; auto|cbn; lia].
Qed.
