(** Property theorems about configuration files: C15-C19. *)
From Verif Require Import PyStr PyDict PyPath Model_Rules Model_Headers Model_Parser Spec_Parser Proofs_Parser Model_Build.

(** An environment for the examples: the context is the list of loaded plugin
    classes, "required_score" is the only known option, and it wants digits. *)
Definition ex_env (fs : dict (list str)) : penv (list str) :=
  mkEnv false (fun x => x) (fun _ => [])
    (fun x k v => if streqb k ($"required_score")
                  then match py_int v with Some _ => CHandled x | None => CFails x end
                  else CUnknown x)
    (fun x n _ => LLoaded (x ++ [n])) (fun _ => None) (Some ($"en_US")) (fun f => dget f fs).

(** ** C15 *)
(** Whatever the files, includes and conditional blocks: there is one sequence
    of lines in force, and for every rule and attribute the value after parsing
    is the one on the last of these lines that sets it; lines that do not name
    the rule do not matter.  [no_clash]: no plugin adds a rule type called
    score, priority, describe or tflags. *)
Theorem C15_last_definition_wins :
  forall (X : Type) (E : penv X), no_clash E ->
  forall (files : list str) (x : X) (st : pstate X),
    parse_files E files (mkP [] false x) = PDone st ->
    exists T, takes_all E 10 files (mkP [] false x) T st /\
      forall name key items, map item_line items = T -> Forall (item_ok name) items ->
        attr_of (p_results st) name key = last_set name key (entries items) None.
Proof. exact @c15. Qed.
Print Assumptions C15_last_definition_wins.

(** A line leaves alone every rule it does not name, even when it fails. *)
Theorem C15_rules_do_not_interfere :
  forall (X : Type) (E : penv X) inc f line (st : pstate X) name,
    (forall g, ~ asks f line st g) -> ~ In name (words line) ->
    match handle_line E inc f line st with
    | PDone s | PRaise _ s => dget name (p_results s) = dget name (p_results st)
    end.
Proof. exact @line_frame_all. Qed.
Print Assumptions C15_rules_do_not_interfere.

Definition ex15_items : list item :=
  [Def (mkEntry ($"body") ($"SALE") ($"/sale/")) ($"body SALE  /sale/");
   Def (mkEntry ($"score") ($"SALE") ($"1.0")) ($" score SALE 1.0 ");
   Def (mkEntry ($"score") ($"OTHER") ($"7")) ($"score OTHER 7");
   Other ($"required_score 5");
   Def (mkEntry ($"score") ($"SALE") ($"3.5")) ($"score SALE 3.5")].
Definition ex15_env : penv (list str) :=
  ex_env [($"/etc/a.cf", [$"body SALE  /sale/"; $"include b.cf"; $"score SALE 3.5"]);
          ($"/etc/b.cf", [$" score SALE 1.0 "; $"score OTHER 7"; $"required_score 5"])].
Example C15_example :
  no_clash ex15_env /\ Forall (item_ok ($"SALE")) ex15_items /\
  exists st, parse_files ex15_env [$"/etc/a.cf"] (mkP [] false []) = PDone st /\
    takes_all ex15_env 10 [$"/etc/a.cf"] (mkP [] false []) (map item_line ex15_items) st /\
    attr_of (p_results st) ($"SALE") ($"score") = Some (AStr ($"3.5")) /\
    attr_of (p_results st) ($"SALE") ($"value") = Some (AStr ($"/sale/")).
Proof.
  split; [intros x c _ []|]. split.
  { repeat apply Forall_cons; try apply Forall_nil.
    - apply (def_ok _ _ _ [] ($" ") ($"  ") []); reflexivity || discriminate.
    - apply (def_ok _ _ _ ($" ") ($" ") ($" ") ($" ")); reflexivity || discriminate.
    - apply (def_ok _ _ _ [] ($" ") ($" ") []); reflexivity || discriminate.
    - apply other_ok. reflexivity.
    - apply (def_ok _ _ _ [] ($" ") ($" ") []); reflexivity || discriminate. }
  eexists. split; [vm_compute; reflexivity|]. split; [|split; vm_compute; reflexivity].
  change (map item_line ex15_items) with ((map item_line ex15_items) ++ []).
  eapply ta_cons; [|apply ta_nil]. eapply takes_file; [vm_compute; reflexivity|].
  eapply tl_line; [reflexivity|intros g (_ & v & Hv & _); apply include_value in Hv; vm_compute in Hv; discriminate|vm_compute; reflexivity|].
  change [item_line (Def (mkEntry ($"score") ($"SALE") ($"1.0")) ($" score SALE 1.0 "))] with [$" score SALE 1.0 "].
  eapply (tl_include _ _ _ _ _ _ _ _ _ [$" score SALE 1.0 "; $"score OTHER 7"; $"required_score 5"] [$"score SALE 3.5"]).
  { split; [reflexivity|]. exists ($"b.cf"). split; [|vm_compute; reflexivity]. right. exists ($" ").
    repeat split; discriminate. }
  { eapply takes_file; [vm_compute; reflexivity|].
    do 3 (eapply tl_line; [reflexivity|intros g (_ & v & Hv & _); apply include_value in Hv; vm_compute in Hv; discriminate|vm_compute; reflexivity|]).
    apply tl_nil. }
  eapply tl_line; [reflexivity|intros g (_ & v & Hv & _); apply include_value in Hv; vm_compute in Hv; discriminate|vm_compute; reflexivity|].
  apply tl_nil.
Qed.

(** ** C16 *)
(** Two file systems that differ only in blank lines, comment lines and trailing
    comments give the same result. *)
Theorem C16_comments_inert :
  forall (X : Type) (E : penv X) fs fs', same_files fs fs' ->
  forall files st, parse_files (with_files E fs) files st = parse_files (with_files E fs') files st.
Proof. exact @c16. Qed.
Print Assumptions C16_comments_inert.

Example C16_example :
  same_up_to_comments [$"# top"; $"ifplugin X #c"; $"score A 1#x"; $"   "; $"endif # X"] [$"ifplugin X "; $"score A 1"; $"endif "; $"#"].
Proof.
  assert (Hb : forall (l x : str) (c : N), l = x ++ [c] -> c <> 92%N -> forall a, l <> a ++ [92%N]).
  { intros l x c -> Hc a H. apply app_inj_tail in H as [_ H]. exact (Hc H). }
  apply suc_left; [right; exists [], ($" top"); split; reflexivity|].
  apply suc_trail_l. { split; [discriminate|]. split; [apply (Hb _ ($"ifplugin X") 32%N); [reflexivity|discriminate]|exists ($"c"); reflexivity]. }
  apply suc_trail_l. { split; [discriminate|]. split; [apply (Hb _ ($"score A ") 49%N); [reflexivity|discriminate]|exists ($"x"); reflexivity]. }
  apply suc_left; [left; reflexivity|].
  apply suc_trail_l. { split; [discriminate|]. split; [apply (Hb _ ($"endif") 32%N); [reflexivity|discriminate]|exists ($" X"); reflexivity]. }
  apply suc_right; [right; exists [], []; split; reflexivity|]. apply suc_nil.
Qed.

(** ** C17 *)
(** A block whose parts contain no further block and no include: exactly the
    part that applies takes effect.  Missing for the full property: nested
    blocks, and blocks left open at the end of a file - see the refutations. *)
Theorem C17_conditional_block_partial :
  forall (X : Type) (E : penv X) inc f l0 P c body1 lelse body2 lend rest (st : pstate X),
  ifplugin_line l0 P -> names_class E P c -> Forall (fun l => ~ directive l) body1 -> else_line lelse ->
  Forall (fun l => ~ directive l) body2 -> endif_line lend -> p_ignore st = false ->
  run_lines E inc f (l0 :: body1 ++ lelse :: body2 ++ lend :: rest) st =
  if mem_str c (e_plugins E (p_ctx st)) then run_lines E inc f (body1 ++ rest) st else run_lines E inc f (body2 ++ rest) st.
Proof. exact @block_with_else. Qed.
Print Assumptions C17_conditional_block_partial.

Theorem C17_block_without_else_partial :
  forall (X : Type) (E : penv X) inc f l0 P c body1 lend rest (st : pstate X),
  ifplugin_line l0 P -> names_class E P c -> Forall (fun l => ~ directive l) body1 -> endif_line lend -> p_ignore st = false ->
  run_lines E inc f (l0 :: body1 ++ lend :: rest) st =
  if mem_str c (e_plugins E (p_ctx st)) then run_lines E inc f (body1 ++ rest) st else run_lines E inc f rest st.
Proof. exact @block_no_else. Qed.
Print Assumptions C17_block_without_else_partial.

(** A skipped block hides includes and plugin loading too. *)
Theorem C17_skipped_lines_have_no_effect :
  forall (X : Type) (E : penv X) inc f ls rest (st : pstate X),
    Forall (fun l => ~ exists w, In w [$"endif"; $"else"] /\ startswith w (strip l) = true) ls -> p_ignore st = true ->
    run_lines E inc f (ls ++ rest) st = run_lines E inc f rest st.
Proof. exact @skipped_lines_all. Qed.
Print Assumptions C17_skipped_lines_have_no_effect.

(** Nested: the inner endif ends the outer block, whose last line takes effect
    although its plugin is not loaded. *)
Theorem C17_nested_blocks_refuted :
  exists st, parse_files
    (ex_env [($"f", [$"ifplugin Missing"; $"ifplugin Loaded"; $"body A /a/"; $"endif"; $"body B /b/"; $"endif"])])
    [$"f"] (mkP [] false [$"Loaded"]) = PDone st /\
  dget ($"B") (p_results st) <> None.
Proof. eexists. split; [vm_compute; reflexivity|vm_compute; discriminate]. Qed.
Print Assumptions C17_nested_blocks_refuted.

(** An else inside an else: the second one switches the first part on again. *)
Theorem C17_nested_else_refuted :
  exists st, parse_files
    (ex_env [($"f", [$"ifplugin Missing"; $"ifplugin Loaded"; $"body A /a/"; $"else"; $"body B /b/"; $"endif"; $"endif"])])
    [$"f"] (mkP [] false [$"Loaded"]) = PDone st /\
  dget ($"B") (p_results st) <> None.
Proof. eexists. split; [vm_compute; reflexivity|vm_compute; discriminate]. Qed.
Print Assumptions C17_nested_else_refuted.

(** A block left open in one file swallows the next file. *)
Theorem C17_open_block_leaks_refuted :
  exists st, parse_files
    (ex_env [($"f", [$"ifplugin Missing"; $"body A /a/"]); ($"g", [$"body B /b/"])])
    [$"f"; $"g"] (mkP [] false []) = PDone st /\
  dget ($"B") (p_results st) = None.
Proof. eexists. split; vm_compute; reflexivity. Qed.
Print Assumptions C17_open_block_leaks_refuted.

Example C17_example :
  ifplugin_line ($"  ifplugin  Mail::SpamAssassin::Plugin::SPF ") ($"Mail::SpamAssassin::Plugin::SPF") /\
  names_class (ex_env []) ($"oa.plugins.spf.SPFPlugin") ($"SPFPlugin") /\
  else_line ($"else") /\ endif_line ($"endif # x") /\ ~ directive ($"body A /a/").
Proof.
  split; [|split; [|split; [|split]]].
  - split.
    + split; [discriminate|]. split; [intros c H; vm_compute in H; repeat (destruct H as [<-|H]; [reflexivity|]); destruct H|].
      intros H; vm_compute in H; repeat (destruct H as [H|H]; [discriminate|]); destruct H.
    + exists ($"  "), ($"  "), ($" "). repeat split; discriminate.
  - exists ($"oa.plugins.spf.SPFPlugin"). split; [right; split; reflexivity|]. right. exists ($"oa.plugins.spf").
    split; [reflexivity|]. intros H; vm_compute in H; repeat (destruct H as [H|H]; [discriminate|]); destruct H.
  - exists [], []. split; reflexivity.
  - exists [], ($" # x"). split; reflexivity.
  - intros (w & Hw & H). simpl in Hw. repeat (destruct Hw as [<-|Hw]; [vm_compute in H; discriminate|]). destruct Hw.
Qed.

(** ** C18 *)
(** Parsing (a total function) completes exactly when no include is nested
    deeper than ten below the first file, and then each include has contributed
    the processing of its file in place. *)
Theorem C18_includes_processed_in_place :
  forall (X : Type) (E : penv X) f st st',
    parse_file E max_levels f st = PDone st' <-> reads E 10 f st st'.
Proof. exact @c18. Qed.
Print Assumptions C18_includes_processed_in_place.

(** The limit only ever adds the depth error: with any larger limit the result
    is the same or the depth error is reported. *)
Theorem C18_limit_only_reports :
  forall (X : Type) (E : penv X) k f st,
    parse_file E max_levels f st = parse_file E (max_levels + k) f st \/
    exists s, parse_file E max_levels f st = PRaise EMaxDepth s.
Proof. exact (fun X E k f st => @parse_file_mono X E max_levels k f st). Qed.
Print Assumptions C18_limit_only_reports.

(** A file that includes itself is reported, whatever else is in it and whatever
    comes before the include (as long as it gets there). *)
Theorem C18_cycle_is_reported :
  forall (X : Type) (E : penv X) f before l after,
    e_files E f = Some (before ++ l :: after) ->
    (forall inc st, p_ignore st = false -> exists st', run_lines E inc f before st = PDone st' /\ asks f l st' f) ->
    forall st, p_ignore st = false -> exists s, parse_file E max_levels f st = PRaise EMaxDepth s.
Proof. exact @self_include. Qed.
Print Assumptions C18_cycle_is_reported.

Example C18_example :
  (exists s, parse_files (ex_env [($"/f", [$"body A /a/"; $"include f"])]) [$"/f"] (mkP [] false []) = PRaise EMaxDepth s) /\
  (exists s, parse_files (ex_env [($"/f", [$"include g"; $"include g"; $"score A 2"]); ($"/g", [$"body A /a/"; $"score A 1"])])
               [$"/f"] (mkP [] false []) = PDone s /\ attr_of (p_results s) ($"A") ($"score") = Some (AStr ($"2"))).
Proof. split; eexists; [vm_compute; reflexivity|split; vm_compute; reflexivity]. Qed.

(** ** C19 *)
(** Lines without argument and unknown options, anywhere in any file.  Missing
    for the full property: bad option values and unusable redefinitions - see
    the refutations. *)
Theorem C19_unusable_line_skipped_partial :
  forall (X : Type) (E : penv X) fs fs', e_paranoid E = false -> files_dropped E fs fs' ->
  forall files st, parse_files (with_files E fs) files st = parse_files (with_files E fs') files st.
Proof. exact @c19. Qed.
Print Assumptions C19_unusable_line_skipped_partial.

(** Rules rejected when they are built (wrong regex, wrong number of scores,
    unknown eval function, ...) or never given a pattern leave all the other
    rules as they are. *)
Theorem C19_invalid_rule_skipped_partial :
  forall (R : Type) (build : str -> dict attr -> bres R) before name data after,
    (dhas ($"type") data = true -> build name data = BInvalid) ->
    get_rules false build (before ++ (name, data) :: after) = get_rules false build (before ++ after).
Proof. exact @get_rules_skip. Qed.
Print Assumptions C19_invalid_rule_skipped_partial.

Definition ex_content : content unit :=
  mkContent (fun _ => []) (fun _ => []) (fun _ => []) (fun _ => []) (fun _ _ => Returns (VBool false))
    (fun _ _ _ => []) (fun _ m => (m, Returns (VBool false))).
(** A [float] that takes integers, a [re.compile] that takes everything. *)
Definition ex_load (table : results) : load_res unit :=
  load_rules (A := unit) (fun s => option_map (fun z => inject_Z z) (py_int s)) (fun _ _ => Some (fun _ => false)) (fun _ => ABad)
    ex_content (fun _ => None) false (mkSwitches true true false true) table.
Definition ex_parse (lines : list str) : results :=
  match parse_files (ex_env [($"f", lines)]) [$"f"] (mkP [] false []) with PDone s => p_results s | PRaise _ s => p_results s end.
Definition loads (r : load_res unit) : list str := match r with Loaded rs => dkeys (rs_checked rs) | _ => [] end.

(** A bad option value aborts the whole load instead of being skipped. *)
Theorem C19_bad_option_value_refuted :
  exists s, parse_files (ex_env [($"f", [$"required_score abc"; $"body A /a/"])]) [$"f"] (mkP [] false []) = PRaise EFatal s /\
            dget ($"A") (p_results s) = None.
Proof. eexists. split; vm_compute; reflexivity. Qed.
Print Assumptions C19_bad_option_value_refuted.

(** So do a score that is no number, an empty pattern and a header rule without
    operator. *)
Theorem C19_bad_rule_text_refuted :
  ex_load (ex_parse [$"body A /a/"]) <> LoadCrash /\
  ex_load (ex_parse [$"body A /a/"; $"score A one"]) = LoadCrash /\
  ex_load (ex_parse [$"body A /a/"; $"body B mgs"]) = LoadCrash /\
  ex_load (ex_parse [$"body A /a/"; $"header B Subject"]) = LoadCrash.
Proof. repeat split; vm_compute; congruence. Qed.
Print Assumptions C19_bad_rule_text_refuted.

(** An unusable redefinition takes the usable definition with it. *)
Theorem C19_bad_redefinition_refuted :
  loads (ex_load (ex_parse [$"body A /a/"; $"body B /b/"])) = [$"A"; $"B"] /\
  loads (ex_load (ex_parse [$"body A /a/"; $"body B /b/"; $"body A a"])) = [$"B"].
Proof. split; vm_compute; reflexivity. Qed.
Print Assumptions C19_bad_redefinition_refuted.

Example C19_example :
  missing_argument ($" score  FOO # 1.0") /\ unknown_option (ex_env []) ($"report_safe_copy 1") /\
  dropped (ex_env []) [$"body A /a/"; $"score A"; $"nonsense 3"; $"score A 2"] [$"body A /a/"; $"score A 2"].
Proof.
  assert (Hu : forall l k v b, bare_line l = k ++ b ++ v -> blanks b -> b <> [] -> trimmed v -> word k ->
     (forall w, In w [$"endif"; $"else"; $"ifplugin"; $"include"] -> startswith w (strip l) = false) ->
     mem_str k ([$"loadplugin"; $"lang"] ++ keywords) = false -> streqb k ($"required_score") = false ->
     unknown_option (ex_env []) l).
  { intros l k v b Hl Hb Hb2 Hv Hk Hd Hn Hr. split; [intros (w & Hw & Hs); rewrite (Hd w Hw) in Hs; discriminate|].
    exists k, v. split; [exact Hk|]. split; [right; exists b; auto|]. split; [apply mem_str_notIn; exact Hn|].
    intros x. split; [intros []|]. cbn [ex_env e_option]. rewrite Hr. reflexivity. }
  assert (Hw : forall s, forallb (fun c => negb (is_space c) && negb (N.eqb c 35)) s = true -> s <> [] -> word s).
  { intros s Hs Hne. rewrite forallb_forall in Hs. split; [exact Hne|]. split.
    - intros c Hc. specialize (Hs c Hc). apply andb_true_iff in Hs as [Hs _]. now apply negb_true_iff in Hs.
    - intros Hc. specialize (Hs _ Hc). discriminate. }
  assert (Hm : missing_argument ($" score  FOO # 1.0")).
  { exists ($"score"), [$"FOO"]. split; [reflexivity|]. split; [simpl; auto|]. cbn [length]. auto. }
  split; [exact Hm|]. split.
  - apply (Hu _ ($"report_safe_copy") ($"1") ($" ")); try reflexivity; try discriminate.
    + split; [discriminate|reflexivity].
    + apply Hw; [reflexivity|discriminate].
    + intros w Hin. simpl in Hin. repeat (destruct Hin as [<-|Hin]; [reflexivity|]). destruct Hin.
  - apply dr_keep. apply dr_drop.
    { left. exists ($"score"), [$"A"]. split; [reflexivity|]. split; [simpl; auto|]. cbn [length]. auto. }
    apply dr_drop; [right|apply dr_keep, dr_nil].
    apply (Hu _ ($"nonsense") ($"3") ($" ")); try reflexivity; try discriminate.
    + split; [discriminate|reflexivity].
    + apply Hw; [reflexivity|discriminate].
    + intros w Hin. simpl in Hin. repeat (destruct Hin as [<-|Hin]; [reflexivity|]). destruct Hin.
Qed.
