(** Reports about mails checked under a configuration. *)
From Coq Require Import Lia QArith.
From Verif Require Import PyStr PyDict Regexp Model_Net Model_Rules Model_Headers Model_Parser Spec_Parser Proofs_Parser Model_Build Model_Load Spec_Load Model_Message Spec_Message Model_Program Spec_Program Proofs_Program.
From Verif Require Import Model_Report Spec_Report Proofs_Report Props_Report Spec_Rules Proofs_Rules Props_Rules Spec_ProgReport Props_Message Props_Program.
From Verif Require Model_Meta Spec_Meta.
Open Scope nat_scope.

Lemma scores_list_made (l : dict value) : Forall (fun e => int_of (snd e) <> None) l -> exists ls, scores_list l = Some ls.
Proof.
  induction 1 as [|[n v] l H _ (ls & IH)]; [eexists; reflexivity|]. cbn [scores_list snd] in *. rewrite IH. destruct (truthy v); [|eauto]. destruct (int_of v); [eauto|contradiction].
Qed.
Lemma dset_all {V : Type} (P : V -> Prop) k v (d : dict V) : P v -> Forall (fun e => P (snd e)) d -> Forall (fun e => P (snd e)) (dset k v d).
Proof.
  intros H. induction 1 as [|[k' v'] d H' F IH]; cbn [dset]; [repeat constructor; exact H|]. destruct (streqb _ _); constructor; assumption.
Qed.
Lemma loop_numbers {X : Type} (T : dict (rule X)) x : (forall n r, In (n, r) T -> exists o v, reads_only r o /\ o x = Returns v /\ int_of v <> None) ->
  forall m, m_ext m = x -> Forall (fun e => int_of (snd e) <> None) (m_checked m) -> Forall (fun e => int_of (snd e) <> None) (m_checked (fst (match_loop T m))).
Proof.
  induction T as [|[n r] T IH]; intros H m M F; [exact F|]. cbn [match_loop]. destruct (H n r (or_introl eq_refl)) as (o & v & RO & O & I). rewrite (RO m), M, O.
  apply IH; [intros n' r' K; apply (H n' r'), or_intror, K| |].
  - unfold record. destruct v; try exact M; destruct (truthy _); exact M.
  - unfold record. destruct v; try (match goal with |- context [if ?z then (dset _ _ _, _) else _] => destruct z end); cbn [m_checked]; apply (dset_all (fun v => int_of v <> None)); try exact F; try exact I; discriminate.
Qed.

Lemma told : forall udigit uword codec feed header_parts decode repair py_float addresses mime (A Y : Type)
    (arg : str -> ares A) evals (E : penv Y) y c order fs ss,
  (forall name strict t, In name [$"ascii"; $"us-ascii"] -> Forall (fun c => (c < 128)%N) t -> codec name strict t = Some t) ->
  (forall s, contains ($"=?") s = false -> header_parts s = Some [HText s]) ->
  (forall x k, In k [$"score"; $"priority"; $"describe"; $"tflags"] -> ~ In k (e_cmds E x)) -> Spec_Meta.enumerates order ->
  e_paranoid E = false -> configuration E y fs ss -> proper_settings py_float ss ->
  exists rs, read_rules udigit uword codec header_parts py_float addresses mime arg evals E y c order fs = Some rs /\
  forall m, plain_mail m -> exists lm qs l, load_mail udigit uword codec feed header_parts decode repair (mail_text m) = Some lm /\
    Forall2 (adds_points py_float ss m) (names ss) qs /\ NoDup l /\ (forall n, In n l <-> counts py_float ss m n) /\
    (m_score (check rs lm) == sum qs)%Q /\ m_tags (check rs lm) = [] /\ forall rc,
      (forall tags, tag_data rc rs tags (check rs lm) <> None) /\ get_matched_report (rc_fmt rc) rs (check rs lm) <> None /\
      forall p v, piece_value rc rs (check rs lm) p v -> shows (rc_required rc) (rc_fmt1 rc) (rc_whole rc) (fun n => worth py_float n ss) qs l p v.
Proof.
  intros udigit uword codec feed header_parts decode repair py_float addresses mime A Y arg evals E y c order fs ss HC HH HN HO HP HW HS.
  destruct (whole udigit uword codec feed header_parts decode repair py_float HC HH addresses mime arg evals E y c order HN HO fs ss HP HW HS) as (rs & R & H).
  exists rs. split; [exact R|]. intros m PM. destruct (H m PM) as (lm & L & (qs & Q & S) & ND & HI & TG & RU).
  assert (OB : Forall (fun e => observer (snd e)) (rs_checked rs)).
  { apply Forall_forall. intros [n r] K mm. destruct (RU n r K) as (_ & o & RO & _). cbn [snd]. rewrite (RO mm). repeat split. }
  assert (GM : forall rc : rconf (X := loaded_mail), get_matched_report (rc_fmt rc) rs (check rs lm) <> None).
  { intros rc. destruct (C55_report_has_one_line_per_hit_partial _ (rc_fmt rc) rs (fresh_msg lm) OB eq_refl) as (ls & Z & _). unfold check, match_msg. cbn [hook_chain]. rewrite Z. discriminate. }
  assert (TD : forall rc tags, tag_data rc rs tags (check rs lm) <> None).
  { intros rc tags. apply tag_data_total; intros _.
    - apply GM.
    - destruct (C69_summary_always_made _ rc rs (fresh_msg lm) OB eq_refl) as (text & Z). unfold check, match_msg. cbn [hook_chain]. rewrite Z. discriminate.
    - unfold tests_scores_tag. destruct (scores_list_made (m_checked (check rs lm))) as (ls & ->); [|destruct ls; discriminate].
      apply (loop_numbers _ lm); [|reflexivity|constructor]. intros n r K. destruct (RU n r K) as (_ & o & RO & v & q & O & VI). exists o, v. repeat split; [exact RO|exact O|]. destruct v; discriminate || destruct VI. }
  exists lm, qs, (hit_names (check rs lm)). repeat (split; [assumption|]). intros rc. split; [apply TD|]. split; [apply GM|].
  assert (V : forall p v, piece_value rc rs (check rs lm) p v -> shows (rc_required rc) (rc_fmt1 rc) (rc_whole rc) (fun n => worth py_float n ss) qs (hit_names (check rs lm)) p v).
  { intros [tag|ch] v P; [|exact P]. cbn [piece_value] in P. unfold tag_value in P. rewrite TG in P. cbn [dget] in P.
    assert (SP : forall yes no : str, Some (if Qle_bool (rc_required rc) (m_score (check rs lm)) then yes else no) = Some v -> v = yes /\ (rc_required rc <= sum qs)%Q \/ v = no /\ (sum qs < rc_required rc)%Q).
    { intros yes no Z. injection Z as <-. destruct (Qle_bool (rc_required rc) (m_score (check rs lm))) eqn:B.
      - left. split; [reflexivity|]. apply Qle_bool_iff in B. rewrite <- S. exact B.
      - right. split; [reflexivity|]. rewrite <- S. apply Qnot_le_lt. intros K. apply Qle_bool_iff in K. congruence. }
    unfold shows. split; [intros ->; apply SP, P|]. split; [intros ->; apply SP, P|]. split.
    { intros ->. change (Some (match hit_names (check rs lm) with [] => $"none" | l => join ($",") l end) = Some v) in P. injection P as <-.
      destruct (hit_names (check rs lm)); [left|right]; split; reflexivity || discriminate. }
    split; [intros ->; change (Some (rc_fmt1 rc (m_score (check rs lm))) = Some v) in P; injection P as <-; eexists; split; [exact S|reflexivity]|].
    split; [intros ->; change (Some (rc_fmt1 rc (rc_required rc)) = Some v) in P; injection P as <-; reflexivity|].
    split.
    { intros ->. change (get_summary_report rc rs (check rs lm) = Some v) in P. destruct (C69_summary_lines _ rc rs (check rs lm) v P) as (lines & -> & F). exists lines. split; [reflexivity|].
      assert (IN : forall n, In n (hit_names (check rs lm)) -> forall r, get_rule rs n false = Some r -> r_score r = worth py_float n ss).
      { intros n K r GR. unfold get_rule in GR. destruct (dget n (rs_checked rs)) as [r'|] eqn:D; [injection GR as <-; apply dget_In in D; apply (RU n r' D)|]. exfalso. apply dget_None in D. pose proof (match_loop_checked_other (rs_checked rs) (fresh_msg lm) n OB D) as Z. cbn [fresh_msg m_checked dget] in Z. apply dget_None in Z. apply Z.
        unfold hit_names in K. apply in_map_iff in K as (e & <- & K). apply filter_In in K as [K _]. apply in_map, K. }
      revert IN. clear -F. induction F as [|n line l lines (r & GR & ->) F IH]; intros IN; constructor; [|apply IH; intros; apply IN; [right|]; assumption].
      rewrite <- (IN n (or_introl eq_refl) r GR). unfold pad_left. rewrite <- app_assoc. eexists _, _, _. split; [reflexivity|]. split; [apply Forall_forall; intros z Z; apply repeat_spec in Z; congruence|]. destruct (rc_whole rc (r_score r)); [left|right]; auto. }
    intros NI. assert (DN : dget tag (own_tags rc rs (check rs lm)) = None).
    { apply dget_None. intros K. apply NI. unfold own_tags, dkeys in K. cbn [map fst In] in K |- *. tauto. }
    rewrite DN in P. exact P. }
  exact V.
Qed.

(** ** C257 *)
(** A report about a mail checked under such a configuration, made from any template, shows the verdict, the score and the
    rules of that mail wherever the template names them: the verdict is Yes exactly if the sum of what its rules are worth
    reaches the required score, the score is that sum, and the rules are those that made it, each once, in the summary with
    what each is worth.  All else is copied.  (Templates with a percent sign are left out, see C67.) *)
Theorem C257_report : forall udigit uword codec feed header_parts decode repair py_float addresses mime (A Y : Type)
    (arg : str -> ares A) evals (E : penv Y) y c order fs ss,
  (forall name strict t, In name [$"ascii"; $"us-ascii"] -> Forall (fun c => (c < 128)%N) t -> codec name strict t = Some t) ->
  (forall s, contains ($"=?") s = false -> header_parts s = Some [HText s]) ->
  (forall x k, In k [$"score"; $"priority"; $"describe"; $"tflags"] -> ~ In k (e_cmds E x)) -> Spec_Meta.enumerates order ->
  e_paranoid E = false -> configuration E y fs ss -> proper_settings py_float ss ->
  exists rs, read_rules udigit uword codec header_parts py_float addresses mime arg evals E y c order fs = Some rs /\
  forall rc report unsafe adds removes t m,
    load_templates report unsafe adds removes = Some t -> t_report t <> [] -> Forall (fun line => ~ In 37%N line) report ->
    plain_mail m -> exists lm qs l pss vss, load_mail udigit uword codec feed header_parts decode repair (mail_text m) = Some lm /\
      Forall2 (adds_points py_float ss m) (names ss) qs /\ NoDup l /\ (forall n, In n l <-> counts py_float ss m n) /\
      Forall2 (fun line ps => reads (strip_chars [39%N; 34%N] line) ps) report pss /\
      Forall2 (Forall2 (shows (rc_required rc) (rc_fmt1 rc) (rc_whole rc) (fun n => worth py_float n ss) qs l)) pss vss /\
      get_report rc rs t (check rs lm) = FText (join [10%N] (map (@concat _) vss) ++ [10%N]).
Proof.
  intros udigit uword codec feed header_parts decode repair py_float addresses mime A Y arg evals E y c order fs ss HC HH HN HO HP HW HS.
  destruct (told udigit uword codec feed header_parts decode repair py_float addresses mime A Y arg evals E y c order fs ss HC HH HN HO HP HW HS) as (rs & R & H).
  exists rs. split; [exact R|]. intros rc report unsafe adds removes t m LT NE NP PM. destruct (H m PM) as (lm & qs & l & L & Q & ND & HI & S & TG & RC). destruct (RC rc) as (TD & _ & V).
  destruct (C67_report_partial _ rc rs report unsafe adds removes t (check rs lm) LT NP) as [(pss & vss & RD & VS & G)|(Z & _)]; [rewrite TG; constructor|apply TD| |].
  2:{ exfalso. apply NE. unfold load_templates in LT. destruct (convert_lines report) as [r0 rt]. destruct (convert_lines unsafe). destruct (load_edits adds removes); [|discriminate]. injection LT as <-. exact Z. }
  exists lm, qs, l, pss, vss. repeat (split; [assumption|]). split; [|exact G].
  clear -VS V. induction VS as [|ps vs pss vss F _ IH]; constructor; [|exact IH]. clear -F V. induction F; constructor; auto.
Qed.
Print Assumptions C257_report.
(** The configuration and the mail of C241 with a report template *)
Definition case_template : list str := [$"Spam: _YESNO_ (_SCORE_ of _REQD_)"; $"'Rules: _TESTS_ _NO_'"; $"_SUMMARY_"].
Definition case_rc (required : Q) : rconf (X := loaded_mail) :=
  mkRC required [] [] [] [] (fun _ => []) (fun q => dec (Z.to_N (Qnum q / Zpos (Qden q)))) (fun q => Some (dec (Z.to_N (Qnum q)))) (fun _ => []).
Example C257_case :
  (exists t, load_templates case_template [] [] [] = Some t /\ t_report t <> []) /\
  Forall (fun line => ~ In 37%N line) case_template /\
  match case_rules, load_templates case_template [] [] [], load_mail (fun _ => false) (fun _ => false) ascii_only no_tags as_is no_charsets (fun l => l) (mail_text case_mail) with
  | Some rs, Some t, Some lm => get_report (case_rc 22) rs t (check rs lm) =
      FText ($"Spam: No (21 of 22)" ++ [10%N] ++ $"Rules: GREET,WORLD,MIME,FROM,BOTH,DEEP @@NO@@" ++ [10%N] ++
             $"   4 GREET                  No description available." ++ [13; 10]%N ++
             $"   1 WORLD                  No description available." ++ [13; 10]%N ++
             $"   3 MIME                   Sent in parts" ++ [13; 10]%N ++
             $"   5 FROM                   No description available." ++ [13; 10]%N ++
             $"   7 BOTH                   No description available." ++ [13; 10]%N ++
             $"   1 DEEP                   No description available." ++ [10%N])
  | _, _, _ => False
  end.
Proof.
  split; [|split].
  - eexists. split; [vm_compute; reflexivity|]. discriminate.
  - repeat constructor; absent.
  - vm_compute. reflexivity.
Qed.

(** ** C258 *)
(** The changed mail a client gets back under such a configuration is always made.  It starts with the fields of the mail
    (or those of the message that wraps it, for spam with report_safe on and not only the headers asked for), and, with
    report_safe off, a report.  Then come the fields configured for all mails and those configured for its kind: spam
    exactly if the sum of what its rules are worth reaches the required score.  Each is filled in from its template as a
    report is (C257); fields to be removed are gone.  The content is the mail's own or, wrapped, its full text. *)
Theorem C258_changed : forall udigit uword codec feed header_parts decode repair py_float addresses mime (A Y : Type)
    (arg : str -> ares A) evals (E : penv Y) y c order fs ss,
  (forall name strict t, In name [$"ascii"; $"us-ascii"] -> Forall (fun c => (c < 128)%N) t -> codec name strict t = Some t) ->
  (forall s, contains ($"=?") s = false -> header_parts s = Some [HText s]) ->
  (forall x k, In k [$"score"; $"priority"; $"describe"; $"tflags"] -> ~ In k (e_cmds E x)) -> Spec_Meta.enumerates order ->
  e_paranoid E = false -> configuration E y fs ss -> proper_settings py_float ss ->
  exists rs, read_rules udigit uword codec header_parts py_float addresses mime arg evals E y c order fs = Some rs /\
  forall rc report unsafe adds removes t safe headers_only received now body m,
    load_templates report unsafe adds removes = Some t -> Forall (fun line => ~ In 37%N line) (report ++ unsafe ++ adds) ->
    plain_mail m -> exists lm qs l spam h c start added own, load_mail udigit uword codec feed header_parts decode repair (mail_text m) = Some lm /\
      Forall2 (adds_points py_float ss m) (names ss) qs /\ NoDup l /\ (forall n, In n l <-> counts py_float ss m n) /\
      get_adjusted rc rs t safe headers_only received now (fields_of (head_of m)) body (mail_text m) (check rs lm) = Some (h, c) /\
      (spam = true /\ (rc_required rc <= sum qs)%Q \/ spam = false /\ (sum qs < rc_required rc)%Q) /\
      (if (spam && negb headers_only && negb (Z.eqb safe 0))%bool
       then start = bounce_headers received now (fields_of (head_of m)) /\ exists text how, c = Wrapped text (mail_text m) how
       else c = Same body /\ (if Z.eqb safe 0 then exists x, start = fields_of (head_of m) ++ [($"X-Spam-Report", x)] else start = fields_of (head_of m))) /\
      let kind := if spam then $"spam" else $"ham" in
      let filled := fun e x : str * str => fst x = fst e /\ exists ps vs, reads (strip_chars [39%N; 34%N] (snd e)) ps /\
        Forall2 (shows (rc_required rc) (rc_fmt1 rc) (rc_whole rc) (fun n => worth py_float n ss) qs l) ps vs /\ snd x = concat vs in
      Forall2 filled (additions ($"all") adds) added /\ Forall2 filled (additions kind adds) own /\
      h = without (removals kind removes) (without (removals ($"all") removes) (start ++ added) ++ own).
Proof.
  intros udigit uword codec feed header_parts decode repair py_float addresses mime A Y arg evals E y c order fs ss HC HH HN HO HP HW HS.
  destruct (told udigit uword codec feed header_parts decode repair py_float addresses mime A Y arg evals E y c order fs ss HC HH HN HO HP HW HS) as (rs & R & H).
  exists rs. split; [exact R|]. intros rc report unsafe adds removes t safe ho received now body m LT NP PM. destruct (H m PM) as (lm & qs & l & L & Q & ND & HI & S & TG & RC). destruct (RC rc) as (TD & GM & V).
  destruct (get_adjusted rc rs t safe ho received now (fields_of (head_of m)) body (mail_text m) (check rs lm)) as [[h c0]|] eqn:G.
  2:{ exfalso. revert G. apply (C53_always_made _ rc rs report unsafe adds removes t); [exact LT|exact NP|rewrite TG; constructor|apply TD|intros _; exact GM]. }
  destruct (C53_header_edits _ rc rs report unsafe adds removes t safe ho received now _ body _ (check rs lm) h c0 LT G) as (start & added & own & ST & F1 & F2 & EH).
  exists lm, qs, l, (Qle_bool (rc_required rc) (m_score (check rs lm))), h, c0, start, added, own. repeat (split; [assumption || reflexivity|]). split.
  { destruct (Qle_bool (rc_required rc) (m_score (check rs lm))) eqn:B.
    - left. split; [reflexivity|]. apply Qle_bool_iff in B. rewrite <- S. exact B.
    - right. split; [reflexivity|]. rewrite <- S. apply Qnot_le_lt. intros K. apply Qle_bool_iff in K. congruence. }
  split.
  { destruct (_ && _ && _)%bool; [destruct ST as (-> & r & u & _ & _ & ->); split; [reflexivity|]; eauto|]. destruct ST as (-> & ST). split; [reflexivity|]. destruct (Z.eqb safe 0); [destruct ST as (x & _ & ->); eauto|exact ST]. }
  cbv zeta. assert (FI : forall kind r, Forall2 (fun e x : str * str => fst x = fst e /\ interpolate rc rs (t_tags t) (check rs lm) (fst (convert_tags (snd e))) = FText (snd x)) (additions kind adds) r ->
    Forall2 (fun e x : str * str => fst x = fst e /\ exists ps vs, reads (strip_chars [39%N; 34%N] (snd e)) ps /\
        Forall2 (shows (rc_required rc) (rc_fmt1 rc) (rc_whole rc) (fun n => worth py_float n ss) qs l) ps vs /\ snd x = concat vs) (additions kind adds) r).
  { intros kind r F. assert (IN : forall e, In e (additions kind adds) -> exists ps vs, reads (strip_chars [39%N; 34%N] (snd e)) ps /\
        Forall2 (shows (rc_required rc) (rc_fmt1 rc) (rc_whole rc) (fun n => worth py_float n ss) qs l) ps vs /\ interpolate rc rs (t_tags t) (check rs lm) (fst (convert_tags (snd e))) = FText (concat vs)).
    { intros e K. destruct (additions_in _ _ _ K) as (line & st & n & Hi & Es). destruct (C67_header_template_partial _ rc rs (t_tags t) (check rs lm) (snd e)) as (ps & vs & RD & VS & IP).
      - intros Z. rewrite !Forall_app in NP. destruct NP as (_ & _ & NP). rewrite Forall_forall in NP. apply (NP line Hi). apply (split_ws_max_In 2 line (snd e)); [rewrite Es; right; right; left; reflexivity|exact Z].
      - rewrite TG. constructor.
      - intros x Z. unfold load_templates in LT. destruct (convert_lines report) as [r0 rt]. destruct (convert_lines unsafe) as [u0 ut]. destruct (load_edits adds removes) as [ed|] eqn:Ee; [|discriminate]. injection LT as <-. cbn [t_tags].
        apply in_or_app. right. apply in_or_app. right. apply (load_edits_tags _ _ _ _ _ _ _ Ee Hi Es x Z).
      - apply TD.
      - exists ps, vs. split; [exact RD|]. split; [|exact IP]. clear -VS V. induction VS; constructor; auto. }
    revert IN. clear -F. induction F as [|e x le r [A1 A2] F IH]; intros IN; constructor; [|apply IH; intros; apply IN; right; assumption].
    split; [exact A1|]. destruct (IN e (or_introl eq_refl)) as (ps & vs & B1 & B2 & B3). exists ps, vs. repeat (split; [assumption|]). congruence. }
  split; [apply FI, F1|]. split; [apply FI|exact EH]. unfold kind_of in F2. exact F2.
Qed.
Print Assumptions C258_changed.
Definition case_adds : list str := [$"all Verdict _YESNO_, _SCORE_ points"; $"spam Flag YES"; $"ham Hits _TESTS_"; $"ham Gone 1"].
Example C258_case :
  (exists t, load_templates case_template [] case_adds [$"ham Gone"] = Some t) /\ Forall (fun line => ~ In 37%N line) (case_template ++ [] ++ case_adds) /\
  match case_rules, load_templates case_template [] case_adds [$"ham Gone"], load_mail (fun _ => false) (fun _ => false) ascii_only no_tags as_is no_charsets (fun l => l) (mail_text case_mail) with
  | Some rs, Some t, Some lm => get_adjusted (case_rc 22) rs t 1 false [] [] (fields_of (head_of case_mail)) ($"b") (mail_text case_mail) (check rs lm) =
      Some (fields_of (head_of case_mail) ++ [($"X-Spam-Verdict", $"No, 21 points"); ($"X-Spam-Hits", $"GREET,WORLD,MIME,FROM,BOTH,DEEP")], Same ($"b"))
  | _, _, _ => False
  end.
Proof.
  split; [|split].
  - eexists. vm_compute. reflexivity.
  - repeat constructor; absent.
  - vm_compute. reflexivity.
Qed.
