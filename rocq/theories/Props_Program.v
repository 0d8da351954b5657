(** The program as a whole: from the lines of a configuration and the text of a mail to the answer of the daemon. *)
From Coq Require Import Lia QArith.
From Verif Require Import PyStr PyDict Regexp Model_Net Model_Rules Model_Headers Model_Parser Spec_Parser Proofs_Parser Model_Build Model_Load Spec_Load Model_Message Spec_Message Model_Program Spec_Program Proofs_Program.
From Verif Require Import Model_Server Spec_Server Proofs_Server.
From Verif Require Import Props_Message.
From Verif Require Model_Meta Spec_Meta.
Open Scope nat_scope.

(** ** C241 *)
(** A configuration, in any number of files, made of lines that define rules looking for a word (body, rawbody, full, header) and rules worked
    out from other rules (meta, up to eleven layers), give scores and describe rules, however they are laid out and spread over included files (up to ten
    files deep) and blocks for plugins, with lines between them
    that cannot be used, is loaded; and every mail, made of any number of plain texts, gets the sum of what its rules are worth: the last
    score given (1 if there is none, nothing for names that begin with two underscores) for each rule that hits, as it
    was defined last, and nothing for the others.  A rule that looks for a word hits if the word occurs in a text the rule
    looks at (for header rules: the value of any field of the name), one that is worked out if its expression is not
    zero, hits counting as 1 and misses as 0.  No order of the lines matters otherwise, nor that in which the program
    visits names. *)
Theorem C241_score : forall udigit uword codec feed header_parts decode repair py_float addresses mime (A Y : Type)
    (arg : str -> ares A) evals (E : penv Y) y c order fs ss,
  (forall name strict t, In name [$"ascii"; $"us-ascii"] -> Forall (fun c => (c < 128)%N) t -> codec name strict t = Some t) ->
  (forall s, contains ($"=?") s = false -> header_parts s = Some [HText s]) ->
  (forall x k, In k [$"score"; $"priority"; $"describe"; $"tflags"] -> ~ In k (e_cmds E x)) -> Spec_Meta.enumerates order ->
  e_paranoid E = false -> configuration E y fs ss -> proper_settings py_float ss ->
  exists rs, read_rules udigit uword codec header_parts py_float addresses mime arg evals E y c order fs = Some rs /\
  forall m, plain_mail m -> exists lm qs, load_mail udigit uword codec feed header_parts decode repair (mail_text m) = Some lm /\
    Forall2 (adds_points py_float ss m) (names ss) qs /\ (m_score (check rs lm) == sum qs)%Q.
Proof.
  intros udigit uword codec feed header_parts decode repair py_float addresses mime A Y arg evals E y c order fs ss HC HH HN HO HP HW HS.
  destruct (whole udigit uword codec feed header_parts decode repair py_float HC HH addresses mime arg evals E y c order HN HO fs ss HP HW HS) as (rs & R & H).
  exists rs. split; [exact R|]. intros m PM. destruct (H m PM) as (lm & L & (qs & Q & S) & _). exists lm, qs. auto.
Qed.
Print Assumptions C241_score.

(** ** C242 *)
(** The daemon, having loaded such a configuration, answers a request to check such a mail, however slowly the bytes
    arrive and whatever was asked before: the verdict is True exactly if the sum reaches the required score. *)
Theorem C242_verdict : forall udigit uword codec feed header_parts decode repair py_float addresses mime (A Y : Type)
    (arg : str -> ares A) evals (E : penv Y) y c order fs ss,
  (forall name strict t, In name [$"ascii"; $"us-ascii"] -> Forall (fun c => (c < 128)%N) t -> codec name strict t = Some t) ->
  (forall s, contains ($"=?") s = false -> header_parts s = Some [HText s]) ->
  (forall x k, In k [$"score"; $"priority"; $"describe"; $"tflags"] -> ~ In k (e_cmds E x)) -> Spec_Meta.enumerates order ->
  e_paranoid E = false -> configuration E y fs ss -> proper_settings py_float ss ->
  exists rs, read_rules udigit uword codec header_parts py_float addresses mime arg evals E y c order fs = Some rs /\
  forall version show fmt1 required sv0 earlier requests give prefs m,
    let D := daemon udigit uword codec feed header_parts decode repair version show fmt1 in
    transport give -> plain_mail m -> Forall (fun x => (x < 128)%N) (mail_text m) ->
    (forall e, In e requests -> exists give prefs bytes, e = Request give prefs bytes) ->
    exists qs score verdict, Forall2 (adds_points py_float ss m) (names ss) qs /\ (score == sum qs)%Q /\
      (verdict = $"True" /\ (required <= sum qs)%Q \/ verdict = $"False" /\ (sum qs < required)%Q) /\
      rp_text (snd (handle D give prefs (request ($"CHECK") (mail_text m)) (sv_run D (earlier ++ Reload (rs, required) tt :: requests) sv0))) =
        [$"SPAMD/" ++ version ++ $" 0 EX_OK" ++ [13; 10]%N;
         $"Spam: " ++ verdict ++ $" ; " ++ fmt1 score ++ $" / " ++ show required ++ [13; 10]%N;
         $"Content-length: 0" ++ [13; 10; 13; 10]%N; []].
Proof.
  intros udigit uword codec feed header_parts decode repair py_float addresses mime A Y arg evals E y c order fs ss HC HH HN HO HP HW HS.
  destruct (whole udigit uword codec feed header_parts decode repair py_float HC HH addresses mime arg evals E y c order HN HO fs ss HP HW HS) as (rs & R & H).
  exists rs. split; [exact R|]. intros version show fmt1 required sv0 earlier requests give prefs m D G PM AM RQ. destruct (H m PM) as (lm & L & (qs & Q & S) & _).
  set (sv := sv_run D (earlier ++ Reload (rs, required) tt :: requests) sv0).
  assert (SV : sv_ruleset sv = (rs, required)) by (apply reloaded; [reflexivity|exact RQ]).
  exists qs, (m_score (check rs lm)), (if Qle_bool required (m_score (check rs lm)) then $"True" else $"False"). split; [exact Q|]. split; [exact S|]. split.
  { destruct (Qle_bool required (m_score (check rs lm))) eqn:B.
    - left. split; [reflexivity|]. apply Qle_bool_iff in B. rewrite <- S. exact B.
    - right. split; [reflexivity|]. rewrite <- S. apply Qnot_le_lt. intros K. apply Qle_bool_iff in K. congruence. }
  rewrite (asked D give prefs ($"CHECK") CCheck (mail_text m) sv lm (check rs lm) []); [|reflexivity|reflexivity|discriminate|discriminate|discriminate| |exact G| | | |reflexivity].
  - cbn [snd rp_text]. unfold ok_line, spam_line. rewrite SV. reflexivity.
  - repeat split; [discriminate|intros k K; vm_compute in K; repeat (destruct K as [<-|K]; [reflexivity|]); destruct K|intros K; vm_compute in K; repeat (destruct K as [K|K]; [discriminate|]); destruct K].
  - apply Forall_app. split; [repeat constructor|exact AM].
  - cbn [Model_Server.e_load D daemon]. unfold D, daemon. cbn [Model_Server.e_load]. rewrite L. reflexivity.
  - rewrite SV. reflexivity.
Qed.
Print Assumptions C242_verdict.

(** ** C243 *)
(** Asked for the symbols of such a mail, it lists each rule once that made the score: it hits and is not worth zero. *)
Theorem C243_symbols : forall udigit uword codec feed header_parts decode repair py_float addresses mime (A Y : Type)
    (arg : str -> ares A) evals (E : penv Y) y c order fs ss,
  (forall name strict t, In name [$"ascii"; $"us-ascii"] -> Forall (fun c => (c < 128)%N) t -> codec name strict t = Some t) ->
  (forall s, contains ($"=?") s = false -> header_parts s = Some [HText s]) ->
  (forall x k, In k [$"score"; $"priority"; $"describe"; $"tflags"] -> ~ In k (e_cmds E x)) -> Spec_Meta.enumerates order ->
  e_paranoid E = false -> configuration E y fs ss -> proper_settings py_float ss ->
  exists rs, read_rules udigit uword codec header_parts py_float addresses mime arg evals E y c order fs = Some rs /\
  forall version show fmt1 required sv0 earlier requests give prefs m,
    let D := daemon udigit uword codec feed header_parts decode repair version show fmt1 in
    transport give -> plain_mail m -> Forall (fun x => (x < 128)%N) (mail_text m) ->
    (forall e, In e requests -> exists give prefs bytes, e = Request give prefs bytes) ->
    exists l first second, NoDup l /\ (forall n, In n l <-> counts py_float ss m n) /\
      rp_text (snd (handle D give prefs (request ($"SYMBOLS") (mail_text m)) (sv_run D (earlier ++ Reload (rs, required) tt :: requests) sv0))) =
        [first; second; $"Content-length: " ++ dec (N.of_nat (length (join ($",") l))) ++ [13; 10; 13; 10]%N; join ($",") l].
Proof.
  intros udigit uword codec feed header_parts decode repair py_float addresses mime A Y arg evals E y c order fs ss HC HH HN HO HP HW HS.
  destruct (whole udigit uword codec feed header_parts decode repair py_float HC HH addresses mime arg evals E y c order HN HO fs ss HP HW HS) as (rs & R & H).
  exists rs. split; [exact R|]. intros version show fmt1 required sv0 earlier requests give prefs m D G PM AM RQ. destruct (H m PM) as (lm & L & _ & ND & HI & _).
  set (sv := sv_run D (earlier ++ Reload (rs, required) tt :: requests) sv0).
  assert (SV : sv_ruleset sv = (rs, required)) by (apply reloaded; [reflexivity|exact RQ]).
  exists (hit_names (check rs lm)). rewrite (asked D give prefs ($"SYMBOLS") CSymbols (mail_text m) sv lm (check rs lm) (join ($",") (hit_names (check rs lm)))); [|reflexivity|reflexivity|discriminate|discriminate|discriminate| |exact G| | | |reflexivity].
  - eexists _, _. split; [exact ND|]. split; [exact HI|]. cbn [snd rp_text]. reflexivity.
  - repeat split; [discriminate|intros k K; vm_compute in K; repeat (destruct K as [<-|K]; [reflexivity|]); destruct K|intros K; vm_compute in K; repeat (destruct K as [K|K]; [discriminate|]); destruct K].
  - apply Forall_app. split; [repeat constructor|exact AM].
  - unfold D, daemon. cbn [Model_Server.e_load]. rewrite L. reflexivity.
  - rewrite SV. reflexivity.
Qed.
Print Assumptions C243_symbols.

(** A configuration and a mail that meet the hypotheses *)
Definition case_lines : list str :=
  [$"# local rules"; $"body GREET /Greetings/"; []; $"  score   GREET  2"; $"rawbody WORLD /World/"; $"full MIME /MIME/"; $"score MIME 3"; $"describe MIME  Sent in parts";
   $" include part.cf # and more"].
Definition case_part : list str := [$"full NONE /absent/"; $"score WORLD"; $"include nowhere.cf"; $"ifplugin oa.plugins.spf.SPF"; $"score MIME 300"; $"endif"].
Definition case_lines2 : list str :=
  [$"score GREET 4"; $"score ZERO 0"; $"body ZERO /last/"; $"score LONELY 9";
   $"header FROM  received =~ /example/"; $"score FROM 5"; $"header MISS Subject =~ /World/";
   $"meta BOTH GREET && !NONE"; $"score BOTH 7"; $"body __LAST /last/"; $"meta DEEP BOTH + __LAST + ZERO >= 3 || MISS"; $"meta NEVER !BOTH && DEEP"].
Definition case_files : list str := [$"local.cf"; $"absent.cf"; $"more.cf"].
Definition case_settings : list setting :=
  [Search Body ($"GREET") ($"Greetings"); Points ($"GREET") ($"2"); Search Raw ($"WORLD") ($"World"); Search Full ($"MIME") ($"MIME"); Points ($"MIME") ($"3"); Words ($"MIME") ($"Sent in parts");
   Search Full ($"NONE") ($"absent"); Points ($"GREET") ($"4"); Points ($"ZERO") ($"0"); Search Body ($"ZERO") ($"last"); Points ($"LONELY") ($"9");
   Search (Field ($"received")) ($"FROM") ($"example"); Points ($"FROM") ($"5"); Search (Field ($"Subject")) ($"MISS") ($"World");
   Combine ($"BOTH") ($"GREET && !NONE"); Points ($"BOTH") ($"7"); Search Body ($"__LAST") ($"last"); Combine ($"DEEP") ($"BOTH + __LAST + ZERO >= 3 || MISS"); Combine ($"NEVER") ($"!BOTH && DEEP")].
Definition case_float (s : str) : option Q := option_map inject_Z (py_int s).
Definition case_env : penv unit :=
  mkEnv false (fun _ => []) (fun _ => []) (fun x _ _ => CUnknown x) (fun x _ _ => LLoaded x) (fun _ => None) None (fun f => if streqb f ($"local.cf") then Some case_lines else if streqb f ($"more.cf") then Some case_lines2 else if streqb f ($"part.cf") then Some case_part else None).
Definition case_rules : option (ruleset loaded_mail) :=
  read_rules (A := unit) (fun _ => false) (fun _ => false) ascii_only as_is case_float (fun _ => None) (fun _ _ _ => []) (fun _ => ABad) (fun _ => None)
    case_env tt (mkSwitches true true true true) (fun l => l) case_files.
Definition case_daemon := daemon (fun _ => false) (fun _ => false) ascii_only no_tags as_is no_charsets (fun l => l) ($"1.0") (fun q => dec (Z.to_N (Qnum q))) (fun q => dec (Z.to_N (Qnum q / Zpos (Qden q)))).
Ltac a_word := repeat split; [discriminate|intros k K; vm_compute in K; repeat (destruct K as [<-|K]; [reflexivity|]); destruct K|absent].
Lemma case_written : configuration case_env tt case_files case_settings.
Proof.
  change case_settings with ((firstn 6 case_settings ++ [Search Full ($"NONE") ($"absent")] ++ []) ++ skipn 7 case_settings ++ []).
  eapply configuration_file; [vm_compute; reflexivity| |apply configuration_absent; [reflexivity|eapply configuration_file; [vm_compute; reflexivity| |apply configuration_end]]];
    [unfold case_lines|unfold case_lines2]; unfold case_settings; cbn [firstn skipn app]; [apply written_note; [right; exists [], ($" local rules"); split; reflexivity|]|];
  repeat first [apply written_note; [left; reflexivity|]|
    apply written_line; [first [exists [], ($" "), ($" "), []; repeat split; discriminate|exists [], ($" "), ($"  "), []; repeat split; discriminate|exists ($"  "), ($"   "), ($"  "), []; repeat split; discriminate]|]]; [|apply written_end].
  change [Search Full ($"NONE") ($"absent")] with ([Search Full ($"NONE") ($"absent")] ++ []).
  apply (written_include _ _ _ _ _ ($"part.cf") case_part).
  - right. exists ($" "). repeat split; discriminate || (vm_compute; reflexivity).
  - reflexivity.
  - unfold case_part. apply written_line; [exists [], ($" "), ($" "), []; repeat split; discriminate|].
    apply written_unusable; [left; exists ($"score"), [$"WORLD"]; split; [vm_compute; reflexivity|split; [vm_compute; auto|cbn; lia]]|].
    apply (written_no_file _ _ _ _ _ ($"nowhere.cf")); [right; exists ($" "); repeat split; discriminate || (vm_compute; reflexivity)|reflexivity|].
    apply (written_left_out _ _ _ _ _ [$"score MIME 300"] ($"endif")); [| | |apply written_end].
    + exists ($"oa.plugins.spf.SPF"), ($"SPF"). split; [|split; [|intros []]].
      * split; [a_word|]. exists [], ($" "), []. repeat split; discriminate.
      * exists ($"oa.plugins.spf.SPF"). split; [right; split; reflexivity|]. right. exists ($"oa.plugins.spf"). split; [reflexivity|absent].
    + constructor; [|constructor]. intros (w & [<-|[<-|[]]] & H); vm_compute in H; discriminate.
    + exists [], []. split; reflexivity.
  - apply written_end.
Qed.
Import Model_Meta.
Definition both := EBin OAnd (EName ($"GREET")) (ENot (EName ($"NONE"))).
Definition deep := EBin OOr (EBin OGe (EBin OPlus (EBin OPlus (EName ($"BOTH")) (EName ($"__LAST"))) (EName ($"ZERO"))) (ENum ($"3"))) (EName ($"MISS")).
Definition never := EBin OAnd (ENot (EName ($"BOTH"))) (EName ($"DEEP")).
Lemma case_writes : Spec_Meta.writes ($"GREET && !NONE") both /\ Spec_Meta.writes ($"BOTH + __LAST + ZERO >= 3 || MISS") deep /\ Spec_Meta.writes ($"!BOTH && DEEP") never.
Proof.
  split; [|split]; (split; [vm_compute; repeat split|]).
  - exists [[]; [32%N]; [32%N]]. split; [repeat constructor|vm_compute; reflexivity].
  - exists [[]; [32%N]; [32%N]; [32%N]; [32%N]; [32%N]; [32%N]; [32%N]; [32%N]]. split; [repeat constructor|vm_compute; reflexivity].
  - exists [[]; []; [32%N]; [32%N]]. split; [repeat constructor|vm_compute; reflexivity].
Qed.
Lemma case_settings_proper : proper_settings case_float case_settings.
Proof.
  destruct case_writes as (W1 & W2 & W3). split.
  - unfold case_settings. repeat (apply Forall_cons; [split; [a_word|]|]); try apply Forall_nil;
      try (split; [first [discriminate|intros f K; injection K as <-; split; [discriminate|split; [unfold alphanumeric; each|absent]]]|split; [discriminate|unfold alphanumeric; each]]); try (split; [a_word|discriminate]);
      try (split; [split; [discriminate|reflexivity]|eexists; first [exact W1|exact W2|exact W3]]).
    split; [split; [discriminate|reflexivity]|]. apply no_hash. absent.
  - assert (NB : forall d, nested case_settings ($"BOTH") (S d)).
    { intros d. eapply nested_compute; [vm_compute; reflexivity|exact W1|]. intros s K. vm_compute in K. repeat (destruct K as [<-|K]; [eapply nested_look; vm_compute; reflexivity|]). destruct K. }
    assert (N2 : forall d, nested case_settings ($"DEEP") (S (S d))).
    { intros d. eapply nested_compute; [vm_compute; reflexivity|exact W2|]. intros s K. vm_compute in K. destruct K as [<-|K]; [apply NB|]. repeat (destruct K as [<-|K]; [eapply nested_look; vm_compute; reflexivity|]). destruct K. }
    intros n t K. assert (I := task_named case_settings n ltac:(congruence)). vm_compute in I.
    repeat (destruct I as [<-|I]; [try (vm_compute in K; discriminate); first [apply NB|apply N2|eapply nested_compute; [vm_compute; reflexivity|exact W3|]; intros s Z; vm_compute in Z; destruct Z as [<-|[<-|[]]]; [apply NB|apply N2]]|]). destruct I.
Qed.
Lemma case_plain : plain_mail case_mail.
Proof.
  split; [exact case_proper|]. split; [intros s K; vm_compute in K; repeat (destruct K as [<-|K]; [vm_compute; reflexivity|]); destruct K|]. intros h t K. vm_compute in K.
  repeat (destruct K as [K|K]; [injection K as <- <-; split; [discriminate|split; [absent|split; [each|vm_compute; tauto]]]|]). destruct K.
Qed.
Example C241_case : configuration case_env tt case_files case_settings /\ proper_settings case_float case_settings /\ plain_mail case_mail /\ Forall (fun x => (x < 128)%N) (mail_text case_mail) /\
  (forall name strict t, In name [$"ascii"; $"us-ascii"] -> Forall (fun c => (c < 128)%N) t -> ascii_only name strict t = Some t) /\
  names case_settings = [$"WORLD"; $"MIME"; $"NONE"; $"GREET"; $"ZERO"; $"LONELY"; $"FROM"; $"MISS"; $"BOTH"; $"__LAST"; $"DEEP"; $"NEVER"] /\
  Forall2 (adds_points case_float case_settings case_mail) (names case_settings) [1%Q; 3%Q; 0%Q; 4%Q; 0%Q; 0%Q; 5%Q; 0%Q; 7%Q; 0%Q; 1%Q; 0%Q].
Proof.
  split; [exact case_written|]. split; [exact case_settings_proper|]. split; [exact case_plain|]. split; [apply Forall_forall; intros c K; vm_compute in K; repeat (destruct K as [<-|K]; [reflexivity|]); destruct K|]. split.
  { intros name strict t K F. unfold ascii_only. replace (mem_str name _) with true by (destruct K as [<-|[<-|[]]]; reflexivity). f_equal. induction F as [|x t L _ IH]; [reflexivity|]. cbn [filter]. apply N.ltb_lt in L. rewrite L, IH. reflexivity. }
  split; [vm_compute; reflexivity|]. change (names case_settings) with [$"WORLD"; $"MIME"; $"NONE"; $"GREET"; $"ZERO"; $"LONELY"; $"FROM"; $"MISS"; $"BOTH"; $"__LAST"; $"DEEP"; $"NEVER"].
  assert (FO : forall w p, found w p case_mail <-> existsb (contains w) (texts_at p case_mail) = true).
  { intros w p. rewrite existsb_exists. split; intros (t & K & O); exists t; (split; [exact K|]); apply contains_app in O || apply contains_app; exact O. }
  set (v := fun n => Spec_Meta.of_bool (mem_str n [$"WORLD"; $"MIME"; $"GREET"; $"ZERO"; $"FROM"; $"BOTH"; $"__LAST"; $"DEEP"])). destruct case_writes as (W1 & W2 & W3).
  assert (CL : forall n, In n [$"WORLD"; $"MIME"; $"NONE"; $"GREET"; $"ZERO"; $"FROM"; $"MISS"; $"__LAST"] -> comes_to case_settings case_mail n (v n)).
  { intros n K. repeat (destruct K as [<-|K]; [eapply comes_look; [vm_compute; reflexivity|]; first [left; split; [apply FO; vm_compute; reflexivity|vm_compute; reflexivity]|right; split; [intros Z; apply FO in Z; vm_compute in Z; discriminate|vm_compute; reflexivity]]|]). destruct K. }
  assert (C1 : comes_to case_settings case_mail ($"BOTH") (v ($"BOTH"))) by (eapply (comes_compute _ _ _ _ both v); [vm_compute; reflexivity|exact W1|intros s K; apply CL; vm_compute in K |- *; tauto|vm_compute; reflexivity]).
  assert (C2 : comes_to case_settings case_mail ($"DEEP") (v ($"DEEP"))) by (eapply (comes_compute _ _ _ _ deep v); [vm_compute; reflexivity|exact W2|intros s K; vm_compute in K; destruct K as [<-|K]; [exact C1|]; apply CL; vm_compute; tauto|vm_compute; reflexivity]).
  assert (C3 : comes_to case_settings case_mail ($"NEVER") (v ($"NEVER"))) by (eapply (comes_compute _ _ _ _ never v); [vm_compute; reflexivity|exact W3|intros s K; vm_compute in K; destruct K as [<-|[<-|[]]]; [exact C1|exact C2]|vm_compute; reflexivity]).
  assert (CA : forall n, In n [$"WORLD"; $"MIME"; $"NONE"; $"GREET"; $"ZERO"; $"FROM"; $"MISS"; $"BOTH"; $"__LAST"; $"DEEP"; $"NEVER"] -> comes_to case_settings case_mail n (v n)).
  { intros n K. repeat (destruct K as [<-|K]; [first [exact C1|exact C2|exact C3|apply CL; vm_compute; tauto]|]). destruct K. }
  repeat (constructor; [first [right; split; [right; vm_compute; reflexivity|reflexivity]|
    left; split; [eexists; split; [apply CA; vm_compute; tauto|vm_compute; discriminate]|vm_compute; reflexivity]|
    right; split; [left; eexists; split; [apply CA; vm_compute; tauto|vm_compute; reflexivity]|reflexivity]]|]). constructor.
Qed.
Definition case_reply (command : str) (required : Q) : option (list str) :=
  option_map (fun rs => rp_text (snd (handle case_daemon buffered (fun _ => None) (request command (mail_text case_mail)) (mkServer (rs, required) tt [])))) case_rules.
Example C242_case : case_reply ($"CHECK") 5 = Some
  [$"SPAMD/1.0 0 EX_OK" ++ [13; 10]%N; $"Spam: True ; 21 / 5" ++ [13; 10]%N; $"Content-length: 0" ++ [13; 10; 13; 10]%N; []].
Proof. vm_compute. reflexivity. Qed.
Example C243_case : case_reply ($"SYMBOLS") 22 = Some
  [$"SPAMD/1.0 0 EX_OK" ++ [13; 10]%N; $"Spam: False ; 21 / 22" ++ [13; 10]%N; $"Content-length: 31" ++ [13; 10; 13; 10]%N; $"GREET,WORLD,MIME,FROM,BOTH,DEEP"].
Proof. vm_compute. reflexivity. Qed.
