(** What body rules get to see of HTML parts: theorems for C214 to C218, about messages with one
    part, read with the HTML parser of the standard library. *)
From Coq Require Import Lia.
From Verif Require Import PyStr PyDict Model_Headers Spec_Headers Model_Load Spec_Load Proofs_Load PyHtml Spec_Html Proofs_Html Proofs_HtmlDoc Proofs_HtmlLoad.

(** ** C214 *)
(** What body rules see of an HTML part are pieces of its text, in their order; none of them is
    empty, and they are separated by blanks. *)
Theorem C214_pieces : forall udigit uword codec header_parts p line l,
  html_message codec p line -> load udigit uword codec html_feed header_parts [p] = Some l ->
  exists ps, l_text l = join ($" ") ps /\ in_order ps line /\ ~ In [] ps.
Proof.
  intros udigit uword codec hp p line l H L. destruct (html_feed line) as [chunks raised] eqn:F. assert (G := feed_good line). rewrite F in G. destruct G as (O & _ & _).
  assert (K := html_loaded udigit uword codec hp p line chunks raised H F). destruct raised; [congruence|]. destruct K as (l' & L' & T). rewrite L in L'. injection L' as <-.
  exists (pieces chunks). split; [exact T|]. split; [apply in_order_pieces, O|]. unfold pieces. intros I. apply filter_In in I as [_ I]. discriminate.
Qed.
Print Assumptions C214_pieces.

(** An HTML part in examples *)
Definition html_part (text : str) : part := mkPart [($"From", $"a@b.example")] ($"text") ($"html") None text.
Definition ascii_only (name : str) (strict : bool) (b : list N) : option str := Some (filter (fun x => N.ltb x 128) b).
Definition no_words (h : str) : option (list hpart) := Some [HText h].
Definition seen (text : str) : option str :=
  option_map l_text (load (fun _ => false) (fun _ => false) ascii_only html_feed no_words [html_part text]).
Example C214_case : html_message ascii_only (html_part ($"one <b>two</b> &lt; <i title='x>y'>three")) ($"one <b>two</b> &lt; <i title='x>y'>three") /\
  seen ($"one <b>two</b> &lt; <i title='x>y'>three") = Some ($"one two three").
Proof.
  split; [|vm_compute; reflexivity]. split; [reflexivity|]. split; [reflexivity|]. split; [reflexivity|]. eexists. split; [vm_compute; reflexivity|]. apply one_line_iff. vm_compute. reflexivity.
Qed.

(** ** C215 *)
(** In a document made of texts, tags with attributes (with a value in quotes or without one), comments, entities and scripts,
    body rules see the texts, and those of scripts and styles, but nothing of the tags, of their
    attributes, of the comments and of the entities. *)
Theorem C215_document : forall udigit uword codec header_parts p d,
  proper d -> html_message codec p (written d) ->
  exists l, load udigit uword codec html_feed header_parts [p] = Some l /\ l_text l = join ($" ") (pieces (shown d)).
Proof. intros udigit uword codec hp p d P H. exact (html_loaded udigit uword codec hp p _ _ false H (document_feed d P)). Qed.
Print Assumptions C215_document.
Definition example_document : document :=
  ([($"Dear ", Tag ($"b") [] ($">")); ($"friend", EndTag ($"b")); ($", buy", Tag ($"br") [] ($" />"));
    ([], Comment ($" not <b>this</b> - ")); ($"now ", Tag ($"a") [($"href", Quoted 39%N ($"http://x.example/>")); ($"hidden", NoValue); ($"title", Quoted 34%N ($"it's"))] ($">")); ($"here", EndTag ($"a"));
    ([], CharRef ($"33")); ([], HexRef 120%N ($"2F")); ([], Program ($"Style") [($"type", Quoted 34%N ($"text/css"))] ($"p {}") ($"STYLE"))], $" bye").
Example C215_case : proper example_document /\
  written example_document = $"Dear <b>friend</b>, buy<br /><!-- not <b>this</b> - -->now <a href='http://x.example/>' hidden title=""it's"">here</a>&#33;&#x2F;<Style type=""text/css"">p {}</STYLE> bye" /\
  join ($" ") (pieces (shown example_document)) = $"Dear friend , buy now here p {} bye" /\
  seen (written example_document) = Some ($"Dear friend , buy now here p {} bye").
Proof.
  assert (NAME : forall n, match n with c :: r => letter c && forallb (fun d => letter d || (N.leb 48 d && N.leb d 57)) r | [] => false end = true -> a_name n).
  { intros [|c r] K; [discriminate|]. apply andb_true_iff in K as [A B]. exists c, r. split; [reflexivity|]. split; [apply letter_spec, A|]. apply Forall_forall. intros d I. rewrite forallb_forall in B. specialize (B d I).
    apply orb_true_iff in B as [B|B]; [left; apply letter_spec, B|right]. apply andb_true_iff in B as [X Y]. apply N.leb_le in X, Y. split; assumption. }
  assert (NOT : forall c s, mem_char c s = false -> ~ In c s). { intros c s K I. apply mem_char_In in I. congruence. }
  split; [|split; [vm_compute; reflexivity|split; vm_compute; reflexivity]].
  split; [|split; apply NOT; vm_compute; reflexivity].
  unfold example_document. cbn [fst]. repeat (apply Forall_cons || apply Forall_nil);
    (split; [split; apply NOT; vm_compute; reflexivity|]); cbn [snd proper_markup].
  - split; [apply NAME; vm_compute; reflexivity|]. split; [constructor|]. right. split; [reflexivity|]. intros [K|[K|[]]]; discriminate.
  - apply NAME; vm_compute; reflexivity.
  - split; [apply NAME; vm_compute; reflexivity|]. split; [constructor|]. left. right. left. reflexivity.
  - intros (x & w & y & E & _). apply (f_equal (contains ($"--"))) in E. assert (K : contains ($"--") (x ++ $"--" ++ w ++ $">" ++ y) = true) by (apply contains_app; eauto). rewrite K in E. vm_compute in E. discriminate.
  - split; [apply NAME; vm_compute; reflexivity|]. split; [|right; split; [reflexivity|intros [K|[K|[]]]; discriminate]]. repeat (apply Forall_cons || apply Forall_nil); (split; [apply NAME; vm_compute; reflexivity|first [exact I|split; [cbn; tauto|apply NOT; vm_compute; reflexivity]]]).
  - apply NAME; vm_compute; reflexivity.
  - split; [discriminate|]. repeat (apply Forall_cons || apply Forall_nil); unfold is_digit; vm_compute; split; discriminate.
  - split; [left; reflexivity|]. split; [discriminate|]. repeat (apply Forall_cons || apply Forall_nil); [left|right; left]; unfold is_digit; vm_compute; split; discriminate.
  - split; [apply NAME; vm_compute; reflexivity|]. split; [right; left; reflexivity|]. split; [|split; [apply NOT; vm_compute; reflexivity|reflexivity]]. repeat (apply Forall_cons || apply Forall_nil); (split; [apply NAME; vm_compute; reflexivity|first [exact I|split; [cbn; tauto|apply NOT; vm_compute; reflexivity]]]).
Qed.

(** ** C216 *)
(** A word with a tag, a comment or an entity in it is never seen as one word: there is a blank
    in the place of the markup. *)
Theorem C216_refuted : forall udigit uword codec header_parts p x m y,
  proper_markup m -> code_of m = [] -> x <> [] -> y <> [] ->
  Forall (fun c => is_space c = false /\ c <> 60%N /\ c <> 38%N) (x ++ y) ->
  html_message codec p (x ++ written_markup m ++ y) ->
  exists l, load udigit uword codec html_feed header_parts [p] = Some l /\ l_text l = x ++ $" " ++ y.
Proof.
  intros udigit uword codec hp p x m y M C NX NY F H. apply Forall_app in F as [FX FY].
  assert (P : forall w, Forall (fun c => is_space c = false /\ c <> 60%N /\ c <> 38%N) w -> plain_text w). { intros w W. rewrite Forall_forall in W. split; intros I; destruct (W _ I) as (_ & A & B); congruence. }
  assert (S : forall w, Forall (fun c => is_space c = false /\ c <> 60%N /\ c <> 38%N) w -> strip w = w). { intros w W. apply strip_word. eapply Forall_impl; [|exact W]. intros c K. apply K. }
  assert (D : proper ([(x, m)], y)). { split; [|apply P, FY]. constructor; [split; [apply P, FX|exact M]|constructor]. }
  assert (E : written ([(x, m)], y) = x ++ written_markup m ++ y). { unfold written, written_part. cbn [fst snd flat_map]. rewrite app_nil_r, <- app_assoc. reflexivity. }
  rewrite <- E in H. destruct (C215_document udigit uword codec hp p _ D H) as (l & L & T). exists l. split; [exact L|]. rewrite T.
  unfold shown, shown_part. cbn [fst snd flat_map]. rewrite C, !app_nil_r. destruct x as [|a x]; [congruence|]. destruct y as [|b y]; [congruence|]. cbn [some_text app]. unfold pieces. cbn [map]. rewrite !S by assumption. reflexivity.
Qed.
Print Assumptions C216_refuted.
Example C216_case : seen ($"v<b></b>iagra") = Some ($"v iagra") /\ seen ($"vi&#97;gra") = Some ($"vi gra") /\ seen ($"via<!-- x -->gra") = Some ($"via gra").
Proof. split; [|split]; vm_compute; reflexivity. Qed.
(** The text of a script or a style, which no reader sees, is seen by body rules. *)
Theorem C216_program_refuted : forall udigit uword codec header_parts p n a code last,
  proper_markup (Program n a code last) -> strip code <> [] -> html_message codec p (written_markup (Program n a code last)) ->
  exists l, load udigit uword codec html_feed header_parts [p] = Some l /\ l_text l = strip code.
Proof.
  intros udigit uword codec hp p n a code last M NE H.
  assert (D : proper ([([], Program n a code last)], [])). { split; [|split; intros []]. constructor; [split; [split; intros []|exact M]|constructor]. }
  assert (E : written ([([], Program n a code last)], []) = written_markup (Program n a code last)). { unfold written, written_part. cbn [fst snd flat_map app]. rewrite !app_nil_r. reflexivity. }
  rewrite <- E in H. destruct (C215_document udigit uword codec hp p _ D H) as (l & L & T). exists l. split; [exact L|]. rewrite T.
  unfold shown, shown_part. cbn [fst snd flat_map app some_text code_of]. rewrite !app_nil_r. destruct code as [|c code]; [destruct (NE eq_refl)|]. cbn [some_text]. unfold pieces. cbn [map filter]. destruct (strip (c :: code)); [congruence|reflexivity].
Qed.
Print Assumptions C216_program_refuted.
Example C216_program_case : seen ($"<style>.x {color: red}</style>") = Some ($".x {color: red}").
Proof. vm_compute. reflexivity. Qed.

(** ** C217 *)
(** After markup that does not come to an end (or an & with a name at the end of the text)
    nothing is seen: body rules get the texts before it only. *)
Theorem C217_refuted : forall udigit uword codec header_parts p parts t x,
  Forall proper_part parts -> plain_text t -> unfinished x -> html_message codec p (flat_map written_part parts ++ t ++ x) ->
  exists l, load udigit uword codec html_feed header_parts [p] = Some l /\ l_text l = join ($" ") (pieces (shown (parts, t))).
Proof. intros udigit uword codec hp p parts t x F P U H. exact (html_loaded udigit uword codec hp p _ _ false H (unfinished_feed parts t x F P U)). Qed.
Print Assumptions C217_refuted.
(** The same after &# with no number, where there is a semicolon in the rest of the text. *)
Theorem C217_number_refuted : forall udigit uword codec header_parts p parts t c y,
  Forall proper_part parts -> plain_text t -> ~ is_digit c -> ~ In c [120; 88]%N -> In 59%N y -> html_message codec p (flat_map written_part parts ++ t ++ $"&#" ++ c :: y) ->
  exists l, load udigit uword codec html_feed header_parts [p] = Some l /\ l_text l = join ($" ") (pieces (shown (parts, t) ++ [$"&#"])).
Proof.
  intros udigit uword codec hp p parts t c y F P D X S H. destruct (html_loaded udigit uword codec hp p _ _ false H (number_feed parts t c y F P D X S)) as (l & L & T). exists l. split; [exact L|]. rewrite T. unfold shown. cbn [fst snd]. rewrite app_assoc. reflexivity.
Qed.
Print Assumptions C217_number_refuted.
Example C217_case : seen ($"Dear <i>friend</i> <!-- buy viagra") = Some ($"Dear friend") /\ seen ($"a</p buy viagra") = Some ($"a") /\
  seen ($"a<!doctype buy viagra") = Some ($"a") /\ seen ($"a<script src=""x"">buy viagra") = Some ($"a") /\ seen ($"research&development") = Some ($"research") /\
  seen ($"a &# buy viagra") = Some ($"a") /\ seen ($"a &# buy viagra;") = Some ($"a &#") /\
  unfinished ($"<!-- buy viagra") /\ unfinished ($"&# buy viagra").
Proof.
  do 7 (split; [vm_compute; reflexivity|]). split.
  - apply (open_comment ($" buy viagra")). intros (x & w & z & E & _). apply (f_equal (contains ($"--"))) in E. assert (K : contains ($"--") (x ++ $"--" ++ w ++ $">" ++ z) = true) by (apply contains_app; eauto). rewrite K in E. vm_compute in E. discriminate.
  - apply (open_number 32%N ($"buy viagra")); [intros [A _]; vm_compute in A; congruence|intros [K|[K|[]]]; discriminate|]. intros K. apply mem_char_In in K. vm_compute in K. discriminate.
Qed.

(** ** C218 *)
(** A message with a marked section the parser does not know is not loaded at all. *)
Theorem C218_refuted : forall udigit uword codec header_parts p parts t x,
  Forall proper_part parts -> plain_text t -> bad_section x -> html_message codec p (flat_map written_part parts ++ t ++ x) ->
  load udigit uword codec html_feed header_parts [p] = None.
Proof. intros udigit uword codec hp p parts t x F P B H. exact (html_loaded udigit uword codec hp p _ _ true H (section_feed parts t x F P B)). Qed.
Print Assumptions C218_refuted.
(** Missing: HTML parts with marked sections the parser knows. *)
Theorem C218_loaded_partial : forall udigit uword codec header_parts p0 ps,
  (forall h, In h (values_of ($"Subject") (p_headers p0)) -> exists t, decode_header codec header_parts h = Ok (Some t)) ->
  (forall p, In p (p0 :: ps) -> p_main p = $"text" -> ~ In 0%N (declared (p_charset p))) ->
  (forall p t line, In p (p0 :: ps) -> p_main p = $"text" -> p_sub p = $"html" -> payload codec p = Ok t -> one_line t line ->
     ~ exists x y, line = x ++ $"<![" ++ y) ->
  exists l, load udigit uword codec html_feed header_parts (p0 :: ps) = Some l.
Proof.
  intros udigit uword codec hp p0 ps A B C. destruct (load udigit uword codec html_feed hp (p0 :: ps)) as [l|] eqn:E; [eauto|]. exfalso.
  apply (proj2 (load_iff udigit uword codec html_feed hp (p0 :: ps))); [|exact E]. split; [exact A|]. split; [exact B|]. intros p t line I M S P O. specialize (C p t line I M S P O).
  assert (G := feed_good line). destruct (html_feed line) as [l r]. destruct G as (_ & _ & G). destruct r; [destruct (C (G eq_refl))|reflexivity].
Qed.
Print Assumptions C218_loaded_partial.
Example C218_case : seen ($"Dear friend <![x[ buy viagra") = None /\ seen ($"Dear friend <![ buy viagra") = None /\ seen ($"Dear friend <![endif]> buy viagra") = Some ($"Dear friend buy viagra") /\
  bad_section ($"<![ buy viagra") /\ bad_section ($"<![x[ buy").
Proof.
  do 3 (split; [vm_compute; reflexivity|]). split.
  - apply (no_name 32%N ($"buy viagra")). unfold is_letter. lia.
  - apply (other_name ($"x") ($" buy")); [exists 120%N, []; split; [reflexivity|]; split; [unfold is_letter; lia|constructor]|]. intros I. apply mem_str_In in I. vm_compute in I. discriminate.
Qed.
