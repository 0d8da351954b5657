(** From the text of a message to its parts: theorems for C225 to C230. *)
From Coq Require Import Lia.
From Verif Require Import PyStr PyDict PyMime PyEmail Model_Headers Spec_Headers Model_Load Spec_Load Model_Message Spec_Message Proofs_Email Proofs_Split Proofs_Round Proofs_Message.

(** ** C225 *)
(** A composed mail is loaded as its parts: each with its fields, its kind, and, if it is a
    text, its charset and its bytes. *)
Theorem C225_parts : forall udigit uword codec feed header_parts decode repair m, proper_mail m ->
  load_text udigit uword codec feed header_parts decode repair (mail_text m) =
  load udigit uword codec feed header_parts
    (map (fun x => let h := fst x in
                   if streqb (main_of h) ($"text")
                   then mkPart (fields_of h) (main_of h) (sub_of h) (charset_of h) (get_payload repair (transfer_of h) (match snd x with Some t => t | None => [] end))
                   else mkPart (fields_of h) (main_of h) (sub_of h) None []) (contents m)).
Proof. exact mail_loaded. Qed.
Print Assumptions C225_parts.
(** If the texts are ASCII and not encoded, rawbody rules see just these texts, in order, and body
    rules the subjects and what there is to see of each text. *)
Theorem C225_texts : forall udigit uword codec feed header_parts decode repair m l, proper_mail m ->
  (forall h t, In (h, t) (texts_of m) ->
     ~ In (transfer_of h) [$"quoted-printable"; $"base64"] /\ Forall (fun c => (c < 128)%N) t /\
     ~ In 0%N (declared (charset_of h)) /\ forall strict, codec (declared (charset_of h)) strict t = Some t) ->
  load_text udigit uword codec feed header_parts decode repair (mail_text m) = Some l ->
  l_raw_text l = join [10%N] (map snd (texts_of m)) /\
  exists subjects shown,
    Forall2 (fun h t => decode_header codec header_parts h = Ok (Some t)) (values_of ($"Subject") (fields_of (head_of m))) subjects /\
    Forall2 (fun x t => rendered (streqb (sub_of (fst x)) ($"html")) feed (snd x) t) (texts_of m) shown /\
    l_text l = join ($" ") (subjects ++ shown).
Proof.
  intros udigit uword codec feed header_parts decode repair m l P W. apply mail_texts; [exact P|]. apply Forall_forall. intros [h t] K. exact (W h t K).
Qed.
Print Assumptions C225_texts.

(** A mail in examples *)
Definition case_top : head :=
  mkHead [mkField ($"Received") ($"from a.example") [9%N :: $"by b.example"]; mkField ($"Subject") ($"Greetings") []]
    (Some (mkType ($"multipart") ($"Mixed") [($"Boundary", $"=_b: 1")])) [mkField ($"X-Empty") [] []].
Definition case_text : head := mkHead [] (Some (mkType ($"text") ($"plain") [($"format", $"flowed"); ($"charset", $"US-ASCII")])) [mkField ($"Content-Transfer-Encoding") ($"7bit") []].
Definition case_mail : mail :=
  Several case_top [$"This is a message in MIME format."]
    [One case_text ($"Hello" ++ [10%N] ++ $"--=_b: 10" ++ [10%N]);
     Inside (mkHead [] (Some (mkType ($"message") ($"rfc822") [])) []) (One (mkHead [mkField ($"Subject") ($"Inner") []] None []) ($"World"));
     One (mkHead [] (Some (mkType ($"image") ($"png") [])) []) ($"ABCD");
     One (mkHead [] None []) ($"last")]
    ($"not seen").
Lemma starts_separates b row : separates b row -> startswith ($"--" ++ b) row = true.
Proof. intros (e & w & _ & _ & ->). rewrite app_assoc. apply startswith_app. eauto. Qed.
Ltac each := apply Forall_forall; let c := fresh in let K := fresh in intros c K; vm_compute in K; repeat (destruct K as [<-|K]; [first [lia|unfold token_char, boundary_char; first [right; right; right; vm_compute; tauto|lia]]|]); try destruct K.
Ltac absent := let K := fresh in intros K; vm_compute in K; repeat (destruct K as [K|K]; [discriminate|]); destruct K.
Ltac row := split; absent.
Ltac no_blank := intros [? [?|?]]; discriminate.
Ltac a_token := split; [discriminate|each].
Ltac a_type := split; [a_token|split; [a_token|repeat (apply Forall_cons; [split; [a_token|split; [row|split; [absent|split; [absent|each]]]]|]); apply Forall_nil]].
Ltac a_field := split; [a_token|split; [discriminate|split; [row|split; [no_blank|repeat (apply Forall_cons; [split; [row|eexists; first [left; reflexivity|right; reflexivity]]|]); apply Forall_nil]]]].
Ltac a_head := split; [repeat (apply Forall_cons; [a_field|]); apply Forall_nil|split; [repeat (apply Forall_cons; [a_field|]); apply Forall_nil|first [exact I|a_type]]].
Ltac not_kind := let K := fresh in intros [K|[K|[]]]; discriminate.
Ltac no_separator := let r := fresh in let K := fresh in let S := fresh in intros r K S; apply starts_separates in S; vm_compute in K; repeat (destruct K as [<-|K]; [vm_compute in S; discriminate S|]); destruct K.
Lemma separates_more b row : separates b row -> forallb (fun c => N.eqb c 32 || N.eqb c 9 || N.eqb c 45) (skipn (2 + length b) row) = true.
Proof.
  intros (e & w & E & W & ->). change ($"--" ++ b ++ e ++ w) with (45%N :: 45%N :: b ++ e ++ w). cbn [skipn Nat.add]. rewrite skipn_app, skipn_all, Nat.sub_diag. cbn [app]. change (skipn 0 (e ++ w)) with (e ++ w). rewrite forallb_app. apply andb_true_intro. split; [destruct E as [->| ->]; reflexivity|].
  apply forallb_forall. intros c K. rewrite Forall_forall in W. destruct (W c K) as [->| ->]; reflexivity.
Qed.
Ltac no_separator' := let r := fresh in let K := fresh in let S := fresh in let S' := fresh in intros r K S; assert (S' := starts_separates _ _ S); apply separates_more in S; vm_compute in K;
  repeat (destruct K as [<-|K]; [first [vm_compute in S'; discriminate S'|vm_compute in S; discriminate S]|]); destruct K.
Lemma case_proper : proper_mail case_mail.
Proof.
  unfold case_mail. cbn [proper_mail head_of]. split; [a_head|]. split; [reflexivity|]. split; [discriminate|].
  split; [split; [each|exists ($"=_b: "), 49%N; split; [reflexivity|discriminate]]|]. split; [discriminate|].
  split; [apply Forall_cons; [split; [row|intros S0; apply starts_separates in S0; vm_compute in S0; discriminate]|apply Forall_nil]|]. split; [|absent].
  split; [split; [a_head|split; [not_kind|absent]]|]. split; [no_separator'|].
  split; [split; [a_head|split; [reflexivity|split; [discriminate|split; [a_head|split; [not_kind|absent]]]]]|]. split; [no_separator'|].
  split; [split; [a_head|split; [not_kind|absent]]|]. split; [no_separator'|].
  split; [split; [a_head|split; [not_kind|absent]]|]. split; [no_separator'|exact I].
Qed.
Definition ascii_only (name : str) (strict : bool) (b : list N) : option str := if mem_str name [$"us-ascii"; $"ascii"] then Some (filter (fun x => N.ltb x 128) b) else None.
Definition no_tags (s : str) : list str * bool := ([s], false).
Definition as_is (h : str) : option (list hpart) := Some [HText h].
Definition no_charsets (name : str) (strict : bool) (b : list N) : option (option str) := Some None.
Definition case_load : str -> option loaded := load_text (fun _ => false) (fun _ => false) ascii_only no_tags as_is no_charsets (fun l => l).
Example C225_case : proper_mail case_mail /\ map snd (texts_of case_mail) = [$"Hello" ++ [10%N] ++ $"--=_b: 10" ++ [10%N]; $"World"; $"last"] /\
  exists l, case_load (mail_text case_mail) = Some l /\ l_text l = $"Greetings Hello --=_b: 10  World last" /\ length (lines (mail_text case_mail)) = 29.
Proof. split; [exact case_proper|]. split; [vm_compute; reflexivity|]. eexists. split; [vm_compute; reflexivity|]. split; vm_compute; reflexivity. Qed.

(** ** C226 *)
(** It makes no difference whether the rows of a message end with a line feed, with a carriage
    return, or with both. *)
Theorem C226_line_breaks : forall udigit uword codec feed header_parts decode repair ls, Forall one_row ls ->
  let load := load_text udigit uword codec feed header_parts decode repair in
  load (join [13; 10]%N ls) = load (join [10%N] ls) /\ load (join [13%N] ls) = load (join [10%N] ls).
Proof.
  intros udigit uword codec feed header_parts decode repair ls F load. unfold load, load_text. rewrite crlf_rows, cr_rows, lf_rows by exact F. split; reflexivity.
Qed.
Print Assumptions C226_line_breaks.
Example C226_case : exists l, case_load (join [13; 10]%N (rows (mail_text case_mail))) = Some l /\ l_text l = $"Greetings Hello --=_b: 10  World last".
Proof. eexists. split; vm_compute; reflexivity. Qed.

(** ** C227 *)
(** Every message is loaded that has no NUL and in which no row that could belong to a head has an
    asterisk, if header fields can be decoded and the HTML parser does not raise.  Missing: the
    others, see below. *)
Theorem C227_loaded_partial : forall udigit uword codec feed header_parts decode repair ls e, Forall one_row ls -> In e [[10]; [13]; [13; 10]]%N ->
  (forall row, In row ls -> head_row row -> ~ In 42%N row) -> (forall row, In row ls -> ~ In 0%N row) ->
  (forall h, exists t, decode_header codec header_parts h = Ok (Some t)) -> (forall x, snd (feed x) = false) ->
  load_text udigit uword codec feed header_parts decode repair (join e ls) <> None.
Proof.
  intros udigit uword codec feed header_parts decode repair ls e F E T N0 HD HF. apply loads; [| |exact HD|exact HF].
  - assert (TL : translate_line_breaks (join e ls) = join [10%N] ls) by (destruct E as [<-|[<-|[<-|[]]]]; [apply lf_rows|apply cr_rows|apply crlf_rows]; exact F).
    rewrite TL. destruct ls as [|x ls]; [intros row [<-|[]] _ []|]. unfold tame. rewrite rows_join by (try discriminate; exact F). exact T.
  - assert (NE : ~ In 0%N e) by (destruct E as [<-|[<-|[<-|[]]]]; absent). clear -N0 NE. induction ls as [|x ls IH]; [intros []|]. destruct ls as [|y ls]; [apply N0; left; reflexivity|].
    change (join e (x :: y :: ls)) with (x ++ e ++ join e (y :: ls)). intros K. apply in_app_or in K as [K|K]; [exact (N0 x (or_introl eq_refl) K)|]. apply in_app_or in K as [K|K]; [exact (NE K)|]. exact (IH (fun r R0 => N0 r (or_intror R0)) K).
Qed.
Print Assumptions C227_loaded_partial.
(** A message is not loaded, whatever the codecs are, if its charset is given once as a whole and
    once in sections: the [email] package raises. *)
Theorem C227_sections_refuted : forall udigit uword codec feed header_parts decode repair,
  load_text udigit uword codec feed header_parts decode repair
    ($"Content-Type: text/plain; charset*=us-ascii; charset*0=us-ascii" ++ [10; 10]%N ++ $"Buy now" ++ [10%N]) = None.
Proof. intros. vm_compute. reflexivity. Qed.
Print Assumptions C227_sections_refuted.
Theorem C227_boundary_refuted : forall udigit uword codec feed header_parts decode repair,
  load_text udigit uword codec feed header_parts decode repair
    ($"Content-Type: multipart/mixed; boundary*0=b; boundary*=b" ++ [10; 10]%N ++ $"--b" ++ [10; 10]%N ++ $"Buy now" ++ [10%N]) = None.
Proof. intros. vm_compute. reflexivity. Qed.
Print Assumptions C227_boundary_refuted.
Example C227_case : (forall row, In row (rows (mail_text case_mail)) -> head_row row -> ~ In 42%N row) /\ ~ head_row ($"* buy now") /\ case_load ($"To: x" ++ [10; 10]%N ++ $"* buy now") <> None.
Proof.
  split; [|split].
  - intros r K _. vm_compute in K. repeat (destruct K as [<-|K]; [absent|]). destruct K.
  - intros [[? [?|?]]|[[? ?]|(n & r & E & F)]]; try discriminate. destruct n as [|a [|b n]]; try discriminate. injection E as <- <- _. inversion F as [|? ? _ F']; subst. inversion F'; subst. lia.
  - vm_compute. discriminate.
Qed.

(** ** C228 *)
(** The texts of the parts are made of rows of the message, each taken once and in their order. *)
Theorem C228_rows : forall decode s m, message_from_string decode s = Some m ->
  from (flat_map (fun p => match p with Message _ _ (inl t) => filled_rows t | _ => [] end) (walk m)) (filled_rows s).
Proof.
  intros decode s m E. apply made_of in E as [E _]. replace (flat_map _ (walk m)) with (filter filled (flat_map rows (texts m))); [exact E|]. clear E. unfold texts. induction (walk m) as [|[d hs [t|l]] r IH]; [reflexivity| |exact IH].
  cbn [flat_map text_of]. rewrite flat_map_app, filter_app, IH. f_equal. cbn [flat_map]. rewrite app_nil_r. reflexivity.
Qed.
Print Assumptions C228_rows.
Example C228_case : exists m, message_from_string no_charsets (mail_text case_mail) = Some m /\
  flat_map (fun p => match p with Message _ _ (inl t) => filled_rows t | _ => [] end) (walk m) = [$"Hello"; $"--=_b: 10"; $"World"; $"ABCD"; $"last"] /\
  In ($"not seen") (filled_rows (mail_text case_mail)).
Proof. eexists. split; [vm_compute; reflexivity|]. split; [vm_compute; reflexivity|]. vm_compute. tauto. Qed.

(** ** C229 *)
(** A text is seen by no rule if the message says that it is a multipart and the text has no row
    that separates parts. *)
Theorem C229_refuted : forall udigit uword codec feed header_parts decode repair h t l,
  proper_head h -> main_of h = $"multipart" -> a_boundary (boundary h) -> ~ In 13%N t -> (forall row, In row (rows t) -> ~ separates (boundary h) row) ->
  load_text udigit uword codec feed header_parts decode repair (head_text h ++ t) = Some l ->
  l_raw_text l = [] /\ l_uris l = [] /\
  exists subjects, Forall2 (fun h t => decode_header codec header_parts h = Ok (Some t)) (values_of ($"Subject") (fields_of h)) subjects /\ l_text l = join ($" ") subjects.
Proof.
  intros udigit uword codec feed header_parts decode repair h t l PH PM PB N13 NS L. rewrite unseen in L by assumption. apply Proofs_Load.load_some in L as (subj & texts & A & B & C & D & E & _). cbn [filter] in B. inversion B; subst.
  cbn [map concat] in *. rewrite app_nil_r in C. split; [exact D|]. split; [rewrite E; reflexivity|]. exists subj. auto.
Qed.
Print Assumptions C229_refuted.
(** The same holds for all the text after a closing separator that comes before the first part. *)
Theorem C229_closed_refuted : forall udigit uword codec feed header_parts decode repair h pre t l,
  proper_head h -> main_of h = $"multipart" -> a_boundary (boundary h) ->
  Forall (fun r => one_row r /\ ~ separates (boundary h) r) pre -> ~ In 13%N t ->
  load_text udigit uword codec feed header_parts decode repair
    (head_text h ++ flat_map (fun r => r ++ [10%N]) pre ++ $"--" ++ boundary h ++ $"--" ++ [10%N] ++ t) = Some l ->
  l_raw_text l = [] /\ l_uris l = [] /\
  exists subjects, Forall2 (fun h t => decode_header codec header_parts h = Ok (Some t)) (values_of ($"Subject") (fields_of h)) subjects /\ l_text l = join ($" ") subjects.
Proof.
  intros udigit uword codec feed header_parts decode repair h pre t l PH PM PB FP N13 L. rewrite unseen_closed in L by assumption. apply Proofs_Load.load_some in L as (subj & texts & A & B & C & D & E & _). cbn [filter] in B. inversion B; subst.
  cbn [map concat] in *. rewrite app_nil_r in C. split; [exact D|]. split; [rewrite E; reflexivity|]. exists subj. auto.
Qed.
Print Assumptions C229_closed_refuted.
Example C229_closed_case :
  exists l, case_load (head_text case_top ++ flat_map (fun r => r ++ [10%N]) [$"Hi"] ++ $"--" ++ boundary case_top ++ $"--" ++ [10%N] ++
      $"--" ++ boundary case_top ++ [10; 10]%N ++ $"Buy now at http://a.example/" ++ [10%N]) = Some l /\ l_text l = $"Greetings" /\ l_raw_text l = [].
Proof. eexists. split; [vm_compute; reflexivity|]. split; vm_compute; reflexivity. Qed.
Example C229_case :
  exists l, case_load (head_text case_top ++ $"Buy now at http://a.example/" ++ [10%N]) = Some l /\ l_text l = $"Greetings" /\ l_raw_text l = [] /\ l_uris l = [].
Proof. eexists. split; [vm_compute; reflexivity|]. repeat split; vm_compute; reflexivity. Qed.

(** ** C230 *)
(** The flag for missing MIME headers is set if and only if the mail or one of its parts has no
    field. *)
Theorem C230_flag : forall decode m, proper_mail m ->
  exists t, message_from_string decode (mail_text m) = Some t /\ (missing_boundary_header t = true <-> exists x, In x (contents m) /\ all_fields (fst x) = []).
Proof. exact flag_mail. Qed.
Print Assumptions C230_flag.
Example C230_case : option_map missing_boundary_header (message_from_string no_charsets (mail_text case_mail)) = Some true /\ In (mkHead [] None [], Some ($"last")) (contents case_mail) /\
  option_map missing_boundary_header (message_from_string no_charsets (mail_text (One case_text ($"x")))) = Some false.
Proof. split; [vm_compute; reflexivity|]. split; [cbn; tauto|vm_compute; reflexivity]. Qed.
