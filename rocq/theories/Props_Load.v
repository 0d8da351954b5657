(** What rules get to see of a message: theorems for C207 to C213. *)
From Verif Require Import PyStr PyDict PyMime PyUtf8 Model_Headers Spec_Headers Proofs_Headers Model_Scripts Model_Load Spec_Load Proofs_Load Proofs_Mime.

(** ** C207 *)
(** Every address that uri rules see stands in a text part as a whole. *)
Theorem C207_found : forall udigit uword codec feed header_parts ps l u,
  load udigit uword codec feed header_parts ps = Some l -> In u (l_uris l) ->
  exists p text before after, In p ps /\ p_main p = $"text" /\ payload codec p = Ok text /\
    text = before ++ u ++ after /\ address_at uword before u after.
Proof. exact load_uris. Qed.
Print Assumptions C207_found.
(** Every address in a text part is seen, at least as the end of a longer address. *)
Theorem C207_all : forall udigit uword codec feed header_parts ps l p text before u after,
  load udigit uword codec feed header_parts ps = Some l -> In p ps -> p_main p = $"text" -> payload codec p = Ok text ->
  text = before ++ u ++ after -> address_at uword before u after ->
  exists b x, before = b ++ x /\ In (x ++ u) (l_uris l).
Proof. exact load_all_uris. Qed.
Print Assumptions C207_all.
(** An address at the beginning of the text or after a blank, a bracket or a quote is seen as
    it is.  Missing: the protocol or the beginning of the host in capitals; addresses with
    characters from 127 to 255. *)
Theorem C207_own_partial : forall udigit uword codec feed header_parts ps l p text before u after,
  load udigit uword codec feed header_parts ps = Some l -> In p ps -> p_main p = $"text" -> payload codec p = Ok text ->
  text = before ++ u ++ after -> address_at uword before u after -> (forall b c, before = b ++ [c] -> ends_address c) ->
  In u (l_uris l).
Proof. exact load_own_uris. Qed.
Print Assumptions C207_own_partial.
(** Each address is there once. *)
Theorem C207_once : forall udigit uword codec feed header_parts ps l,
  load udigit uword codec feed header_parts ps = Some l -> NoDup (l_uris l).
Proof. intros udigit uword codec feed header_parts ps l H. apply load_some in H as (subj & texts & _ & _ & _ & _ & -> & _). apply NoDup_nodup. Qed.
Print Assumptions C207_once.
(** Addresses in capitals are not seen, and others are cut at an accented letter. *)
Theorem C207_capitals_refuted : forall udigit uword codec feed header_parts bytes,
  let p := mkPart [] ($"text") ($"plain") (Some ($"utf-8")) bytes in
  codec ($"utf-8") false bytes = Some ($"see HTTP://EXAMPLE.COM/ or WWW.EXAMPLE.COM now") ->
  exists l, load udigit uword codec feed header_parts [p] = Some l /\ l_uris l = [].
Proof.
  intros udigit uword codec feed header_parts bytes p H. destruct (load_one udigit uword codec feed header_parts bytes _ H) as (l & L & E).
  exists l. split; [exact L|]. rewrite E. vm_compute. reflexivity.
Qed.
Print Assumptions C207_capitals_refuted.
Theorem C207_accent_refuted : forall udigit uword codec feed header_parts bytes,
  let p := mkPart [] ($"text") ($"plain") (Some ($"utf-8")) bytes in
  codec ($"utf-8") false bytes = Some ($"http://caf" ++ [233%N] ++ $".example.com/") ->
  exists l, load udigit uword codec feed header_parts [p] = Some l /\ In ($"http://caf") (l_uris l) /\
    ~ In ($"http://caf" ++ [233%N] ++ $".example.com/") (l_uris l).
Proof.
  intros udigit uword codec feed header_parts bytes p H. destruct (load_one udigit uword codec feed header_parts bytes _ H) as (l & L & _).
  exists l. split; [exact L|]. assert (P := payload_utf8 codec [] ($"text") ($"plain") bytes _ H). split.
  - apply (load_own_uris udigit uword codec feed header_parts [p] l p _ [] ($"http://caf") ([233%N] ++ $".example.com/") L (or_introl eq_refl) eq_refl P eq_refl).
    + repeat split.
      * apply (with_protocol ($"http://") ($"caf")); [left; reflexivity|vm_compute; discriminate].
      * match goal with |- Forall _ ?l => let v := eval vm_compute in l in change l with v end.
        repeat (apply Forall_cons; [unfold ends_address; intros [X|[X|X]]; [vm_compute in X; discriminate|repeat (destruct X as [X|X]; [discriminate|]); destruct X|lia]|]).
        constructor.
      * intros b c E. destruct b; discriminate.
      * right. right. lia.
    + intros b c E. destruct b; discriminate.
  - intros I. destruct (load_uris udigit uword codec feed header_parts [p] l _ L I) as (_ & _ & _ & _ & _ & _ & _ & _ & _ & F & _).
    apply Forall_app in F as [_ F]. inversion F as [|? ? X _]. apply X. right. right. lia.
Qed.
Print Assumptions C207_accent_refuted.

(** A message in examples: UTF-8 and ASCII are known; there is no HTML parser. *)
Definition no_unicode (c : char) : bool := false.
Definition two_codecs (name : str) (strict : bool) (b : list N) : option str :=
  if streqb name ($"utf-8") then (if strict then decode b else Some (decode_ignore b))
  else if streqb name ($"ascii") then Some (filter (fun x => N.ltb x 128) b)
  else None.
Definition cut_at_tags (s : str) : list str * bool := (split_char 124%N (replace ($"<b>") ($"|") s), false).
Definition plain_words (h : str) : option (list hpart) := Some [HText h].
Definition example_parts : list part :=
  [mkPart [($"Subject", $"Win a prize"); ($"Content-Type", $"multipart/mixed")] ($"multipart") ($"mixed") None [];
   mkPart [($"Content-Type", $"text/plain")] ($"text") ($"plain") (Some ($"utf-8")) ($"go to http://a.example/x now" ++ [10%N] ++ $"or <www.b.example>");
   mkPart [($"content-type", $"text/html")] ($"text") ($"html") None ($"one<b> two<b>  <b>three");
   mkPart [($"Content-Type", $"image/png")] ($"image") ($"png") None [137; 80; 78; 71]%N].
Definition example_loaded : option loaded := load no_unicode no_unicode two_codecs cut_at_tags plain_words example_parts.
Example C207_case : exists l, example_loaded = Some l /\ l_uris l = [$"http://a.example/x"; $"www.b.example"] /\
  address_at no_unicode ($"go to ") ($"http://a.example/x") ($" now").
Proof.
  eexists. split; [vm_compute; reflexivity|]. split; [vm_compute; reflexivity|]. repeat split.
  - apply (with_protocol ($"http://") ($"a.example/x")); [left; reflexivity|vm_compute; discriminate].
  - match goal with |- Forall _ ?l => let v := eval vm_compute in l in change l with v end.
    repeat (apply Forall_cons; [unfold ends_address; intros [H|[H|H]]; [vm_compute in H; discriminate|repeat (destruct H as [H|H]; [discriminate|]); destruct H|lia]|]).
    constructor.
  - intros b c E. destruct (app_inj_tail ($"go to") b 32%N c E) as [_ <-]. unfold word_char, no_unicode. intros [H|[H|[H|[H|[_ H]]]]]; try lia; discriminate.
  - left. reflexivity.
Qed.

(** ** C208 *)
(** The text for body rules is made of the decoded subjects and of what there is to see of each
    text part, in the order of the message, with a blank between two of them; the text for
    rawbody rules of the decoded text parts as they are, each on lines of its own. *)
Theorem C208_texts : forall udigit uword codec feed header_parts p0 ps l,
  load udigit uword codec feed header_parts (p0 :: ps) = Some l ->
  exists subjects texts,
    Forall2 (fun h t => decode_header codec header_parts h = Ok (Some t)) (values_of ($"Subject") (p_headers p0)) subjects /\
    Forall2 (fun p t => payload codec p = Ok (snd t) /\ rendered (streqb (p_sub p) ($"html")) feed (snd t) (fst t))
      (filter (fun p => streqb (p_main p) ($"text")) (p0 :: ps)) texts /\
    l_text l = join ($" ") (subjects ++ map fst texts) /\ l_raw_text l = join [10%N] (map snd texts).
Proof.
  intros udigit uword codec feed header_parts p0 ps l H. apply load_some in H as (subj & texts & A & B & C & D & _). exists subj, texts. auto.
Qed.
Print Assumptions C208_texts.
Example C208_case : exists l, example_loaded = Some l /\
  l_text l = $"Win a prize go to http://a.example/x now or <www.b.example> one two three" /\
  l_raw_text l = $"go to http://a.example/x now" ++ [10%N] ++ $"or <www.b.example>" ++ [10%N] ++ $"one<b> two<b>  <b>three".
Proof. eexists. split; [vm_compute; reflexivity|]. split; vm_compute; reflexivity. Qed.

(** ** C209 *)
(** A message is loaded if and only if its subjects can be decoded, no text part declares a
    charset with a NUL in its name, and the HTML parser takes its HTML parts. *)
Theorem C209_loaded_partial : forall udigit uword codec feed header_parts p0 ps,
  load udigit uword codec feed header_parts (p0 :: ps) <> None <->
  (forall h, In h (values_of ($"Subject") (p_headers p0)) -> exists t, decode_header codec header_parts h = Ok (Some t)) /\
  (forall p, In p (p0 :: ps) -> p_main p = $"text" -> ~ In 0%N (declared (p_charset p))) /\
  (forall p t line, In p (p0 :: ps) -> p_main p = $"text" -> p_sub p = $"html" -> payload codec p = Ok t -> one_line t line ->
     snd (feed line) = false).
Proof. intros. apply (load_iff udigit uword codec feed header_parts (p0 :: ps)). Qed.
Print Assumptions C209_loaded_partial.
(** The text of a part: what its charset makes of its bytes, leaving out what cannot be decoded;
    without a charset, or with one that is not known, its ASCII characters. *)
Theorem C209_text : forall codec p t, payload codec p = Ok t -> exists strict, (strict = true <-> quoted_printable (declared (p_charset p))) /\
  match codec (declared (p_charset p)) strict (p_bytes p) with
  | Some s => t = s
  | None => t = filter (fun b => N.ltb b 128) (p_bytes p)
  end.
Proof. exact payload_is. Qed.
Print Assumptions C209_text.
(** A message with a NUL in the name of a charset is not loaded, whatever codecs there are. *)
Theorem C209_charset_refuted : forall udigit uword codec feed header_parts headers sub bytes,
  load udigit uword codec feed header_parts [mkPart headers ($"text") sub (Some ($"utf-8" ++ [0%N])) bytes] = None.
Proof.
  intros. destruct (load _ _ _ _ _ _) as [l|] eqn:E; [|reflexivity]. exfalso.
  assert (H : load udigit uword codec feed header_parts [mkPart headers ($"text") sub (Some ($"utf-8" ++ [0%N])) bytes] <> None) by congruence.
  apply load_iff in H as (_ & H & _). apply (H _ (or_introl eq_refl) eq_refl). cbn [p_charset declared]. vm_compute. tauto.
Qed.
Print Assumptions C209_charset_refuted.
Example C209_case : example_loaded <> None /\
  payload two_codecs (mkPart [] ($"text") ($"plain") (Some ($"x-unknown")) [104; 195; 105]%N) = Ok ($"hi") /\
  payload two_codecs (mkPart [] ($"text") ($"plain") (Some ($"utf-8")) [104; 195; 169; 195; 105]%N) = Ok [104; 233; 105]%N.
Proof. split; [vm_compute; discriminate|]. split; vm_compute; reflexivity. Qed.

(** ** C210 *)
(** Text that is not encoded for transfer is seen as it is written if it is ASCII, in every
    charset that has ASCII.  Missing: other characters. *)
Theorem C210_ascii_partial : forall codec repair headers sub cte charset text,
  cte <> $"quoted-printable" -> cte <> $"base64" -> ~ In 0%N (declared charset) ->
  Forall (fun c => (c < 128)%N) text -> (forall strict, codec (declared charset) strict text = Some text) ->
  payload codec (mkPart headers ($"text") sub charset (get_payload repair cte text)) = Ok text.
Proof.
  intros codec repair headers sub cte charset text N1 N2 N0 A C.
  rewrite (get_plain repair cte text N1 N2). rewrite raw_low by (eapply Forall_impl; [|exact A]; cbv beta; lia).
  destruct (proj2 (payload_ok codec (mkPart headers ($"text") sub charset text)) N0) as [t E]. rewrite E.
  destruct (payload_is codec _ _ E) as (strict & _ & K). cbn [p_charset p_bytes] in K. rewrite C in K. congruence.
Qed.
Print Assumptions C210_ascii_partial.
(** So is ISO-8859-1. *)
Theorem C210_latin_partial : forall codec repair headers sub cte text,
  cte <> $"quoted-printable" -> cte <> $"base64" -> Forall (fun c => (c < 256)%N) text ->
  (forall bytes strict, codec ($"iso-8859-1") strict bytes = Some bytes) ->
  payload codec (mkPart headers ($"text") sub (Some ($"iso-8859-1")) (get_payload repair cte text)) = Ok text.
Proof.
  intros codec repair headers sub cte text N1 N2 A C.
  rewrite (get_plain repair cte text N1 N2). rewrite raw_low by exact A.
  destruct (proj2 (payload_ok codec (mkPart headers ($"text") sub (Some ($"iso-8859-1")) text))) as [t E].
  { cbn [p_charset declared]. match goal with |- ~ In _ ?l => let v := eval vm_compute in l in change l with v end. intros H. repeat (destruct H as [H|H]; [discriminate|]). destruct H. }
  rewrite E. destruct (payload_is codec _ _ E) as (strict & _ & K). cbn [p_charset p_bytes declared] in K. rewrite C in K. congruence.
Qed.
Print Assumptions C210_latin_partial.
(** In UTF-8, a character from 256 on is seen as the six or ten characters of an escape. *)
Theorem C210_escapes : forall codec repair headers sub cte text,
  cte <> $"quoted-printable" -> cte <> $"base64" ->
  Forall (fun c => (c < 1114112)%N) text -> Forall (fun c => (c < 128 \/ 256 <= c)%N) text ->
  (forall bytes, codec ($"utf-8") false bytes = Some (decode_ignore bytes)) ->
  exists words, payload codec (mkPart headers ($"text") sub (Some ($"utf-8")) (get_payload repair cte text)) = Ok (concat words) /\
    Forall2 (fun c w => (c < 128)%N /\ w = [c] \/ (256 <= c)%N /\ escape_of c w) text words.
Proof.
  intros codec repair headers sub cte text N1 N2 A B C.
  destruct (raw_words text A) as (ws & E & F). exists ws. rewrite (get_plain repair cte text N1 N2), E.
  assert (W := words_ascii _ _ F B). split.
  - apply payload_utf8. rewrite C, (ignore_ascii _ W). reflexivity.
  - clear - F B. induction F as [|c w s ws H F IH]; [constructor|]. inversion_clear B as [|? ? Hc B']. constructor; [|exact (IH B')].
    destruct H as [[L ->]|H]; [|right; exact H]. left. split; [lia|reflexivity].
Qed.
Print Assumptions C210_escapes.
(** The Cyrillic word and the letter with an accent are not seen. *)
Theorem C210_utf8_refuted : forall codec repair headers sub,
  (forall bytes, codec ($"utf-8") false bytes = Some (decode_ignore bytes)) ->
  payload codec (mkPart headers ($"text") sub (Some ($"utf-8")) (get_payload repair ($"8bit") [1076; 1072]%N)) = Ok ($"\u0434\u0430") /\
  payload codec (mkPart headers ($"text") sub (Some ($"utf-8")) (get_payload repair ($"8bit") ($"caf" ++ [233%N]))) = Ok ($"caf").
Proof.
  intros codec repair headers sub C. split; apply payload_utf8; rewrite C; vm_compute; reflexivity.
Qed.
Print Assumptions C210_utf8_refuted.
Example C210_case : payload two_codecs (mkPart [] ($"text") ($"plain") (Some ($"utf-8")) (get_payload (fun l => l) ($"7bit") ($"Hello there"))) = Ok ($"Hello there") /\
  payload two_codecs (mkPart [] ($"text") ($"plain") (Some ($"utf-8")) (get_payload (fun l => l) ($"8bit") ($"a " ++ [128512%N]))) = Ok ($"a \U0001f600") /\
  escape_of 128512 ($"\U0001f600").
Proof.
  split; [vm_compute; reflexivity|]. split; [vm_compute; reflexivity|].
  exists 85%N, ($"0001f600"). split; [vm_compute; reflexivity|]. split; [right; split; reflexivity|]. split; [|vm_compute; reflexivity].
  match goal with |- Forall _ ?l => let v := eval vm_compute in l in change l with v end. unfold hexdigit. repeat (apply Forall_cons; [lia|]). constructor.
Qed.

(** ** C211 *)
(** A header is seen as its words in order, each decoded from its own charset; words in a
    charset that is not known are left out.  Missing: a NUL in the name of a charset. *)
Theorem C211_words_partial : forall codec header_parts h words texts, header_parts h = Some words ->
  Forall2 (fun w t => match w with
                      | HText s => t = s
                      | HBytes b None => t = decode_ignore b
                      | HBytes b (Some c) =>
                          ~ In 0%N c /\
                          (c = [] /\ t = decode_ignore b \/
                           c <> [] /\ (codec c false b = Some t \/ codec c false b = None /\ t = []))
                      end) words texts ->
  decode_header codec header_parts h = Ok (Some (concat texts)).
Proof.
  intros codec header_parts h words texts E F. rewrite (decode_header_is codec header_parts h words E).
  - f_equal. f_equal. clear E. induction F as [|w t ws ts H F IH]; [reflexivity|]. cbn [flat_map concat]. rewrite concat_app, IH. f_equal.
    destruct w as [s|b [[|c n]|]]; cbn [part_text].
    + subst. cbn. apply app_nil_r.
    + destruct H as [_ [[_ ->]|[H _]]]; [cbn [concat]; apply app_nil_r|congruence].
    + destruct H as [_ [[H _]|[_ [->|[-> ->]]]]]; [congruence| |reflexivity]. cbn [concat]. apply app_nil_r.
    + subst. cbn [concat]. apply app_nil_r.
  - clear E. induction F as [|w t ws ts H F IH]; constructor; [|exact IH]. destruct w as [s|b [c|]]; cbn [part_name]; [intros []|exact (proj1 H)|intros []].
Qed.
Print Assumptions C211_words_partial.
(** One word with a NUL in the name of its charset makes decoding raise, and as the subject
    makes the message impossible to load. *)
Theorem C211_charset_refuted : forall udigit uword codec feed header_parts h words b c,
  header_parts h = Some words -> In (HBytes b (Some c)) words -> In 0%N c ->
  decode_header codec header_parts h = Unexpected /\
  (forall main sub charset bytes, load udigit uword codec feed header_parts [mkPart [($"Subject", h)] main sub charset bytes] = None).
Proof.
  intros udigit uword codec feed header_parts h words b c E I Z.
  assert (D : decode_header codec header_parts h = Unexpected).
  { unfold decode_header. rewrite E, (decode_parts_bad codec words); [reflexivity|]. apply Exists_exists. exists (HBytes b (Some c)). auto. }
  split; [exact D|]. intros. unfold load. cbn [p_headers]. rewrite h_get_raw. cbn [subjects]. change (values_of ($"Subject") [($"Subject", h)]) with [h].
  cbn [subjects]. rewrite D. reflexivity.
Qed.
Print Assumptions C211_charset_refuted.
(** A header that cannot be split into words has no value; as the subject, it makes the message
    impossible to load. *)
Theorem C211_unsplit : forall codec header_parts h,
  decode_header codec header_parts h = Ok None <-> header_parts h = None.
Proof.
  intros codec header_parts h. unfold decode_header. destruct (header_parts h) as [ws|]; [|split; reflexivity]. destruct (decode_parts codec ws); split; discriminate.
Qed.
Print Assumptions C211_unsplit.
Theorem C211_subject_refuted : forall udigit uword codec feed header_parts h, header_parts h = None ->
  forall main sub charset bytes, load udigit uword codec feed header_parts [mkPart [($"Subject", h)] main sub charset bytes] = None.
Proof.
  intros udigit uword codec feed header_parts h E main sub charset bytes. unfold load. cbn [p_headers]. rewrite h_get_raw. change (values_of ($"Subject") [($"Subject", h)]) with [h].
  cbn [subjects]. unfold decode_header. rewrite E. reflexivity.
Qed.
Print Assumptions C211_subject_refuted.
Example C211_case : decode_header two_codecs (fun _ => Some [HText ($"Re: "); HBytes [195; 169]%N (Some ($"utf-8")); HBytes [1; 2]%N (Some ($"x-no")); HBytes [33]%N None]) ($"h")
  = Ok (Some ($"Re: " ++ [233; 33]%N)).
Proof. vm_compute. reflexivity. Qed.

(** ** C212 *)
(** A rule on a MIME header looks at all fields of that name, in small letters or capitals, of
    the message and of each part, in their order. *)
Theorem C212_values : forall udigit uword codec feed header_parts ps l name,
  load udigit uword codec feed header_parts ps = Some l ->
  get_raw_mime_header name l = concat (map (fun p => values_of name (p_headers p)) ps).
Proof. exact mime_values. Qed.
Print Assumptions C212_values.
(** The decoded values are those of the fields, in the same order; there are none at all if one of
    them cannot be decoded. *)
Theorem C212_decoded : forall codec header_parts l name vs,
  get_decoded_mime_header codec header_parts name l = Some vs <-> Forall2 (fun h v => decode_header codec header_parts h = Ok v) (get_raw_mime_header name l) vs.
Proof.
  intros codec header_parts l name. unfold get_decoded_mime_header. generalize (get_raw_mime_header name l) as hs. induction hs as [|h hs IH]; intros vs; cbn [decoded_values].
  - split; [intros [= <-]; constructor|]. intros H. inversion H. reflexivity.
  - split.
    + intros H. destruct (decode_header codec header_parts h) as [v| |] eqn:D; try discriminate. destruct (decoded_values codec header_parts hs) as [ws|]; [|discriminate]. injection H as <-. constructor; [exact D|]. apply IH. reflexivity.
    + intros H. inversion H as [|? v ? ws D K]; subst. rewrite D. apply IH in K. rewrite K. reflexivity.
Qed.
Print Assumptions C212_decoded.
Example C212_case : exists l, example_loaded = Some l /\
  get_raw_mime_header ($"CONTENT-TYPE") l = [$"multipart/mixed"; $"text/plain"; $"text/html"; $"image/png"] /\
  get_decoded_mime_header two_codecs plain_words ($"Content-Type") l = Some (map Some [$"multipart/mixed"; $"text/plain"; $"text/html"; $"image/png"]).
Proof. eexists. split; [vm_compute; reflexivity|]. split; vm_compute; reflexivity. Qed.

(** ** C213 *)
(** Every text in UTF-8 is seen as it was written when the part is in quoted-printable or in
    base64, however the sender has written and broken it. *)
Theorem C213_quoted_printable : forall codec repair headers sub text bytes body,
  (forall bytes, codec ($"utf-8") false bytes = Some (decode_ignore bytes)) ->
  encode text = Some bytes -> in_quoted_printable bytes body ->
  payload codec (mkPart headers ($"text") sub (Some ($"utf-8")) (get_payload repair ($"quoted-printable") body)) = Ok text.
Proof.
  intros codec repair headers sub text bytes body C E Q. rewrite (get_qp repair _ _ Q).
  apply payload_utf8. rewrite C, (ignore_encoded _ _ E). reflexivity.
Qed.
Print Assumptions C213_quoted_printable.
Theorem C213_base64 : forall codec repair headers sub text bytes body,
  (forall bytes, codec ($"utf-8") false bytes = Some (decode_ignore bytes)) ->
  encode text = Some bytes -> in_base64 bytes body ->
  payload codec (mkPart headers ($"text") sub (Some ($"utf-8")) (get_payload repair ($"base64") body)) = Ok text.
Proof.
  intros codec repair headers sub text bytes body C E Q. rewrite (get_b64 repair _ _ (text_bytes _ _ E) Q).
  apply payload_utf8. rewrite C, (ignore_encoded _ _ E). reflexivity.
Qed.
Print Assumptions C213_base64.
Example C213_case : encode [100; 233; 33]%N = Some [100; 195; 169; 33]%N /\
  in_quoted_printable [100; 195; 169; 33]%N ($"d=C3=" ++ [10%N] ++ $"=a9!") /\
  in_base64 [100; 195; 169; 33]%N ($"ZMO" ++ [10%N] ++ $"pIQ==") /\ in_base64 [100; 195; 169; 33]%N ($"ZMO" ++ [10%N] ++ $"pIQ").
Proof.
  split; [vm_compute; reflexivity|]. split; [|split; [exists []|exists [61; 61]%N]; (split; [repeat constructor|vm_compute; reflexivity])].
  match goal with |- in_quoted_printable _ ?l => let v := eval vm_compute in l in change l with v end.
  apply qp_plain; [lia|lia|]. apply (qp_hex 12 3); [unfold hex_of; lia|unfold hex_of; lia|]. apply qp_soft.
  apply (qp_hex 10 9); [unfold hex_of; lia|unfold hex_of; lia|]. apply qp_plain; [lia|lia|]. constructor.
Qed.
