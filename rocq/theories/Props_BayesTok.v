(** The tokens of the Bayes filter: theorems for C118 to C124.  In each statement
    [i], [rc], [ct] are the treatments of message ids, Received and Content-Type headers,
    [fa] the group of the address pattern in a line, [ign] the ignored headers; all are
    arbitrary. *)
From Coq Require Import Permutation Lia.
From Verif Require Import PyStr PyDict Model_BayesTok Spec_BayesTok Proofs_BayesTok.
Open Scope nat_scope.
Definition same (s : str) : str := s.
Definition no_addr (s : str) : option str := None.
Definition tok := tokenise same same same no_addr [].

(** ** C118: the tokeniser ends *)
(** The loop over domain names never ends once it is entered: the tokeniser ends exactly
    if no word of the body has the form of a one-letter name before a dot. *)
Theorem C118_ends_partial : forall i rc ct fa ign order body inviz uris hdrs,
  (exists fuel, tokenise i rc ct fa ign fuel order body inviz uris hdrs <> Runs) <-> ~ some_word dotted (body ++ inviz ++ uris).
Proof.
  intros i rc ct fa ign order body inviz uris hdrs. split.
  - intros (fuel & H) K. apply H. apply tokenise_runs, K.
  - intros H. exists 0. intros K. apply H. apply tokenise_runs in K. exact K.
Qed.
Print Assumptions C118_ends_partial.
Theorem C118_ends_refuted : forall i rc ct fa ign fuel hdrs order, tokenise i rc ct fa ign fuel order [$"Bring a pen, e.g. a red one"] [] [] hdrs = Runs.
Proof.
  intros. apply tokenise_runs. exists ($"Bring a pen, e.g. a red one"), ($"e.g."). split; [left; reflexivity|]. split; [vm_compute; tauto|].
  exists ($"e.g"), 101%N, 103%N, []. split; [|split; reflexivity].
  exists [], ($"."). split; [reflexivity|]. split; [constructor|]. split; [constructor; [vm_compute; tauto | constructor]|]. split.
  - intros c r E. change ($"e.g") with [101%N; 46%N; 103%N] in E. injection E as <- _. intros K. vm_compute in K. repeat (destruct K as [K | K]; [discriminate K|]). exact K.
  - intros c r E. change ($"e.g") with ([101%N; 46%N] ++ [103%N]) in E. apply app_inj_tail in E as [_ <-]. intros K. vm_compute in K. repeat (destruct K as [K | K]; [discriminate K|]). exact K.
Qed.
Print Assumptions C118_ends_refuted.
Example C118_example : tok 9 [] [$"Meet at www.example.com"] [] [] [] <> Runs.
Proof. vm_compute. discriminate. Qed.

(** ** C119: no text makes it fail *)
(** It fails exactly on words such as "a@b" (when it ends at all). *)
Theorem C119_fails_partial : forall i rc ct fa ign fuel order body inviz uris hdrs,
  tokenise i rc ct fa ign fuel order body inviz uris hdrs = Raises <->
  ~ some_word dotted (body ++ inviz ++ uris) /\ some_word one_letter_address (body ++ inviz ++ uris).
Proof. exact tokenise_raises. Qed.
Print Assumptions C119_fails_partial.
Theorem C119_fails_refuted : exists line, tok 9 [] [line] [] [] [] = Raises.
Proof. exists ($"mail x@example.org today"). reflexivity. Qed.
Print Assumptions C119_fails_refuted.
Example C119_example : exists l, tok 9 [] [$"mail joe@example.org today"] [] [] [] = Tokens l.
Proof. eexists. vm_compute. reflexivity. Qed.

(** ** C120: which tokens a message has *)
Theorem C120_tokens : forall i rc ct fa ign fuel order body inviz uris hdrs l, tokenise i rc ct fa ign fuel order body inviz uris hdrs = Tokens l ->
  NoDup l /\ forall s, In s l <-> s <> [] /\ exists r p line w t,
    line_of body inviz uris (parse_headers i rc ct fa ign order hdrs) r p line /\ In w (line_words line) /\ used w t /\ derived r p t s.
Proof. exact tokenise_tokens. Qed.
Print Assumptions C120_tokens.
(** The words of an ordinary line are its words between blanks. *)
Theorem C120_ordinary_words : forall line, ordinary line -> line_words line = words line.
Proof. exact ordinary_words. Qed.
Print Assumptions C120_ordinary_words.
(** A character in UTF-8 stays together, apart from what is around it. *)
Theorem C120_utf8_words : forall b, utf8_bytes b -> line_words b = [b].
Proof. exact utf8_word. Qed.
Print Assumptions C120_utf8_words.
Example C120_utf8_case : utf8_bytes [226; 130; 172]%N /\ line_words ($"ab" ++ [226; 130; 172]%N ++ $"c" ++ [195; 128; 195]%N) = [$"ab"; [226; 130; 172]%N; $"c"; [195; 128]%N; [195]%N].
Proof.
  split; [|vm_compute; reflexivity]. exists 226%N, [130; 172]%N. split; [reflexivity|]. split; [repeat constructor; discriminate|]. right. left. split; [split; discriminate|reflexivity].
Qed.
(** So a word of 3 to 15 letters that is not a stop word is a token. *)
Theorem C120_word_is_token : forall i rc ct fa ign fuel order body inviz uris hdrs l line w,
  tokenise i rc ct fa ign fuel order body inviz uris hdrs = Tokens l -> In line body -> ordinary line -> In w (words line) ->
  Forall (fun c => letter c = true) w -> 3 <= length w <= 15 -> ~ In w unused_words -> In w l /\ In (map latin_small w) l.
Proof.
  intros i rc ct fa ign fuel order body inviz uris hdrs l line w T Hl O Hw F L S.
  destruct (C120_tokens _ _ _ _ _ _ _ _ _ _ _ _ T) as [_ H]. destruct (whole_kept Body [] w F L S) as [U D]; [discriminate|]. rewrite <- (ordinary_words line O) in Hw.
  split; apply H.
  - split; [intros ->; cbn in L; lia|]. exists Body, [], line, w, w. split; [constructor; exact Hl|]. split; [exact Hw|]. split; [exact U | exact D].
  - split; [intros E; destruct w; [cbn in L; lia | discriminate E]|]. exists Body, [], line, w, w. split; [constructor; exact Hl|]. split; [exact Hw|]. split; [exact U|].
    apply (Dlower Body [] w w); [|discriminate]. constructor; [left; intros [K _]; lia | intros [[K _] _]; lia].
Qed.
Print Assumptions C120_word_is_token.
(** Which headers are read *)
Theorem C120_which_headers : forall hdrs n, In n (header_names hdrs) <-> (exists e, In e hdrs /\ lower (fst e) = n) /\ ~ In n left_out_fields.
Proof. exact header_names_In. Qed.
Print Assumptions C120_which_headers.
(** What is read of a header, unless it is ignored: its values one after the other, of
    Received the last two; each without the blanks at the end and treated as its kind is. *)
Theorem C120_header_values : forall i rc ct fa ign order hdrs n, address_group fa -> NoDup order -> (forall m, In m order -> lower m = m) ->
  In n order -> compress n = n -> ~ In n ign ->
  exists vals us, values_used hdrs n vals /\ Forall2 (fun v u => shown i rc ct n (rstrip_p is_space v) u) vals us /\
    dget n (parse_headers i rc ct fa ign order hdrs) = match vals with [] => None | _ => Some (join ($" ") us) end.
Proof. intros. apply header_read; assumption. Qed.
Print Assumptions C120_header_values.
Theorem C120_ignored_headers : forall i rc ct fa ign order hdrs n, (forall m, In m order -> lower m = m) -> compress n = n -> lower n = n ->
  In n ign \/ ~ In n order -> dget n (parse_headers i rc ct fa ign order hdrs) = None.
Proof. exact header_ignored. Qed.
Print Assumptions C120_ignored_headers.
(** Message ids, and names of programs, are also put together; the last value counts. *)
Theorem C120_groups : forall i rc ct fa ign order hdrs n g, address_group fa -> NoDup order -> (forall m, In m order -> lower m = m) ->
  at_most_one [$"in-reply-to"; $"references"; $"message-id"] order -> at_most_one [$"x-mailer"; $"user-agent"] order ->
  (g = $"*MI" /\ In n [$"in-reply-to"; $"references"; $"message-id"]) \/ (g = $"*UA" /\ In n [$"x-mailer"; $"user-agent"]) ->
  In n order -> ~ In n ign ->
  exists vals us, vals = all_values hdrs n /\ Forall2 (fun v u => shown i rc ct n (rstrip_p is_space v) u) vals us /\
    dget g (parse_headers i rc ct fa ign order hdrs) = match rev us with [] => None | u :: _ => Some u end.
Proof. exact groups_read. Qed.
Print Assumptions C120_groups.
(** A stop word with a capital letter puts the stop word itself among the tokens. *)
Theorem C120_stop_words_refuted : exists line l s, tok 9 [] [line] [] [] [] = Tokens l /\ In s l /\ In s unused_words.
Proof. exists ($"Where money"), [$"where"; $"Where"; $"money"], ($"where"). split; [vm_compute; reflexivity|]. split; vm_compute; tauto. Qed.
Print Assumptions C120_stop_words_refuted.
(** Only every second of the words joined by dots is split off. *)
Theorem C120_separators_refuted : line_words ($"one...x...two") = [$"one"; $"..."; $"x...two"].
Proof. vm_compute. reflexivity. Qed.
Print Assumptions C120_separators_refuted.
Example C120_example : tok 9 [$"comments"] [$"Win money-NOW!"] [] [] [($"Comments", $"Win cash")] =
  Tokens [$"win"; $"Win"; $"moneyNOW"; $"moneynow"; $"money-now!"; $"money-NOW!"; $"Hcomments:Win"; $"Hcomments:cash"] /\
  ordinary ($"Win money-NOW!") /\ words ($"Win money-NOW!") = [$"Win"; $"money-NOW!"].
Proof.
  split; [vm_compute; reflexivity|]. split; [|vm_compute; reflexivity]. split; [repeat constructor|].
  split; intros (a & b & E); apply (f_equal (fun s => contains ($"...") s || contains ($"--") s)) in E; symmetry in E.
  - assert (K : contains ($"...") (a ++ ($"...") ++ b) = true) by (apply contains_app; eauto). rewrite K in E. vm_compute in E. discriminate.
  - assert (K : contains ($"--") (a ++ ($"--") ++ b) = true) by (apply contains_app; eauto). rewrite K, orb_true_r in E. vm_compute in E. discriminate.
Qed.

(** ** C121: header words and body words are different tokens *)
Theorem C121_apart : forall body inviz uris parsed r p line w t s k line' w' t' s',
  line_of body inviz uris parsed r p line -> r <> Header -> In w (line_words line) -> used w t -> derived r p t s ->
  line_of body inviz uris parsed Header k line' -> In w' (line_words line') -> used w' t' -> derived Header k t' s' -> s <> s'.
Proof. exact apart. Qed.
Print Assumptions C121_apart.
(** The tokens of a message are those of its headers, beginning with H and containing a
    colon, and those of its body, which do not. *)
Theorem C121_told_apart : forall i rc ct fa ign fuel order body inviz uris hdrs l s, tokenise i rc ct fa ign fuel order body inviz uris hdrs = Tokens l -> In s l ->
  (exists u, s = 72%N :: u /\ In 58%N s) <->
  exists k v w t, In (k, v) (parse_headers i rc ct fa ign order hdrs) /\ In w (line_words v) /\ used w t /\ derived Header (($"H") ++ k ++ ($":")) t s.
Proof. exact told_apart. Qed.
Print Assumptions C121_told_apart.
(** The pieces of long words of other alphabets are never made: a word with such a
    character has at most four characters. *)
Theorem C121_foreign_words_refuted : forall line w t, In w (line_words line) -> core w t -> ~ (long t /\ foreign t).
Proof. exact never_foreign. Qed.
Print Assumptions C121_foreign_words_refuted.
Example C121_example : line_words ($"caf" ++ [233%N] ++ $" latte") = [$"caf"; [233%N]; $"latte"] /\
  tok 9 [$"comments"] [$"Hcomments win"] [] [] [($"comments", $"win")] = Tokens [$"hcomments"; $"Hcomments"; $"win"; $"Hcomments:win"].
Proof. split; vm_compute; reflexivity. Qed.

(** ** C122: senders and recipients *)
(** What the address headers say does not matter, whatever the message: the part of the
    address that is looked at has no at sign. *)
Theorem C122_addresses_refuted : forall i rc ct fa ign fuel order body inviz uris hdrs hdrs', address_group fa ->
  (forall n, In n order -> lower n = n) -> same_but_addresses hdrs hdrs' ->
  tokenise i rc ct fa ign fuel order body inviz uris hdrs = tokenise i rc ct fa ign fuel order body inviz uris hdrs'.
Proof. intros. apply addr_free; assumption. Qed.
Print Assumptions C122_addresses_refuted.
Definition some_addr (s : str) : option str := if contains ($"@") s then Some (lstrip_chars ($"@") s) else None.
Example C122_example :
  let hdrs f := [($"From", f); ($"Comments", $"cheap watches")] in
  same_but_addresses (hdrs ($"joe@example.org")) (hdrs ($"spammer@bad.example")) /\
  tokenise same same same some_addr [] 9 [$"from"; $"comments"] [$"hello"] [] [] (hdrs ($"joe@example.org")) = Tokens [$"hello"; $"Hcomments:cheap"; $"Hcomments:watches"].
Proof. cbv zeta. split; [|vm_compute; reflexivity]. constructor; [split; [reflexivity | right; vm_compute; tauto]|]. constructor; [split; [reflexivity | left; reflexivity] | constructor]. Qed.

(** ** C123: the order in which headers are looked at *)
(** The names are in a Python set, whose order changes from run to run.  The tokens do not
    depend on it if at most one of In-Reply-To, References and Message-ID is there, and at
    most one of X-Mailer and User-Agent. *)
Theorem C123_order_partial : forall i rc ct fa ign fuel order body inviz uris hdrs, address_group fa ->
  at_most_one [$"in-reply-to"; $"references"; $"message-id"] (header_names hdrs) -> at_most_one [$"x-mailer"; $"user-agent"] (header_names hdrs) ->
  Permutation (header_names hdrs) order ->
  same_elements (tokenise i rc ct fa ign fuel (header_names hdrs) body inviz uris hdrs) (tokenise i rc ct fa ign fuel order body inviz uris hdrs).
Proof. intros. apply order_free; [assumption | split; assumption | assumption]. Qed.
Print Assumptions C123_order_partial.
Theorem C123_order_refuted : exists hdrs order l l', Permutation (header_names hdrs) order /\
  tok 9 (header_names hdrs) [] [] [] hdrs = Tokens l /\ tok 9 order [] [] [] hdrs = Tokens l' /\ In ($"H*UA:Bulker") l /\ ~ In ($"H*UA:Bulker") l'.
Proof.
  exists [($"X-Mailer", $"Outlook"); ($"User-Agent", $"Bulker")], [$"user-agent"; $"x-mailer"]. eexists. eexists.
  split; [constructor|]. split; [vm_compute; reflexivity|]. split; [vm_compute; reflexivity|]. split.
  - vm_compute. tauto.
  - intros H. vm_compute in H. repeat (destruct H as [H | H]; [discriminate H|]). exact H.
Qed.
Print Assumptions C123_order_refuted.
Example C123_example :
  let hdrs := [($"X-Mailer", $"Outlook"); ($"Comments", $"hello"); ($"Message-ID", $"<abc@example>")] in
  header_names hdrs = [$"x-mailer"; $"comments"; $"message-id"] /\ address_group no_addr /\
  at_most_one [$"in-reply-to"; $"references"; $"message-id"] (header_names hdrs) /\ at_most_one [$"x-mailer"; $"user-agent"] (header_names hdrs) /\
  tok 9 [$"comments"; $"message-id"; $"x-mailer"] [] [] [] hdrs = Tokens [$"Hcomments:hello"; $"H*MI:abc@example"; $"Hmessage-id:abc@example"; $"H*UA:Outlook"; $"Hx-mailer:Outlook"].
Proof.
  split; [vm_compute; reflexivity|]. split; [intros line g H; discriminate H|]. split; [|split; [|vm_compute; reflexivity]].
  - intros a b Ha Hb Ia Ib. vm_compute in Ha, Hb, Ia, Ib. destruct Ha as [<- | [<- | [<- | []]]], Hb as [<- | [<- | [<- | []]]]; try reflexivity; exfalso; clear - Ia Ib; repeat (destruct Ia as [Ia | Ia]; [try discriminate Ia|]); repeat (destruct Ib as [Ib | Ib]; [try discriminate Ib|]); tauto.
  - intros a b Ha Hb Ia Ib. vm_compute in Ha, Hb, Ia, Ib. destruct Ha as [<- | [<- | []]], Hb as [<- | [<- | []]]; try reflexivity; exfalso; clear - Ia Ib; repeat (destruct Ia as [Ia | Ia]; [try discriminate Ia|]); repeat (destruct Ib as [Ib | Ib]; [try discriminate Ib|]); tauto.
Qed.

(** ** C124: whose text is looked at *)
(** Only the subject and the text/plain parts are: a message in HTML has no body. *)
Theorem C124_other_parts_refuted : forall lines_of s ps h, load lines_of {| m_subject := s; m_parts := ps; m_headers := h |} =
  load lines_of {| m_subject := s; m_parts := filter (fun p => match p with Plain _ => true | Other _ => false end) ps; m_headers := [] |}.
Proof. exact load_filter. Qed.
Print Assumptions C124_other_parts_refuted.
(** The words of the subject and of each text/plain part of the message loaded last are
    among the tokens.  Missing: that it is the message asked about, and its other parts. *)
Theorem C124_own_words_partial : forall i rc ct fa ign lines_of fuel loaded m order l line w t,
  tokenise_after lines_of i rc ct fa ign fuel loaded m order = Tokens l -> In line (lines_of (join [10%N] (rendered loaded))) ->
  In w (line_words line) -> used w t -> (length t <= 15) -> In t l.
Proof. exact own_words. Qed.
Print Assumptions C124_own_words_partial.
(** Asked about one message after another has been loaded, it takes the words of that. *)
Definition note (s body : str) : mail := {| m_subject := Some s; m_parts := [Plain body; Other ($"<b>secret</b>")]; m_headers := [] |}.
Theorem C124_loaded_last_refuted : exists m1 m2 l, tokenise_after (split_char 10%N) same same same no_addr [] 9 m2 m1 [] = Tokens l /\
  In ($"money") l /\ m1 = note ($"Dinner") ($"See you at eight") /\ m2 = note ($"Win") ($"Free money").
Proof. eexists. eexists. eexists. split; [|split; [|split; reflexivity]]; [vm_compute; reflexivity | vm_compute; tauto]. Qed.
Print Assumptions C124_loaded_last_refuted.
