(** Theorems for C219 to C224: the links that are recorded when a message is loaded with the plugin
    for URI details, from the text of the message and with the HTML parser of the standard library. *)
From Coq Require Import Lia.
From Verif Require Import PyStr PyDict Model_Headers Model_Load Spec_Load PyHtml Model_Uri Spec_Uri Model_Links Spec_Html Proofs_HtmlDoc Spec_Links Proofs_Links.

(** The message [ps] is loaded as [l], and the text of its text parts is [raw]. *)
Definition loaded_as (load : list part -> option loaded) (ps : list part) (l : loaded) (raw : str) : Prop := load ps = Some l /\ l_raw_text l = raw.

(** ** C219 *)
(** Every address a link tag leads to is recorded under the kind of the tag, with its parts and with
    the texts that stand in the link, in order; the addresses of the text that no tag leads to are
    recorded without texts; nothing else is recorded. *)
Theorem C219_page : forall urlparse unquote unescape load ps l d,
  loaded_as load ps l (written d) -> a_page unescape urlparse d ->
  (forall u, In u (l_uris l) -> urlparse u <> None) ->
  exists links, load_links urlparse unquote unescape load ps = Some (l, links) /\ forall u,
    (forall k, has_link unescape k u d -> exists e scheme domain,
       dget u links = Some e /\ urlparse u = Some (scheme, domain) /\ dget k e = Some (mkItem u scheme (unquote u) domain (Some (texts_in unescape k u d)))) /\
    (forall k e, has_link unescape k u d -> dget u links = Some e -> forall k', In k' (dkeys e) -> has_link unescape k' u d) /\
    ((forall k, ~ has_link unescape k u d) -> In u (l_uris l) -> exists scheme domain,
       urlparse u = Some (scheme, domain) /\ dget u links = Some [($"parsed", mkItem u scheme (unquote u) domain None)]) /\
    ((forall k, ~ has_link unescape k u d) -> ~ In u (l_uris l) -> dget u links = None).
Proof.
  intros urlparse unquote unescape load ps l d [L R] P U. unfold load_links. rewrite L, R.
  destruct (page_links urlparse unquote unescape d P) as (links0 & L0 & _). assert (S := metadata_spec urlparse unquote unescape (written d) (l_uris l) links0 L0).
  destruct (parsed_metadata urlparse unquote unescape (written d) (l_uris l)) as [links|] eqn:M; [|destruct S as (u & I & _ & X); destruct (U u I X)].
  exists links. split; [reflexivity|]. intros u. destruct (page_metadata urlparse unquote unescape d (l_uris l) links P M u) as (H1 & H2 & H3 & H4). split; [|split; [|split]].
  - intros k X. specialize (H1 k X). unfold entry in H1. destruct (dget u links) as [e|]; [|discriminate]. destruct (link_parses urlparse unescape d k u P X) as (s & h & UP). exists e, s, h. rewrite <- (item_is urlparse unquote u s h _ UP). auto.
  - intros k e X E k' K. assert (KK := H3 k e X E k' K). destruct (pair_dec (k', u) (seen_all unescape (fst d))) as [Y|Y]; [apply seen_has, Y|]. exfalso. rewrite seen_has in Y. specialize (H2 k' KK Y). unfold entry in H2. rewrite E in H2. apply dget_None in H2. contradiction.
  - intros X I. specialize (U u I). destruct (urlparse u) as [[s h]|] eqn:UP; [|congruence]. exists s, h. split; [reflexivity|]. rewrite (H4 X). apply mem_str_In in I. rewrite I. unfold parse_link. rewrite UP. reflexivity.
  - intros X I. rewrite (H4 X). destruct (mem_str u (l_uris l)) eqn:MU; [|reflexivity]. apply mem_str_In in MU. contradiction.
Qed.
Print Assumptions C219_page.

(** A message in examples *)
Definition same (s : str) : str := s.
Definition parse (u : str) : option (str * str) := option_map (pair ($"http")) (netloc u).
Definition plain_part (text : str) : part := mkPart [($"From", $"a@b.example")] ($"text") ($"plain") None text.
Definition reading (ps : list part) : option loaded :=
  load (fun _ => false) (fun _ => false) (fun _ _ b => Some (filter (fun x => N.ltb x 128) b)) html_feed (fun h => Some [HText h]) ps.
Definition recorded (text : str) : option (dict (dict item)) := option_map snd (load_links parse same same reading [plain_part text]).
Definition a_tag (n u : str) : markup := Tag n [($"class", Quoted 39%N ($"x")); ($"HREF", Quoted 34%N u); ($"hidden", NoValue)] ($">").
Definition page : document :=
  ([($"See ", a_tag ($"A") ($"http://1.2.3.4/?a")); ($"https://bank.example", Comment ($" x ")); ($" now", EndTag ($"a"));
    ($" or ", a_tag ($"a") ($"http://x.example/")); ($"this ", Tag ($"b") [] ($">")); ($"one", EndTag ($"b")); ($" only", EndTag ($"a"));
    ([], Tag ($"a") [($"name", Quoted 34%N ($"top"))] ($">")); ([], a_tag ($"link") ($"http://x.example/")); ($"go ", a_tag ($"a") ($"http://1.2.3.4/?a"))], $"there").
Lemma name_ok n : match n with c :: r => letter c && forallb (fun d => letter d || (N.leb 48 d && N.leb d 57)) r | [] => false end = true -> a_name n.
Proof.
  intros K. destruct n as [|c r]; [discriminate|]. apply andb_true_iff in K as [A B]. exists c, r. split; [reflexivity|]. split; [apply Proofs_Html.letter_spec, A|]. apply Forall_forall. intros d I. rewrite forallb_forall in B. specialize (B d I).
  apply orb_true_iff in B as [B|B]; [left; apply Proofs_Html.letter_spec, B|right]. apply andb_true_iff in B as [X Y]. apply N.leb_le in X, Y. split; assumption.
Qed.
Lemma not_in c s : mem_char c s = false -> ~ In c s.
Proof. intros K I. apply mem_char_In in I. congruence. Qed.
Lemma a_tag_ok n u : a_name n -> ~ In (lower n) programs -> ~ In 34%N u -> proper_markup (a_tag n u).
Proof.
  intros N P U. split; [exact N|]. split; [|right; split; [reflexivity|exact P]].
  repeat (apply Forall_cons || apply Forall_nil); (split; [apply name_ok; vm_compute; reflexivity|]); [split; [right; left; reflexivity|apply not_in; vm_compute; reflexivity]|split; [left; reflexivity|exact U]|exact I].
Qed.
Lemma page_proper : proper page.
Proof.
  split; [|split; apply not_in; vm_compute; reflexivity]. unfold page. cbn [fst]. repeat (apply Forall_cons || apply Forall_nil); (split; [split; apply not_in; vm_compute; reflexivity|]); cbn [snd].
  - apply a_tag_ok; [apply name_ok; reflexivity|intros [K|[K|[]]]; discriminate|apply not_in; reflexivity].
  - intros (x & w & y & E & _). apply (f_equal (contains ($"--"))) in E. assert (K : contains ($"--") (x ++ $"--" ++ w ++ $">" ++ y) = true) by (apply contains_app; eauto). rewrite K in E. vm_compute in E. discriminate.
  - apply name_ok; reflexivity.
  - apply a_tag_ok; [apply name_ok; reflexivity|intros [K|[K|[]]]; discriminate|apply not_in; reflexivity].
  - split; [apply name_ok; reflexivity|]. split; [constructor|]. right. split; [reflexivity|]. intros [K|[K|[]]]; discriminate.
  - apply name_ok; reflexivity.
  - apply name_ok; reflexivity.
  - split; [apply name_ok; reflexivity|]. split; [|right; split; [reflexivity|intros [K|[K|[]]]; discriminate]]. constructor; [|constructor]. split; [apply name_ok; reflexivity|]. split; [left; reflexivity|apply not_in; reflexivity].
  - apply a_tag_ok; [apply name_ok; reflexivity|intros [K|[K|[]]]; discriminate|apply not_in; reflexivity].
  - apply a_tag_ok; [apply name_ok; reflexivity|intros [K|[K|[]]]; discriminate|apply not_in; reflexivity].
Qed.
(** Deciding whether a document is a page, in examples *)
Definition fits (before : list markup) (m : markup) : bool :=
  match m with
  | Tag n a _ =>
      if mem_str (lower n) kinds then
        forallb (fun x => negb (mem_str (lower (fst x)) holders) || match snd x with Quoted _ v => match parse (value_of_text same v) with Some _ => true | None => false end | NoValue => false end) a &&
        (match leads same m with [] => match link_at same before with Some (k, _) => streqb k (lower n) | None => true end | _ => true end)
      else true
  | _ => true
  end.
Fixpoint all_fit (before : list markup) (parts : list (str * markup)) : bool :=
  match parts with [] => true | p :: r => fits before (snd p) && all_fit (snd p :: before) r end.
Lemma fits_ok before m : fits before m = true -> ~ broken_link same parse m /\ ~ stray same before m.
Proof.
  intros F. split.
  - intros (n & a & c & h & v & -> & K & I & H & V). cbn [fits] in F. apply mem_str_In in K. rewrite K in F. apply andb_true_iff in F as [F _]. rewrite forallb_forall in F. specialize (F _ I). cbn [fst snd] in F. apply mem_str_In in H. rewrite H in F. cbn [negb orb] in F. destruct v as [|q w]; [discriminate|]. rewrite V in F. discriminate.
  - intros (n & a & c & k & u & -> & K & L & A & NE). cbn [fits] in F. apply mem_str_In in K. rewrite K in F. apply andb_true_iff in F as [_ F]. rewrite L, A in F. destruct (streqb_spec k (lower n)); [contradiction|discriminate].
Qed.
Lemma all_fit_ok parts : forall before, all_fit before parts = true -> forall x p y, parts = x ++ p :: y -> fits (rev (map snd x) ++ before) (snd p) = true.
Proof.
  induction parts as [|q parts IH]; intros before F x p y E; [destruct x; discriminate|]. cbn [all_fit] in F. apply andb_true_iff in F as [F1 F2]. destruct x as [|z x]; cbn [app] in E; injection E as -> E; [exact F1|]. cbn [map rev]. rewrite <- app_assoc. exact (IH _ F2 x p y E).
Qed.
Lemma page_ok d : proper d -> all_fit [] (fst d) = true -> a_page same parse d.
Proof. intros P F. split; [exact P|]. intros x p y E. apply fits_ok. assert (K := all_fit_ok (fst d) [] F x p y E). rewrite app_nil_r in K. exact K. Qed.
Example C219_case : a_page same parse page /\
  written page = $"See <A class='x' HREF=""http://1.2.3.4/?a"" hidden>https://bank.example<!-- x --> now</a> or <a class='x' HREF=""http://x.example/"" hidden>this <b>one</b> only</a><a name=""top""><link class='x' HREF=""http://x.example/"" hidden>go <a class='x' HREF=""http://1.2.3.4/?a"" hidden>there" /\
  (exists l, loaded_as reading [plain_part (written page)] l (written page) /\ l_uris l = [$"https://bank.example"; $"http://x.example/"; $"http://1.2.3.4/?a"]) /\
  recorded (written page) = Some
    [($"http://1.2.3.4/?a", [($"a", mkItem ($"http://1.2.3.4/?a") ($"http") ($"http://1.2.3.4/?a") ($"1.2.3.4") (Some [$"https://bank.example"; $" now"; $"there"]))]);
     ($"http://x.example/", [($"a", mkItem ($"http://x.example/") ($"http") ($"http://x.example/") ($"x.example") (Some [$"this "; $"one"]));
                             ($"link", mkItem ($"http://x.example/") ($"http") ($"http://x.example/") ($"x.example") (Some [$"go "]))]);
     ($"https://bank.example", [($"parsed", mkItem ($"https://bank.example") ($"http") ($"https://bank.example") ($"bank.example") None)])].
Proof.
  split; [apply page_ok; [exact page_proper|vm_compute; reflexivity]|]. split; [vm_compute; reflexivity|]. split; [eexists; split; [split; [vm_compute; reflexivity|vm_compute; reflexivity]|vm_compute; reflexivity]|vm_compute; reflexivity].
Qed.

(** ** C220 *)
(** Whatever the text of a message is, nothing is made up: an address recorded for a link tag is the
    text of a piece of the message, and the texts recorded with it stand in the message, in order;
    everything else that is recorded is one of the addresses found in the text. *)
Theorem C220_placed : forall urlparse unquote unescape load ps l links,
  load_links urlparse unquote unescape load ps = Some (l, links) ->
  load ps = Some l /\
  forall u e k i, dget u links = Some e -> dget k e = Some i ->
    exists scheme domain texts, urlparse u = Some (scheme, domain) /\ i = mkItem u scheme (unquote u) domain texts /\
      ((k = $"parsed" /\ texts = None /\ In u (l_uris l)) \/
       (In k kinds /\ (exists ts, texts = Some ts /\ in_order ts (l_raw_text l)) /\ exists v x y, l_raw_text l = x ++ v ++ y /\ u = value_of_text unescape v)).
Proof.
  intros urlparse unquote unescape load ps l links. unfold load_links. destruct (load ps) as [l'|]; [|discriminate]. destruct (parsed_metadata _ _ _ _ _) as [ls|] eqn:M; [|discriminate]. intros H. injection H as -> ->. split; [reflexivity|].
  intros u e k i D E. destruct (links_of urlparse unquote unescape (l_raw_text l)) as [links0|] eqn:L0; [|rewrite (metadata_none urlparse unquote unescape _ (l_uris l) L0) in M; discriminate].
  assert (S := metadata_spec urlparse unquote unescape (l_raw_text l) (l_uris l) links0 L0). rewrite M in S. rewrite (S u) in D. destruct (dget u links0) as [e0|] eqn:D0.
  - injection D as ->. destruct (links_placed _ _ _ _ _ L0) as (done & O & K). destruct (K u e k i D0 E) as (A & B & (s & h & U & C1 & C2) & C3 & P & ts & T & SB).
    exists s, h, (Some ts). split; [exact U|]. split; [destruct i as [i1 i2 i3 i4 i5]; cbn in *; subst; reflexivity|]. right. split; [exact A|]. split; [exists ts; split; [reflexivity|exact (in_order_sub _ _ SB _ O)]|exact P].
  - destruct (mem_str u (l_uris l)) eqn:MU; [|discriminate]. injection D as <-. cbn [dget] in E. destruct (streqb_spec ($"parsed") k) as [<-|NE]; [|destruct (streqb_spec k ($"parsed")); congruence].
    assert (UP : urlparse u <> None). { intros X. apply mem_str_In in MU. exact (metadata_parses urlparse unquote unescape (l_raw_text l) (l_uris l) links0 links L0 M u MU D0 X). }
    destruct (streqb_spec ($"parsed") ($"parsed")); [|congruence]. injection E as <-. unfold parse_link. destruct (urlparse u) as [[s h]|]; [|congruence]. exists s, h, None. split; [reflexivity|]. split; [reflexivity|]. left. split; [reflexivity|]. split; [reflexivity|]. apply mem_str_In. exact MU.
Qed.
Print Assumptions C220_placed.
(** Not a page: an address that is not quoted, with spaces around the sign, and a broken end tag *)
Example C220_case : recorded ($"a <A title='<' href = http://x.example/?'b >one</b <a>two< /a>") = Some
  [($"http://x.example/?'b", [($"a", mkItem ($"http://x.example/?'b") ($"http") ($"http://x.example/?'b") ($"x.example") (Some [$"one"]))]);
   ($"http://x.example/?", [($"parsed", mkItem ($"http://x.example/?") ($"http") ($"http://x.example/?") ($"x.example") None)])].
Proof. vm_compute. reflexivity. Qed.

(** ** C221 *)
(** No link makes loading the message fail: false.  A link tag with an address attribute without a
    value, or with an address [urlparse] rejects, is enough, wherever it stands. *)
Theorem C221_refuted : forall urlparse unquote unescape load ps l d p,
  loaded_as load ps l (written d) -> proper d -> In p (fst d) -> broken_link unescape urlparse (snd p) ->
  load_links urlparse unquote unescape load ps = None.
Proof. intros urlparse unquote unescape load ps l d p [L R] P I B. unfold load_links. rewrite L, R, (metadata_none urlparse unquote unescape _ _ (broken_links urlparse unquote unescape d p P I B)). reflexivity. Qed.
Print Assumptions C221_refuted.
(** So is a marked section of an unknown kind, in plain text as well. *)
Theorem C221_section_refuted : forall urlparse unquote unescape load ps l parts t x,
  loaded_as load ps l (flat_map written_part parts ++ t ++ x) -> Forall proper_part parts -> plain_text t -> bad_section x ->
  load_links urlparse unquote unescape load ps = None.
Proof. intros urlparse unquote unescape load ps l parts t x [L R] P T B. unfold load_links. rewrite L, R, (metadata_none urlparse unquote unescape _ _ (section_links urlparse unquote unescape parts t x P T B)). reflexivity. Qed.
Print Assumptions C221_section_refuted.
Example C221_case :
  (exists l, loaded_as reading [plain_part ($"Hi <a href>you</a>")] l (written ([($"Hi ", Tag ($"a") [($"href", NoValue)] ($">")); ($"you", EndTag ($"a"))], []))) /\
  broken_link same parse (Tag ($"a") [($"href", NoValue)] ($">")) /\ recorded ($"Hi <a href>you</a>") = None /\
  (exists l, loaded_as reading [plain_part ($"int x<![3]")] l ($"int x" ++ $"<![3]")) /\ bad_section ($"<![3]") /\ recorded ($"int x<![3]") = None.
Proof.
  split; [eexists; split; vm_compute; reflexivity|]. split; [exists ($"a"), [($"href", NoValue)], ($">"), ($"href"), NoValue; repeat split; left; reflexivity|]. split; [vm_compute; reflexivity|].
  split; [eexists; split; vm_compute; reflexivity|]. split; [|vm_compute; reflexivity]. apply (no_name 51%N ($"]")). intros [[A B]|[A B]]; vm_compute in A, B; congruence.
Qed.

(** ** C222 *)
(** Every link of the text is recorded: false.  What follows an unfinished piece of markup makes no
    difference, whatever links stand there. *)
Theorem C222_refuted : forall urlparse unquote unescape parts t x,
  Forall proper_part parts -> plain_text t -> unfinished x ->
  links_of urlparse unquote unescape (flat_map written_part parts ++ t ++ x) = links_of urlparse unquote unescape (written (parts, t)).
Proof. exact unfinished_links. Qed.
Print Assumptions C222_refuted.
Example C222_case :
  unfinished ($"&# <a href=""http://1.2.3.4/"">https://bank.example</a>") /\
  links_of parse same same ($"Hi " ++ $"&# <a href=""http://1.2.3.4/"">https://bank.example</a>") = Some [] /\
  option_map (fun l => dkeys l) (links_of parse same same ($"Hi & <a href=""http://1.2.3.4/"">https://bank.example</a>")) = Some [$"http://1.2.3.4/"].
Proof.
  split; [|split; vm_compute; reflexivity]. apply (open_number 32%N ($"<a href=""http://1.2.3.4/"">https://bank.example</a>")).
  - intros [A B]. vm_compute in A. congruence.
  - intros [A|[A|[]]]; discriminate.
  - apply not_in. vm_compute. reflexivity.
Qed.

(** ** C223 *)
(** An anchor that leads to an address of numbers and shows the secure address of a named host is
    found.  Partial: if all anchors of the page lead to addresses of numbers, and the secure addresses
    that are shown can be parsed.  Then the check answers yes just for those pages. *)
Theorem C223_found_partial : forall urlparse unquote unescape is_ip load ps l d links,
  loaded_as load ps l (written d) -> a_page unescape urlparse d ->
  load_links urlparse unquote unescape load ps = Some (l, links) ->
  (forall u scheme domain, has_link unescape ($"a") u d -> urlparse u = Some (scheme, domain) -> is_ip domain = true) ->
  words_parse unescape urlparse d ->
  check_https_ip_mismatch is_ip (url_netloc urlparse) links = (Hit : verdict) <->
  exists u t w scheme host, has_link unescape ($"a") u d /\ In t (texts_in unescape ($"a") u d) /\ In w (words t) /\
    startswith ($"https://") w = true /\ urlparse w = Some (scheme, host) /\ is_ip host = false.
Proof.
  intros urlparse unquote unescape is_ip load ps l d links [L R] P LL A W. unfold load_links in LL. rewrite L, R in LL. destruct (parsed_metadata _ _ _ _ _) as [ls|] eqn:M; [|discriminate]. injection LL as ->.
  destruct (page_mismatch urlparse unquote unescape is_ip d (l_uris l) links P M A W) as [H _]. rewrite H. split.
  - intros (u & HL & t & w & dm & I1 & I2 & I3 & I4 & I5). unfold url_netloc in I4. destruct (urlparse w) as [[s h]|] eqn:UP; [|discriminate]. injection I4 as ->. exists u, t, w, s, dm. repeat split; assumption.
  - intros (u & t & w & s & h & HL & I1 & I2 & I3 & I4 & I5). exists u. split; [exact HL|]. exists t, w, h. unfold url_netloc. rewrite I4. repeat split; try assumption; reflexivity.
Qed.
Print Assumptions C223_found_partial.
(** The full statement is false: if the first link tag with an address is an anchor to a named host,
    the check answers no whatever the page shows after it. *)
Theorem C223_refuted : forall urlparse unquote unescape is_ip load ps l d links before p after u more scheme domain,
  loaded_as load ps l (written d) -> a_page unescape urlparse d ->
  load_links urlparse unquote unescape load ps = Some (l, links) ->
  fst d = before ++ p :: after -> (forall q, In q before -> leads unescape (snd q) = []) -> leads unescape (snd p) = ($"a", u) :: more ->
  urlparse u = Some (scheme, domain) -> is_ip domain = false ->
  check_https_ip_mismatch is_ip (url_netloc urlparse) links = NoHit.
Proof.
  intros urlparse unquote unescape is_ip load ps l d links before p after u more s h [L R] P LL. unfold load_links in LL. rewrite L, R in LL. destruct (parsed_metadata _ _ _ _ _) as [ls|] eqn:M; [|discriminate]. injection LL as ->. intros E B F U N.
  exact (first_mismatch urlparse unquote unescape is_ip d before p after u more s h (l_uris l) links P E B F U N M).
Qed.
Print Assumptions C223_refuted.
Definition digits (h : str) : bool := match h with c :: _ => N.leb 48 c && N.leb c 57 | [] => false end.
Definition disguised : document := ([($"See ", a_tag ($"a") ($"http://1.2.3.4/")); ($"https://bank.example", EndTag ($"a"))], []).
Definition covered : document := ([([], a_tag ($"a") ($"http://x.example/")); ([], EndTag ($"a")); ($"See ", a_tag ($"a") ($"http://1.2.3.4/")); ($"https://bank.example", EndTag ($"a"))], []).
Definition answer (d : document) : option verdict := option_map (check_https_ip_mismatch digits (url_netloc parse)) (recorded (written d)).
Lemma disguised_proper : proper disguised /\ proper covered.
Proof.
  split; (split; [|split; apply not_in; vm_compute; reflexivity]); unfold disguised, covered; cbn [fst]; repeat (apply Forall_cons || apply Forall_nil); (split; [split; apply not_in; vm_compute; reflexivity|]); cbn [snd];
    (apply name_ok; reflexivity) || (apply a_tag_ok; [apply name_ok; reflexivity|intros [K|[K|[]]]; discriminate|apply not_in; reflexivity]).
Qed.
Example C223_case :
  a_page same parse disguised /\ (forall u s h, has_link same ($"a") u disguised -> parse u = Some (s, h) -> digits h = true) /\ words_parse same parse disguised /\ answer disguised = Some Hit /\
  a_page same parse covered /\ leads same (a_tag ($"a") ($"http://x.example/")) = [($"a", $"http://x.example/")] /\ parse ($"http://x.example/") = Some ($"http", $"x.example") /\ answer covered = Some NoHit.
Proof.
  destruct disguised_proper as [D C]. split; [apply page_ok; [exact D|vm_compute; reflexivity]|]. split; [|split; [|split; [vm_compute; reflexivity|split; [apply page_ok; [exact C|vm_compute; reflexivity]|repeat split; vm_compute; reflexivity]]]].
  - intros u s h (p & [<-|[<-|[]]] & I) U; [|destruct I]. destruct I as [I|[]]. injection I as <-. vm_compute in U. injection U as _ <-. reflexivity.
  - intros u t w I W S. unfold texts_in in I. apply in_map_iff in I as (x & <- & I). apply filter_In in I as [I _]. cbn in I. destruct I as [<-|[]]. vm_compute in W. destruct W as [<-|[]]. vm_compute. discriminate.
Qed.

(** ** C224 *)
(** The rule for truncated addresses hits just if the page has a link of more than 8192 characters. *)
Theorem C224_truncated : forall urlparse unquote unescape load ps l d links,
  loaded_as load ps l (written d) -> a_page unescape urlparse d ->
  load_links urlparse unquote unescape load ps = Some (l, links) ->
  check_uri_truncated links = true <-> exists k u, has_link unescape k u d /\ (8192 < N.of_nat (length u))%N.
Proof.
  intros urlparse unquote unescape load ps l d links [L R] P LL. unfold load_links in LL. rewrite L, R in LL. destruct (parsed_metadata _ _ _ _ _) as [ls|] eqn:M; [|discriminate]. injection LL as ->.
  exact (page_truncated urlparse unquote unescape d (l_uris l) links P M).
Qed.
Print Assumptions C224_truncated.
(** A page with one link, of any address without quotes and line ends that [urlparse] accepts *)
Definition linking (u : str) : document := ([($"See ", a_tag ($"a") u)], $"it").
Definition long (n : N) : str := $"http://x.example/" ++ repeat 97%N (N.to_nat n).
Example C224_case :
  a_page same parse (linking (long 8176)) /\ (has_link same ($"a") (long 8176) (linking (long 8176)) /\ (8192 < N.of_nat (length (long 8176)))%N) /\
  a_page same parse (linking (long 8175)) /\ (forall k u, has_link same k u (linking (long 8175)) -> N.of_nat (length u) = 8192%N).
Proof.
  assert (P : forall n, proper (linking (long n))).
  { intros n. split; [|split; apply not_in; vm_compute; reflexivity]. repeat (apply Forall_cons || apply Forall_nil). split; [split; apply not_in; vm_compute; reflexivity|]. apply a_tag_ok; [apply name_ok; reflexivity|intros [K|[K|[]]]; discriminate|].
    intros I. apply in_app_iff in I as [I|I]; [revert I; apply not_in; vm_compute; reflexivity|]. apply repeat_spec in I. discriminate. }
  assert (H : forall n k u, has_link same k u (linking (long n)) <-> k = $"a" /\ u = long n).
  { intros n k u. split; [intros (p & [<-|[]] & [I|[]]); injection I as <- <-; split; reflexivity|]. intros [-> ->]. eexists. split; [left; reflexivity|left; reflexivity]. }
  assert (L : forall n, N.of_nat (length (long n)) = (17 + n)%N). { intros n. unfold long. rewrite app_length, repeat_length, Nat2N.inj_add, N2Nat.id. reflexivity. }
  split; [apply page_ok; [apply P|vm_compute; reflexivity]|]. split; [split; [apply H; split; reflexivity|rewrite L; reflexivity]|]. split; [apply page_ok; [apply P|vm_compute; reflexivity]|].
  intros k u K. apply H in K as [_ ->]. rewrite L. reflexivity.
Qed.
