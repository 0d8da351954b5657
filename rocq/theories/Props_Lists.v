(** Address and host lists, from the lines of the configuration and the headers of a mail to the answers of the rules:
    C245 to C247. *)
From Verif Require Import PyStr PyDict PyRe Model_Rules Model_Net Model_Relays Model_Wlbl Spec_Wlbl Proofs_Wlbl Props_Wlbl Model_Conf
  Props_Conf Model_Headers Spec_Headers Model_Address Spec_Address Props_Address Model_Lists Spec_Lists Proofs_Lists.

(** What the theorems are about: a new process read the option lines [lines]; a mail with the header fields [fields],
    which show the entries [ess], came over the relays [u] and [t] with the page addresses [uris]; the rules [before]
    have been asked, then one more. *)
Section Statements.
Variables (escaped : char -> bool) (parse_net6 : str -> option net) (ip_address : str -> option addr).
Variables (lim : nat) (strict : bool) (decode : str -> option str) (py_float : str -> option Q).
Variables (lines : list line) (fields : list (str * str)) (history : list str) (ess : str -> list (list entry)).
Variables (u t : list relay) (uris : list str) (before : list lrule).
Definition letter_of : letter := mkLetter (lookups decode history (fresh_h fields)) u t uris.
Definition answers (r : lrule) : option bool :=
  answer escaped parse_net6 ip_address lim strict decode (configured py_float lines) letter_of before r.
(** The mail can be read, no piece of the last enlist_uri_host line is blank, and no rule named an unknown list. *)
Definition fair : Prop :=
  escapes_right escaped /\ 1 <= lim /\ (forall h, In h address_headers -> show decode (values_of h fields) (ess h)) /\
  (forall en, last_pieces lines ($"enlist_uri_host") en -> Forall (fun p => words p <> []) en) /\ Forall known before.
End Statements.

Lemma fair_start escaped py_float lines :
  (forall en, last_pieces lines ($"enlist_uri_host") en -> Forall (fun p => words p <> []) en) ->
  exists hosts, uri_lists (last_split lines ($"enlist_uri_host")) (last_split lines ($"delist_uri_host"))
       (last_split lines ($"whitelist_uri_host")) (last_split lines ($"blacklist_uri_host")) = Some hosts /\
    check_start escaped (configured py_float lines) = Some (ready escaped lines hosts).
Proof.
  intros H. destruct (proj2 (hosts_some _ (last_split lines ($"delist_uri_host")) (last_split lines ($"whitelist_uri_host")) (last_split lines ($"blacklist_uri_host")))
    (H _ (last_split_spec lines ($"enlist_uri_host")))) as [hosts E].
  exists hosts. split; [exact E|]. rewrite start_ready, E. reflexivity.
Qed.
Lemma plain_answer escaped p6 ipa lim strict decode py_float lines fields history ess u t uris before l n r :
  fair escaped lim decode lines fields ess before -> In n address_lists ->
  (forall hosts k, ask escaped p6 ipa lim strict decode (ready escaped lines hosts) (letter_of decode fields history u t uris) r k =
     option_map (fun b => (b, k)) (address_in l ($"parsed_" ++ n) (ready escaped lines hosts))) ->
  tells (answers escaped p6 ipa lim strict decode py_float lines fields history u t uris before r) (exists a, In a l /\ listed lines n a).
Proof.
  intros (He & Hl & Hs & Hen & Hb) Hn E. destruct (fair_start escaped py_float lines Hen) as (hosts & _ & S).
  destruct (ask_plain escaped He p6 ipa lim strict decode lines hosts (letter_of decode fields history u t uris) before l n r Hb Hn (E hosts)) as (k & b & E1 & E2 & E3).
  exists b. split; [|exact E3]. unfold answers, answer. rewrite S, E1. exact E2.
Qed.
Lemma tells_iff a P Q : tells a P -> (P <-> Q) -> tells a Q.
Proof. intros (b & E & H) HQ. exists b. split; [exact E|]. rewrite H. exact HQ. Qed.

(** C245. The rules on plain address lists: every line of an option adds its words to the list, and a rule hits exactly when
    some sender (or recipient) of the mail reads in part like an entry; whatever rules were asked before. *)
Theorem C245_lists :
  forall escaped parse_net6 ip_address lim strict decode py_float lines fields history ess u t uris before,
    fair escaped lim decode lines fields ess before ->
    let ans := answers escaped parse_net6 ip_address lim strict decode py_float lines fields history u t uris before in
    (forall key, In key address_lists ->
       tells (ans (FromIn key)) (exists a, is_sender ess a /\ listed lines key a) /\
       tells (ans (ToIn key)) (exists a, is_recipient ess a /\ listed lines key a)) /\
    tells (ans FromBlack) (exists a, is_sender ess a /\ listed lines ($"blacklist_from") a) /\
    tells (ans ToBlack) (exists a, is_recipient ess a /\ listed lines ($"blacklist_to") a) /\
    tells (ans ToWhite) (exists a, is_recipient ess a /\ listed lines ($"whitelist_to") a) /\
    tells (ans ToAllSpam) (exists a, is_recipient ess a /\ listed lines ($"all_spam_to") a) /\
    tells (ans ToMoreSpam) (exists a, is_recipient ess a /\ listed lines ($"more_spam_to") a) /\
    ans (FromIn []) = Some false.
Proof.
  intros escaped p6 ipa lim strict decode py_float lines fields history ess u t uris before F ans.
  pose proof F as (He & Hl & Hs & Hen & Hb).
  pose proof (senders_are lim strict decode fields history ess Hl Hs) as SA. pose proof (recipients_are lim strict decode fields history ess Hl Hs) as RA.
  assert (A : forall r n, In n address_lists ->
    (forall hosts k, ask escaped p6 ipa lim strict decode (ready escaped lines hosts) (letter_of decode fields history u t uris) r k =
     option_map (fun b => (b, k)) (address_in (senders lim strict decode (lookups decode history (fresh_h fields))) ($"parsed_" ++ n) (ready escaped lines hosts))) ->
    tells (ans r) (exists a, is_sender ess a /\ listed lines n a)).
  { intros r n Hn E. eapply tells_iff; [eapply plain_answer; [exact F|exact Hn|exact E]|].
    split; intros (a & Ha & X); exists a; (split; [apply SA; exact Ha|exact X]). }
  assert (B : forall r n, In n address_lists ->
    (forall hosts k, ask escaped p6 ipa lim strict decode (ready escaped lines hosts) (letter_of decode fields history u t uris) r k =
     option_map (fun b => (b, k)) (address_in (recipients lim strict decode (lookups decode history (fresh_h fields))) ($"parsed_" ++ n) (ready escaped lines hosts))) ->
    tells (ans r) (exists a, is_recipient ess a /\ listed lines n a)).
  { intros r n Hn E. eapply tells_iff; [eapply plain_answer; [exact F|exact Hn|exact E]|].
    split; intros (a & Ha & X); exists a; (split; [apply RA; exact Ha|exact X]). }
  split; [intros key Hk; split; [apply (A _ key Hk)|apply (B _ key Hk)]|].
  - intros hosts k. unfold ask. destruct key; [|reflexivity]. exfalso. revert Hk. vm_compute. intuition discriminate.
  - intros hosts k. reflexivity.
  - split; [apply A; [vm_compute; tauto|reflexivity]|]. repeat (split; [apply B; [vm_compute; tauto|reflexivity]|]).
    destruct (fair_start escaped py_float lines Hen) as (hosts & _ & S). unfold ans, answers, answer. rewrite S.
    destruct (ask_all_ok escaped He p6 ipa lim strict decode lines hosts (letter_of decode fields history u t uris) before Hb marks0 (visited0 _ _ _ _ _ _ _ _ _)) as (k & -> & _).
    reflexivity.
Qed.
Print Assumptions C245_lists.

(** A rule that names a list that does not exist answers no: false of the code.  It raises as soon as the mail has an
    address to look at.  For check_to_in_list the empty name is such a name. *)
Theorem C245_unknown_list_refuted :
  forall escaped parse_net6 ip_address lim strict decode py_float lines fields history ess u t uris before name a,
    fair escaped lim decode lines fields ess before -> ~ In name address_lists ->
    let ans := answers escaped parse_net6 ip_address lim strict decode py_float lines fields history u t uris before in
    (name <> [] -> is_sender ess a -> ans (FromIn name) = None) /\ (is_recipient ess a -> ans (ToIn name) = None).
Proof.
  intros escaped p6 ipa lim strict decode py_float lines fields history ess u t uris before name a F Hn ans.
  pose proof F as (He & Hl & Hs & Hen & Hb).
  assert (E : forall hosts, dget ($"parsed_" ++ name) (st_lists (ready escaped lines hosts)) = None).
  { intros hosts. destruct (dget ($"parsed_" ++ name) (st_lists (ready escaped lines hosts))) as [l|] eqn:G; [|reflexivity]. exfalso. apply Hn. apply dget_In in G.
    unfold ready, st_lists in G. cbn [In] in G.
    repeat (destruct G as [G|G]; [injection G as G _; first [rewrite <- G; vm_compute; tauto | idtac]|]); contradiction. }
  destruct (fair_start escaped py_float lines Hen) as (hosts & _ & S). unfold ans, answers, answer. rewrite S.
  destruct (ask_all_ok escaped He p6 ipa lim strict decode lines hosts (letter_of decode fields history u t uris) before Hb marks0 (visited0 _ _ _ _ _ _ _ _ _)) as (k & -> & _).
  unfold ask, address_in, letter_of, le_headers. rewrite !E. split.
  - intros N Ha. apply (senders_are lim strict decode fields history ess Hl Hs) in Ha. destruct name; [congruence|].
    destruct (senders _ _ _ _); [destruct Ha|reflexivity].
  - intros Ha. apply (recipients_are lim strict decode fields history ess Hl Hs) in Ha.
    destruct (recipients _ _ _ _); [destruct Ha|reflexivity].
Qed.
Print Assumptions C245_unknown_list_refuted.

(** C246. Whitelists with relays.  Every line of whitelist_from_rcvd (and def_whitelist_from_rcvd) counts: false of the code,
    each line replaces the one before.  The proved part: exactly what the rules answer, namely by the pieces between the
    commas of the last line. *)
Theorem C246_whitelist_partial :
  forall escaped parse_net6 ip_address lim strict decode py_float lines fields history ess u t uris before,
    fair escaped lim decode lines fields ess before ->
    let ans := answers escaped parse_net6 ip_address lim strict decode py_float lines fields history u t uris before in
    let by_relay key a := exists ps, last_pieces lines key ps /\ rcvd_listed parse_net6 ip_address ps u t a in
    tells (ans (White InWhitelist))
      (exists a, is_sender ess a /\ (listed lines ($"whitelist_from") a \/ by_relay ($"whitelist_from_rcvd") a)) /\
    tells (ans (White InDefaultWhitelist)) (exists a, is_sender ess a /\ by_relay ($"def_whitelist_from_rcvd") a).
Proof.
  intros escaped p6 ipa lim strict decode py_float lines fields history ess u t uris before F ans by_relay.
  pose proof F as (He & Hl & Hs & Hen & Hb).
  pose proof (senders_are lim strict decode fields history ess Hl Hs) as SA.
  assert (R : forall key a, by_relay key a <-> rcvd_listed p6 ipa (last_split lines key) u t a).
  { intros key a. split; [intros (ps & P & X); rewrite <- (last_split_unique _ _ _ P); exact X|]. intros X. eexists. split; [apply last_split_spec|exact X]. }
  destruct (fair_start escaped py_float lines Hen) as (hosts & _ & S).
  assert (A : forall c P, (exists mk b, run_check escaped p6 ipa (st_white (ready escaped lines hosts)) u t (senders lim strict decode (lookups decode history (fresh_h fields))) c marks0 = Some (b, mk) /\ (b = true <-> P)) ->
    tells (ans (White c)) P).
  { intros c P (mk & b & E & H). destruct (ask_white escaped He p6 ipa lim strict decode lines hosts (letter_of decode fields history u t uris) before c Hb) as (k & E1 & E2).
    exists b. split; [|exact H]. unfold ans, answers, answer. rewrite S, E1, E2. unfold letter_of, le_headers, le_untrusted, le_trusted. rewrite E. reflexivity. }
  split; apply A.
  - destruct (whitelist_exact escaped He p6 ipa (st_white (ready escaped lines hosts)) u t (senders lim strict decode (lookups decode history (fresh_h fields)))) as (mk & b & E & H).
    exists mk, b. split; [exact E|]. rewrite H. split; intros (a & Ha & X); exists a; (split; [apply SA; exact Ha|]); (destruct X as [X|X]; [left; apply found_listed; exact X|right; apply R; exact X]).
  - destruct (default_exact escaped He p6 ipa (st_white (ready escaped lines hosts)) u t (senders lim strict decode (lookups decode history (fresh_h fields)))) as (mk & b & E & H).
    exists mk, b. split; [exact E|]. rewrite H. split; intros (a & Ha & X); exists a; (split; [apply SA; exact Ha|]); apply R; exact X.
Qed.
Print Assumptions C246_whitelist_partial.

(** C247. Host lists, by the last line of each of the four options. *)
Theorem C247_hosts_partial :
  forall escaped parse_net6 ip_address lim strict decode py_float lines fields history ess u t uris before,
    fair escaped lim decode lines fields ess before ->
    let ans := answers escaped parse_net6 ip_address lim strict decode py_float lines fields history u t uris before in
    let hit name := exists uri n x, In uri uris /\ host_listed lines name n /\ startswith ($"!") n = false /\ uri = x ++ n /\
      ~ exists i, host_listed lines name i /\ startswith ($"!") i = true /\ uri = strip_chars ($"!") i in
    (forall name, tells (ans (HostListed name)) (hit name)) /\
    tells (ans HostWhite) (hit ($"WHITE")) /\ tells (ans HostBlack) (hit ($"BLACK")).
Proof.
  intros escaped p6 ipa lim strict decode py_float lines fields history ess u t uris before F ans hit.
  pose proof F as (He & Hl & Hs & Hen & Hb). destruct (fair_start escaped py_float lines Hen) as (hosts & U & S).
  assert (L : forall name i, host_listed lines name i <-> on_list (last_split lines ($"enlist_uri_host")) (last_split lines ($"delist_uri_host"))
       (last_split lines ($"whitelist_uri_host")) (last_split lines ($"blacklist_uri_host")) name i).
  { intros name i. split.
    - intros (en & de & wh & bl & A & B & C & D & X). apply last_split_unique in A, B, C, D. subst. exact X.
    - intros X. do 4 eexists. do 4 (split; [apply last_split_spec|]). exact X. }
  assert (A : forall r name, (forall k, ask escaped p6 ipa lim strict decode (ready escaped lines hosts) (letter_of decode fields history u t uris) r k =
     Some (uri_listed hosts name uris, k)) -> tells (ans r) (hit name)).
  { intros r name E. destruct (ask_all_ok escaped He p6 ipa lim strict decode lines hosts (letter_of decode fields history u t uris) before Hb marks0 (visited0 _ _ _ _ _ _ _ _ _)) as (k & E1 & _).
    exists (uri_listed hosts name uris). split; [unfold ans, answers, answer; rewrite S, E1, E; reflexivity|].
    rewrite (uri_listed_exact _ _ _ _ _ name uris U). unfold hit. split.
    - intros (x & n & y & H1 & H2 & H3 & H4 & H5). exists x, n, y. split; [exact H1|]. split; [apply L; exact H2|]. split; [exact H3|]. split; [exact H4|].
      intros (i & I1 & I2 & I3). apply H5. exists i. split; [apply L; exact I1|]. auto.
    - intros (x & n & y & H1 & H2 & H3 & H4 & H5). exists x, n, y. split; [exact H1|]. split; [apply L; exact H2|]. split; [exact H3|]. split; [exact H4|].
      intros (i & I1 & I2 & I3). apply H5. exists i. split; [apply L; exact I1|]. auto. }
  split; [intros name; apply A; reflexivity|]. split; apply A; reflexivity.
Qed.
Print Assumptions C247_hosts_partial.

(** No configuration line makes every mail fail: false of the code.  One blank piece in the last enlist_uri_host line, as a
    comma at its end leaves, and no rule on any mail gets an answer. *)
Theorem C247_blank_piece_refuted :
  forall escaped parse_net6 ip_address lim strict decode py_float lines en m before r,
    last_pieces lines ($"enlist_uri_host") en -> (exists p, In p en /\ words p = []) ->
    answer escaped parse_net6 ip_address lim strict decode (configured py_float lines) m before r = None.
Proof.
  intros escaped p6 ipa lim strict decode py_float lines en m before r P (p & Hp & W). unfold answer. rewrite start_ready.
  destruct (uri_lists _ _ _ _) as [h|] eqn:E; [|reflexivity]. exfalso.
  assert (X : exists p, uri_lists (last_split lines ($"enlist_uri_host")) (last_split lines ($"delist_uri_host"))
       (last_split lines ($"whitelist_uri_host")) (last_split lines ($"blacklist_uri_host")) = Some p) by eauto.
  apply hosts_some in X. rewrite Forall_forall in X. rewrite (last_split_unique _ _ _ P) in Hp. exact (X p Hp W).
Qed.
Print Assumptions C247_blank_piece_refuted.

(** ** Cases *)
Definition some_lines : list line :=
  [($"blacklist_from", $"*@spam.example  bad@example.org"); ($"report_safe", $"0"); ($"blacklist_from", $"evil.example");
   ($"whitelist_from_rcvd", $"*@bank.example mx.bank.example"); ($"whitelist_from_rcvd", $"*@shop.example mx.shop.example");
   ($"blacklist_uri_host", $"one.example"); ($"blacklist_uri_host", $"two.example three.example");
   ($"enlist_uri_host", $"(MINE) four.example")].
Definition a_mail (from : str) : list (str * str) := [($"From", from); ($"To", $"me@home.example")].
Definition asked (lines : list line) (from rdns : str) (uris : list str) (before : list lrule) (r : lrule) : option bool :=
  answers esc no6 ip4 900 true Some ex_float lines (a_mail from) [] [a_relay ($"192.0.2.1") rdns] [] uris before r.
(** The first of two lines does nothing: the bank is not whitelisted, the shop is; one.example is not on the list. *)
Theorem C246_every_line_refuted :
  (exists v, In ($"whitelist_from_rcvd", v) some_lines /\ entry_of v ($"*@bank.example") ($"mx.bank.example")) /\
  asked some_lines ($"it@bank.example") ($"mx.bank.example") [] [] (White InWhitelist) = Some false /\
  asked some_lines ($"it@shop.example") ($"mx.shop.example") [] [] (White InWhitelist) = Some true.
Proof.
  split; [|split; vm_compute; reflexivity]. eexists. split; [unfold some_lines; do 3 right; left; reflexivity|].
  eexists. split; [vm_compute; reflexivity|]. split; [left; reflexivity|]. vm_compute. tauto.
Qed.
Print Assumptions C246_every_line_refuted.
Theorem C247_every_line_refuted :
  In ($"blacklist_uri_host", $"one.example") some_lines /\
  asked some_lines ($"a@b.example") ($"mx") [$"http://one.example"] [] HostBlack = Some false /\
  asked some_lines ($"a@b.example") ($"mx") [$"http://three.example"] [] HostBlack = Some true.
Proof. split; [vm_compute; tauto|]. split; vm_compute; reflexivity. Qed.
Print Assumptions C247_every_line_refuted.

Definition mailbox_of (l d : str) : list entry := [One (Plain (Addr (Atom l) (d ++ $".example")))].
Example C245_case :
  let before := [White ForgedInWhitelist; FromIn ($"whitelist_from"); HostWhite] in
  fair esc 900 Some some_lines (a_mail ($"x@spam.example")) 
    (fun h => if streqb h ($"From") then [mailbox_of ($"x") ($"spam")] else if streqb h ($"To") then [mailbox_of ($"me") ($"home")] else []) before /\
  asked some_lines ($"x@spam.example") ($"mx") [] before FromBlack = Some true /\
  asked some_lines ($"x@mail.evil.example") ($"mx") [] before (FromIn ($"blacklist_from")) = Some false /\
  asked some_lines ($"x@evil.example") ($"mx") [] before (FromIn ($"blacklist_from")) = Some true /\
  asked some_lines ($"x@evil.example") ($"mx") [] before (FromIn ($"my_list")) = None /\
  asked some_lines ($"x@evil.example") ($"mx") [$"http://www.four.example"] before (HostListed ($"MINE")) = Some true /\
  asked (some_lines ++ [($"enlist_uri_host", $"(MINE) four.example,")]) ($"x@evil.example") ($"mx") [] [] ToAllSpam = None.
Proof.
  intros before. split; [|repeat split; vm_compute; reflexivity]. split; [exact esc_right|]. split; [lia|]. split.
  - intros h Hh. unfold address_headers in Hh. cbn [In] in Hh.
    assert (G : forall l d, good_atom l -> good_atom (d ++ $".example") -> Forall well_written [mailbox_of l d]).
    { intros l d Hl Hd. constructor; [|constructor]. split; [discriminate|]. constructor; [|constructor]. split; assumption. }
    repeat (destruct Hh as [<-|Hh]; [split; [vm_compute; reflexivity|];
      first [apply (G ($"x") ($"spam")); apply atom_good; reflexivity | apply (G ($"me") ($"home")); apply atom_good; reflexivity | constructor]|]). contradiction.
  - split; [|repeat constructor; vm_compute; tauto]. intros en P. rewrite (last_split_unique _ _ _ P). vm_compute. repeat constructor. discriminate.
Qed.
