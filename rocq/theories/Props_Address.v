(** Property theorems about the addresses and names of headers: C231-C236.  [lim] is how deeply Python lets brackets and
    groups nest (see PyAddr), [strict] which of the two parsers of the library is used; where a theorem does not say
    otherwise it holds for both. *)
From Verif Require Import PyStr PyDict PyAddr Model_Rules Model_Headers Spec_Headers Model_Wlbl Model_Address Spec_Address
  Proofs_AddressMsg.

(** C231. A header that lists addresses the way people write them gives exactly these addresses, in order; the first
    one of each value, and the first name of each value, are found.  It holds whatever was looked up before. *)
Theorem C231_addresses :
  forall lim strict decode fields history n ess,
    1 <= lim -> show decode (values_of n fields) ess ->
    get_all_addr_header lim strict decode n (lookups decode history (fresh_h fields)) = Some (flat_map addresses_in ess) /\
    get_addr_header lim strict decode n (lookups decode history (fresh_h fields)) =
      Some (flat_map (fun es => firstn 1 (addresses_in es)) ess) /\
    get_name_header lim strict decode n (lookups decode history (fresh_h fields)) =
      Some (flat_map (fun es => firstn 1 (names_in es)) ess).
Proof. intros. split; [|split]; [now apply msg_all|now apply msg_first|now apply msg_names]. Qed.
Print Assumptions C231_addresses.

(** A rule on the address ([From:addr =~ ...]) or on the name ([From:name =~ ...]) hits exactly when its pattern matches
    the first address, or the first name, some value of the header shows. *)
Theorem C231_rule :
  forall re_compile lim strict decode fields history b1 n b2 pat search (md : str) (pick : list entry -> list str) ess,
    (md = $":addr" /\ pick = addresses_in) \/ (md = $":name" /\ pick = names_in) ->
    plain_name n -> blank b1 -> blank b2 -> perl2re re_compile pat = ReOk search ->
    1 <= lim -> show decode (values_of n fields) ess ->
    exists r hit, header_rule re_compile (b1 ++ (n ++ md) ++ b2 ++ $"=~" ++ pat) = HOk r /\
      hrule_match decode (getaddresses lim strict) r (lookups decode history (fresh_h fields)) = Returns (VBool hit) /\
      (hit = true <-> exists es t, In es ess /\ firstn 1 (pick es) = [t] /\ search t = true).
Proof. exact shown_rule. Qed.
Print Assumptions C231_rule.

Definition tom : address := Addr (Atom ($"tom")) ($"example.com").
Definition ann : address := Addr (Quoted ($"ann, the ""boss""")) ($"mail.example.org").
Definition bob : address := Addr (Atom ($"bob.b")) ($"example.net").
Definition letter_to : list entry :=
  [One (Named (Atom ($"Tom")) [Quoted ($"Smith, <jr@x>")] tom); Group (Atom ($"Staff")) [] [Plain ann; Remarked bob ($"on leave")];
   Group (Quoted ($"undisclosed: recipients")) [] []].
Lemma atom_good t : (match t with [] => false | _ => true end) && forallb (fun c => negb (is_space c) && negb (mem_char c ($"()<>@,:;""\[]"))) t = true -> good_atom t.
Proof.
  intros H. apply andb_true_iff in H as [H1 H2]. split; [destruct t; congruence|]. apply Forall_forall. intros c Hc. rewrite forallb_forall in H2.
  specialize (H2 c Hc). apply andb_true_iff in H2 as [H2 H3]. apply negb_true_iff in H2, H3. split; [exact H2|]. intros X. apply mem_char_In in X. congruence.
Qed.
Lemma tom_good : good_address tom. Proof. split; apply atom_good; reflexivity. Qed.
Lemma ann_good : good_address ann. Proof. split; [split; vm_compute; intuition discriminate|apply atom_good; reflexivity]. Qed.
Lemma bob_good : good_address bob. Proof. split; apply atom_good; reflexivity. Qed.
Example C231_case :
  well_written letter_to /\
  header_text letter_to =
    $"Tom ""Smith, <jr@x>"" <tom@example.com>, Staff: ""ann, the \""boss\""""@mail.example.org, bob.b@example.net (on leave);, ""undisclosed: recipients"": ;" /\
  addresses_in letter_to = [$"tom@example.com"; $"""ann, the \""boss\""""@mail.example.org"; $"bob.b@example.net"] /\
  names_in letter_to = [$"Tom Smith, <jr@x>"; $"on leave"] /\
  show Some (values_of ($"to") [($"To", header_text letter_to); ($"Cc", $"x")]) [letter_to] /\
  getaddresses 1 true (header_text letter_to) =
    Some [($"Tom Smith, <jr@x>", $"tom@example.com"); ([], $"""ann, the \""boss\""""@mail.example.org");
          ($"on leave", $"bob.b@example.net"); ([], [])].
Proof.
  assert (W : well_written letter_to).
  { split; [discriminate|]. constructor; [|constructor; [|constructor; [|constructor]]].
    - split; [apply atom_good; reflexivity|]. split; [|exact tom_good]. constructor; [vm_compute; intuition discriminate|constructor].
    - split; [|split; [constructor|]].
      + apply atom_good. reflexivity.
      + constructor; [exact ann_good|constructor; [|constructor]]. split; [exact bob_good|].
        intros c Hc. vm_compute in Hc. vm_compute. intuition (subst; discriminate).
    - split; [|split; constructor]. vm_compute. intuition discriminate. }
  split; [exact W|]. split; [reflexivity|]. split; [reflexivity|]. split; [reflexivity|]. split; [|vm_compute; reflexivity].
  split; [reflexivity|]. constructor; [exact W|constructor].
Qed.

(** C232. Whatever a header contains, its addresses are read without an exception: true when the header has no more
    opening brackets and colons than calls may nest. *)
Theorem C232_total_partial :
  forall lim strict decode fields history n,
    1 <= lim -> (forall v d, In v (values_of n fields) -> decode v = Some d -> openings d <= lim) ->
    (exists l, get_all_addr_header lim strict decode n (lookups decode history (fresh_h fields)) = Some l) /\
    (exists l, get_addr_header lim strict decode n (lookups decode history (fresh_h fields)) = Some l) /\
    (exists l, get_name_header lim strict decode n (lookups decode history (fresh_h fields)) = Some l).
Proof. exact msg_total. Qed.
Print Assumptions C232_total_partial.
Example C232_case : openings ($"a <b@c:(((") <= 900 /\
  getaddresses 900 false ($"a <b@c:(((") = Some [($"a", $"b@c")] /\ getaddresses 900 true ($"a <b@c:(((") = Some [([], [])].
Proof. split; [vm_compute; repeat constructor|split; vm_compute; reflexivity]. Qed.
(** It is false of the code for any limit: a header of brackets inside one another makes reading its addresses raise. *)
Theorem C232_refuted :
  forall lim strict history, let header := repeat 40%N (S (S lim)) ++ repeat 41%N (S (S lim)) in
    let m := lookups Some history (fresh_h [($"From", header)]) in
    get_all_addr_header lim strict Some ($"From") m = None /\ get_addr_header lim strict Some ($"From") m = None /\
    get_name_header lim strict Some ($"From") m = None /\ awl_from lim strict Some m = None.
Proof.
  intros lim strict ks header m. unfold awl_from, get_all_addr_header, get_addr_header, get_name_header, addr_values, m.
  rewrite decoded_fresh. change (values_of ($"From") [($"From", header)]) with [header]. cbn [map collect].
  unfold header. pose proof (nested_raises lim strict) as H. unfold nested in H. rewrite H. auto.
Qed.
Print Assumptions C232_refuted.

(** C233. No address is made up: the addresses found in a header, one after the other, are what remains of its text when
    characters are left out.  (Quotes, backslashes and square brackets do not count: the parser writes them anew.) *)
Theorem C233_from_text :
  forall lim strict decode fields history n texts l,
    map decode (values_of n fields) = map Some texts ->
    get_all_addr_header lim strict decode n (lookups decode history (fresh_h fields)) = Some l ->
    subsequence (without_marks (concat l)) (concat texts).
Proof. exact msg_from_text. Qed.
Print Assumptions C233_from_text.
Example C233_case :
  get_all_addr_header 9 false Some ($"From") (fresh_h [($"From", $"x (y) ""a""@b.c, <@r1,@r2:d@e> z@@")]) = Some [$"x  ""a""@b.c"; $"@r2"; $"d@e"].
Proof. vm_compute. reflexivity. Qed.

(** C234. The address of a mailbox is the one in angle brackets: false of the code when a second address stands where the
    name belongs.  With the older parser the address shown as the name comes first, so rules on the address, the score
    history and white lists see it instead of the real one.  With the newer one there is no address at all, so no entry
    of a black list can match. *)
Theorem C234_refuted :
  forall lim history shown real, good_address shown -> good_address real ->
    let m := lookups Some history (fresh_h [($"From", spoof shown real)]) in
    get_addr_header lim false Some ($"From") m = Some [address_text shown] /\
    awl_from lim false Some m = Some (address_text shown) /\
    senders lim false Some m = [address_text shown; address_text real] /\
    get_addr_header lim true Some ($"From") m = Some [] /\
    (forall escaped entries, check_in escaped entries (senders lim true Some m) = Some false).
Proof.
  intros lim ks shown real Hs Hr m.
  assert (V : map Some (values_of ($"From") [($"From", spoof shown real)]) = [Some (spoof shown real)]) by reflexivity.
  destruct (msg_spoof lim false Some _ ks ($"From") shown real Hs Hr V) as [F1 F2].
  destruct (msg_spoof lim true Some _ ks ($"From") shown real Hs Hr V) as [T1 T2].
  assert (N : forall strict h, values_of h [($"From", spoof shown real)] = [] -> get_all_addr_header lim strict Some h m = Some []).
  { intros strict h E. unfold get_all_addr_header, m. rewrite decoded_fresh, E. reflexivity. }
  assert (S : forall strict, senders lim strict Some m = match get_all_addr_header lim strict Some ($"From") m with Some l => l | None => [] end).
  { intros strict. unfold senders, from_addresses, from_headers. cbn [map concat]. 
    rewrite (N strict ($"Resent-From")), (N strict ($"Envelope-Sender")), (N strict ($"X-Envelope-From")), (N strict ($"EnvelopeFrom"))
      by reflexivity. cbn [app].
    rewrite !app_nil_r. reflexivity. }
  fold m in F1, F2, T1, T2. split; [exact F2|]. split; [unfold awl_from; now rewrite F2|]. split; [rewrite S; now rewrite F1|].
  split; [exact T2|]. intros escaped entries. rewrite S, T1. reflexivity.
Qed.
Print Assumptions C234_refuted.
Example C234_case : good_address tom /\ good_address bob /\ spoof tom bob = $"tom@example.com <bob.b@example.net>".
Proof. split; [exact tom_good|split; [exact bob_good|reflexivity]]. Qed.
(** With a name that is not an address, or one between quotes, the address in angle brackets is the only one. *)
Theorem C234_named_partial :
  forall lim strict decode fields history n w ws real,
    1 <= lim -> good_word w -> Forall good_word ws -> good_address real ->
    map decode (values_of n fields) = [Some (words_text w ws ++ $" <" ++ address_text real ++ $">")] ->
    get_all_addr_header lim strict decode n (lookups decode history (fresh_h fields)) = Some [address_text real] /\
    get_addr_header lim strict decode n (lookups decode history (fresh_h fields)) = Some [address_text real].
Proof.
  intros lim strict decode fields ks n w ws real Hl Hw Hws Hr E.
  assert (S : show decode (values_of n fields) [[One (Named w ws real)]]).
  { split; [exact E|]. constructor; [|constructor]. split; [discriminate|]. constructor; [|constructor]. repeat split; auto; apply Hr. }
  split; [now rewrite (msg_all _ _ _ _ _ _ _ Hl S)|now rewrite (msg_first _ _ _ _ _ _ _ Hl S)].
Qed.
Print Assumptions C234_named_partial.
Example C234_named_case :
  good_word (Quoted ($"tom@example.com")) /\
  words_text (Quoted ($"tom@example.com")) [] ++ $" <" ++ address_text bob ++ $">" = $"""tom@example.com"" <bob.b@example.net>".
Proof. split; [vm_compute; intuition discriminate|reflexivity]. Qed.

(** C235. Which headers the senders and the recipients of a message are taken from, for headers that list addresses the
    way people write them. *)
Theorem C235_all_from :
  forall lim strict decode fields history sender (ess : str -> list (list entry)),
    1 <= lim ->
    (forall h, In h [$"From"; $"Envelope-Sender"; $"Resent-Sender"; $"X-Envelope-From"; $"EnvelopeFrom"; $"Resent-From"] ->
       show decode (values_of h fields) (ess h)) ->
    let of h := flat_map addresses_in (ess h) in
    get_all_from_headers_addr lim strict decode sender (lookups decode history (fresh_h fields)) =
    Some (of ($"From") ++ of ($"Envelope-Sender") ++ of ($"Resent-Sender") ++ of ($"X-Envelope-From") ++
          match sender with [] => of ($"EnvelopeFrom") | _ => [sender] end ++ of ($"Resent-From")).
Proof.
  intros lim strict decode fields ks sender ess Hl H of. rewrite (msg_from_headers lim strict decode fields ks sender ess Hl H).
  unfold all_from_headers. cbn [flat_map]. unfold of. rewrite app_nil_r. destruct sender; reflexivity.
Qed.
Print Assumptions C235_all_from.
Theorem C235_senders :
  forall lim strict decode fields history (ess : str -> list (list entry)),
    1 <= lim ->
    (forall h, In h [$"From"; $"Envelope-Sender"; $"Resent-From"; $"X-Envelope-From"; $"EnvelopeFrom"] ->
       show decode (values_of h fields) (ess h)) ->
    let of h := flat_map addresses_in (ess h) in
    (of ($"Resent-From") <> [] ->
       senders lim strict decode (lookups decode history (fresh_h fields)) = of ($"Resent-From")) /\
    (of ($"Resent-From") = [] ->
       senders lim strict decode (lookups decode history (fresh_h fields)) =
       of ($"From") ++ of ($"Envelope-Sender") ++ of ($"X-Envelope-From") ++ of ($"EnvelopeFrom")) /\
    awl_from lim strict decode (lookups decode history (fresh_h fields)) = Some (hd [] (of ($"From"))).
Proof.
  intros lim strict decode fields ks ess Hl H of. rewrite (msg_senders lim strict decode fields ks ess Hl H). fold (of ($"Resent-From")).
  split; [|split].
  - intros N. destruct (of ($"Resent-From")); [contradiction|reflexivity].
  - intros E. rewrite E. unfold from_headers. cbn [flat_map]. fold (of ($"Resent-From")). rewrite E, app_nil_r. reflexivity.
  - apply msg_awl; [exact Hl|]. apply H. left. reflexivity.
Qed.
Print Assumptions C235_senders.
Theorem C235_recipients :
  forall lim strict decode fields history (ess : str -> list (list entry)),
    1 <= lim ->
    let names := [$"To"; $"Resent-To"; $"Resent-Cc"; $"Apparently-To"; $"Delivered-To"; $"Envelope-Recipients";
                  $"Apparently-Resent-To"; $"X-Envelope-To"; $"Envelope-To"; $"X-Delivered-To"; $"X-Original-To"; $"X-Rcpt-To";
                  $"X-Real-To"; $"Cc"] in
    (forall h, In h names -> show decode (values_of h fields) (ess h)) ->
    let of h := flat_map addresses_in (ess h) in
    let resent := of ($"Resent-To") ++ of ($"Resent-Cc") in
    (resent <> [] -> recipients lim strict decode (lookups decode history (fresh_h fields)) = resent) /\
    (resent = [] -> recipients lim strict decode (lookups decode history (fresh_h fields)) = flat_map of names).
Proof.
  intros lim strict decode fields ks ess Hl names H of resent. rewrite (msg_recipients lim strict decode fields ks ess Hl H).
  fold (of ($"Resent-To")). fold (of ($"Resent-Cc")). fold resent. split.
  - intros N. destruct resent; [contradiction|reflexivity].
  - intros E. rewrite E. reflexivity.
Qed.
Print Assumptions C235_recipients.
Definition only (h : str) (es : list entry) : str -> list (list entry) := fun n => if streqb n h then [es] else [].
Example C235_case :
  let fields := [($"from", $"tom@example.com"); ($"Cc", $"bob.b@example.net, tom@example.com")] in
  (forall h, In h [$"From"; $"Envelope-Sender"; $"Resent-From"; $"X-Envelope-From"; $"EnvelopeFrom"; $"Resent-Sender"] ->
     show Some (values_of h fields) (only ($"From") [One (Plain tom)] h)) /\
  senders 900 true Some (fresh_h fields) = [$"tom@example.com"] /\
  recipients 900 true Some (fresh_h fields) = [$"bob.b@example.net"; $"tom@example.com"] /\
  get_all_from_headers_addr 900 true Some ($"ann@example.org") (fresh_h fields) = Some [$"tom@example.com"; $"ann@example.org"].
Proof.
  intros fields. split; [|repeat split; vm_compute; reflexivity]. intros h Hh.
  repeat (destruct Hh as [<-|Hh]; [split; [vm_compute; reflexivity|]; unfold only; cbn [In];
    match goal with |- context [if ?b then _ else _] => let v := eval vm_compute in b in change b with v end; cbv iota;
    first [constructor; [split; [discriminate|constructor; [exact tom_good|constructor]]|constructor] | constructor]|]); contradiction.
Qed.

(** C236. A header that cannot be decoded has no address: false of the code, it has the address None. *)
Theorem C236_refuted :
  forall lim strict decode fields history n v,
    values_of n fields = [v] -> decode v = None ->
    get_all_addr_header lim strict decode n (lookups decode history (fresh_h fields)) = Some [$"None"] /\
    get_addr_header lim strict decode n (lookups decode history (fresh_h fields)) = Some [$"None"].
Proof.
  intros lim strict decode fields ks n v E D. unfold get_all_addr_header, get_addr_header, addr_values. rewrite decoded_fresh, E.
  cbn [map collect]. rewrite D, none_addresses. split; reflexivity.
Qed.
Print Assumptions C236_refuted.
Example C236_case : values_of ($"From") [($"FROM", $"=?utf-8?q?=ff?= <a@b>")] = [$"=?utf-8?q?=ff?= <a@b>"].
Proof. reflexivity. Qed.
