(** Theorems about URI checks (C50, C85-C88). *)
From Verif Require Import PyStr PyDict Model_Uri Spec_Uri Proofs_Uri.

(** C50: the search for redirect targets ends for every URI: the model's fuel, the
    length of the URI plus one, is never used up. *)
Theorem C50_terminates : forall uris, check_for_http_redirector uris <> OutOfFuel.
Proof. exact check_terminates. Qed.
Print Assumptions C50_terminates.
(** A hit means that some URI contains a web address with a second web address of
    another host inside. *)
Theorem C50_sound : forall uris, check_for_http_redirector uris = Hit ->
  exists u x v y a b ha hb, In u uris /\ u = x ++ v ++ y /\ embeds v a b /\ netloc a = Some ha /\ netloc b = Some hb /\ ha <> hb.
Proof. exact check_sound. Qed.
Print Assumptions C50_sound.
(** The URIs of a message are judged one by one. *)
Theorem C50_list : forall uris, (forall u, In u uris -> check_for_http_redirector [u] <> Raises) ->
  (check_for_http_redirector uris = Hit <-> exists u, In u uris /\ check_for_http_redirector [u] = Hit).
Proof. exact check_list. Qed.
Print Assumptions C50_list.
(** An address with one address inside hits exactly when the hosts differ. *)
Theorem C50_two_hosts : forall s1 s2 h1 h2 p t, host_name h1 -> host_name h2 ->
  contains ($"http") p = false -> (forall c, In c p -> c <> 10%N) ->
  (t = [] \/ exists t', t = $"/" ++ t') -> contains ($"http") (h2 ++ t) = false -> (forall c, In c t -> c <> 10%N) ->
  (check_for_http_redirector [scheme s1 ++ h1 ++ $"/" ++ p ++ scheme s2 ++ h2 ++ t] = Hit <-> h1 <> h2) /\
  (check_for_http_redirector [scheme s1 ++ h1 ++ $"/" ++ p ++ scheme s2 ++ h2 ++ t] = NoHit <-> h1 = h2).
Proof.
  intros s1 s2 h1 h2 p t A B C D E F G. rewrite (two_hosts s1 s2 h1 h2 p t A B C D E F G).
  destruct (streqb_spec h1 h2); split; split; try discriminate; try reflexivity; try congruence.
Qed.
Print Assumptions C50_two_hosts.
Example C50_hit : check_for_http_redirector [$"http://ok.com/http://ok.com/b"; $"http://go.com/?u=https://bad.com/x"] = Hit.
Proof. vm_compute. reflexivity. Qed.
Example C50_host : host_name ($"go.com").
Proof. split; [discriminate|]. intros c Hc. vm_compute in Hc |- *. intuition congruence. Qed.
(** An unbalanced bracket in a host makes the check raise. *)
Example C50_raises : check_for_http_redirector [$"http://[a/http://b"] = Raises.
Proof. vm_compute. reflexivity. Qed.

Definition plain_link (u : str) : item := mkItem u ($"http") u ($"x") None.

(** C85: in a document whose anchors contain only text, every address an anchor leads to
    is listed with exactly the texts of its anchors, in order, and nothing else is listed.
    Missing: tags inside an anchor, and anchors without an address after a link element,
    see below. *)
Theorem C85_document_partial : forall parse_link doc, (forall b, In b doc -> block_ok b) ->
  exists links, collect parse_link (concat (map block_events doc)) = Some links /\
  forall u, ((exists b, In b doc /\ leads_to u b) ->
              exists e, dget u links = Some e /\ dkeys e = [$"a"] /\ dget ($"a") e = Some (with_text (texts_of u doc) (parse_link u))) /\
            ((forall b, In b doc -> ~ leads_to u b) -> dget u links = None).
Proof. exact collect_document. Qed.
Print Assumptions C85_document_partial.
(** The URIs of the plain text are added unless a tag gave them. *)
Theorem C85_other_uris : forall parse_link events uris links0 links,
  collect parse_link events = Some links0 -> all_links parse_link events uris = Some links ->
  forall u, dget u links = match dget u links0 with
                           | Some e => Some e
                           | None => if mem_str u uris then Some [($"parsed", parse_link u)] else None
                           end.
Proof. exact all_links_spec. Qed.
Print Assumptions C85_other_uris.
Definition a_doc : list block :=
  [Between ($"see"); Anchor ($"http://x/") [$"one"; $"two"]; OtherTag ($"b") [($"href", $"no")] [$"bold"]; Anchor ($"http://y/") []; Anchor ($"http://x/") [$"three"]].
Example C85_doc_ok : (forall b, In b a_doc -> block_ok b) /\ texts_of ($"http://x/") a_doc = [$"one"; $"two"; $"three"].
Proof.
  split; [|reflexivity]. intros b [<-|[<-|[<-|[<-|[<-|[]]]]]]; cbn [block_ok]; repeat split; try discriminate; intros H;
    repeat (destruct H as [H|H]; [discriminate|]); exact H.
Qed.
(** Every end tag ends the link: the text after an element inside an anchor is lost. *)
Theorem C85_nested_refuted :
  option_map (dget ($"u")) (collect plain_link [StartTag ($"a") [($"href", $"u")]; Data ($"x"); StartTag ($"b") []; Data ($"y"); EndTag ($"b"); Data ($"z"); EndTag ($"a")])
  = Some (Some [($"a", with_text [$"x"; $"y"] (plain_link ($"u")))]).
Proof. vm_compute. reflexivity. Qed.
Print Assumptions C85_nested_refuted.
(** An anchor without an address after a link element stops the analysis with an error. *)
Theorem C85_named_anchor_refuted :
  collect plain_link [StartTag ($"link") [($"href", $"u")]; StartTag ($"a") [($"name", $"top")]; Data ($"x")] = None.
Proof. vm_compute. reflexivity. Qed.
Print Assumptions C85_named_anchor_refuted.

(** C86: the check for a disguised address hits only if an anchor leads to an address
    while its text shows a secure web address with a host name. *)
Theorem C86_sound : forall is_ip url_netloc links, (forall u : str, url_netloc u <> None) ->
  check_https_ip_mismatch is_ip url_netloc links = Hit -> exists u e, In (u, e) links /\ mismatch is_ip url_netloc e.
Proof. exact mismatch_sound. Qed.
Print Assumptions C86_sound.
(** Every such link is found.  Missing: messages with an anchor that leads to a host
    name; see below. *)
Theorem C86_found_partial : forall is_ip url_netloc links, (forall u : str, url_netloc u <> None) ->
  (forall u e i, In (u, e) links -> dget ($"a") e = Some i -> is_ip (i_domain i) = true) ->
  (exists u e, In (u, e) links /\ mismatch is_ip url_netloc e) -> check_https_ip_mismatch is_ip url_netloc links = Hit.
Proof. exact mismatch_complete. Qed.
Print Assumptions C86_found_partial.
Definition ip_only (d : str) : bool := streqb d ($"1.2.3.4").
Definition host_of (u : str) : option str := match netloc u with Some h => Some h | None => Some [] end.
Definition bad_link : dict item := [($"a", mkItem ($"http://1.2.3.4/") ($"http") ($"http://1.2.3.4/") ($"1.2.3.4") (Some [$"Go to https://bank.com now"]))].
Definition fine_link : dict item := [($"a", mkItem ($"http://ok.com/") ($"http") ($"http://ok.com/") ($"ok.com") (Some [$"ok"]))].
Example C86_bad : mismatch ip_only host_of bad_link /\ check_https_ip_mismatch ip_only host_of [($"http://1.2.3.4/", bad_link)] = Hit.
Proof.
  split; [|reflexivity]. exists (mkItem ($"http://1.2.3.4/") ($"http") ($"http://1.2.3.4/") ($"1.2.3.4") (Some [$"Go to https://bank.com now"])).
  split; [reflexivity|]. split; [reflexivity|]. exists ($"Go to https://bank.com now"), ($"https://bank.com"), ($"bank.com").
  split; [now left|]. split; [vm_compute; tauto|]. split; [reflexivity|]. split; reflexivity.
Qed.
(** The first anchor that leads to a host name ends the check. *)
Theorem C86_order_refuted :
  mismatch ip_only host_of bad_link /\
  check_https_ip_mismatch ip_only host_of [($"http://ok.com/", fine_link); ($"http://1.2.3.4/", bad_link)] = NoHit /\
  check_https_ip_mismatch ip_only host_of [($"http://1.2.3.4/", bad_link); ($"http://ok.com/", fine_link)] = Hit.
Proof. split; [apply C86_bad|]. split; reflexivity. Qed.
Print Assumptions C86_order_refuted.

(** C87: over-long URIs are reported exactly when an anchor or link element leads to a
    URI of more than 8192 characters. *)
Theorem C87_truncated : forall links, check_uri_truncated links = true <->
  exists u e t, In (u, e) links /\ In t (dkeys e) /\ (t = $"a" \/ t = $"link") /\ (8192 < N.of_nat (length u))%N.
Proof. exact truncated_spec. Qed.
Print Assumptions C87_truncated.
Example C87_long : check_uri_truncated [(repeat 97%N (N.to_nat 8193), [($"a", plain_link [])])] = true /\
                   check_uri_truncated [(repeat 97%N (N.to_nat 8192), [($"a", plain_link [])])] = false.
Proof. split; vm_compute; reflexivity. Qed.

(** C88: a uri_detail rule without a condition on the text hits exactly when one link has
    all the fields named and each matches its expression.  Missing: conditions on the
    text, see below. *)
Theorem C88_detail_partial : forall pattern re_match patterns links, (forall re : pattern, ~ In ($"text", re) patterns) ->
  exists b, match_links pattern re_match patterns links = Some b /\
    (b = true <-> exists u e t i, In (u, e) links /\ In (t, i) e /\
       forall key re, In (key, re) patterns -> exists s, field_of key i = Text s /\ re_match re s = true).
Proof. exact match_links_spec. Qed.
Print Assumptions C88_detail_partial.
Example C88_hit : match_links str (fun re s => contains re s) [($"domain", $"ok"); ($"scheme", $"http")] [($"http://ok.com/", fine_link)] = Some true /\
  match_links str (fun re s => contains re s) [($"domain", $"ok"); ($"scheme", $"ftp")] [($"http://ok.com/", fine_link)] = Some false.
Proof. split; vm_compute; reflexivity. Qed.
(** A condition on the text of a link gives the list of texts to a regular expression,
    which raises, whatever the expression. *)
Theorem C88_text_refuted : forall pattern re_match re u, match_links pattern re_match [($"text", re)] [(u, fine_link)] = None.
Proof. reflexivity. Qed.
Print Assumptions C88_text_refuted.
