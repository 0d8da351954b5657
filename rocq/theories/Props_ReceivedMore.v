(** Theorems C182-C186: the greeting, identification and authentication that Received headers state. *)
From Coq Require Import Lia.
From Verif Require Import PyStr Regexp Model_Received Spec_Received Spec_Template Spec_ReceivedFields Proofs_Template Proofs_Provider Proofs_ReceivedMore Props_Received.
From Verif Require Model_Relays Proofs_ReceivedFields.
Open Scope nat_scope.

(** The text of a header that names its sender: words separated by single spaces, no semicolon. *)
Definition plain_text (h : str) : Prop :=
  tidy h /\ ~ In 59%N h /\ (exists c t, h = c :: t /\ is_space c = false) /\ forall z, h <> $"X-ORIGINATING-IP" ++ z.
Lemma plain_fields udigit uword h date r : plain_text h -> is_date date -> parse_received udigit uword [received_header h date] = [r] ->
  r = Model_Relays.mkRelay (get_rdns udigit uword h) (get_ip udigit uword h) (get_by udigit uword h) (get_helo udigit uword h)
        (get_ident udigit uword h) (get_id udigit uword h) (get_envfrom udigit uword h) (get_auth udigit uword h) false None.
Proof.
  intros (Ht & H59 & (c0 & t0 & Hh & Hc0) & Hx) Hd H. apply (Proofs_ReceivedFields.parse_fields udigit uword h date r Ht H59); [subst h; exact Hc0|exact Hd|exact Hx|exact H].
Qed.
Lemma plain_newline h : plain_text h -> ~ In 10%N h.
Proof. intros H. apply Proofs_ReceivedFields.tidy_newline, H. Qed.

(** C182: a greeting inside a remark is the HELO name. *)
Theorem C182_greeting : forall udigit uword h date r w, plain_text h -> is_date date ->
  parse_received udigit uword [received_header h date] = [r] -> greets_inside w h -> Model_Relays.rl_helo r = w.
Proof. intros ud uw h date r w P D H G. rewrite (plain_fields ud uw h date r P D H). apply greeting_value; [apply plain_newline, P|exact G]. Qed.
Print Assumptions C182_greeting.
(** C183: the identification. *)
Theorem C183_ident : forall udigit uword h date r w, plain_text h -> is_date date ->
  parse_received udigit uword [received_header h date] = [r] -> states_ident w h -> Model_Relays.rl_ident r = w.
Proof. intros ud uw h date r w P D H G. rewrite (plain_fields ud uw h date r P D H). apply ident_value; [apply plain_newline, P|exact G]. Qed.
Print Assumptions C183_ident.
Theorem C183_sender : forall udigit uword h date r w, plain_text h -> is_date date ->
  parse_received udigit uword [received_header h date] = [r] -> sends_as w h -> Model_Relays.rl_ident r = w.
Proof. intros ud uw h date r w P D H G. rewrite (plain_fields ud uw h date r P D H). apply sender_value; [apply plain_newline, P|exact G]. Qed.
Print Assumptions C183_sender.
(** C184: the marks of authentication other than the protocol. *)
Theorem C184_table : forall udigit uword h date r a, plain_text h -> is_date date ->
  parse_received udigit uword [received_header h date] = [r] -> without protocol_marks h -> auth_of uword h a -> Model_Relays.rl_auth r = a.
Proof. intros ud uw h date r w P D H N G. rewrite (plain_fields ud uw h date r P D H). apply auth_table; [apply P|exact N|exact G]. Qed.
Print Assumptions C184_table.
(** C185: no reverse name is reported for a server that is said to have none. *)
Theorem C185_nameless : forall udigit uword name a b c d rest date r, let h := nameless name (quad a b c d) rest in
  word name -> bytes a b c d -> plain_text h -> is_date date ->
  parse_received udigit uword [received_header h date] = [r] -> Model_Relays.rl_rdns r = [].
Proof. intros ud uw name a b c d rest date r h W B P D H. rewrite (plain_fields ud uw h date r P D H). apply nameless_rdns; assumption. Qed.
Print Assumptions C185_nameless.
(** C186: a header that does not begin with the sender lists no relay. *)
Theorem C186_unlisted : forall udigit uword before raw after,
  (forall t, raw <> $"from" ++ t) -> (forall t, raw <> $"X-ORIGINATING-IP" ++ t) ->
  parse_received udigit uword (before ++ raw :: after) = parse_received udigit uword (before ++ after).
Proof.
  intros ud uw before raw after A B. change (raw :: after) with ([raw] ++ after). rewrite !Proofs_Received.parse_app, (unlisted ud uw raw A B). reflexivity.
Qed.
Print Assumptions C186_unlisted.

(** ** Cases *)
Definition ad := ascii_digit. Definition aw := ascii_word.
Lemma plain_check h : (fix f (b : bool) (s : str) := match s with [] => true | c :: r => if is_space c then N.eqb c 32 && negb b && f true r else f false r end) false h = true ->
  mem_char 59 h = false -> match h with c :: _ => is_space c = false | [] => False end -> startswith ($"X-ORIGINATING-IP") h = false -> plain_text h.
Proof.
  intros A B C D. split; [apply tidy_check, A|]. split; [apply no_char_check, B|]. split; [destruct h as [|c t]; [destruct C|exists c, t; auto]|].
  intros z E. assert (K : startswith ($"X-ORIGINATING-IP") h = true) by (apply startswith_app; exists z; exact E). congruence.
Qed.
Lemma only_check pre p h : filter (fun i => startswith p (skipn i h)) (seq 0 (S (length h))) = [length pre] -> firstn (length pre) h = pre -> only_at pre p h.
Proof.
  intros F E. assert (X : forall x y, h = x ++ p ++ y -> x = pre).
  { intros x y H. assert (I : In (length x) [length pre]).
    { rewrite <- F. apply filter_In. split; [apply in_seq; rewrite H, !app_length; lia|]. apply startswith_app. exists y.
      rewrite H, skipn_app, skipn_all, Nat.sub_diag. reflexivity. }
    destruct I as [I|[]]. rewrite <- E, I, H, firstn_app, firstn_all, Nat.sub_diag. cbn. rewrite app_nil_r. reflexivity. }
  split; [|exact X]. assert (I : In (length pre) (filter (fun i => startswith p (skipn i h)) (seq 0 (S (length h))))) by (rewrite F; left; reflexivity).
  apply filter_In in I as [_ I]. apply startswith_app in I as [y I]. exists y. rewrite <- (firstn_skipn (length pre) h), E, I. reflexivity.
Qed.
Definition remark : str := $"relay.example.net (account u@example.org HELO pc7.example.org) by mx.example.com with SMTP id 7".
Lemma positions_inj (h x x' y y' : str) : h = x ++ y -> h = x' ++ y' -> length x = length x' -> x = x'.
Proof. intros E E' L. rewrite E in E'. apply (same_length_split x x' y y' L) in E' as [E' _]. exact E'. Qed.
Definition greeting_at (h : str) (i : nat) : bool :=
  let w := firstn 6 (skipn i h) in mem_str (lower w) [$" helo "; $" ehlo "].
Example C182_case : exists r, parse_received ad aw [received_header remark ($"; Mon")] = [r] /\ plain_text remark /\ greets_inside ($"pc7.example.org") remark /\
  Model_Relays.rl_helo r = $"pc7.example.org".
Proof.
  eexists. split; [vm_compute; reflexivity|]. split; [apply plain_check; reflexivity|]. split; [|reflexivity].
  exists ($"relay.example.net"), ($"account"), ($" u@example.org"), ($"HELO"), ($"by mx.example.com with SMTP id 7").
  split; [reflexivity|]. split; [apply word_check; [discriminate|reflexivity]|]. split; [apply word_check; [discriminate|reflexivity]|].
  split; [apply no_char_check; reflexivity|]. split; [right; eexists; reflexivity|]. split; [left; reflexivity|]. split; [apply word_check; [discriminate|reflexivity]|].
  split; [apply no_char_check; reflexivity|]. split; [apply no_char_check; reflexivity|]. split; [apply no_char_check; reflexivity|].
  split; [apply without_check; reflexivity|].
  intros x k y E K. assert (L : length k = 4).
  { rewrite <- (map_length lower_char k). change (length (lower k) = 4). destruct K as [-> | ->]; reflexivity. }
  assert (I : In (length x) (filter (greeting_at remark) (seq 0 (S (length remark))))).
  { apply filter_In. split; [apply in_seq; rewrite E, !app_length; lia|]. unfold greeting_at. rewrite E at 1. rewrite skipn_app, skipn_all, Nat.sub_diag. cbn [skipn].
    destruct k as [|k1 [|k2 [|k3 [|k4 [|]]]]]; try discriminate L. change ([] ++ $" " ++ [k1; k2; k3; k4] ++ $" " ++ y) with (32 :: k1 :: k2 :: k3 :: k4 :: 32 :: y)%N.
    cbn [firstn]. apply mem_str_In. change (lower [32; k1; k2; k3; k4; 32]%N) with ($" " ++ lower [k1; k2; k3; k4] ++ $" ").
    destruct K as [-> | ->]; [left|right; left]; reflexivity. }
  assert (I' : In (length x) [40]) by (replace [40] with (filter (greeting_at remark) (seq 0 (S (length remark)))) by (vm_compute; reflexivity); exact I).
  destruct I' as [I'|[]].
  apply (positions_inj remark x _ _ ($" HELO pc7.example.org) by mx.example.com with SMTP id 7") E); [vm_compute; reflexivity|]. rewrite <- I'. vm_compute. reflexivity.
Qed.
Definition identified : str := $"pc.example.org ([192.0.2.7] ident=anna) by mx.example.com with SMTP id 7".
Definition writes_as : str := $"mx.example.com (anna@pc.example.org [192.0.2.7]) by mx.example.com with SMTP id 7".
Example C183_case : exists r r', parse_received ad aw [received_header identified []] = [r] /\ plain_text identified /\ states_ident ($"anna") identified /\
  Model_Relays.rl_ident r = $"anna" /\
  parse_received ad aw [received_header writes_as []] = [r'] /\ plain_text writes_as /\ sends_as ($"anna") writes_as /\ Model_Relays.rl_ident r' = $"anna".
Proof.
  eexists. eexists. split; [vm_compute; reflexivity|]. split; [apply plain_check; reflexivity|]. split; [|split; [reflexivity|]].
  - exists ($"pc.example.org ([192.0.2.7] "), ($" by mx.example.com with SMTP id 7"). split; [reflexivity|]. split; [apply word_check; [discriminate|reflexivity]|].
    split; [apply no_char_check; reflexivity|]. split; [right; eexists; reflexivity|]. apply only_check; vm_compute; reflexivity.
  - split; [vm_compute; reflexivity|]. split; [apply plain_check; reflexivity|]. split; [|reflexivity].
    exists ($"mx.example.com "), ($"pc.example.org [192.0.2.7]) by mx.example.com with SMTP id 7"). split; [reflexivity|]. split; [apply word_check; [discriminate|reflexivity]|].
    split; [apply contains_not; reflexivity|]. intros x u y E _.
    assert (O : only_at ($"mx.example.com ") ($"(") writes_as) by (apply only_check; vm_compute; reflexivity). destruct O as [_ O].
    pose proof (O x _ E) as ->. change writes_as with ($"mx.example.com " ++ $"(" ++ $"anna" ++ $"@" ++ $"pc.example.org [192.0.2.7]) by mx.example.com with SMTP id 7") in E.
    do 2 apply app_inv_head in E.
    assert (O2 : only_at ($"anna") ($"@") ($"anna" ++ $"@" ++ $"pc.example.org [192.0.2.7]) by mx.example.com with SMTP id 7")) by (apply only_check; vm_compute; reflexivity).
    destruct O2 as [_ O2]. exact (O2 u y E).
Qed.
Definition google_text : str := $"pc.example.org ([192.0.2.7]) by mx.google.com with ESMTPS id 7 (version=TLS1_2 cipher=ECDHE-RSA-AES128-GCM-SHA256 bits=128/128)".
Definition gmx_text : str := $"pc.example.org ([192.0.2.7]) by mail.gmx.com (mrgmx103) with ESMTP (Nemesis) id 7".
Definition named_text : str := $"pc.example.org ([192.0.2.7] verified) (authenticated as anna) by mx.example.com with SMTP id 7".
Lemma no_postfix h : contains ($"(Authenticated") h = false -> ~ has aw postfix_auth h.
Proof.
  intros N (l & x & w & y & [<-|[]] & E & F). apply contains_not in N. apply N. unfold postfix_auth in F.
  apply fits_app in F as (a & v & -> & _ & F). apply fits_app in F as (b & v2 & -> & _ & F). apply fits_app in F as (c & v3 & -> & F & _). apply fits_text in F as ->.
  exists (x ++ a ++ b), (v3 ++ y). rewrite E, <- !app_assoc. reflexivity.
Qed.
Example C184_case :
  (exists r, parse_received ad aw [received_header google_text []] = [r] /\ plain_text google_text /\ without protocol_marks google_text /\
    auth_of aw google_text (Model_Relays.rl_auth r) /\ Model_Relays.rl_auth r = $"GMail - transport=TLS1_2 cipher=ECDHE-RSA-AES128-GCM-SHA256 bits=128/128") /\
  (exists r, parse_received ad aw [received_header gmx_text []] = [r] /\ plain_text gmx_text /\ without protocol_marks gmx_text /\
    auth_of aw gmx_text (Model_Relays.rl_auth r) /\ Model_Relays.rl_auth r = $"GMX (ESMTP / mail.gmx.com)") /\
  (exists r, parse_received ad aw [received_header named_text []] = [r] /\ plain_text named_text /\ without protocol_marks named_text /\
    auth_of aw named_text (Model_Relays.rl_auth r) /\ Model_Relays.rl_auth r = $"CriticalPath").
Proof.
  split; [|split]; eexists; (split; [vm_compute; reflexivity|]); (split; [apply plain_check; reflexivity|]); (split; [apply without_check; vm_compute; reflexivity|]); (split; [|vm_compute; reflexivity]);
    cbn [Model_Relays.rl_auth].
  - apply (auth_gmail aw google_text ($"TLS1_2") ($"ECDHE-RSA-AES128-GCM-SHA256 bits=128/128")); [apply no_postfix; vm_compute; reflexivity|apply contains_occurs; vm_compute; reflexivity|].
    exists ($"pc.example.org ([192.0.2.7]) by mx.google.com with ESMTPS id 7"), []. split; [vm_compute; reflexivity|]. split; [apply only_check; vm_compute; reflexivity|].
    split; [discriminate|]. split; [apply no_char_check; reflexivity|]. split; [discriminate|apply no_char_check; reflexivity].
  - apply (auth_gmx aw gmx_text ($"ESMTP") ($"mail.gmx.com")); [apply no_postfix; vm_compute; reflexivity|apply contains_not; vm_compute; reflexivity|apply contains_not; vm_compute; reflexivity|].
    exists ($"pc.example.org ([192.0.2.7])"), ($"mrgmx103"), ($" (Nemesis) id 7"). split; [vm_compute; reflexivity|]. split; [right; reflexivity|]. split; [left; reflexivity|].
    split; [discriminate|]. split; [apply no_char_check; reflexivity|]. apply only_check; vm_compute; reflexivity.
  - apply (auth_user aw named_text); [apply no_postfix; vm_compute; reflexivity|apply contains_not; vm_compute; reflexivity|apply contains_not; vm_compute; reflexivity|].
    eexists _, ($"pc.example.org ([192.0.2.7] verified)"), ($" (authenticated as anna)"), ($" by mx.example.com with SMTP id 7"). split; [left; reflexivity|]. split; [vm_compute; reflexivity|].
    apply fits_app. eexists _, ($"anna)"). split; [|split; [apply fits_text; reflexivity|]]; [vm_compute; reflexivity|].
    apply fits_app. exists ($"anna"), ($")"). split; [vm_compute; reflexivity|]. split; [|apply fits_text; reflexivity].
    apply fits_some. split; [discriminate|]. intros c Hc. vm_compute in Hc. repeat (destruct Hc as [<-|Hc]; [reflexivity|]). destruct Hc.
Qed.
Example C185_case : exists r, let h := nameless ($"pc.example.org") (quad 192 0 2 7) ($" (using TLSv1 with cipher x) by mx.example.com (Postfix) with ESMTPS id 7") in
  parse_received ad aw [received_header h []] = [r] /\ plain_text h /\ Model_Relays.rl_rdns r = [] /\ Model_Relays.rl_helo r = $"pc.example.org".
Proof. eexists. cbv zeta. split; [vm_compute; reflexivity|]. split; [apply plain_check; vm_compute; reflexivity|]. split; reflexivity. Qed.
Example C186_case : parse_received ad aw [$"by mx.example.com (Postfix, from userid 1000) id 7"; received_header identified []] = parse_received ad aw [received_header identified []].
Proof.
  apply (C186_unlisted ad aw [] ($"by mx.example.com (Postfix, from userid 1000) id 7") [received_header identified []]); intros t E; discriminate E.
Qed.
