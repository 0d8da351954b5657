(** Theorems about the rules for providers' headers: C170-C181. *)
From Coq Require Import Lia QArith.
From Verif Require Import PyStr Regexp Model_Received Spec_Received Spec_Template Model_Provider Spec_Provider Proofs_Provider Proofs_ProviderIp.
From Verif Require Model_Relays.
Open Scope nat_scope.

(** Messages for the examples: their headers, the envelope sender, the relays, the raw text *)
Definition values (l : list (str * str)) (name : str) : list str := map snd (filter (fun h => streqb (fst h) name) l).
Definition message (l : list (str * str)) (to from : list str) (sender : str) (relays : list Model_Relays.relay) (raw : str) : mail :=
  mkMail (values l) (fun n => hd_error (values l n))
    (fun n => if streqb n ($"to") then to else if streqb n ($"from") then from else []) sender relays [] raw.
Definition none : char -> bool := fun _ => false.
Definition nl : str := [10%N].

Section Provider.
Variable udigit uword : char -> bool.
Notation has := (has uword).

(** C170: the rule about fake AOL relays answers yes exactly if some Received header names a relay
    like rly-xx00 and shows neither the version nor the queue of AOL's software. *)
Theorem C170_fake_aol_relay m : check_for_fake_aol_relay_in_rcvd udigit uword m = true <->
  exists h, In h (decoded m ($"received")) /\ has (aol_relay udigit) h /\ ~ has (aol_version udigit) h /\ ~ has aol_id h.
Proof. exact (fake_aol_iff udigit uword m). Qed.

(** C171: the two Hotmail rules never both answer yes; neither does for mail that Hotmail's own
    pickup service or software removing Received headers has handled; the second one only if the
    From header mentions hotmail.com. *)
Theorem C171_not_both m : check_for_forged_hotmail_received_headers udigit uword m = Some true ->
  check_for_no_hotmail_received_headers udigit uword m = Some false.
Proof.
  unfold check_for_forged_hotmail_received_headers, check_for_no_hotmail_received_headers. pose proof (hotmail_false udigit uword m) as H.
  destruct (hotmail_received udigit uword m) as [[f n]|]; cbn; [|discriminate]. intros [= ->]. destruct n; [exfalso; auto|reflexivity].
Qed.
Theorem C171_forged m : check_for_forged_hotmail_received_headers udigit uword m = Some true ->
  exists r, first_of m ($"received") = Some r /\ has helo_hotmail r /\ ~ part_of pickup r /\ ~ headers_removed udigit uword m.
Proof.
  unfold check_for_forged_hotmail_received_headers. destruct (hotmail_received udigit uword m) as [[f n]|] eqn:E; cbn; [|discriminate]. intros [= ->].
  destruct (hotmail_true udigit uword m true n E (or_introl eq_refl)) as (r & A & _ & B & C & D & _). exists r. auto.
Qed.
Theorem C171_absent m : check_for_no_hotmail_received_headers udigit uword m = Some true ->
  exists r a, first_of m ($"received") = Some r /\ r <> [] /\ ~ has helo_hotmail r /\ ~ part_of pickup r /\ ~ headers_removed udigit uword m /\
    first_of m ($"from") = Some a /\ part_of ($"hotmail.com") a.
Proof.
  unfold check_for_no_hotmail_received_headers. destruct (hotmail_received udigit uword m) as [[f n]|] eqn:E; cbn; [|discriminate]. intros [= ->].
  destruct (hotmail_true udigit uword m f true E (or_intror eq_refl)) as (r & A & A' & B & C & _ & D). destruct (D eq_refl) as (D1 & a & D2 & D3). exists r, a. auto 9.
Qed.
Theorem C171_exactly m r : first_of m ($"received") = Some r -> r <> [] -> ~ part_of pickup r -> ~ headers_removed udigit uword m ->
  ~ has group_to (texts m ($"to")) -> first_of m ($"x-originating-ip") = None ->
  exists f n, check_for_forged_hotmail_received_headers udigit uword m = Some f /\ check_for_no_hotmail_received_headers udigit uword m = Some n /\
    (f = true <-> has helo_hotmail r) /\
    (n = true <-> ~ has helo_hotmail r /\ exists a, first_of m ($"from") = Some a /\ part_of ($"hotmail.com") a).
Proof.
  intros A B C D E F. destruct (hotmail_plain udigit uword m r A B C D E F) as (f & n & H & K). exists f, n.
  unfold check_for_forged_hotmail_received_headers, check_for_no_hotmail_received_headers. rewrite H. auto.
Qed.
(** Mail with the address of its sender that Hotmail's servers passed on *)
Theorem C171_spared m r ip : first_of m ($"received") = Some r -> has via_hotmail r \/ has via_http r \/ has via_yahoo r ->
  first_of m ($"x-originating-ip") = Some ip -> states_address ip -> ~ has group_to (texts m ($"to")) ->
  check_for_forged_hotmail_received_headers udigit uword m = Some false /\ check_for_no_hotmail_received_headers udigit uword m = Some false.
Proof.
  intros A B C D E. unfold check_for_forged_hotmail_received_headers, check_for_no_hotmail_received_headers.
  rewrite (via_spared udigit uword m r ip A B C D E). auto.
Qed.

(** C172: the Hotmail rules raise for mail whose To header names a group of MSN after something
    else, such as a display name: the name of the group is taken from the beginning. *)
Theorem C172_raises m r : first_of m ($"received") = Some r -> r <> [] -> ~ part_of pickup r ->
  has group_to (texts m ($"to")) -> ~ starts uword group_to (texts m ($"to")) ->
  check_for_forged_hotmail_received_headers udigit uword m = None /\ check_for_no_hotmail_received_headers udigit uword m = None.
Proof.
  intros A B C D E. unfold check_for_forged_hotmail_received_headers, check_for_no_hotmail_received_headers.
  rewrite (hotmail_raises udigit uword m r A B C D E). auto.
Qed.
(** What remains: they answer if the To header names no such group. *)
Theorem C172_answers_partial m : ~ has group_to (texts m ($"to")) ->
  exists f n, check_for_forged_hotmail_received_headers udigit uword m = Some f /\ check_for_no_hotmail_received_headers udigit uword m = Some n.
Proof.
  intros H. unfold check_for_forged_hotmail_received_headers, check_for_no_hotmail_received_headers.
  assert (E : hotmail_received udigit uword m <> None).
  { unfold hotmail_received. destruct (first_of m ($"received")) as [[|c r]|]; try discriminate. destruct (s_ udigit uword PICKUP (c :: r)); [discriminate|].
    rewrite (msn_no_groups udigit uword m H). match goal with |- (if ?v then _ else _) <> _ => destruct v end; [discriminate|].
    destruct (gated_through_received_hdr_remover udigit uword m); [discriminate|]. destruct (s_ udigit uword HOTMAIL_HELO (c :: r)); discriminate. }
  destruct (hotmail_received udigit uword m) as [[f n]|]; [|congruence]. exists f, n. auto.
Qed.

(** C173: mail from eudoramail.com counts as forged unless WhoWhere delivered it and it states the
    address of its sender. *)
Theorem C173_forged m : check_for_forged_eudoramail_received_headers udigit uword m = true ->
  ends_in_domain (concat (addresses m ($"from"))) ($"eudoramail.com") /\ ~ headers_removed udigit uword m /\
  ~ (has whowhere (texts m ($"received")) /\ states_address (texts m ($"x-sender-ip"))).
Proof. exact (eudoramail_true udigit uword m). Qed.
Theorem C173_flagged m : ends_in_domain (concat (addresses m ($"from"))) ($"eudoramail.com") -> ~ headers_removed udigit uword m ->
  ~ has whowhere (texts m ($"received")) \/ names_no_address (texts m ($"x-sender-ip")) ->
  check_for_forged_eudoramail_received_headers udigit uword m = true.
Proof. exact (eudoramail_flagged udigit uword m). Qed.

(** C174: mail from yahoo.com counts as forged exactly if no relay has a name of Yahoo and the
    text about the hops has none of the forms of Yahoo's servers (mail of Yahoo groups, with
    NNFMP, apart). *)
Theorem C174_exactly m h : hops_text m h -> ~ part_of ($"NNFMP") h ->
  check_for_forged_yahoo_received_headers udigit uword m = true <->
  part_of ($"yahoo.com") (concat (addresses m ($"from"))) /\ ~ headers_removed udigit uword m /\
  (forall r, In r (untrusted m ++ trusted m) -> ~ part_of ($"yahoo.com") (Model_Relays.rl_rdns r)) /\
  ~ has yahoo_web h /\ ~ has yahoo_smtp h /\ ~ has (yahoo_by udigit uword) h /\
  ~ (has (yahoo_bulk udigit) h /\ ends_in_domain (concat (addresses m ($"from"))) ($"reply.yahoo.com")).
Proof. exact (yahoo_iff udigit uword m h). Qed.
Theorem C174_flagged m h : hops_text m h -> ~ part_of ($".yahoo.com") h -> ~ headers_removed udigit uword m ->
  part_of ($"yahoo.com") (concat (addresses m ($"from"))) ->
  (forall r, In r (untrusted m ++ trusted m) -> ~ part_of ($"yahoo.com") (Model_Relays.rl_rdns r)) ->
  check_for_forged_yahoo_received_headers udigit uword m = true.
Proof. exact (yahoo_always udigit uword m h). Qed.
Theorem C174_groups m h : hops_text m h -> yahoo_group_hop h -> check_for_forged_yahoo_received_headers udigit uword m = false.
Proof.
  intros T (x & a & b & c & d & host & k & y & -> & B & W & K). apply (yahoo_groups_spared udigit uword m x a b c d host k y B W); [|exact T].
  destruct K as [-> | [-> | ->]]; cbn; auto.
Qed.

(** C175: mail from juno.com counts as forged only if Juno's servers do not appear in it: for mail
    with X-Originating-IP.  Without that header it always counts as forged. *)
Theorem C175_flagged m p : ends_in_domain (concat (addresses m ($"from"))) (p ++ $"juno.com") -> ~ headers_removed udigit uword m ->
  (~ part_of ($"juno.com") (texts m ($"received")) /\ ~ part_of ($"untd.com") (texts m ($"received"))) \/ ~ part_of ($"Juno ") (texts m ($"x-mailer")) ->
  check_for_forged_juno_received_headers udigit uword m = true.
Proof. exact (juno_flagged udigit uword m p). Qed.
Theorem C175_spared_partial m : texts m ($"x-originating-ip") <> [] ->
  has juno_cookie (texts m ($"received")) \/ juno_hop uword (texts m ($"received")) -> part_of ($"Juno ") (texts m ($"x-mailer")) ->
  check_for_forged_juno_received_headers udigit uword m = false.
Proof.
  intros A [B|B] C; [|exact (juno_spared udigit uword m A B C)]. destruct (check_for_forged_juno_received_headers udigit uword m) eqn:E; [|reflexivity]. apply juno_true in E as (p & _ & _ & H). exfalso. auto.
Qed.
Theorem C175_without_address m p : ends_in_domain (concat (addresses m ($"from"))) (p ++ $"juno.com") -> ~ headers_removed udigit uword m ->
  texts m ($"x-originating-ip") = [] -> check_for_forged_juno_received_headers udigit uword m = true.
Proof. exact (juno_no_ip udigit uword m p). Qed.

(** C176: which envelope sender the rule compares with the addresses of the From header, and how. *)
Theorem C176_matching m : check_for_matching_env_and_hdr_from m = true <->
  exists e, first_sender (trusted m ++ untrusted m) e /\ part_of e (concat (addresses m ($"from"))).
Proof. exact (matching_iff m). Qed.

(** C177: the gw05 rule answers yes exactly if a Received header begins with a hop of the form
    "from NAME by SERVER with ESMTP; DATE" where the server is not a mere full stop. *)
Theorem C177_gw05 m : check_for_forged_gw05_received_headers udigit uword m = true <->
  exists h server, In h (decoded m ($"received")) /\ hop udigit uword server h /\ server <> $".".
Proof. exact (gw05_iff udigit uword m). Qed.

(** C178: the rule about unresolved templates answers yes exactly if some line of the message has a
    placeholder and does not begin with one of the fields in which placeholders are allowed. *)
Theorem C178_template m : check_unresolved_template udigit uword m = true <->
  exists l, line_of l (raw_text m) /\ has placeholder l /\ forall f t, In f free_fields -> lower l <> f ++ $":" ++ t.
Proof. exact (template_iff udigit uword m). Qed.

(** C179: when the message identifier is not usable; the rule raises only if it finds no Received
    header where it needs one. *)
Theorem C179_not_usable m : match check_messageid_not_usable udigit uword m with
  | Some b => b = true <-> (exists l, first_of m ($"list-unsubscribe") = Some l /\ has unsubscribe l) \/ headers_removed udigit uword m \/
      exists r, first_of m ($"received") = Some r /\ (part_of ($"/CWT/DCE)") r \/ part_of ($"iPlanet Messaging Server") r)
  | None => first_of m ($"received") = None
  end.
Proof. exact (not_usable_value udigit uword m). Qed.

(** C180: the recipient in the subject. *)
Theorem C180_address m : check_for_to_in_subject udigit uword ($"address") m = true <->
  exists a, In a (addresses m ($"to")) /\ part_of (lower a) (lower (subject_of m)).
Proof. exact (to_in_subject_address udigit uword m). Qed.
Theorem C180_user m u d : addresses m ($"to") = [u ++ $"@" ++ d] -> word u -> ~ In 64%N u -> ~ In 64%N d ->
  check_for_to_in_subject udigit uword ($"user") m = true <-> has (greets uword u) (subject_of m).
Proof. exact (to_in_subject_user udigit uword m u d). Qed.
(** There is no third test. *)
Theorem C180_other m test : test <> $"address" -> test <> $"user" -> check_for_to_in_subject udigit uword test m = false.
Proof.
  intros H1 H2. unfold check_for_to_in_subject. destruct (streqb_spec test ($"address")); [contradiction|]. destruct (streqb_spec test ($"user")); [contradiction|].
  induction (addresses m ($"to")) as [|a l IH]; [reflexivity | exact IH].
Qed.

(** C181: identifiers of Outlook whose time is neither that of the Date header nor that of the
    first date in the Received header. *)
Theorem C181_outlook mktime m id token n d : first_of m ($"message-id") = Some id -> outlook_id token id -> hex_value token n ->
  mktime (first_of m ($"date")) = Some d -> (0 <= d)%Z ->
  (same_time n d -> check_outlook_message_id udigit uword mktime m = Some false) /\
  (~ same_time n d ->
     (first_of m ($"received") = None -> check_outlook_message_id udigit uword mktime m = None) /\
     forall r, first_of m ($"received") = Some r ->
       (forall p d', from_first_date udigit uword p r -> ~ In 10%N p -> mktime (Some p) = Some d' -> (0 <= d')%Z ->
          exists b, check_outlook_message_id udigit uword mktime m = Some b /\ (b = true <-> ~ same_time n d')) /\
       (~ has (date_form udigit) r -> exists b, check_outlook_message_id udigit uword mktime m = Some b /\ (b = true <-> ~ same_time n 0))).
Proof. exact (outlook_value udigit uword mktime m id token n d). Qed.
Theorem C181_other mktime m : (forall id, first_of m ($"message-id") = Some id -> forall token, ~ outlook_id token id) ->
  check_outlook_message_id udigit uword mktime m = Some false.
Proof. exact (outlook_other udigit uword mktime m). Qed.
End Provider.

(** ** Cases *)
Notation D := (fun _ : char => false).
Example C170_case :
  check_for_fake_aol_relay_in_rcvd D D (message [($"received", $"from rly-yh04.mx.aol.com (rly-yh04.mail.aol.com [1.2.3.4]) by mx with SMTP"); ($"received", $"from HELO RLY-YH04. by mx")] [] [] [] [] []) = true /\
  check_for_fake_aol_relay_in_rcvd D D (message [($"received", $"from a (v98.19) with ESMTP id RELAYIN1; from rly-yh04.mx.aol.com")] [] [] [] [] []) = false /\
  check_for_fake_aol_relay_in_rcvd D D (message [($"received", $"from  rly-yh04.mx.aol.com (v98.19/AOL-9.0.1)")] [] [] [] [] []) = false /\
  (exists h, has D (aol_relay D) h /\ ~ has D (aol_version D) h /\ ~ has D aol_id h).
Proof.
  split; [vm_compute; reflexivity|]. split; [vm_compute; reflexivity|]. split; [vm_compute; reflexivity|].
  exists ($"from rly-yh04.mx.aol.com"). rewrite <- (s_aol_relay D D), <- (s_aol_version D D), <- (s_aol_id D D). vm_compute. intuition discriminate.
Qed.

Definition hotmail_1 : mail := message [($"received", $"from mail.hotmail.com (dsl.example.net [1.2.3.4]) by mx.example.org"); ($"from", $"a@b.example"); ($"to", $"me@example.org")] [] [] [] [] [].
Definition hotmail_2 : mail := message [($"received", $"from dsl.example.net ([1.2.3.4]) by mx.example.org"); ($"from", $"Ann <ann@hotmail.com>"); ($"to", $"me@example.org")] [] [] [] [] [].
Definition hotmail_3 : mail := message [($"received", $"from dsl.example.net ([1.2.3.4]) by mx.example.org"); ($"from", $"Ann <ann@hotmail.com>"); ($"to", $"Friends <friends@groups.msn.com>")] [] [] [] [] [].
Lemma removed_no m : gated_through_received_hdr_remover D D m = false -> ~ headers_removed D D m.
Proof. apply gated_false. Qed.
Example C171_case :
  check_for_forged_hotmail_received_headers D D hotmail_1 = Some true /\ check_for_no_hotmail_received_headers D D hotmail_1 = Some false /\
  check_for_forged_hotmail_received_headers D D hotmail_2 = Some false /\ check_for_no_hotmail_received_headers D D hotmail_2 = Some true /\
  forall m r, m = hotmail_1 \/ m = hotmail_2 -> first_of m ($"received") = Some r ->
    r <> [] /\ ~ part_of pickup r /\ ~ headers_removed D D m /\ ~ has D group_to (texts m ($"to")) /\ first_of m ($"x-originating-ip") = None.
Proof.
  split; [vm_compute; reflexivity|]. split; [vm_compute; reflexivity|]. split; [vm_compute; reflexivity|]. split; [vm_compute; reflexivity|].
  intros m r [-> | ->] E; vm_compute in E; injection E as <-; (split; [discriminate|]); rewrite <- (contains_part pickup), <- (s_group_to D D), <- (gated_iff D D); vm_compute; intuition discriminate.
Qed.
Definition hotmail_4 : mail := message [($"received", $"from 1.2.3.4 by by1.bay.hotmail.msn.com with HTTP; Mon, 1 Jan"); ($"from", $"Ann <ann@hotmail.com>"); ($"x-originating-ip", $"[1.2.3.4]")] [] [] [] [] [].
Example C171_spared_case : exists r ip, first_of hotmail_4 ($"received") = Some r /\ has D via_http r /\ first_of hotmail_4 ($"x-originating-ip") = Some ip /\
  states_address ip /\ ~ has D group_to (texts hotmail_4 ($"to")) /\
  (exists r', has D via_hotmail r') /\ (exists r', has D via_yahoo r').
Proof.
  eexists _, _. split; [vm_compute; reflexivity|]. split; [apply (s_via_3 D D); vm_compute; reflexivity|]. split; [vm_compute; reflexivity|].
  split; [exists [], [], 1%N, 2%N, 3%N, 4%N; split; [repeat split; reflexivity|reflexivity]|]. split; [rewrite <- (s_group_to D D); vm_compute; discriminate|]. split.
  - exists ($"from mail.hotmail.com (f1.law.hotmail.com) by x"). apply (s_via_1 D D). vm_compute. reflexivity.
  - exists ($"from [66.218.1.2] by mta.yahoo.com with SMTP"). apply (s_via_4 D D). vm_compute. reflexivity.
Qed.
Theorem C172_refuted : ~ forall m, check_for_forged_hotmail_received_headers D D m <> None.
Proof. intros H. apply (H hotmail_3). vm_compute. reflexivity. Qed.
Example C172_case : exists r, first_of hotmail_3 ($"received") = Some r /\ r <> [] /\ ~ part_of pickup r /\
  has D group_to (texts hotmail_3 ($"to")) /\ ~ starts D group_to (texts hotmail_3 ($"to")).
Proof.
  eexists. split; [vm_compute; reflexivity|]. rewrite <- (contains_part pickup), <- (s_group_to D D), <- (m_group_to D D). vm_compute. intuition discriminate.
Qed.

Definition eudora (by_ ip : str) : mail :=
  message [($"received", $"from a by " ++ by_ ++ $"; Mon, 1 Jan"); ($"x-sender-ip", ip)] [] [$"ann@eudoramail.com"] [] [] [].
Example C173_case :
  check_for_forged_eudoramail_received_headers D D (eudora ($"mx.example.org") ($"[1.2.3.4]")) = true /\
  check_for_forged_eudoramail_received_headers D D (eudora ($"mail.whowhere.com") ($"[1.2.3.4]")) = false /\
  check_for_forged_eudoramail_received_headers D D (eudora ($"mail.whowhere.com") ($"unknown")) = true /\
  has D whowhere (texts (eudora ($"mail.whowhere.com") []) ($"received")) /\ ~ has D whowhere (texts (eudora ($"mx.example.org") []) ($"received")) /\
  ~ headers_removed D D (eudora ($"mail.whowhere.com") []) /\
  states_address ($"[1.2.3.4]") /\ names_no_address ($"unknown") /\
  ends_in_domain (concat (addresses (eudora [] []) ($"from"))) ($"eudoramail.com").
Proof.
  do 3 (split; [vm_compute; reflexivity|]). rewrite <- !(s_whowhere D D), <- (gated_iff D D). split; [vm_compute; reflexivity|]. split; [vm_compute; discriminate|]. split; [vm_compute; discriminate|].
  split; [exists [], [], 1%N, 2%N, 3%N, 4%N; split; [repeat split; reflexivity|reflexivity]|].
  split; [split; vm_compute; intuition discriminate|]. apply domain_ends. vm_compute. reflexivity.
Qed.

Definition yahoo (h : str) (rdns : str) : mail :=
  message [($"received", h)] [] [$"ann@yahoo.com"] [] [Model_Relays.mkRelay rdns [] [] [] [] [] [] [] false None] [].
Example C174_case :
  check_for_forged_yahoo_received_headers D D (yahoo ($"from x by mx.example.org") ($"dsl.example.net")) = true /\
  check_for_forged_yahoo_received_headers D D (yahoo ($"from x by mx.example.org") ($"mta1.yahoo.com")) = false /\
  check_for_forged_yahoo_received_headers D D (yahoo ($"from [1.2.3.4] by web1.mail.yahoo.com via HTTP") ($"dsl.example.net")) = false /\
  hops_text (yahoo ($"from x by mx.example.org") ($"dsl.example.net")) ($"from x by mx.example.org") /\
  ~ part_of ($"NNFMP") ($"from x by mx.example.org") /\ ~ part_of ($".yahoo.com") ($"from x by mx.example.org") /\
  ~ headers_removed D D (yahoo ($"from x by mx.example.org") ($"dsl.example.net")) /\
  yahoo_group_hop ($"from [1.2.3.4] by n1.groups.yahoo.com with NNFMP; 1 Jan").
Proof.
  do 3 (split; [vm_compute; reflexivity|]). rewrite <- !contains_part, <- (gated_iff D D). split; [right; split; [intros (H & _); apply H; vm_compute; reflexivity|vm_compute; reflexivity]|].
  split; [vm_compute; discriminate|]. split; [vm_compute; discriminate|]. split; [vm_compute; discriminate|].
  exists [], 1%N, 2%N, 3%N, 4%N, ($"n1"), ($"groups"), ($"; 1 Jan"). split; [reflexivity|]. split; [repeat split; reflexivity|]. split; [|auto].
  split; [discriminate|]. intros c [<-|[<-|[]]]; reflexivity.
Qed.

Definition juno (ip : list (str * str)) : mail :=
  message (ip ++ [($"received", $"from dialup (dialup [1.2.3.4]) by m4 with cookie.juno.com id AAA"); ($"x-mailer", $"Juno 4.0.11")]) [] [$"ann@juno.com"] [] [] [].
Example C175_case :
  check_for_forged_juno_received_headers D D (juno [($"x-originating-ip", $"[1.2.3.4]")]) = false /\
  check_for_forged_juno_received_headers D D (message [($"received", $"from a by b"); ($"x-originating-ip", $"[1.2.3.4]")] [] [$"ann@juno.com"] [] [] []) = true /\
  texts (juno [($"x-originating-ip", $"[1.2.3.4]")]) ($"x-originating-ip") <> [] /\ has D juno_cookie (texts (juno []) ($"received")) /\
  part_of ($"Juno ") (texts (juno []) ($"x-mailer")) /\ ~ headers_removed D D (juno []) /\
  juno_hop D ($"from m4.juno.com (m4.juno.com [1.2.3.4]) by x") /\
  ends_in_domain (concat (addresses (juno []) ($"from"))) ([] ++ $"juno.com").
Proof.
  assert (J : juno_hop D ($"from m4.juno.com (m4.juno.com [1.2.3.4]) by x")).
  { exists [], ($" m4."), ($"juno"), ($" (m4.juno.com "), 1%N, 2%N, 3%N, 4%N, ($") "), ($" x"). split; [reflexivity|]. split; [auto|]. split; [repeat split; reflexivity|].
    split; [vm_compute; intuition discriminate|]. intros (c & t & [= <- _] & H). unfold wordc in H. intuition (discriminate || (vm_compute in *; intuition discriminate)). }
  do 2 (split; [vm_compute; reflexivity|]). enough (E : _ /\ _ /\ _ /\ _ /\ _) by (destruct E as (E1 & E2 & E3 & E4 & E5); exact (conj E1 (conj E2 (conj E3 (conj E4 (conj J E5)))))).
  rewrite <- (s_juno_cookie D D), <- (contains_part ($"Juno ")), <- (gated_iff D D), <- domain_ends. vm_compute. intuition discriminate.
Qed.
(** Mail that Juno's servers delivered and that shows Juno's program *)
Theorem C175_refuted : ~ forall m, has D juno_cookie (texts m ($"received")) -> part_of ($"Juno ") (texts m ($"x-mailer")) ->
  check_for_forged_juno_received_headers D D m = false.
Proof.
  intros H. assert (E : check_for_forged_juno_received_headers D D (juno []) = true) by (vm_compute; reflexivity). rewrite H in E; [discriminate| |].
  - rewrite <- (s_juno_cookie D D). vm_compute. reflexivity.
  - rewrite <- contains_part. vm_compute. reflexivity.
Qed.

Definition hop_from (e : str) : Model_Relays.relay := Model_Relays.mkRelay [] [] [] [] [] [] e [] false None.
Example C176_case :
  check_for_matching_env_and_hdr_from (message [] [] [$"ann@example.com"] [] [hop_from []; hop_from ($"ann@example.com")] []) = true /\
  check_for_matching_env_and_hdr_from (message [] [] [$"ann@example.com"] [] [hop_from ($"bob@example.com"); hop_from ($"ann@example.com")] []) = false /\
  first_sender [hop_from []; hop_from ($"ann@example.com")] ($"ann@example.com").
Proof.
  split; [vm_compute; reflexivity|]. split; [vm_compute; reflexivity|]. left. exists [hop_from []], (hop_from ($"ann@example.com")), []. split; [reflexivity|].
  split; [intros x [<-|[]]; reflexivity|]. split; [discriminate|reflexivity].
Qed.
(** An envelope sender that is no address of the From header, and no envelope sender at all *)
Theorem C176_refuted : ~ forall m, check_for_matching_env_and_hdr_from m = true ->
  exists r, In r (trusted m ++ untrusted m) /\ In (Model_Relays.rl_envfrom r) (addresses m ($"from")).
Proof.
  intros H. destruct (H (message [] [] [$"ann@example.com"] [] [hop_from ($"n@example.com")] [])) as (r & [<-|[]] & F); [vm_compute; reflexivity|].
  vm_compute in F. destruct F as [F|[]]. discriminate F.
Qed.
Theorem C176_refuted_no_sender : ~ forall m, check_for_matching_env_and_hdr_from m = true ->
  exists r, In r (trusted m ++ untrusted m) /\ Model_Relays.rl_envfrom r <> [].
Proof. intros H. destruct (H (message [] [] [$"ann@example.com"] [] [] [])) as (r & [] & _). vm_compute. reflexivity. Qed.

Example C177_case :
  check_for_forged_gw05_received_headers D D (message [($"received", $"from abc by mx.example.org with ESMTP; Mon, 06 Jan 2020 10:00:00 +0100")] [] [] [] [] []) = true /\
  check_for_forged_gw05_received_headers D D (message [($"received", $"from abc by . with ESMTP; Mon, 06 Jan 2020 10:00:00 +0100")] [] [] [] [] []) = false /\
  check_for_forged_gw05_received_headers D D (message [($"received", $"from abc by mx.example.org with SMTP; Mon, 06 Jan 2020 10:00:00 +0100")] [] [] [] [] []) = false /\
  exists server, hop D D server ($"from abc by mx.example.org with ESMTP; Mon, 06 Jan 2020 10:00:00 +0100") /\ server <> $".".
Proof.
  do 3 (split; [vm_compute; reflexivity|]).
  assert (E : check_for_forged_gw05_received_headers D D (message [($"received", $"from abc by mx.example.org with ESMTP; Mon, 06 Jan 2020 10:00:00 +0100")] [] [] [] [] []) = true) by (vm_compute; reflexivity).
  apply gw05_iff in E as (h & server & Hh & A & B). exists server. split; [|exact B]. vm_compute in Hh. destruct Hh as [<-|[]]. exact A.
Qed.

Example C178_case :
  check_unresolved_template D D (message [] [] [] [] [] ($"Subject: %TO_NAME" ++ nl ++ $"X-Foo: hello %FROM_X" ++ nl ++ nl)) = true /\
  check_unresolved_template D D (message [] [] [] [] [] ($"Subject: %TO_NAME" ++ nl ++ $"X-Foo: hello %a" ++ nl ++ nl)) = false /\
  has D placeholder ($"X-Foo: hello %FROM_X") /\ line_of ($"X-Foo") ($"a" ++ nl ++ $"X-Foo" ++ nl ++ $"b").
Proof.
  do 2 (split; [vm_compute; reflexivity|]). split; [rewrite <- (s_template D D); vm_compute; reflexivity|]. apply line_iff. vm_compute. auto.
Qed.

Example C179_case :
  check_messageid_not_usable D D (message [($"received", $"from a by b"); ($"list-unsubscribe", $"<mailto:list-unsubscribe@example.com>")] [] [] [] [] []) = Some true /\
  check_messageid_not_usable D D (message [($"received", $"from a by b (iPlanet Messaging Server 5.2)")] [] [] [] [] []) = Some true /\
  check_messageid_not_usable D D (message [($"received", $"from a by b"); ($"list-unsubscribe", $"<http://example.com/>")] [] [] [] [] []) = Some false.
Proof. do 2 (split; [vm_compute; reflexivity|]). vm_compute. reflexivity. Qed.

Example C180_case :
  check_for_to_in_subject D D ($"address") (message [($"subject", $"hello Ann@Example.com!")] [$"ann@example.com"] [] [] [] []) = true /\
  check_for_to_in_subject D D ($"user") (message [($"subject", $"ann, look at this")] [$"ann" ++ $"@" ++ $"example.com"] [] [] [] []) = true /\
  check_for_to_in_subject D D ($"user") (message [($"subject", $"fw: dear ann")] [$"ann" ++ $"@" ++ $"example.com"] [] [] [] []) = true /\
  check_for_to_in_subject D D ($"user") (message [($"subject", $"joann")] [$"ann" ++ $"@" ++ $"example.com"] [] [] [] []) = false /\
  word ($"ann") /\ ~ In 64%N ($"ann") /\ ~ In 64%N ($"example.com").
Proof.
  do 4 (split; [vm_compute; reflexivity|]). split; [split; [discriminate|]|vm_compute; intuition discriminate].
  intros c H. vm_compute in H. repeat (destruct H as [<-|H]; [reflexivity|]). destruct H.
Qed.

(** A clock for the examples: every date is the same second. *)
Definition clock (t : Z) : option str -> option Z := fun d => match d with Some _ => Some t | None => None end.
Definition outlook (id : str) (received : list (str * str)) : mail :=
  message (($"message-id", id) :: ($"date", $"Wed, 18 May 2033 03:33:20 +0000") :: received) [] [] [] [] [].
Lemma hexs_ok n s : length s = n -> forallb (fun c => (N.leb 48 c && N.leb c 57) || (N.leb 97 c && N.leb c 102)) s = true -> hexs n s.
Proof.
  intros L F. split; [exact L|]. intros c Hc. rewrite forallb_forall in F. specialize (F c Hc). rewrite orb_true_iff, !andb_true_iff, !N.leb_le in F. exact F.
Qed.
Example C181_case :
  check_outlook_message_id D D (clock 2000000000) (outlook ($"<000001e4bfb3$00000000$0100007f@pc>") [($"received", $"from a by b; Wed, 18 May 2033 03:33:20 +0000")]) = Some false /\
  check_outlook_message_id D D (clock 2000000000) (outlook ($"<0000deadbeef$00000000$0100007f@pc>") [($"received", $"from a by b; Wed, 18 May 2033 03:33:20 +0000")]) = Some true /\
  outlook_id ($"deadbeef") ($"<0000deadbeef$00000000$0100007f@pc>") /\ hex_value ($"deadbeef") 3735928559 /\
  ~ same_time 3735928559 2000000000 /\
  from_first_date D D ($" 18 May 2033 03:33:20 +0000") ($"from a by b; Wed, 18 May 2033 03:33:20 +0000").
Proof.
  split; [vm_compute; reflexivity|]. split; [vm_compute; reflexivity|].
  split; [exists ($"0000"), ($"00000000"), ($"0100007f"), ($"pc>"); split; [reflexivity|]; split; [apply hexs_ok; reflexivity|]; split; [apply hexs_ok; reflexivity|]; split; apply hexs_ok; reflexivity|].
  split.
  - change ($"deadbeef") with (((((((([] ++ [100%N]) ++ [101%N]) ++ [97%N]) ++ [100%N]) ++ [98%N]) ++ [101%N]) ++ [101%N]) ++ [102%N]).
    replace 3735928559%Z with (16 * (16 * (16 * (16 * (16 * (16 * (16 * (16 * 0 + Z.of_N (100 - 97) + 10) + Z.of_N (101 - 97) + 10) + Z.of_N (97 - 97) + 10) + Z.of_N (100 - 97) + 10) + Z.of_N (98 - 97) + 10)
      + Z.of_N (101 - 97) + 10) + Z.of_N (101 - 97) + 10) + Z.of_N (102 - 97) + 10)%Z by reflexivity.
    repeat (apply value_letter; [|lia]). apply value_nil.
  - split; [intros (k & A & B); lia|].
    exists ($"from a by b; Wed,"). split; [reflexivity|]. split.
    + apply (date_at D D []). vm_compute. discriminate.
    + intros x y E L S. apply (date_at D D (rev x)) in S. apply S. clear S.
      assert (Q : forall n, n < length ($"from a by b; Wed,") -> ways D D (Grp 0 RCVD_DATE) (mkS (rev (firstn n ($"from a by b; Wed, 18 May 2033 03:33:20 +0000"))) (skipn n ($"from a by b; Wed, 18 May 2033 03:33:20 +0000")) []) = []).
      { intros n Hn. do 17 (destruct n as [|n]; [vm_compute; reflexivity|]). change (length ($"from a by b; Wed,")) with 17 in Hn. lia. }
      specialize (Q (length x) L). rewrite E in Q. rewrite firstn_app, skipn_app, firstn_all, skipn_all in Q. rewrite Nat.sub_diag in Q. cbn [firstn skipn app] in Q. rewrite app_nil_r in Q. exact Q.
Qed.
(** The rule raises for a message without a Received header. *)
Theorem C181_refuted : ~ forall m, check_outlook_message_id D D (clock 2000000000) m <> None.
Proof. intros H. apply (H (outlook ($"<0000deadbeef$00000000$0100007f@pc>") [])). vm_compute. reflexivity. Qed.

Print Assumptions C170_fake_aol_relay.
Print Assumptions C171_not_both.
Print Assumptions C171_forged.
Print Assumptions C171_absent.
Print Assumptions C171_exactly.
Print Assumptions C171_spared.
Print Assumptions C172_raises.
Print Assumptions C172_answers_partial.
Print Assumptions C172_refuted.
Print Assumptions C173_forged.
Print Assumptions C173_flagged.
Print Assumptions C174_exactly.
Print Assumptions C174_flagged.
Print Assumptions C174_groups.
Print Assumptions C175_flagged.
Print Assumptions C175_spared_partial.
Print Assumptions C175_without_address.
Print Assumptions C175_refuted.
Print Assumptions C176_matching.
Print Assumptions C176_refuted.
Print Assumptions C176_refuted_no_sender.
Print Assumptions C177_gw05.
Print Assumptions C178_template.
Print Assumptions C179_not_usable.
Print Assumptions C180_address.
Print Assumptions C180_user.
Print Assumptions C180_other.
Print Assumptions C181_outlook.
Print Assumptions C181_other.
Print Assumptions C181_refuted.
