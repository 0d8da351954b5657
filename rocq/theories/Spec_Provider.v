(** Vocabulary of the properties of the rules about providers' headers: C170-C181. *)
From Verif Require Import PyStr Spec_Template Model_Provider.
From Verif Require Model_Relays Spec_Received.

Section Forms.
(** Digits outside ASCII. *)
Variable udigit : char -> bool.
Notation digit := (digit udigit).

(** " rly-xx00." in capitals or small letters, "/AOL-1.2.3)", "ESMTP id RELAY..." *)
Definition aol_relay : list (list part) := [text_i ($" rly-") ++ one letter ++ one letter ++ one digit ++ one digit ++ text_i ($".")].
Definition aol_version : list (list part) := [text ($"/AOL-") ++ some_ digit ++ text ($".") ++ some_ digit ++ text ($".") ++ some_ digit ++ text ($")")].
Definition aol_id : list (list part) := [text ($"ESMTP id RELAY"); text ($"ESMTP id MAILRELAY"); text ($"ESMTP id MAILIN")].

(** "contact LIST@HOST; run by ezmlm" as a whole; "mailing list LIST@HOST" at the beginning;
    "qmail 1 invoked from network); 1 Jan 2020" *)
Definition ezmlm : list (list part) := [[Begin] ++ text ($"contact ") ++ some_ nonblank ++ text ($"@") ++ some_ nonblank ++ text ($"; run by ezmlm") ++ [End]].
Definition ezmlm_to : list (list part) := [[Begin] ++ text ($"mailing list ") ++ some_ nonblank ++ text ($"@") ++ some_ nonblank].
Definition qmail_end : list part := text ($"); ") ++ some_ digit ++ text ($" ") ++ one anyc ++ one anyc ++ one anyc ++ text ($" ") ++ some_ digit.
Definition qmail : list (list part) :=
  [text ($"qmail ") ++ some_ digit ++ text ($" invoked from network") ++ qmail_end;
   text ($"qmail ") ++ some_ digit ++ text ($" invoked by ") ++ [Run anyc 3 (Some 20)] ++ qmail_end].
Definition msn_gate : list (list part) := [text ($"from groups.msn.com (") ++ some_ nonblank ++ text ($".msn.com ")].
(** All the texts of the headers of one name. *)
Definition texts (m : mail) (name : str) : str := concat (decoded m name).
Variable uword : char -> bool.
Notation has := (has uword).
(** The message came through software that removes Received headers. *)
Definition headers_removed (m : mail) : Prop :=
  (has ezmlm (texts m ($"mailing-list")) /\ has ezmlm_to (texts m ($"delivered-to")) /\ has qmail (texts m ($"received"))) \/
  texts m ($"received") = [] \/ has msn_gate (texts m ($"received")).

(** Hotmail *)
Definition pickup : str := $"from mail pickup service by hotmail.com with Microsoft SMTPSVC;".
Definition helo_hotmail : list (list part) :=
  [text ($"from ") ++ many nonblank ++ text ($"hotmail.com") ++ [Edge];
   text ($"HELO ") ++ many nonblank ++ text ($"hotmail.com") ++ [Edge];
   text ($"helo=") ++ many nonblank ++ text ($"hotmail.com") ++ [Edge]].
(** hops of Hotmail, in capitals or small letters: "from (X.)hotmail.com (X.hotmail(.msn).com)",
    "from X by Y.hotmail(.msn).com with HTTP;", "from [66.218.X] by Y.yahoo.com" *)
Definition via_server (own server : list part) : list part :=
  text_i ($"from") ++ some_ blank ++ own ++ text_i ($"hotmail") ++ one anyc ++ text_i ($"com") ++ some_ blank ++ text_i ($"(") ++
  some_ nonblank ++ text_i ($".hotmail") ++ server ++ text_i ($".com)").
Definition via_web (server : list part) : list part :=
  text_i ($"from") ++ some_ blank ++ some_ nonblank ++ some_ blank ++ text_i ($"by") ++ some_ blank ++ some_ nonblank ++ text_i ($".hotmail") ++ server ++
  text_i ($".com") ++ some_ blank ++ text_i ($"with") ++ some_ blank ++ text_i ($"http;").
Definition via_hotmail : list (list part) :=
  [via_server [] []; via_server [] (text_i ($".msn")); via_server (many nonblank ++ text_i ($".")) []; via_server (many nonblank ++ text_i ($".")) (text_i ($".msn"))].
Definition via_http : list (list part) := [via_web []; via_web (text_i ($".msn"))].
Definition via_yahoo : list (list part) :=
  [text_i ($"from") ++ some_ blank ++ text_i ($"[66.218") ++ one anyc ++ some_ nonblank ++ text_i ($"]") ++ some_ blank ++ text_i ($"by") ++ some_ blank ++
   some_ nonblank ++ text_i ($".yahoo.com")].
Definition group_to : list (list part) := [text ($"<") ++ some_ nonblank ++ text ($"@groups.msn.com>")].

(** Eudoramail, whose mail WhoWhere delivers; any character may stand for the full stop *)
Definition whowhere : list (list part) := [text ($"by ") ++ many nonblank ++ text ($"whowhere") ++ one anyc ++ text ($"com;")].
(** Yahoo *)
Definition yahoo_web : list (list part) := [text ($"by web") ++ some_ nonblank ++ text ($".mail") ++ many nonblank ++ text ($".yahoo.com via HTTP")].
Definition yahoo_smtp : list (list part) := [text ($"by smtp") ++ some_ nonblank ++ text ($".yahoo.com with SMTP")].
Definition yahoo_bulk : list (list part) := [[Edge] ++ text ($"mailer") ++ some_ digit ++ text ($".bulk.scd.yahoo.com") ++ [Edge]].
Definition version : list part := some_ digit ++ text ($".") ++ some_ digit ++ text ($".") ++ some_ digit.
Definition yahoo_by : list (list part) :=
  let head := text ($"by ") ++ some_ (wordc uword) ++ text ($".") ++ some_ (wordc uword) ++ text ($".yahoo.com (") ++ version ++ text ($"/") ++ version ++ text ($")") in
  [head ++ text ($" id ") ++ some_ (wordc uword); head ++ text ($" with ESMTP") ++ text ($" id ") ++ some_ (wordc uword)].
(** Juno *)
Definition juno_cookie : list (list part) := [text ($" cookie.juno.com "); text ($" cookie.untd.com ")].

(** "from ... juno.com ... [1.2.3.4] ... by" on one line *)
Definition juno_hop (h : str) : Prop :=
  exists x u w v a b c d z y, h = x ++ $"from" ++ u ++ w ++ $".com" ++ v ++ $"[" ++ Spec_Received.quad a b c d ++ $"]" ++ z ++ $"by" ++ y /\
    (w = $"juno" \/ w = $"untd") /\ Spec_Received.bytes a b c d /\ ~ In 10%N (u ++ v ++ z) /\ ~ begins_with_word uword (rev ($"from" ++ u)).
(** "from [1.2.3.4] by X.groups.yahoo.com with NNFMP": mail of Yahoo groups *)
Definition yahoo_group_hop (h : str) : Prop :=
  exists x a b c d host k y, h = x ++ $"from [" ++ Spec_Received.quad a b c d ++ $"] by " ++ host ++ $"." ++ k ++ $".yahoo.com with NNFMP" ++ y /\
    Spec_Received.bytes a b c d /\ Spec_Received.word host /\ (k = $"groups" \/ k = $"scd" \/ k = $"dcn").

(** The domain of an address: what follows the last "@", or all of it. *)
Definition ends_in_domain (a d : str) : Prop := (exists x, a = x ++ $"@" ++ d) /\ ~ In 64%N d \/ a = d /\ ~ In 64%N d.

(** "from NAME by SERVER with ESMTP; Mon, 1 Jan 2020 10:00:00 +0000" *)
Definition stamp : list part :=
  text_i ($"esmtp;") ++ some_ blank ++ one nonblank ++ one nonblank ++ one nonblank ++ text_i ($",") ++ some_ blank ++ some_ digit ++
  some_ blank ++ one nonblank ++ one nonblank ++ one nonblank ++ some_ blank ++ exactly 4 digit ++ some_ blank ++
  one digit ++ one digit ++ text_i ($":") ++ one digit ++ one digit ++ text_i ($":") ++ one digit ++ one digit ++
  some_ blank ++ [Run (fun c => c = 43%N \/ c = 45%N) 0 None] ++ exactly 4 digit.

Definition hop (server h : str) : Prop :=
  exists f b1 name b2 by_ b3 b4 with_ b5 rest,
    h = f ++ b1 :: name ++ b2 :: by_ ++ b3 :: server ++ b4 :: with_ ++ b5 :: rest /\
    lower f = $"from" /\ lower by_ = $"by" /\ lower with_ = $"with" /\
    blank b1 /\ blank b2 /\ blank b3 /\ blank b4 /\ blank b5 /\
    Spec_Received.word name /\ Spec_Received.word server /\ starts uword [stamp] rest.

(** Placeholders: "%AB", "%A_", "%A-"; the header fields in which they are allowed *)
Definition placeholder : list (list part) := [text ($"%") ++ one capital ++ one (fun c => capital c \/ c = 95%N \/ c = 45%N)].
Definition free_fields : list str :=
  [$"x-vms-to"; $"x-uidl"; $"x-face"; $"to"; $"cc"; $"from"; $"subject"; $"references"; $"in-reply-to"; $"message-id"; $"x-message-id";
   $"resent-message-id"; $"x-original-message-id"].

(** A subject about the user [u]: the name alone; "re: NAME" or "fw: WORD NAME" at the end;
    "NAME!" at the end; "NAME, ..." *)
Definition mark (c : char) : Prop := In c ($",:;!?-").
Definition greets (u : str) : list (list part) :=
  [[Begin] ++ text u ++ [End];
   text ($"re:") ++ many blank ++ text u ++ [End];
   text ($"re:") ++ many blank ++ some_ (wordc uword) ++ some_ blank ++ text u ++ [End];
   text ($"fw:") ++ many blank ++ text u ++ [End];
   text ($"fw:") ++ many blank ++ some_ (wordc uword) ++ some_ blank ++ text u ++ [End];
   many blank ++ text u ++ one mark ++ [End];
   [Begin] ++ text u ++ many blank ++ one mark ++ one blank ++ many anyc].

(** A date: " 1 Jan 2020 10:00:00 +0000" and anything after it *)
Definition date_form : list (list part) :=
  let l := some_ digit ++ text ($" ") ++ one nonblank ++ one nonblank ++ one nonblank ++ text ($" ") ++ some_ digit ++ text ($" ") ++
    some_ digit ++ text ($":") ++ some_ digit ++ text ($":") ++ some_ digit ++ text ($" ") ++ some_ nonblank ++ many anyc ++ [End] in
  [one blank ++ [Run anyc 0 (Some 1)] ++ l].
(** [p]: the end of the text, from the first date in it *)
Definition from_first_date (p r : str) : Prop :=
  exists x, r = x ++ p /\ starts uword date_form p /\ forall x' y, r = x' ++ y -> length x' < length x -> ~ starts uword date_form y.

(** Addresses for leaving a mailing list *)
Definition unsubscribe : list (list part) :=
  [text ($"<mailto:leave-") ++ some_ nonblank ++ text ($"@") ++ some_ nonblank ++ text ($">") ++ [End];
   text ($"<mailto:") ++ some_ nonblank ++ text ($"-unsubscribe@") ++ some_ nonblank ++ text ($">") ++ [End]].
End Forms.
(** A piece of a text *)
Definition part_of (p h : str) : Prop := exists x y, h = x ++ p ++ y.
(** A line of a text *)
Definition line_of (l s : str) : Prop :=
  ~ In 10%N l /\ exists x y, s = x ++ l ++ y /\ (x = [] \/ exists x', x = x' ++ [10%N]) /\ (y = [] \/ exists y', y = 10%N :: y').
(** An IPv4 address in square brackets; no address at all *)
Definition states_address (h : str) : Prop :=
  exists x y a b c d, Spec_Received.bytes a b c d /\ h = x ++ $"[" ++ Spec_Received.quad a b c d ++ $"]" ++ y.
Definition names_no_address (h : str) : Prop := ~ In 46%N h /\ ~ In 58%N h.
(** The text about the hops of a message: that of the Received headers, or for a resent message
    that of the X-Received headers if there are any. *)
Definition hops_text (m : mail) (h : str) : Prop :=
  decoded m ($"resent-from") <> [] /\ decoded m ($"resent-to") <> [] /\ texts m ($"x-received") <> [] /\ h = texts m ($"x-received") \/
  ~ (decoded m ($"resent-from") <> [] /\ decoded m ($"resent-to") <> [] /\ texts m ($"x-received") <> []) /\ h = texts m ($"received").
(** The first envelope sender that a relay reports; nothing if none does. *)
Definition first_sender (l : list Model_Relays.relay) (e : str) : Prop :=
  (exists a r b, l = a ++ r :: b /\ (forall x, In x a -> Model_Relays.rl_envfrom x = []) /\ Model_Relays.rl_envfrom r <> [] /\ e = Model_Relays.rl_envfrom r) \/
  e = [] /\ forall r, In r l -> Model_Relays.rl_envfrom r = [].
Definition subject_of (m : mail) : str := match first_of m ($"subject") with Some s => s | None => [] end.
(** Identifiers of Outlook: <aaaaTTTTTTTT$bbbbbbbb$cccccccc@..., with the time T *)
Definition hexs (n : nat) (s : str) : Prop := length s = n /\ forall c, In c s -> (48 <= c <= 57 \/ 97 <= c <= 102)%N.
Definition outlook_id (token id : str) : Prop :=
  exists a b c t, id = $"<" ++ a ++ token ++ $"$" ++ b ++ $"$" ++ c ++ $"@" ++ t /\ hexs 4 a /\ hexs 8 token /\ hexs 8 b /\ hexs 8 c.
(** The number that a text in hexadecimal stands for *)
Inductive hex_value : str -> Z -> Prop :=
| value_nil : hex_value [] 0
| value_digit s n c : hex_value s n -> (48 <= c <= 57)%N -> hex_value (s ++ [c]) (16 * n + Z.of_N (c - 48))
| value_letter s n c : hex_value s n -> (97 <= c <= 102)%N -> hex_value (s ++ [c]) (16 * n + Z.of_N (c - 97) + 10).
(** The same time in seconds and in the identifier: [n] is within 250 of the whole part of
    0.0023283064365387 d + 27111902.8329849. *)
Definition same_time (n d : Z) : Prop :=
  exists k, (250 - 1 >= Z.abs (n - k))%Z /\
    (23283064365387 * d + 271119028329849 * 1000000000 >= k * 10000000000000000 /\ 23283064365387 * d + 271119028329849 * 1000000000 < (k + 1) * 10000000000000000)%Z.
