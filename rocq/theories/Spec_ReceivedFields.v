(** Vocabulary of the properties of the less common fields of Received headers: C166, C167, C182. *)
From Verif Require Import PyStr Spec_Template Spec_Received.

Definition occurs_in (p h : str) : Prop := exists x y, h = x ++ p ++ y.
(** [p] begins at the end of [pre], and nowhere else in [h]. *)
Definition only_at (pre p h : str) : Prop := (exists y, h = pre ++ p ++ y) /\ forall x y, h = x ++ p ++ y -> x = pre.

(** " with ESMTPSA" and so on, in small letters *)
Definition protocol_marks : list str := map (fun m => $" with " ++ lower m) auth_methods.
(** ") (Authenticated sender: USER) by SERVER (Postfix) with " *)
Definition postfix_auth : list (list part) :=
  [text ($")") ++ one blank ++ text ($"(Authenticated") ++ one blank ++ text ($"sender:") ++ one blank ++ some_ nonblank ++ text ($")") ++ one blank ++ text ($"by") ++
   one blank ++ some_ nonblank ++ one blank ++ text ($"(Postfix)") ++ one blank ++ text ($"with") ++ one blank].
Definition gmail : str := $" by mx.google.com with ESMTPS id ".
(** " (version=V cipher=C)", once *)
Definition tls (v c h : str) : Prop :=
  exists pre post, h = pre ++ $" (version=" ++ v ++ $" cipher=" ++ c ++ $")" ++ post /\ only_at pre ($" (version=") h /\
    v <> [] /\ ~ In 32%N v /\ c <> [] /\ ~ In 41%N c.
(** " (authenticated as USER)" *)
Definition named_user : list (list part) := [text ($" (authenticated as ") ++ some_ nonblank ++ text ($")")].
(** " by mail.gmx.net (HOST) with SMTP", once *)
Definition gmx (protocol server h : str) : Prop :=
  exists pre t post, h = pre ++ $" by " ++ server ++ $" (" ++ t ++ $") with " ++ protocol ++ post /\
    (server = $"mail.gmx.net" \/ server = $"mail.gmx.com") /\ (protocol = $"ESMTP" \/ protocol = $"SMTP") /\ t <> [] /\ ~ In 41%N t /\
    only_at pre ($" by mail.gmx.") h.
(** " (account ... by ... (CommuniGate Pro SMTP" *)
Definition communigate : list (list part) :=
  [text ($" (account ") ++ many anyc ++ text ($" by ") ++ many anyc ++ text ($" (CommuniGate Pro HTTP");
   text ($" (account ") ++ many anyc ++ text ($" by ") ++ many anyc ++ text ($" (CommuniGate Pro SMTP")].

Section Auth.
Variable uword : char -> bool.
(** What a header that names no protocol of authenticated submission says about authentication. *)
Inductive auth_of (h : str) : str -> Prop :=
| auth_postfix : has uword postfix_auth h -> auth_of h ($"Postfix")
| auth_gmail v c : ~ has uword postfix_auth h -> occurs_in gmail h -> tls v c h -> auth_of h ($"GMail - transport=" ++ v ++ $" cipher=" ++ c)
| auth_gmail_plain : ~ has uword postfix_auth h -> occurs_in gmail h -> ~ occurs_in ($" (version=") h -> auth_of h []
| auth_squirrel : ~ has uword postfix_auth h -> ~ occurs_in gmail h -> occurs_in ($"SquirrelMail authenticated ") h -> auth_of h ($"SquirrelMail")
| auth_user : ~ has uword postfix_auth h -> ~ occurs_in gmail h -> ~ occurs_in ($"SquirrelMail authenticated ") h ->
    has uword named_user h -> auth_of h ($"CriticalPath")
| auth_sendmail : ~ has uword postfix_auth h -> ~ occurs_in gmail h -> ~ occurs_in ($"SquirrelMail authenticated ") h ->
    occurs_in ($"authenticated") h -> ~ has uword named_user h -> auth_of h ($"Sendmail")
| auth_gmx protocol server : ~ has uword postfix_auth h -> ~ occurs_in gmail h -> ~ occurs_in ($"authenticated") h ->
    gmx protocol server h -> auth_of h ($"GMX (" ++ protocol ++ $" / " ++ server ++ $")")
| auth_communigate : ~ has uword postfix_auth h -> ~ occurs_in gmail h -> ~ occurs_in ($"authenticated") h ->
    ~ occurs_in ($" by mail.gmx.") h -> has uword communigate h -> auth_of h ($"Communigate")
| auth_none : ~ has uword postfix_auth h -> ~ occurs_in gmail h -> ~ occurs_in ($"authenticated") h ->
    ~ occurs_in ($" by mail.gmx.") h -> ~ has uword communigate h -> auth_of h [].
End Auth.

(** "ident=USER)" at the end of a word, once *)
Definition states_ident (w h : str) : Prop :=
  exists pre post, h = pre ++ $"ident=" ++ w ++ $")" ++ post /\ word w /\ ~ In 41%N w /\ (post = [] \/ exists t, post = $" " ++ t) /\
    only_at pre ($"ident=") h.
(** "(USER@", and no other word of this form; no "ident=" *)
Definition sends_as (w h : str) : Prop :=
  exists pre post, h = pre ++ $"(" ++ w ++ $"@" ++ post /\ word w /\ ~ occurs_in ($"ident=") h /\
    forall x u y, h = x ++ $"(" ++ u ++ $"@" ++ y -> word u -> u = w.
(** "NAME (TEXT HELO WORD) REST": the greeting at the end of a remark in parentheses, once *)
Definition greets_inside (w h : str) : Prop :=
  exists name t u k rest, h = name ++ $" (" ++ t ++ u ++ $" " ++ k ++ $" " ++ w ++ $") " ++ rest /\ word name /\ word t /\ ~ In 41%N t /\
    (u = [] \/ exists v, u = $" " ++ v) /\ (lower k = $"helo" \/ lower k = $"ehlo") /\ word w /\ ~ In 41%N w /\ ~ In 93%N w /\ ~ In 91%N h /\
    without [$"(helo "; $"(ehlo "; $"helo="] h /\
    forall x k' y, h = x ++ $" " ++ k' ++ $" " ++ y -> lower k' = $"helo" \/ lower k' = $"ehlo" -> x = name ++ $" (" ++ t ++ u.
(** "NAME (unknown [ADDRESS]) REST": the other server has no name in the DNS *)
Definition nameless (name address rest : str) : str := name ++ $" (unknown [" ++ address ++ $"])" ++ rest.
