(** Vocabulary of the rules that insert a text of the message into a pattern: C187-C190. *)
From Verif Require Import PyStr Spec_Template.

(** The text, except that a full stop stands for any character of the line. *)
Definition loosely (w : str) : list part :=
  map (fun c => if N.eqb c 46 then Run anyc 1 (Some 1) else Run (eq c) 1 (Some 1)) w.
(** A text without the characters that mean something else in a pattern, full stops apart. *)
Definition tame (w : str) : Prop := forall c, In c w -> ~ In c ($"\^$[(*+?{|)").

(** "<NAME@groups.msn.com>" alone, or with a blank after it *)
Definition names_group (name to : str) : Prop :=
  exists rest, to = $"<" ++ name ++ $"@groups.msn.com>" ++ rest /\ (rest = [] \/ exists c t, rest = c :: t /\ blank c) /\
    name <> [] /\ (forall c, In c name -> nonblank c) /\ ~ In 62%N name.
(** "from mail pickup service by pNN.groups.msn.com", with the server's name *)
Definition pickup_by (server : list part) : list (list part) := [text ($"from mail pickup service by ") ++ server ++ [Edge]].
Definition msn_server (udigit : char -> bool) : list part := text ($"p") ++ one (digit udigit) ++ one (digit udigit) ++ text ($".groups.msn.com").
Definition names_server (uword udigit : char -> bool) (server h : str) : Prop :=
  has uword (pickup_by (text server)) h /\ fits uword (msn_server udigit) [] server [].

(** identifiers of messages: "<NAME-X@groups.msn.com>", "<X@SERVER" *)
Definition group_id (name : str) : list part := text ($"<") ++ loosely name ++ text ($"-") ++ some_ nonblank ++ text ($"@groups.msn.com>").
Definition server_id (server : str) : list part := text ($"<") ++ some_ nonblank ++ text ($"@") ++ loosely server.

(** The identifier after 28 capitals in "<...>", the first of them *)
Definition ratware_id (id message_id : str) : Prop :=
  exists x k y, message_id = x ++ $"<" ++ k ++ $"." ++ id ++ $">" ++ y /\ length k = 28 /\ (forall c, In c k -> capital c) /\ ~ In 60%N x /\ id <> [] /\ ~ In 62%N id.
Definition any_ratware_id : list (list part) := [text ($"<") ++ exactly 28 capital ++ text ($".") ++ some_ (fun c => c <> 62%N) ++ text ($">")].
(** a name in quotes with the address [id], full stops standing for anything *)
Definition quoted_name (id : str) : list (list part) :=
  [text [34%N] ++ some_ (fun c => c <> 34%N) ++ text [34%N] ++ many blank ++ text ($"<") ++ loosely id ++ text ($">")].
(** The domain and the user of the recipient, in the sender's address *)
Definition recipient_inside (user domain : str) : list (list part) := [[Edge] ++ loosely domain ++ one anyc ++ loosely user ++ text ($"@")].
Definition rewritten (udigit : char -> bool) : list (list part) := [[Begin] ++ text ($"SRS") ++ one (digit udigit) ++ text ($"=")].
(** A domain whose part after the first full stop is listed. *)
Definition listed (tlds : list str) (domain : str) : Prop :=
  ~ In 32%N domain /\ exists first rest, lower domain = first ++ $"." ++ rest /\ ~ In 46%N first /\ In rest tlds.

(** Subjects that end in something like an identifier *)
Section Subject.
Variable udigit uword : char -> bool.
Notation digit := (digit udigit).
Notation wordc := (wordc uword).
Definition plain_digit (c : char) : Prop := (48 <= c <= 57)%N.
Definition among (l : str) (c : char) : Prop := In c l.
Definition idc (c : char) : Prop := c = 45%N \/ letter c \/ plain_digit c.
Definition gap (c : char) : Prop := blank c \/ c = 46%N \/ c = 95%N.
Definition hexc (c : char) : Prop := (65 <= c <= 70 \/ 97 <= c <= 102)%N \/ plain_digit c.
Definition at_least (n : nat) (P : char -> Prop) : list part := [Run P n None].
Definition id_forms : list (list part) :=
  [at_least 7 (fun c => c = 45%N \/ gap c) ++ at_least 4 idc ++ [End];
   at_least 10 blank ++ some_ nonblank ++ [End];
   at_least 10 blank ++ one nonblank ++ one blank ++ some_ nonblank ++ [End];
   at_least 3 blank ++ some_ (among ($"-:#([")) ++ at_least 4 idc ++ some_ (among ($"])")) ++ [End];
   at_least 3 blank ++ one (among ($"-:#")) ++ at_least 5 (fun c => letter c \/ plain_digit c) ++ [End];
   at_least 3 gap ++ one (fun c => ~ gap c /\ c <> 48%N) ++ at_least 3 digit ++ [End];
   at_least 3 gap ++ text ($"[") ++ some_ nonblank ++ text ($"]") ++ [End];
   text ($"(") ++ at_least 7 (fun c => c = 45%N \/ wordc c) ++ text ($"@") ++ some_ digit ++ text ($")") ++ [End];
   [Edge] ++ at_least 7 digit ++ many blank ++ [End];
   one (among ($"!?")) ++ many blank ++ at_least 4 digit ++ many blank ++ [End];
   one blank ++ text ($"#") ++ many blank ++ at_least 4 hexc ++ many blank ++ [End]].
(** "-a-bc-d" *)
Definition dashed (t : str) : Prop := exists l, t = flat_map (fun x => $"-" ++ x) l /\ forall x, In x l -> x <> [] /\ forall c, In c x -> wordc c.
(** words joined by hyphens at the end: after "!" or "?", or two words of at least seven
    characters after another word *)
Definition hyphened (s : str) : Prop :=
  (exists x c b v t e, s = x ++ [c] ++ b ++ v ++ t ++ e /\ among ($"!?") c /\ (forall d, In d b -> blank d) /\
     v <> [] /\ (forall d, In d v -> wordc d) /\ t <> [] /\ dashed t /\ (forall d, In d e -> blank d)) \/
  (exists x c b v w t e, s = x ++ [c] ++ b ++ v ++ $"-" ++ w ++ t ++ e /\ wordc c /\ b <> [] /\ (forall d, In d b -> blank d) /\
     7 <= length v /\ (forall d, In d v -> wordc d) /\ 7 <= length w /\ (forall d, In d w -> wordc d) /\ dashed t /\ (forall d, In d e -> blank d)).
Definition ends_in_id (s : str) : Prop := has uword id_forms s \/ hyphened s.
Definition five_digits : list (list part) := [at_least 5 digit].
(** The text before a number says that it is the number of an order or the like, one to six
    characters before it. *)
Definition order_words : list str := [$"item"; $"invoice"; $"order"; $"number"; $"confirmation"].
Definition announced (p : str) : Prop :=
  exists x k g, p = x ++ k ++ g /\ In (lower k) order_words /\ 1 <= length g <= 6 /\ forall c, In c g -> anyc c.
End Subject.
(** No three blanks, full stops, underscores or hyphens in a row. *)
Definition no_gaps (s : str) : Prop :=
  ~ exists x u y, s = x ++ u ++ y /\ 3 <= length u /\ forall c, In c u -> c = 45%N \/ gap c.
