(** Small independent definitions for the tokeniser. *)
From Coq Require Import Permutation.
From Verif Require Import PyStr PyDict Model_BayesTok.
Open Scope nat_scope.

(** ** Lists of names *)
(** Words that are not used *)
Definition unused_words : list str :=
  [$"able"; $"already"; $"all"; $"and"; $"any"; $"are"; $"because"; $"both"; $"can"; $"come"; $"each"; $"email"; $"even";
   $"few"; $"first"; $"for"; $"from"; $"give"; $"have"; $"has"; $"http"; $"information"; $"into"; $"it's"; $"just"; $"know";
   $"like"; $"long"; $"look"; $"made"; $"mail"; $"mailing"; $"mailto"; $"make"; $"many"; $"more"; $"most"; $"much"; $"need";
   $"not"; $"now"; $"number"; $"off"; $"only"; $"one"; $"out"; $"own"; $"people"; $"place"; $"right"; $"same"; $"see"; $"such";
   $"that"; $"this"; $"through"; $"the"; $"time"; $"using"; $"web"; $"where"; $"why"; $"with"; $"without"; $"world"; $"work";
   $"year"; $"years"; $"you"; $"you're"; $"your"].
(** Headers that hold addresses, headers of which only the presence counts, and headers that are left out *)
Definition address_fields : list str :=
  [$"return-path"; $"from"; $"to"; $"cc"; $"reply-to"; $"errors-to"; $"mail-followup-to"; $"sender"; $"x-return-path"; $"x-from";
   $"x-to"; $"x-cc"; $"x-reply-to"; $"x-errors-to"; $"x-mail-followup-to"; $"x-sender"; $"resent-return-path"; $"resent-from";
   $"resent-to"; $"resent-cc"; $"resent-reply-to"; $"resent-errors-to"; $"resent-mail-followup-to"; $"resent-sender"].
Definition presence_fields : list str := map lower
  [$"X-Face"; $"X-GPG-Fingerprint"; $"X-GPG-Key-Fingerprint"; $"X-PGP-Fingerprint"; $"X-PGP-Key-Fingerprint";
   $"X-GnuPG-Fingerprint"; $"X-GnuPG-Key-Fingerprint"; $"X-Gnu-PG-Fingerprint"; $"X-Gnu-PG-Key-Fingerprint"; $"DKIM-Signature";
   $"DomainKey-Signature"].
Definition left_out_fields : list str := map lower
  [$"Sender"; $"X-Sender"; $"Delivered-To"; $"Delivery-Date"; $"Envelope-To"; $"X-Envelope-To"; $"X-MIME-AutoConverted";
   $"X-Converted-To-Plain-Text"; $"Subject"; $"Date"; $"X-List"; $"Mailing-List"; $"X-Mailing-List"; $"List-Archive";
   $"List-Help"; $"List-Id"; $"List-Owner"; $"List-Post"; $"List-Subscribe"; $"List-Unsubscribe"; $"List-Host"; $"List-Manager";
   $"List-Admin"; $"List-Comment"; $"List-Name"; $"List-Url"; $"X-List-Archive"; $"X-List-Help"; $"X-List-Id"; $"X-List-Owner";
   $"X-List-Post"; $"X-List-Subscribe"; $"X-List-Unsubscribe"; $"X-List-Host"; $"X-List-Manager"; $"X-List-Admin";
   $"X-List-Comment"; $"X-List-Name"; $"X-List-Url"; $"X-Unsub"; $"X-Unsubscribe"; $"X-Mailman-Version"; $"X-BeenThere";
   $"X-Loop"; $"Mail-Followup-To"; $"X-eGroups-From"; $"X-eGroups-Return"; $"X-MDMailing-List"; $"X-XEmacs-List"; $"Resent-To";
   $"Resent-Date"; $"Resent-From"; $"Original-To"; $"Original-Date"; $"Original-From"; $"X-Resent-To"; $"X-Resent-Date";
   $"X-Resent-From"; $"X-Original-To"; $"X-Original-Date"; $"X-Original-From"; $"X-MailScanner"; $"X-MailScanner-SpamCheck";
   $"X-Spam"; $"X-Spam-Status-Version"; $"X-Spam-Level-Version"; $"X-Spam-Flag-Version"; $"X-Spam-Report-Version";
   $"X-Spam-Hits-Version"; $"X-Spam-Score-Version"; $"X-Spam-Checker-Version"; $"X-Antispam"; $"X-RBL-Warning"; $"X-Mailscanner";
   $"X-MDaemon-Deliver-To"; $"X-Virus-Scanned"; $"X-Mass-Check-Id"; $"X-Pyzor"; $"X-Filtered-By"; $"X-Scanned-By"; $"X-Scanner";
   $"X-AP-Spam-Score"; $"X-AP-Spam-Status"; $"X-RIPE-Spam-Status"; $"X-SMTPD"; $"X-SMTPD Spam-Apparently-To";
   $"X-SMTPD X-Spam-Apparently-To"; $"SPAM"; $"X-Perlmx-Spam"; $"X-Bogosity"; $"Content-Class"; $"Thread-Index"; $"Thread-Topic";
   $"X-OriginalArrivalTime"; $"Status"; $"X-Status"; $"X-Flags"; $"X-Keywords"; $"Replied"; $"Forwarded"; $"Lines";
   $"Content-Length"; $"X-UID"; $"X-UIDL"; $"X-IMAPbase"; $"X-VM-Bookmark"; $"X-VM-POP-Retrieved"; $"X-VM-IMAP-Retrieved";
   $"X-VM-Labels"; $"X-VM-Last-Modified"; $"X-VM-Summary-Format"; $"X-VM-VHeader"; $"X-VM-Message-Order"; $"X-VM-v0-Data";
   $"X-VM-v1-Data"; $"X-VM-v2-Data"; $"X-VM-v3-Data"; $"X-VM-v4-Data"; $"X-VM-v5-Data"; $"X-VM-v6-Data"; $"X-VM-v7-Data";
   $"X-VM-v8-Data"; $"X-VM-v9-Data"; $"X-Gnus-Mail-Source"; $"Xref"].
(** What is taken off at both ends of a word *)
Definition marks : str := $"-'"".,".

(** Letters, digits and the underscore of Latin-1, and its small letters *)
Definition latin_word (c : char) : bool :=
  alnum c || N.eqb c 95 || mem_char c [170; 178; 179; 181; 185; 186; 188; 189; 190]%N || (N.leb 192 c && N.leb c 255 && negb (mem_char c [215; 247]%N)).
Definition latin_small (c : char) : char :=
  if (N.leb 65 c && N.leb c 90) || (N.leb 192 c && N.leb c 222 && negb (N.eqb c 215)) then (c + 32)%N else c.
(** The bytes of a character beyond ASCII in UTF-8, as far as they are no blanks *)
Definition utf8_bytes (l : str) : Prop :=
  exists x r, l = x :: r /\ Forall (fun c => (128 <= c <= 191)%N /\ is_space c = false) r /\
    ((192 <= x <= 223)%N /\ length r = 1 \/ (224 <= x <= 239)%N /\ length r = 2 \/ (240 <= x <= 244)%N /\ length r = 3).

(** ** Words *)
(** [t] is the word without the quotes, dots, commas and dashes around it. *)
Definition core (w t : str) : Prop :=
  exists a b, w = a ++ t ++ b /\ Forall (fun c => In c marks) a /\ Forall (fun c => In c marks) b /\
    (forall c r, t = c :: r -> ~ In c marks) /\ (forall c r, t = r ++ [c] -> ~ In c marks).
(** A word such as "e.g." or "b.com" *)
Definition dotted (w : str) : Prop := exists t c l r, core w t /\ t = c :: 46%N :: l :: r /\ letter l = true.
(** A word such as "a@b" *)
Definition one_letter_address (w : str) : Prop := exists t c d r, core w t /\ t = c :: 64%N :: d :: r.
Definition some_word (P : str -> Prop) (lines : list str) : Prop := exists line w, In line lines /\ In w (line_words line) /\ P w.

(** ** Tokens *)
(** A long text: more than 15 characters, none a star *)
Definition long (t : str) : Prop := 15 < length t /\ ~ In 42%N t.
(** It begins with two characters from the upper half of Latin-1. *)
Definition foreign (t : str) : Prop := exists a b r, t = a :: b :: r /\ (160 <= a <= 255)%N /\ (160 <= b <= 255)%N.
(** What is kept of a text *)
Inductive kept (r : region) (t : str) : str -> Prop :=
| Kwhole : ~ long t \/ r = Uris -> ~ (long t /\ foreign t) -> kept r t t
| Kskip : long t -> ~ foreign t -> r <> Uris -> kept r t (($"sk:") ++ firstn 7 t).
Definition letters_only (t : str) : str := filter (fun c => latin_word c || mem_char c ($":*")) t.
Inductive derived (r : region) (prefix t : str) : str -> Prop :=
| Ditself k : kept r t k -> derived r prefix t (prefix ++ k)
| Dlower k : kept r t k -> r <> Header -> derived r prefix t (prefix ++ map latin_small k)
| Dletters k : kept r t k -> r <> Header -> derived r prefix t (prefix ++ letters_only k)
| Dboth k : kept r t k -> r <> Header -> derived r prefix t (prefix ++ map latin_small (letters_only k))
| Dtail p s n : long t -> foreign t -> t = p ++ s -> length p = 2 * n -> 0 < n -> s <> [] -> derived r prefix t (($"8:") ++ s).
(** The word is used at all. *)
Definition used (w t : str) : Prop := core w t /\ 3 <= length t /\ ~ In t unused_words.
(** The lines of a message with their regions and prefixes *)
Inductive line_of (body inviz uris : list str) (parsed : dict str) : region -> str -> str -> Prop :=
| Lbody l : In l body -> line_of body inviz uris parsed Body [] l
| Luris l : In l uris -> line_of body inviz uris parsed Uris [] l
| Linviz l : In l inviz -> line_of body inviz uris parsed Body ($"I*:") l
| Lheader k l : In (k, l) parsed -> line_of body inviz uris parsed Header (($"H") ++ k ++ ($":")) l.
(** A line of ordinary characters, without runs of dots or dashes *)
Definition ordinary (line : str) : Prop := Forall (fun c => plain c = true) line /\ ~ (exists a b, line = a ++ ($"...") ++ b) /\ ~ (exists a b, line = a ++ ($"--") ++ b).

(** ** Headers *)
Definition same_elements (a b : outcome) : Prop :=
  match a, b with
  | Runs, Runs => True
  | Raises, Raises => True
  | Tokens l, Tokens m => Permutation l m
  | _, _ => False
  end.
(** At most one of these names is among the headers. *)
Definition at_most_one (of_ : list str) (names : list str) : Prop := forall a b, In a of_ -> In b of_ -> In a names -> In b names -> a = b.
(** The group of the address pattern begins with a character that is not "@". *)
Definition address_group (find_addr : str -> option str) : Prop := forall line g, find_addr line = Some g -> exists c r, g = c :: r /\ c <> 64%N.
(** The same headers except for what is in address headers *)
Definition same_but_addresses (hdrs hdrs' : list (str * str)) : Prop :=
  Forall2 (fun e e' => fst e = fst e' /\ (snd e = snd e' \/ In (lower (fst e)) address_fields)) hdrs hdrs'.
(** What is made of a value of a header *)
Section Shown.
Variables chew_id chew_received chew_content_type : str -> str.
Definition id_headers : list str := [$"message-id"; $"x-message-id"; $"resent-message-id"].
Inductive shown : str -> str -> str -> Prop :=
| Sid n v : In n id_headers -> shown n v (chew_id v)
| Saddress n v : In n address_fields -> shown n v []
| Sreceived v : shown ($"received") v (chew_received v)
| Stype v : shown ($"content-type") v (chew_content_type v)
| Smime v : shown ($"mime-version") v (replace ($"1.0") [] v)
| Spresence n v : In n presence_fields -> shown n v ($"1")
| Sother n v : ~ In n (id_headers ++ address_fields ++ presence_fields) -> n <> $"received" -> n <> $"content-type" -> n <> $"mime-version" -> shown n v v.
End Shown.
(** The values of a header in order; of Received only the last two *)
Definition all_values (hdrs : list (str * str)) (n : str) : list str := map snd (filter (fun e => streqb (lower (fst e)) n) hdrs).
Definition values_used (hdrs : list (str * str)) (n : str) (vals : list str) : Prop :=
  (n <> $"received" /\ vals = all_values hdrs n) \/
  (n = $"received" /\ length (all_values hdrs n) <= 2 /\ vals = all_values hdrs n) \/
  (n = $"received" /\ exists p a b, all_values hdrs n = p ++ [a; b] /\ vals = [a; b]).
