(** Model of the tokeniser of oa/plugins/bayes.py.  Definitions only.
    A text is a list of code points.  Not modelled: the hash of a token (781).  The line
    breaking of the body (585-604), and the regular expressions that shorten Message-ID,
    Received and Content-Type headers, are quantified functions; those of the code are in
    Model_BayesChew. *)
From Verif Require Import PyStr PyDict.
Open Scope nat_scope.

(** ** Characters *)
(** [[A-Za-z0-9]].  For oa/plugins/bayes.py:804-805. *)
Definition alnum (c : char) : bool := (N.leb 65 c && N.leb c 90) || (N.leb 97 c && N.leb c 122) || (N.leb 48 c && N.leb c 57).
(** For oa/plugins/bayes.py:850. *)
Definition letter (c : char) : bool := (N.leb 65 c && N.leb c 90) || (N.leb 97 c && N.leb c 122).
(** [\w] for the code points below 256; others never reach it.
    For oa/plugins/bayes.py:804-805. *)
Definition word_char (c : char) : bool :=
  alnum c || N.eqb c 95 || mem_char c [170; 178; 179; 181; 185; 186; 188; 189; 190]%N || (N.leb 192 c && N.leb c 255 && negb (mem_char c [215; 247]%N)).
(** [lower()] for the code points below 256.  For oa/plugins/bayes.py:880-886. *)
Definition lower1 (c : char) : char :=
  if (N.leb 65 c && N.leb c 90) || (N.leb 192 c && N.leb c 222 && negb (N.eqb c 215)) then (c + 32)%N else c.
(** For oa/plugins/bayes.py:880-886. *)
Definition lower_text (s : str) : str := map lower1 s.

(** ** oa/plugins/bayes.py:789-812, the words of a line *)
(** 794: letters, digits, blanks and some signs *)
Definition plain (c : char) : bool := alnum c || mem_char c ($",@*!_'""$.-") || is_space c.
(** For oa/plugins/bayes.py:795-798. *)
Definition between (a b c : char) : bool := N.leb a c && N.leb c b.
(** For oa/plugins/bayes.py:795-798. *)
Definition cont (c : char) : bool := between 128 191 c.
(** oa/plugins/bayes.py:795-798: how many characters an alternative takes at [x :: s], 0: none matches *)
Definition seq_len (x : char) (s : str) : nat :=
  if between 192 223 x && Nat.eqb (length (filter cont (firstn 1 s))) 1 then 2
  else if between 224 239 x && Nat.eqb (length (filter cont (firstn 2 s))) 2 then 3
  else if between 240 244 x && Nat.eqb (length (filter cont (firstn 3 s))) 3 then 4
  else if between 161 255 x then 1
  else 0.
(** oa/plugins/bayes.py:794-799 [re.findall]; [cur] (reversed) is the piece being read, [k] the number of
    characters it still takes.  The last alternative, a blank and any character, never
    matches as the first takes every blank. *)
Definition flush (cur : str) : list str := match cur with [] => [] | _ => [rev cur] end.
(** For oa/plugins/bayes.py:789-887. *)
Fixpoint pieces (s cur : str) (k : nat) : list str :=
  match s with
  | [] => flush cur
  | x :: r =>
      match k with
      | S (S k') => pieces r (x :: cur) (S k')
      | S O => rev (x :: cur) :: pieces r [] 0
      | O =>
          if plain x then pieces r (x :: cur) 0
          else flush cur ++
               match seq_len x r with
               | O => pieces r [] 0
               | S O => [x] :: pieces r [] 0
               | S k' => pieces r [x] k'
               end
      end
  end.
(** oa/plugins/bayes.py:804-805 [re.sub(r"(\w)(c{3,6})(\w)", r"\1 \2 \3", line)], with the smallest number as
    [lo].  [free]: the last character written is a word character that no match has used;
    [n]: the number of [c] read since. *)
Fixpoint separate (c : char) (lo : nat) (s : str) (free : bool) (n : nat) : str :=
  match s with
  | [] => repeat c n
  | x :: r =>
      if N.eqb x c then separate c lo r free (S n)
      else if free && Nat.leb lo n && Nat.leb n 6 && word_char x
           then ($" ") ++ repeat c n ++ ($" ") ++ x :: separate c lo r false 0
           else repeat c n ++ x :: separate c lo r (word_char x) 0
  end.
(** For oa/plugins/bayes.py:789-887. *)
Definition line_words (line : str) : list str :=
  words (separate 45 2 (separate 46 3 (join ($" ") (pieces line [] 0)) false 0) false 0).

(** ** oa/plugins/bayes.py:820-886, the tokens of a word *)
Inductive region := Header | Body | Uris.
(** For oa/plugins/bayes.py:880-886. *)
Definition in_body (r : region) : bool := match r with Header => false | _ => true end.
(** oa/plugins/bayes.py:822-824 *)
Definition punctuation : str := $"-'"".,".
(** For oa/plugins/bayes.py:821-886. *)
Definition trim (w : str) : str := rstrip_chars punctuation (lstrip_chars punctuation w).
(** oa/plugins/bayes.py:34-53 *)
Definition stop_words : list str :=
  [$"able"; $"already"; $"all"; $"and"; $"any"; $"are"; $"because"; $"both"; $"can"; $"come"; $"each"; $"email"; $"even";
   $"few"; $"first"; $"for"; $"from"; $"give"; $"have"; $"has"; $"http"; $"information"; $"into"; $"it's"; $"just"; $"know";
   $"like"; $"long"; $"look"; $"made"; $"mail"; $"mailing"; $"mailto"; $"make"; $"many"; $"more"; $"most"; $"much"; $"need";
   $"not"; $"now"; $"number"; $"off"; $"only"; $"one"; $"out"; $"own"; $"people"; $"place"; $"right"; $"same"; $"see"; $"such";
   $"that"; $"this"; $"through"; $"the"; $"time"; $"using"; $"web"; $"where"; $"why"; $"with"; $"without"; $"world"; $"work";
   $"year"; $"years"; $"you"; $"you're"; $"your"].
(** An element of the set of tokens: a text, or the generator object that 849 adds.
    For oa/plugins/bayes.py:852-857. *)
Inductive token := Text (s : str) | Generator.
(** oa/plugins/bayes.py:848: [re.match(r"\S\@\S", token)]; a token has no blanks *)
Definition mail_like (t : str) : bool := match t with _ :: a :: _ :: _ => N.eqb a 64 | _ => false end.
(** oa/plugins/bayes.py:850: [re.match(r"\S\.[a-z]", token, re.I)] *)
Definition uri_like (t : str) : bool := match t with _ :: d :: l :: _ => N.eqb d 46 && letter l | _ => false end.
(** oa/plugins/bayes.py:854: [re.sub(r"^[^\.]+\.(.+)$", "\1", bit)]: ["\1"] is the character 1 *)
Definition chew (bit : str) : str :=
  match split1 46%N bit with
  | Some (_ :: _, _ :: _) => [1%N]
  | _ => bit
  end.
(** oa/plugins/bayes.py:852-857, the loop; [None]: it has not ended after [fuel] rounds *)
Fixpoint chew_uri (fuel : nat) (bit : str) : option (list token) :=
  match fuel with
  | O => None
  | S fuel =>
      match chew bit with
      | [] => Some []
      | b => match chew_uri fuel b with
             | Some l => Some (Text (($"UD:") ++ b) :: l)
             | None => None
             end
      end
  end.
(** oa/plugins/bayes.py:868-872 *)
Fixpoint tuples (t : str) : list token :=
  match t with
  | _ :: _ :: ((_ :: _) as r) => Text (($"8:") ++ r) :: tuples r
  | _ => []
  end.
(** For oa/plugins/bayes.py:863-886. *)
Definition MAX_TOKEN_LENGTH : nat := 15.
(** For oa/plugins/bayes.py:863-886. *)
Definition high (c : char) : bool := between 160 255 c.
(** For oa/plugins/bayes.py:863-886. *)
Definition two_high (t : str) : bool := match t with a :: b :: _ => high a && high b | _ => false end.
(** oa/plugins/bayes.py:880-886: the token, and its variants in the body *)
Definition variants (r : region) (prefix t : str) : list token :=
  (if in_body r then
     let d := filter (fun c => word_char c || mem_char c ($":*")) t in
     [Text (prefix ++ d); Text (prefix ++ lower_text d); Text (prefix ++ lower_text t)]
   else []) ++ [Text (prefix ++ t)].
(** oa/plugins/bayes.py:863-886 *)
Definition finish (r : region) (prefix t : str) : list token :=
  if Nat.ltb MAX_TOKEN_LENGTH (length t) && negb (mem_char 42%N t) then
    if two_high t then tuples t
    else variants r prefix (match r with Uris => t | _ => ($"sk:") ++ firstn 7 t end)
  else variants r prefix t.
(** oa/plugins/bayes.py:821-886 *)
Definition word_tokens (fuel : nat) (r : region) (prefix w : str) : option (list token) :=
  let t := trim w in
  if Nat.ltb (length t) 3 then Some []
  else if mem_str t stop_words then Some []
  else if in_body r && mail_like t then Some (Generator :: finish r prefix t)
  else if in_body r && uri_like t then
    match chew_uri fuel t with
    | None => None
    | Some l => Some (Text (($"UD:") ++ t) :: l ++ finish r prefix t)
    end
  else Some (finish r prefix t).
(** For oa/plugins/bayes.py:789-887. *)
Fixpoint gather {A B} (f : A -> option (list B)) (l : list A) : option (list B) :=
  match l with
  | [] => Some []
  | x :: r => match f x, gather f r with
              | Some a, Some b => Some (a ++ b)
              | _, _ => None
              end
  end.
(** oa/plugins/bayes.py:789-887. *)
Definition tokenise_line (fuel : nat) (prefix : str) (r : region) (line : str) : option (list token) :=
  gather (word_tokens fuel r prefix) (line_words line).

(** ** 889-961, the headers *)
(** oa/plugins/bayes.py:194-369 *)
Definition ignored_headers : list str := map lower
  [$"Sender"; $"X-Sender"; $"Delivered-To"; $"Delivery-Date"; $"Envelope-To"; $"X-Envelope-To"; $"X-MIME-AutoConverted";
   $"X-Converted-To-Plain-Text"; $"Subject"; $"Date"; $"X-List"; $"Mailing-List"; $"X-Mailing-List"; $"List-Archive";
   $"List-Help"; $"List-Id"; $"List-Owner"; $"List-Post"; $"List-Subscribe"; $"List-Unsubscribe"; $"List-Host"; $"List-Manager";
   $"List-Admin"; $"List-Comment"; $"List-Name"; $"List-Url"; $"X-List-Archive"; $"X-List-Help"; $"X-List-Id"; $"X-List-Owner";
   $"X-List-Post"; $"X-List-Subscribe"; $"X-List-Unsubscribe"; $"X-List-Host"; $"X-List-Manager"; $"X-List-Admin";
   $"X-List-Comment"; $"X-List-Name"; $"X-List-Url"; $"X-Unsub"; $"X-Unsubscribe"; $"X-Mailman-Version"; $"X-BeenThere";
   $"X-Loop"; $"Mail-Followup-To"; $"X-eGroups-From"; $"X-eGroups-Return"; $"X-MDMailing-List"; $"X-XEmacs-List"; $"Resent-To";
   $"Resent-Date"; $"Resent-From"; $"Original-To"; $"Original-Date"; $"Original-From"; $"X-Resent-To"; $"X-Resent-Date";
   $"X-Resent-From"; $"X-Original-To"; $"X-Original-Date"; $"X-Original-From"; $"X-MailScanner"; $"X-MailScanner-SpamCheck";
   $"X-Spam"; $"X-Spam-Status-Version"; $"X-Spam-Level-Version"; $"X-Spam-Flag-Version"; $"X-Spam-Report-Version";
   $"X-Spam-Hits-Version"; $"X-Spam-Score-Version"; $"X-Spam-Checker-Version"; $"X-Antispam"; $"X-RBL-Warning"; $"X-Mailscanner";
   $"X-MDaemon-Deliver-To"; $"X-Virus-Scanned"; $"X-Mass-Check-Id"; $"X-Pyzor"; $"X-Filtered-By"; $"X-Scanned-By"; $"X-Scanner";
   $"X-AP-Spam-Score"; $"X-AP-Spam-Status"; $"X-RIPE-Spam-Status"; $"X-SMTPD"; $"X-SMTPD Spam-Apparently-To";
   $"X-SMTPD X-Spam-Apparently-To"; $"SPAM"; $"X-Perlmx-Spam"; $"X-Bogosity"; $"Content-Class"; $"Thread-Index"; $"Thread-Topic";
   $"X-OriginalArrivalTime"; $"Status"; $"X-Status"; $"X-Flags"; $"X-Keywords"; $"Replied"; $"Forwarded"; $"Lines";
   $"Content-Length"; $"X-UID"; $"X-UIDL"; $"X-IMAPbase"; $"X-VM-Bookmark"; $"X-VM-POP-Retrieved"; $"X-VM-IMAP-Retrieved";
   $"X-VM-Labels"; $"X-VM-Last-Modified"; $"X-VM-Summary-Format"; $"X-VM-VHeader"; $"X-VM-Message-Order"; $"X-VM-v0-Data";
   $"X-VM-v1-Data"; $"X-VM-v2-Data"; $"X-VM-v3-Data"; $"X-VM-v4-Data"; $"X-VM-v5-Data"; $"X-VM-v6-Data"; $"X-VM-v7-Data";
   $"X-VM-v8-Data"; $"X-VM-v9-Data"; $"X-Gnus-Mail-Source"; $"Xref"].
(** oa/plugins/bayes.py:55-63 *)
Definition addr_headers : list str :=
  [$"return-path"; $"from"; $"to"; $"cc"; $"reply-to"; $"errors-to"; $"mail-followup-to"; $"sender"; $"x-return-path"; $"x-from";
   $"x-to"; $"x-cc"; $"x-reply-to"; $"x-errors-to"; $"x-mail-followup-to"; $"x-sender"; $"resent-return-path"; $"resent-from";
   $"resent-to"; $"resent-cc"; $"resent-reply-to"; $"resent-errors-to"; $"resent-mail-followup-to"; $"resent-sender"].
(** oa/plugins/bayes.py:372-384 *)
Definition presence_headers : list str := map lower
  [$"X-Face"; $"X-GPG-Fingerprint"; $"X-GPG-Key-Fingerprint"; $"X-PGP-Fingerprint"; $"X-PGP-Key-Fingerprint";
   $"X-GnuPG-Fingerprint"; $"X-GnuPG-Key-Fingerprint"; $"X-Gnu-PG-Fingerprint"; $"X-Gnu-PG-Key-Fingerprint"; $"DKIM-Signature";
   $"DomainKey-Signature"].
(** oa/plugins/bayes.py:420-438 *)
Definition compression : dict str :=
  [($"Message-Id", $"*m"); ($"Message-ID", $"*M"); ($"Received", $"*r"); ($"User-Agent", $"*u"); ($"References", $"*f");
   ($"In-Reply-To", $"*i"); ($"From", $"*F"); ($"Reply-To", $"*R"); ($"Return-Path", $"*p"); ($"Return-path", $"*rp");
   ($"X-Mailer", $"*x"); ($"X-Authentication-Warning", $"*a"); ($"Organization", $"*o"); ($"Organisation", $"*o");
   ($"Content-Type", $"*c"); ($"x-spam-relays-trusted", $"*RT"); ($"x-spam-relays-untrusted", $"*RU")].
(** For oa/plugins/bayes.py:930-960. *)
Definition compress (h : str) : str := match dget h compression with Some c => c | None => h end.

Section Headers.
(** 976-998, 1000-1035, 964-974 *)
Variables chew_id chew_received chew_content_type : str -> str.
(** 1037-1041: the group of the address pattern in a line *)
Variable find_addr : str -> option str.
(** [bayes_ignore_headers], lower case *)
Variable user_ignore : list str.

(** oa/plugins/bayes.py:1051-1060: without "@" nothing; the parts of the domain are those after each dot *)
Fixpoint after_dots (fuel : nat) (d : str) : list str :=
  match fuel with
  | O => []
  | S fuel => match split1 46%N d with Some (_, r) => r :: after_dots fuel r | None => [] end
  end.
(** For oa/plugins/bayes.py:1037-1050. *)
Definition mail_parts (a : str) : list str :=
  match rsplit1 64%N a with
  | None => []
  | Some (l, d) => (($"U*") ++ l) :: (($"D*") ++ d) :: after_dots (length d) d
  end.
(** oa/plugins/bayes.py:1037-1050: of the group, only the first character is used *)
Definition chew_addr (v : str) : str :=
  join ($" ") (match find_addr v with Some (c :: _) => mail_parts [c] | _ => [] end).
(** oa/plugins/bayes.py:930-942 *)
Definition special (l v : str) : str :=
  if mem_str l [$"message-id"; $"x-message-id"; $"resent-message-id"] then chew_id v
  else if mem_str l addr_headers then chew_addr v
  else if streqb l ($"received") then chew_received v
  else if streqb l ($"content-type") then chew_content_type v
  else if streqb l ($"mime-version") then replace ($"1.0") [] v
  else if mem_str l presence_headers then $"1"
  else v.
(** oa/plugins/bayes.py:943-949 *)
Definition groups (l : str) : list str :=
  (if mem_str l [$"in-reply-to"; $"references"; $"message-id"] then [$"*MI"] else []) ++
  (if mem_str l [$"from"; $"to"; $"cc"] then [$"*Ad"] else []) ++
  (if mem_str l [$"x-mailer"; $"user-agent"] then [$"*UA"] else []).
(** oa/plugins/bayes.py:930-960: the name for the next value of the header, and the dictionary *)
Definition parse_header (h l v : str) (parsed : dict str) : str * dict str :=
  let v := special l v in
  let parsed := fold_left (fun p g => dset g v p) (groups l) parsed in
  let h := compress h in
  (h, dset h (match dget h parsed with Some old => old ++ ($" ") ++ v | None => v end) parsed).
(** oa/plugins/bayes.py:914-926 *)
Fixpoint header_values (h : str) (vals : list str) (parsed : dict str) : dict str :=
  match vals with
  | [] => parsed
  | v :: r =>
      let l := lower h in
      if mem_str l user_ignore then header_values h r parsed
      else let '(h, parsed) := parse_header h l (rstrip_p is_space v) parsed in header_values h r parsed
  end.
(** oa/plugins/bayes.py:900-927.  The message's headers in order; the names (lower case) are taken in some
    order of a Python set. *)
Definition get_all (hdrs : list (str * str)) (name : str) : list str :=
  map snd (filter (fun e => streqb (lower (fst e)) (lower name)) hdrs).
(** For oa/plugins/bayes.py:765-787. *)
Definition last_two {A} (l : list A) : list A := skipn (length l - 2) l.
(** For oa/plugins/bayes.py:765-787. *)
Definition one_header (hdrs : list (str * str)) (parsed : dict str) (name : str) : dict str :=
  let vals := get_all hdrs name in
  header_values name (if streqb (lower name) ($"received") then last_two vals else vals) parsed.
(** oa/plugins/bayes.py:765-787. *)
Definition header_names (hdrs : list (str * str)) : list str :=
  filter (fun n => negb (mem_str n ignored_headers)) (nodup (list_eq_dec N.eq_dec) (map (fun e => lower (fst e)) hdrs)).
(** For oa/plugins/bayes.py:765-787. *)
Definition parse_headers (order : list str) (hdrs : list (str * str)) : dict str := fold_left (one_header hdrs) order [].

(** ** oa/plugins/bayes.py:759-787, the whole message.  [Runs]: it has not ended within [fuel] rounds of some
    loop; [Raises]: [token.encode] of the generator object. *)
Inductive outcome := Runs | Raises | Tokens (l : list str).
(** For oa/plugins/bayes.py:765-787. *)
Definition texts (l : list token) : list str := flat_map (fun t => match t with Text s => [s] | Generator => [] end) l.
(** For oa/plugins/bayes.py:765-787. *)
Definition is_text (t : token) : bool := match t with Text _ => true | Generator => false end.
(** oa/plugins/bayes.py:765-787. *)
Definition tokenise (fuel : nat) (order body inviz uris : list str) (hdrs : list (str * str)) : outcome :=
  match gather (tokenise_line fuel [] Body) body, gather (tokenise_line fuel [] Uris) uris,
        gather (tokenise_line fuel ($"I*:") Body) inviz,
        gather (fun e => tokenise_line fuel (($"H") ++ fst e ++ ($":")) Header (snd e)) (parse_headers order hdrs) with
  | Some a, Some b, Some c, Some d =>
      let all := a ++ b ++ c ++ d in
      if forallb is_text all then Tokens (filter (fun s => negb (streqb s [])) (nodup (list_eq_dec N.eq_dec) (texts all))) else Raises
  | _, _, _, _ => Runs
  end.
End Headers.

(** ** What the plugin keeps of the messages it has seen (oa/plugins/bayes.py:507-540), for the context *)
Inductive part := Plain (text : str) | Other (text : str).     (** text/plain parts, and all others *)
(** For oa/plugins/bayes.py:507-540. *)
Record mail := { m_subject : option str; m_parts : list part; m_headers : list (str * str) }.
Section Plugin.
(** 585-604: the lines of a text *)
Variable lines_of : str -> list str.
(** The body lines, those not shown, and the addresses.  For oa/plugins/bayes.py:759-787. *)
Record seen := { s_body : list str; s_inviz : list str; s_uris : list str }.
(** oa/plugins/bayes.py:507-540: [check_start], [extract_metadata] for each part, [parsed_metadata] *)
Definition rendered (m : mail) : list str :=
  (match m_subject m with Some (c :: s) => c :: s | _ => [10%N] end) :: flat_map (fun p => match p with Plain t => [t] | Other _ => [] end) (m_parts m).
(** For oa/plugins/bayes.py:759-787. *)
Definition load (m : mail) : seen := {| s_body := lines_of (join [10%N] (rendered m)); s_inviz := lines_of []; s_uris := [] |}.
(** oa/plugins/bayes.py:759-787: [tokenise] takes the text from what was kept of the message loaded last and
    only the headers from the message given *)
Definition tokenise_after i rc ct fa ign (fuel : nat) (loaded m : mail) (order : list str) : outcome :=
  let s := load loaded in tokenise i rc ct fa ign fuel order (s_body s) (s_inviz s) (s_uris s) (m_headers m).
End Plugin.
