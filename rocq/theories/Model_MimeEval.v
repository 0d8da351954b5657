(** Model of oa/plugins/mime_eval.py, of the part of oa/message.py:429-480 that feeds it,
    and of the check of the header/body separator (oa/message.py:434-441).  Floats are
    rationals.  Not modelled: [mime_bad_iso_charset] ([_update_mime_bad_iso_charset] is
    called nowhere), headers that are not plain text (the [email] package gives an object
    for undecodable bytes).  Definitions only. *)
From Coq Require Import QArith.
From Verif Require Import PyStr PyDict.
From Verif Require Model_HeaderEval Model_BodyEval.
Open Scope nat_scope.
Import Model_BodyEval(q).

(** [get_payload()]: text, or the parts of a multipart (here: their main types).
    For oa/message.py:450. *)
Inductive payload := Text (s : str) | Parts (mains : list str).
(** A part as given by [oa/message.py:450] *)
Record part := mkPart {
  p_main : str; p_sub : str;           (** [get_content_maintype/subtype()], lower case *)
  p_raw : payload;                     (** [get_payload()] *)
  p_bytes : str;                       (** [get_payload(decode=True)]; [[]] also for [None] *)
  p_text : str;                        (** the decoded text when [p_main] is "text" (message.py:450-469) *)
  p_cte : str; p_disposition : str;    (** the two headers, [[]] when missing *)
  p_charset : str;                     (** [get_content_charset()], [[]] for [None] *)
  p_lines : list str;                  (** the lines of [translate_line_breaks(part.as_string())] *)
  p_noheaders : bool                   (** [not part._headers] *)
}.
(** For oa/plugins/mime_eval.py:153-159,188-190. *)
Definition is_type (m s : str) (p : part) : bool := streqb (p_main p) m && streqb (p_sub p) s.

(** [str.splitlines()]: the breaks; "\r\n" is one break.  For oa/plugins/mime_eval.py:174-213. *)
Definition is_break (c : char) : bool :=
  existsb (N.eqb c) [10; 13; 11; 12; 28; 29; 30; 133; 8232; 8233]%N.
(** For oa/plugins/mime_eval.py:174-213. *)
Fixpoint lines_aux (s cur : str) (cr : bool) : list str :=
  match s with
  | [] => match cur with [] => [] | _ => [rev cur] end
  | c :: s' => if cr && N.eqb c 10 then lines_aux s' cur false
               else if is_break c then rev cur :: lines_aux s' [] (N.eqb c 13)
               else lines_aux s' (c :: cur) false
  end.
(** For oa/plugins/mime_eval.py:174-213. *)
Definition splitlines (s : str) : list str := lines_aux s [] false.

(** What is kept for one message (oa/plugins/mime_eval.py:39-55,161-172) *)
Record state := mkSt {
  base64_count : nat; base64_text : bool; html_count : nat; text_count : nat; far : bool;
  no_boundary : bool; alternative : bool; qp_count : nat; qp_long : bool; ascii_illegal : bool;
  ma_non_text : bool; base64_length : nat; ascii_chars : nat; plain_chars : nat; html_chars : nat;
  unicode_count : nat; qp_chars : nat; qp_bytes : nat; high : bool }.
(** oa/plugins/mime_eval.py:161-172. *)
Definition check_start : state :=
  mkSt 0 false 0 0 false false false 0 false false false 0 0 0 0 0 0 0 false.

(** Assignments ([set_local]).  For oa/plugins/mime_eval.py:175-180. *)
Definition set_high (b : bool) (s : state) : state :=
  mkSt (base64_count s) (base64_text s) (html_count s) (text_count s) (far s) (no_boundary s) (alternative s)
       (qp_count s) (qp_long s) (ascii_illegal s) (ma_non_text s) (base64_length s) (ascii_chars s) (plain_chars s)
       (html_chars s) (unicode_count s) (qp_chars s) (qp_bytes s) b.
(** For oa/plugins/mime_eval.py:153-159,188-190. *)
Definition set_alternative (b n : bool) (s : state) : state :=
  mkSt (base64_count s) (base64_text s) (html_count s) (text_count s) (far s) (no_boundary s) b
       (qp_count s) (qp_long s) (ascii_illegal s) n (base64_length s) (ascii_chars s) (plain_chars s)
       (html_chars s) (unicode_count s) (qp_chars s) (qp_bytes s) (high s).
(** For oa/plugins/mime_eval.py:192-197. *)
Definition set_html (n c : nat) (s : state) : state :=
  mkSt (base64_count s) (base64_text s) n (text_count s) (far s) (no_boundary s) (alternative s)
       (qp_count s) (qp_long s) (ascii_illegal s) (ma_non_text s) (base64_length s) (ascii_chars s) (plain_chars s)
       c (unicode_count s) (qp_chars s) (qp_bytes s) (high s).
(** For oa/plugins/mime_eval.py:127-151,199-200. *)
Definition set_plain (n : nat) (nb ill : bool) (ac pc uc : nat) (s : state) : state :=
  mkSt (base64_count s) (base64_text s) (html_count s) n (far s) nb (alternative s)
       (qp_count s) (qp_long s) ill (ma_non_text s) (base64_length s) ac pc
       (html_chars s) uc (qp_chars s) (qp_bytes s) (high s).
(** For oa/plugins/mime_eval.py:91-108. *)
Definition set_base64_text (b : bool) (s : state) : state :=
  mkSt (base64_count s) b (html_count s) (text_count s) (far s) (no_boundary s) (alternative s)
       (qp_count s) (qp_long s) (ascii_illegal s) (ma_non_text s) (base64_length s) (ascii_chars s) (plain_chars s)
       (html_chars s) (unicode_count s) (qp_chars s) (qp_bytes s) (high s).
(** For oa/plugins/mime_eval.py:174-213. *)
Definition set_base64 (n l : nat) (s : state) : state :=
  mkSt n (base64_text s) (html_count s) (text_count s) (far s) (no_boundary s) (alternative s)
       (qp_count s) (qp_long s) (ascii_illegal s) (ma_non_text s) l (ascii_chars s) (plain_chars s)
       (html_chars s) (unicode_count s) (qp_chars s) (qp_bytes s) (high s).
(** For oa/plugins/mime_eval.py:69-89,210-211. *)
Definition set_qp (n : nat) (l : bool) (c b : nat) (s : state) : state :=
  mkSt (base64_count s) (base64_text s) (html_count s) (text_count s) (far s) (no_boundary s) (alternative s)
       n l (ascii_illegal s) (ma_non_text s) (base64_length s) (ascii_chars s) (plain_chars s)
       (html_chars s) (unicode_count s) c b (high s).
(** For oa/plugins/mime_eval.py:174-213. *)
Definition set_far (b : bool) (s : state) : state :=
  mkSt (base64_count s) (base64_text s) (html_count s) (text_count s) b (no_boundary s) (alternative s)
       (qp_count s) (qp_long s) (ascii_illegal s) (ma_non_text s) (base64_length s) (ascii_chars s) (plain_chars s)
       (html_chars s) (unicode_count s) (qp_chars s) (qp_bytes s) (high s).

(** For oa/plugins/mime_eval.py:175-180. *)
Definition nonempty {A} (l : list A) : bool := match l with [] => false | _ => true end.
(** For oa/plugins/mime_eval.py:175-180. *)
Definition is_ascii (c : char) : bool := N.ltb c 128.

(** oa/plugins/mime_eval.py:175-180 *)
Definition update_high (p : part) (s : state) : state :=
  let low := length (filter is_ascii (p_bytes p)) in
  let high := length (p_bytes p) in
  if nonempty (p_bytes p) && (low <? high) && (3 <? high * 2) then set_high true s else s.
(** oa/plugins/mime_eval.py:153-159,188-190.  [ma_part.get_content_type] is not called, so the second test always
    holds.  Iterating over a text payload gives characters, which have no content type. *)
Definition update_alternative (p : part) (s : state) : option state :=
  if is_type ($"multipart") ($"alternative") p then
    if ma_non_text s then Some (set_alternative true true s)
    else match p_raw p with
         | Text [] => Some (set_alternative true false s)
         | Text _ => None
         | Parts l => Some (set_alternative true (existsb (fun m => negb (streqb m ($"text"))) l) s)
         end
  else Some s.
(** oa/plugins/mime_eval.py:192-197; [payload] is [None] unless the main type is "text". *)
Definition update_html (p : part) (s : state) : option state :=
  if streqb (p_sub p) ($"html") then
    if streqb (p_main p) ($"text") then Some (set_html (html_count s + 1) (html_chars s + length (p_text p)) s) else None
  else Some s.
(** oa/plugins/mime_eval.py:138: "&#x", four upper-case hexadecimal digits, ";" *)
Definition is_hex (c : char) : bool := (N.leb 48 c && N.leb c 57) || (N.leb 65 c && N.leb c 70).
(** For oa/plugins/mime_eval.py:127-151,199-200. *)
Definition entity_here (s : str) : bool :=
  match s with
  | a :: b :: c :: w :: x :: y :: z :: e :: _ =>
      N.eqb a 38 && N.eqb b 35 && N.eqb c 120 && is_hex w && is_hex x && is_hex y && is_hex z && N.eqb e 59
  | _ => false
  end.
(** For oa/plugins/mime_eval.py:127-151,199-200. *)
Fixpoint has_entity (s : str) : bool :=
  entity_here s || match s with [] => false | _ :: s' => has_entity s' end.
(** The number of groups of the two regular expressions (oa/plugins/mime_eval.py:74-79,138-142) *)
Definition unicode_groups : nat := 1.
(** For oa/plugins/mime_eval.py:69-89,210-211. *)
Definition qp_groups : nat := 0.
(** oa/plugins/mime_eval.py:127-151,199-200.  [get_charset()] is [None] for a message that was parsed. *)
Definition update_text (raw_msg : str) (p : part) (s : state) : state :=
  if is_type ($"text") ($"plain") p then
    set_plain (text_count s + 1)
      (if Model_BodyEval.count_sub ($"--") raw_msg + 1 <=? 4 then true else no_boundary s)
      (match p_raw p with
       | Text t => if forallb is_ascii t then ascii_illegal s else true
       | Parts _ => ascii_illegal s
       end)
      (ascii_chars s + length (p_text p)) (plain_chars s + length (p_text p))
      (if has_entity (p_text p) then unicode_count s + unicode_groups else unicode_count s) s
  else s.
(** oa/plugins/mime_eval.py:95-98 *)
Definition ascii_names : list str :=
  [$"us-ascii"; $"ansi_x3.4-1968"; $"iso-ir-6"; $"ansi_x3.4-1986"; $"iso_646.irv:1991"; $"ascii"; $"iso646-us"; $"us";
   $"ibm367"; $"cp367"; $"csascii"].
(** oa/plugins/mime_eval.py:91-108 *)
Definition update_base64_text (p : part) (s : state) : state :=
  let charset_check := negb (nonempty (p_charset p)) || existsb (fun n => contains n (p_charset p)) ascii_names in
  let disposition_check := negb (mem_str (strip (p_disposition p)) [$"inline"; $"attachment"]) in
  if contains ($"base64") (p_cte p) && charset_check && disposition_check then set_base64_text true s else s.
(** oa/plugins/mime_eval.py:57-67,207-208 *)
Definition max_len (l : list str) : nat := fold_right (fun x n => Nat.max (length x) n) 0 l.
(** For oa/plugins/mime_eval.py:174-213. *)
Definition update_base64 (p : part) (s : state) : option state :=
  if contains ($"base64") (lower (p_cte p)) then
    match p_raw p with
    | Text t => Some (set_base64 (base64_count s + 1)
                        (match t with [] => base64_length s | _ => base64_length s + max_len (splitlines t) end) s)
    | Parts [] => Some (set_base64 (base64_count s + 1) (base64_length s) s)
    | Parts _ => None
    end
  else Some s.
(** oa/plugins/mime_eval.py:86-88: [len("".join(line.split(":")[1:])) > 79 and not line.startswith("SPAM")] *)
Definition max_line_len : nat := 79.
(** For oa/plugins/mime_eval.py:69-89,210-211. *)
Definition long_line (l : str) : bool :=
  (max_line_len <? length (concat (tl (split_char 58%N l)))) && negb (startswith ($"SPAM") l).
(** oa/plugins/mime_eval.py:74-75 *)
Definition qp_here (s : str) : bool :=
  match s with
  | e :: a :: b :: _ =>
      N.eqb e 61 &&
      ((N.eqb a 48 && N.eqb b 57) ||
       (N.eqb a 51 && is_hex b && negb (N.eqb b 68)) ||
       (existsb (N.eqb a) [50; 52; 53; 54]%N && is_hex b) ||
       (N.eqb a 55 && is_hex b && negb (N.eqb b 70)))
  | _ => false
  end.
(** For oa/plugins/mime_eval.py:69-89,210-211. *)
Fixpoint has_qp (s : str) : bool := qp_here s || match s with [] => false | _ :: s' => has_qp s' end.
(** oa/plugins/mime_eval.py:69-89,210-211 *)
Definition update_qp (p : part) (s : state) : option state :=
  if contains ($"quoted-printable") (lower (p_cte p)) then
    match p_raw p with
    | Text t => Some (set_qp (qp_count s + 1) (qp_long s || existsb long_line (p_lines p))
                             (if has_qp t then qp_chars s + qp_groups else qp_chars s) (qp_bytes s + length t) s)
    | Parts _ => None
    end
  else Some s.
(** oa/plugins/mime_eval.py:116-125 *)
Definition is_letter (c : char) : bool := (N.leb 65 c && N.leb c 90) || (N.leb 97 c && N.leb c 122).
(** For oa/plugins/mime_eval.py:174-213. *)
Definition update_far (ok_locales : str) (p : part) (s : state) : state :=
  match p_charset p with
  | c :: _ =>
      if is_letter c && negb (far s) && negb (mem_str ($"all") (words ok_locales)) then
        set_far (negb (Model_HeaderEval.charset_ok_for_locales (p_charset p) (words ok_locales))) s
      else s
  | [] => s
  end.

(** For oa/plugins/mime_eval.py:174-213. *)
Definition bind {A B} (o : option A) (f : A -> option B) : option B := match o with Some x => f x | None => None end.
(** oa/plugins/mime_eval.py:174-213; [None]: an exception, which ends the loading of the message (context.py:111-124,
    376-392 catches only [InhibitCallbacks]). *)
Definition extract_metadata (ok_locales raw_msg : str) (s : state) (p : part) : option state :=
  bind (update_alternative p (update_high p s)) (fun s =>
  bind (update_html p s) (fun s =>
  bind (update_base64 p (update_base64_text p (update_text raw_msg p s))) (fun s =>
  bind (update_qp p s) (fun s => Some (update_far ok_locales p s))))).
(** oa/message.py:429-470: all parts, in order *)
Fixpoint extract_all (ok_locales raw_msg : str) (s : state) (l : list part) : option state :=
  match l with
  | [] => Some s
  | p :: r => bind (extract_metadata ok_locales raw_msg s p) (fun s => extract_all ok_locales raw_msg s r)
  end.
(** oa/message.py:429-470. *)
Definition load (ok_locales raw_msg : str) (l : list part) : option state := extract_all ok_locales raw_msg check_start l.

(** oa/plugins/mime_eval.py:215-233 [parsed_metadata] *)
Definition multipart_ratio (s : state) : Q :=
  if (html_chars s =? 0) || (plain_chars s =? 0) then 1%Q else (q (plain_chars s) / q (html_chars s))%Q.
(** For oa/plugins/mime_eval.py:237-257. *)
Definition unicode_ratio (s : state) : Q :=
  if ascii_chars s =? 0 then 0%Q else (q (unicode_count s) / q (ascii_chars s))%Q.
(** For oa/plugins/mime_eval.py:237-257. *)
Definition qp_ratio (s : state) : Q :=
  if (qp_chars s =? 0) || (qp_bytes s =? 0) then 0%Q else (q (qp_chars s) / q (qp_bytes s))%Q.

(** The rules.  [None] as a maximum is "inf".  For oa/plugins/mime_eval.py:347-357. *)
Definition le_max (x : Q) (m : option Q) : bool := match m with Some m => Qle_bool x m | None => true end.
(** oa/plugins/mime_eval.py:237-257: whether the value is true *)
Definition check_for_mime (test : str) (s : state) : bool :=
  let is n := streqb test (of_string n) in
  if is "mime_base64_count"%string then negb (base64_count s =? 0)
  else if is "mime_base64_encoded_text"%string then base64_text s
  else if is "mime_body_html_count"%string then negb (html_count s =? 0)
  else if is "mime_body_text_count"%string then negb (text_count s =? 0)
  else if is "mime_faraway_charset"%string then far s
  else if is "mime_missing_boundary"%string then no_boundary s
  else if is "mime_multipart_alternative"%string then alternative s
  else if is "mime_multipart_ratio"%string then negb (Qeq_bool (multipart_ratio s) 0)
  else if is "mime_qp_count"%string then negb (qp_count s =? 0)
  else if is "mime_qp_long_line"%string then qp_long s
  else if is "mime_qp_ratio"%string then negb (Qeq_bool (qp_ratio s) 0)
  else if is "mime_ascii_text_illegal"%string then ascii_illegal s
  else if is "mime_text_unicode_ratio"%string then negb (Qeq_bool (unicode_ratio s) 0)
  else false.
(** oa/plugins/mime_eval.py:259-267 *)
Definition check_for_mime_html (s : state) : bool := negb (html_count s =? 0).
(** oa/plugins/mime_eval.py:263-267. *)
Definition check_for_mime_html_only (s : state) : bool := negb (html_count s =? 0) && (text_count s =? 0).
(** oa/plugins/mime_eval.py:299-307 *)
Definition check_for_faraway_charset (s : state) : bool := if high s then far s else false.
(** oa/plugins/mime_eval.py:335-345 *)
Definition check_mime_multipart_ratio (minr maxr : Q) (s : state) : bool :=
  Qle_bool minr (multipart_ratio s) && negb (Qle_bool maxr (multipart_ratio s)).
(** oa/plugins/mime_eval.py:347-357 *)
Definition check_base64_length (minl : Q) (maxl : option Q) (s : state) : bool :=
  Qle_bool minl (q (base64_length s)) && le_max (q (base64_length s)) maxl.
(** oa/plugins/mime_eval.py:359-374 *)
Definition check_ma_non_text (s : state) : bool := ma_non_text s.
(** oa/plugins/mime_eval.py:366-374. *)
Definition check_for_ascii_text_illegal (s : state) : bool := ascii_illegal s.
(** oa/plugins/mime_eval.py:376-394 *)
Definition check_abundant_unicode_ratio (minr : Q) (maxr : option Q) (s : state) : bool :=
  Qle_bool minr (unicode_ratio s) && le_max (unicode_ratio s) maxr.
(** oa/plugins/mime_eval.py:396-404 *)
Definition check_qp_ratio (minr : Q) (maxr : option Q) (s : state) : bool :=
  Qle_bool minr (qp_ratio s) && le_max (qp_ratio s) maxr.

(** ** The flags of the message (oa/plugins/mime_eval.py:269-297) *)
(** [email.feedparser.headerRE]: "From ", or a name and a colon, or a blank *)
Definition name_char (c : char) : bool := N.leb 33 c && N.leb c 126 && negb (N.eqb c 58).
(** For oa/message.py:434-441. *)
Definition header_line (l : str) : bool :=
  startswith ($"From ") l ||
  match drop_while name_char l with c :: _ => N.eqb c 58 | [] => false end ||
  match l with c :: _ => N.eqb c 32 || N.eqb c 9 | [] => false end.
(** oa/message.py:434-441 *)
Fixpoint missing_separator_aux (l : list str) : bool :=
  match l with
  | [] => false
  | x :: r => if header_line x then missing_separator_aux r else nonempty (strip x)
  end.
(** oa/message.py:434-441. *)
Definition missing_separator (raw_msg : str) : bool := missing_separator_aux (splitlines raw_msg).
(** oa/message.py:137, 451-452 *)
Definition missing_headers (l : list part) : bool := existsb p_noheaders l.
(** oa/plugins/mime_eval.py:286-289: [value] is the list of the values of a header. *)
Definition max_header_key : N := 256.
(** oa/plugins/mime_eval.py:286-289. *)
Definition max_header_value : N := 8192.
(** oa/plugins/mime_eval.py:286-289. *)
Definition truncated_headers (h : dict (list str)) : bool :=
  existsb (fun e => N.ltb max_header_key (N.of_nat (length (fst e))) || N.ltb max_header_value (N.of_nat (length (snd e)))) h.

(** ** 309-333 [check_for_uppercase] *)
Section Uppercase.
Variable up : char -> str.          (** [upper()] of a character *)
Variables is_word is_dig : char -> bool.   (** [[^\W_]] and [isdigit()] *)
(** [re.split("\n\n", s)].  oa/plugins/mime_eval.py:309-333. *)
Fixpoint paras_aux (s cur : str) (skip : bool) : list str :=
  match s with
  | [] => [rev cur]
  | c :: s' => if skip then paras_aux s' [] false
               else match s' with
                    | d :: _ => if N.eqb c 10 && N.eqb d 10 then rev cur :: paras_aux s' [] true else paras_aux s' (c :: cur) false
                    | [] => paras_aux s' (c :: cur) false
                    end
  end.
(** oa/plugins/mime_eval.py:309-333. *)
Definition paras (s : str) : list str := paras_aux s [] false.
(** oa/plugins/mime_eval.py:309-333. *)
Definition nl_blank (s : str) : str := map (fun c => if N.eqb c 10 then 32%N else c) s.
(** oa/plugins/mime_eval.py:309-333. *)
Definition counted (para : str) : bool := mem_char 32%N (nl_blank (strip_chars [10%N] para)).
(** oa/plugins/mime_eval.py:309-333. *)
Definition letters (para : str) : str := filter is_word (nl_blank para).
(** oa/plugins/mime_eval.py:321-323: [zip(text, text.upper())] *)
Definition count_lower (t : str) : nat :=
  length (filter (fun ab => negb (N.eqb (fst ab) (snd ab)) || is_dig (fst ab)) (combine t (flat_map up t))).
(** oa/plugins/mime_eval.py:309-333. *)
Definition sum (l : list nat) : nat := fold_right Nat.add 0 l.
(** oa/plugins/mime_eval.py:309-333. *)
Definition min_length : N := 200.
(** oa/plugins/mime_eval.py:309-333. *)
Definition check_for_uppercase (minp maxp : Q) (raw_text : str) : bool :=
  let ps := filter counted (paras raw_text) in
  let len := sum (map (@length char) ps) in
  let total := sum (map (fun p => length (letters p)) ps) in
  let lows := sum (map (fun p => count_lower (letters p)) ps) in
  if N.ltb (N.of_nat len) min_length then false
  else if total =? 0 then false
  else let r := (q (total - lows) / q total * 100)%Q in negb (Qle_bool r minp) && Qle_bool r maxp.
End Uppercase.
