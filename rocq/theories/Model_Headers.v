(** Model of the header handling of oa/message.py, of oa/regex.py and of
    oa/rules/header.py.  Definitions only. *)
From Verif Require Import PyStr PyDict Model_Rules.

(** ** oa/message.py:77-95 [_Headers]: a dict of lists with lower-cased keys.
    Simplification: [str.lower] is ASCII-only. *)
Definition headers (V : Type) := dict (list V).

(** oa/message.py:85-86 [get(k, list())] *)
Definition h_get {V} (k : str) (h : headers V) : list V :=
  match dget (lower k) h with Some l => l | None => [] end.
(** oa/message.py:91-95: [h[k].append(v)]; a missing key gets a new list
    (collections.defaultdict). *)
Definition h_append {V} (k : str) (v : V) (h : headers V) : headers V :=
  dset (lower k) (h_get k h ++ [v]) h.
(** oa/message.py:94-95 [k in h] *)
Definition h_in {V} (k : str) (h : headers V) : bool := dhas (lower k) h.

(** oa/message.py:443-444 *)
Definition raw_of (fields : list (str * str)) : headers str :=
  fold_left (fun h f => h_append (fst f) (snd f) h) fields [].

(** The header part of a message: the raw headers and the cache used both by
    [get_decoded_header] and by plugins adding headers.  For oa/message.py:228-237. *)
Record hmsg := mkH { h_raw : headers str; h_cache : headers (option str) }.

Section Decode.
(** oa/message.py:194-216 [_decode_header] (the email package): [None] when the
    field cannot be decoded. *)
Variable decode : str -> option str.

(** oa/message.py:228-237 [get_decoded_header] with oa/message.py:98-122
    [_memoize("headers")] (not in lazy mode): values and the new state. *)
Definition get_decoded (k : str) (m : hmsg) : list (option str) * hmsg :=
  match dget (lower k) (h_cache m) with
  | Some l => (l, m)
  | None =>
      let l := map decode (h_get k (h_raw m)) ++ h_get k (h_cache m) in
      (l, mkH (h_raw m) (dset (lower k) l (h_cache m)))
  end.

(** oa/plugins/relay_country.py:88: a plugin adds a header. *)
Definition plugin_add (k v : str) (m : hmsg) : hmsg :=
  mkH (h_raw m) (h_append k (Some v) (h_cache m)).

(** oa/message.py:429-448,471: parsing the message; the body text starts with
    the decoded subjects.  [None]: the join fails on an undecodable subject
    ([TypeError]).  [rest] are the texts of the parts. *)
Fixpoint all_some (l : list (option str)) : option (list str) :=
  match l with
  | [] => Some []
  | None :: _ => None
  | Some x :: l' => option_map (cons x) (all_some l')
  end.
(** oa/message.py:429-448,471. *)
Definition load_fields (fields : list (str * str)) (rest : list str) : option (hmsg * str) :=
  let m := mkH (raw_of fields) [] in
  let '(subj, m') := get_decoded ($"Subject") m in
  match all_some subj with
  | Some l => Some (m', join ($" ") (l ++ rest))
  | None => None
  end.
End Decode.

(** oa/message.py:175-179 [translate_line_breaks] *)
Definition translate_line_breaks (text : str) : str :=
  replace [13%N] [10%N] (replace [13%N; 10%N] [10%N] text).

(** ** oa/regex.py *)

(** oa/regex.py:19-29 [DELIMS] *)
Definition rev_delim (c : char) : option char :=
  if N.eqb c 47 then Some 47%N         (* / *)
  else if N.eqb c 123 then Some 125%N  (* { } *)
  else if N.eqb c 37 then Some 37%N    (* % *)
  else if N.eqb c 60 then Some 62%N    (* < > *)
  else if N.eqb c 39 then Some 39%N    (* ' *)
  else if N.eqb c 126 then Some 126%N  (* ~ *)
  else if N.eqb c 44 then Some 44%N    (* , *)
  else if N.eqb c 33 then Some 33%N    (* ! *)
  else if N.eqb c 59 then Some 59%N    (* ; *)
  else None.

(** oa/regex.py:33-40: the local flags after "(?" up to a ":" are removed. *)
Definition drop_ext (s : str) : str :=
  let r := drop_while (fun c => mem_char c ($"adlupimsx-")) s in
  match r with
  | 58%N :: _ => r
  | _ => match s with
         | 94%N :: s' => let r' := drop_while (fun c => mem_char c ($"?^alupimsx")) s' in
                         match r' with 58%N :: _ => r' | _ => s end
         | _ => s
         end
  end.
(** [k]: characters still to be dropped.  For oa/regex.py:84-111. *)
Fixpoint conv1_aux (s : str) (k : nat) : str :=
  match s with
  | [] => []
  | c :: s' =>
      match k with
      | S k' => conv1_aux s' k'
      | 0 => match s' with
             | d :: s'' => if N.eqb c 40 && N.eqb d 63
                           then c :: d :: conv1_aux s'' (length s'' - length (drop_ext s''))
                           else c :: conv1_aux s' 0
             | [] => [c]
             end
      end
  end.
(** For oa/regex.py:84-111. *)
Definition conv1 (s : str) : str := conv1_aux s 0.

(** oa/regex.py:42-48: "\b?" becomes "(\b)?" (also for "\B"). *)
Fixpoint conv2 (s : str) : str :=
  match s with
  | c :: ((d :: ((e :: _) as s2)) as s1) =>
      if N.eqb c 92 && (N.eqb d 98 || N.eqb d 66) && N.eqb e 63
      then 40%N :: c :: d :: 41%N :: conv2 s2
      else c :: conv2 s1
  | _ => s
  end.

(** oa/regex.py:50-56: "(?>" becomes "(?:". *)
Fixpoint conv3 (s : str) : str :=
  match s with
  | c :: ((d :: ((e :: s3) as s2)) as s1) =>
      if N.eqb c 40 && N.eqb d 63 && N.eqb e 62
      then c :: d :: 58%N :: conv3 s3
      else c :: conv3 s1
  | _ => s
  end.

(** For oa/regex.py:11-17,104. *)
Record reflags := mkFlags { f_i : bool; f_s : bool; f_m : bool; f_x : bool }.
(** oa/regex.py:11-17,104 *)
Definition flags_of (s : str) : reflags :=
  mkFlags (mem_char 105%N s) (mem_char 115%N s) (mem_char 109%N s) (mem_char 120%N s).

(** For oa/regex.py:84-111. *)
Inductive reres (P : Type) :=
| ReOk (p : P)      (** a pattern *)
| ReInvalid         (** [InvalidRegex] *)
| ReCrash.          (** [IndexError] on an empty text, oa/regex.py:88 *)
Arguments ReOk {P}. Arguments ReInvalid {P}. Arguments ReCrash {P}.

Section Regex.
(** [re.compile]: any function from pattern and flags to a search predicate;
    [None] is [re.error]. *)
Variable re_compile : str -> reflags -> option (str -> bool).

(** oa/regex.py:84-111 [perl2re]; the match operator is applied by
    [pat_match]. *)
Definition perl2re (pattern : str) : reres (str -> bool) :=
  let p := lstrip_chars ($"mgs") (strip pattern) in
  match p with
  | [] => ReCrash
  | delim :: _ =>
      match rev_delim delim with
      | None => ReInvalid
      | Some rd =>
          match rsplit1 rd (lstrip_chars [delim] p) with
          | None => ReInvalid
          | Some (body, flags) =>
              match re_compile (conv3 (conv2 (conv1 body))) (flags_of flags) with
              | Some f => ReOk f
              | None => ReInvalid
              end
          end
      end
  end.

(** oa/regex.py:70-81: [MatchPattern.match], [NotMatchPattern.match] ([neg]). *)
Definition pat_match (neg : bool) (search : str -> bool) (text : str) : bool :=
  if neg then negb (search text) else search text.

(** ** oa/rules/header.py *)

(** For oa/rules/header.py:80-116. *)
Inductive hkind :=
| HAll | HMulti (names : list str)
| HPlain (name : str) | HRaw (name : str) | HAddr (name : str) | HName (name : str)
| HExists (name : str).
(** For oa/rules/header.py:80-116. *)
Record hrule := mkHR { hr_kind : hkind; hr_neg : bool; hr_search : str -> bool }.

(** For oa/rules/header.py:80-116. *)
Inductive hres :=
| HOk (r : hrule)
| HNone      (** [get_rule] returns [None]: no operator, or an unknown modifier *)
| HBadRegex  (** [InvalidRegex] *)
| HCrash.    (** [IndexError] *)

(** oa/rules/header.py:208-219 *)
Definition tocc : list str := [$"To"; $"Cc"].
(** For oa/rules/header.py:80-116. *)
Definition messageid : list str := [$"Message-Id"; $"Resent-Message-Id"; $"X-Message-Id"].

(** oa/rules/header.py:80-116 [HeaderRule.get_rule] *)
Definition header_rule (value : str) : hres :=
  let op := if contains ($"=~") value then Some false
            else if contains ($"!~") value then Some true else None in
  match op with
  | Some neg =>
      match split1_sub (if neg then $"!~" else $"=~") value with
      | None => HNone (* not reached: the operator is in the text *)
      | Some (hn, pattern) =>
          let hn := strip hn in
          match perl2re pattern with
          | ReInvalid => HBadRegex
          | ReCrash => HCrash
          | ReOk f =>
              if streqb hn ($"ALL") then HOk (mkHR HAll neg f)
              else if streqb hn ($"ToCc") then HOk (mkHR (HMulti tocc) neg f)
              else if streqb hn ($"MESSAGEID") then HOk (mkHR (HMulti messageid) neg f)
              else match rsplit1 58%N hn with
                   | Some (h, md) =>
                       if streqb md ($"raw") then HOk (mkHR (HRaw (strip h)) neg f)
                       else if streqb md ($"addr") then HOk (mkHR (HAddr (strip h)) neg f)
                       else if streqb md ($"name") then HOk (mkHR (HName (strip h)) neg f)
                       else HNone
                   | None => HOk (mkHR (HPlain (strip hn)) neg f)
                   end
          end
      end
  | None =>
      if startswith ($"exists:") value
      then HOk (mkHR (HExists (strip (lstrip_chars ($"exists:") value))) false (fun _ => false))
      else HNone
  end.

(** The loops of the [match] methods: the first value the pattern accepts is a
    hit; an undecodable value makes [search] raise.  For oa/rules/header.py:128-238. *)
Fixpoint values_match (neg : bool) (search : str -> bool) (l : list (option str)) : outcome :=
  match l with
  | [] => Returns (VBool false)
  | None :: _ => Raises
  | Some v :: l' => if pat_match neg search v then Returns (VBool true) else values_match neg search l'
  end.
End Regex.

Section HeaderMatch.
Variable decode : str -> option str.
(** [email.utils.getaddresses]: the (name, address) pairs of a header value (see PyAddr).  [None]: it raises. *)
Variable addresses : str -> option (list (str * str)).

(** oa/message.py:260-263,292-295: the first non-empty component of the pairs of one value *)
Definition first_of (sel : str * str -> str) (l : list (str * str)) : list str :=
  match filter (fun p => match sel p with [] => false | _ => true end) l with
  | [] => []
  | p :: _ => [sel p]
  end.
(** The loops over the values of a header, oa/message.py:258-264,268-273,290-296; [pick]: what is taken from the pairs
    of one value.  A value that cannot be decoded is the object [None] (oa/message.py:201), which [getaddresses] turns
    into the text "None". *)
Fixpoint collect (pick : list (str * str) -> list str) (values : list (option str)) : option (list str) :=
  match values with
  | [] => Some []
  | v :: r => match addresses (match v with Some t => t | None => $"None" end), collect pick r with
              | Some l, Some l' => Some (pick l ++ l')
              | _, _ => None
              end
  end.
(** oa/message.py:255-264 [get_addr_header] ([sel]: the address) and 287-296 [get_name_header] ([sel]: the name).
    Simplification: what is kept for the next call (oa/message.py:98-122) is left out.  [None]: an exception. *)
Definition addr_values (sel : str * str -> str) (k : str) (m : hmsg) : option (list str) :=
  collect (first_of sel) (fst (get_decoded decode k m)).

(** oa/rules/header.py:128-238, the [match] methods.  Simplification: the caches
    written by the lookups are not returned (C56 shows they cannot be
    observed). *)
Definition hrule_match (r : hrule) (m : hmsg) : outcome :=
  let vm := values_match (hr_neg r) (hr_search r) in
  match hr_kind r with
  | HExists n => Returns (VBool (h_in n (h_raw m)))
  | HPlain n => vm (fst (get_decoded decode n m))
  | HRaw n => vm (map Some (h_get n (h_raw m)))
  | HAddr n => match addr_values snd n m with Some l => vm (map Some l) | None => Raises end
  | HName n => match addr_values fst n m with Some l => vm (map Some l) | None => Raises end
  | HMulti ns => vm (flat_map (fun n => fst (get_decoded decode n m)) ns)
  | HAll => vm (flat_map (fun n => map (option_map (fun v => n ++ $": " ++ v))
                                       (fst (get_decoded decode n m))) (dkeys (h_raw m)))
  end.
End HeaderMatch.
