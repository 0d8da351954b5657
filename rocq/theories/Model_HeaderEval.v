(** Model of a part of oa/plugins/header_eval.py and of oa/locales.py.  Definitions only.
    Modelled: the charset, illegal character, recipient, date, header count, all-caps,
    domain and missing-To rules; those that recognise the headers of particular
    providers and programs by regular expressions are in Model_Provider.v. *)
From Coq Require Import QArith.
From Verif Require Import PyStr PyDict Model_Files.
Open Scope nat_scope.

(** ** oa/locales.py *)
(** oa/locales.py:5-35.  The six Cyrillic lists are the same. *)
Definition cyrillic : list str :=
  [$"KOI8R"; $"KOI8U"; $"KOI8T"; $"ISOIR111"; $"CP1251"; $"GEORGIANPS"; $"PT154"; $"CP866"].
(** For oa/locales.py:53-68. *)
Definition unusual_charsets : dict (list str) :=
  [($"ja", [$"EUCJP"; $"JISX020119760"; $"JISX020819830"; $"JISX020819900"; $"JISX020819970"; $"JISX021219900";
            $"JISX021320001"; $"JISX021320002"; $"SHIFT_JIS"; $"SHIFTJIS"; $"ISO2022JP"; $"SJIS"; $"JIS7"; $"JISX0201";
            $"JISX0208"; $"JISX0212"]);
   ($"ko", [$"EUCKR"; $"KSC56011987"]);
   ($"ru", cyrillic); ($"ka", cyrillic); ($"tg", cyrillic); ($"be", cyrillic); ($"uk", cyrillic); ($"bg", cyrillic);
   ($"th", [$"TIS620"]);
   ($"zh", [$"GB1988"; $"GB2312"; $"GB231219800"; $"GB18030"; $"GBK"; $"BIG5HKSCS"; $"BIG5"; $"EUCTW"; $"ISO2022CN"])].
(** oa/locales.py:37-50: after 55-56 the text has no newline, so [$] is the end. *)
Definition always_ok (c : str) : bool :=
  streqb c ($"USASCII") || existsb (fun p => startswith p c) [$"ISO8859"; $"ISO10646"; $"UTF"; $"USC"; $"CP125"; $"WINDOWS"; $"UNICODE11UTF7"; $"UNICODE11UTF8"] ||
  streqb c ($"XUNKNOWN") || streqb c ($"ISO").
(** [upper()] for ASCII; other letters are removed by the next step.  (Some, such as "ß",
    have ASCII capitals; charset names with them are not modelled.).
    For oa/locales.py:53-68. *)
Definition upper_char (c : char) : char := if N.leb 97 c && N.leb c 122 then (c - 32)%N else c.
(** For oa/locales.py:53-68. *)
Definition charset_char (c : char) : bool := (N.leb 65 c && N.leb c 90) || (N.leb 48 c && N.leb c 57).
(** For oa/locales.py:53-68. *)
Definition clean_charset (c : str) : str := filter charset_char (map upper_char c).
(** oa/locales.py:53-68; [[]] also for [None] *)
Definition charset_ok_for_locales (charset : str) (locales : list str) : bool :=
  let c := clean_charset charset in
  always_ok c ||
  existsb (fun l => let l := firstn 2 (if streqb l ($"C") then $"en" else l) in
                    match dget l unusual_charsets with Some u => mem_str c u | None => false end) locales.
(** oa/plugins/header_eval.py:76-101 [check_for_faraway_charset_in_headers].  [parts]: the charsets of the parts of a
    header ([email.header.decode_header]; [[]] for [None]), [None] if it cannot be decoded. *)
Definition faraway (ok_locales : str) (parts : str -> option (list str)) (subject from : list str) : bool :=
  match ok_locales with
  | [] => false
  | _ =>
      if streqb (lower ok_locales) ($"all") then false
      else existsb (fun h => match parts h with
                             | None => false
                             | Some l => existsb (fun c => negb (charset_ok_for_locales c (words ok_locales))) l
                             end) (subject ++ from)
  end.

(** ** What the header rules read of a message: the raw headers (lower-case names) and the
    decoded ones found so far (oa/message.py:98-122, 224-237, not in lazy mode). *)
Record hstate := { h_raw : dict (list str); h_decoded : dict (list str) }.
(** For oa/message.py:224-237. *)
Definition raw_of (h : hstate) (name : str) : list str := match dget (lower name) (h_raw h) with Some l => l | None => [] end.

Section Headers.
Variable decode : str -> str.          (** oa/message.py:194-216, where it does not give [None] *)
Variables up low : char -> bool.       (** [isupper()], [islower()] of one character *)
Variable parts : str -> option (list str).

(** oa/message.py:224-237. *)
Definition get_decoded (name : str) (h : hstate) : list str * hstate :=
  match dget (lower name) (h_decoded h) with
  | Some l => (l, h)
  | None => let l := map decode (raw_of h name) in
            (l, {| h_raw := h_raw h; h_decoded := dset (lower name) l (h_decoded h) |})
  end.

(** oa/plugins/header_eval.py:142-195 [check_illegal_chars], for a ratio and a count that are numbers.  With "ALL" the
    Subject and From headers are deleted from the message (160-166). *)
Definition illegal_char (c : char) : bool := N.leb 128 c.
(** For oa/plugins/header_eval.py:142-195. *)
Definition illegal_in (ratio : Q) (count : Z) (subject : bool) (s : str) : bool :=
  let illegal := Z.of_nat (length (filter illegal_char s)) in
  let exempt := length (filter (fun c => mem_char c s) [162%N; 163%N; 174%N]) in
  let illegal := if Z.ltb 0 illegal && subject && Nat.eqb exempt 1 then (illegal - 1)%Z else illegal in
  match s with
  | [] => false
  | _ => Qle_bool ratio (inject_Z illegal / inject_Z (Z.of_nat (length s))) && Z.leb count illegal
  end.
(** oa/plugins/header_eval.py:142-195. *)
Definition check_illegal_chars (header : str) (ratio : Q) (count : Z) (h : hstate) : bool * hstate :=
  if streqb header ($"ALL") then
    let raw := filter (fun e => negb (mem_str (lower (fst e)) [$"subject"; $"from"])) (h_raw h) in
    (illegal_in ratio count false (concat (map (fun e => concat (snd e)) raw)),
     {| h_raw := raw; h_decoded := h_decoded h |})
  else (illegal_in ratio count (streqb (lower header) ($"subject")) (concat (raw_of h header)), h).

(** oa/plugins/header_eval.py:445-451 *)
Definition check_for_missing_to_header (h : hstate) : bool :=
  match raw_of h ($"To"), raw_of h ($"Apparently-To") with [], [] => true | _, _ => false end.
(** oa/plugins/header_eval.py:644-654 *)
Definition check_header_count_range (header : str) (minr maxr : Z) (h : hstate) : bool :=
  let n := Z.of_nat (length (nodup (list_eq_dec N.eq_dec) (raw_of h header))) in
  Z.leb minr n && Z.leb n maxr.

(** oa/plugins/header_eval.py:548-567 [subject_is_all_caps].  Letters of the notations are ASCII. *)
Definition notations : list str := [$"re:"; $"fwd:"; $"fw:"; $"aw:"; $"antwort:"; $"sv:"].
(** For oa/plugins/header_eval.py:548-567. *)
Fixpoint drop_notation (ps : list str) (s : str) : str :=
  match ps with
  | [] => s
  | p :: rest => if startswith p (lower s) then skipn (length p) s else drop_notation rest s
  end.
(** For oa/plugins/header_eval.py:548-567. *)
Definition isupper (s : str) : bool := existsb up s && negb (existsb low s).
(** For oa/plugins/header_eval.py:548-567. *)
Definition all_caps (subject : str) : bool :=
  let s := strip (drop_notation notations subject) in
  negb (Nat.ltb (length s) 10) && negb (Nat.eqb (length (words s)) 1) && isupper s.
(** oa/plugins/header_eval.py:548-567. *)
Definition subject_is_all_caps (h : hstate) : bool * hstate :=
  let '(l, h) := get_decoded ($"Subject") h in (existsb all_caps l, h).
(** oa/plugins/header_eval.py:76-101, of the message *)
Definition check_faraway (ok_locales : str) (h : hstate) : bool :=
  faraway ok_locales parts (raw_of h ($"Subject")) (raw_of h ($"From")).

(** The header rules of this section, asked of a message one after the other.
    oa/plugins/header_eval.py:76-101,142-195,445-451,548-567,644-654. *)
Inductive hquestion :=
| HIllegal (header : str) (ratio : Q) (count : Z)
| HMissingTo
| HCount (header : str) (minr maxr : Z)
| HCaps
| HFaraway (ok_locales : str).
(** oa/plugins/header_eval.py:76-101,142-195,445-451,548-567,644-654. *)
Definition hask (q : hquestion) (h : hstate) : bool * hstate :=
  match q with
  | HIllegal n r c => check_illegal_chars n r c h
  | HMissingTo => (check_for_missing_to_header h, h)
  | HCount n a b => (check_header_count_range n a b h, h)
  | HCaps => subject_is_all_caps h
  | HFaraway l => (check_faraway l h, h)
  end.
(** oa/plugins/header_eval.py:76-101,142-195,445-451,548-567,644-654. *)
Fixpoint hanswers (qs : list hquestion) (h : hstate) : list bool :=
  match qs with
  | [] => []
  | q :: r => let '(b, h) := hask q h in b :: hanswers r h
  end.
End Headers.

(** ** oa/plugins/header_eval.py:735-755 [check_equal_from_domains] *)
Definition after_at (a : str) : str := match rsplit1 64%N a with Some (_, d) => d | None => a end.
(** oa/plugins/header_eval.py:735-755. *)
Definition check_equal_from_domains (from : list str) (envfrom : str) : bool :=
  match envfrom, concat from with
  | [], _ => false
  | _, [] => false
  | _, f => negb (contains (lower (after_at envfrom)) (lower (after_at f)))
  end.

(** ** Recipients, 367-443 *)
(** oa/plugins/header_eval.py:367-374; the user is the beginning of the address, not of what is before the "@" *)
Record rcpt := { rc_user : str; rc_fqhn : str; rc_host : str }.
(** oa/plugins/header_eval.py:367-374. *)
Definition parse_rcpt (a : str) : rcpt :=
  let f := match rsplit1 64%N a with Some (_, d) => d | None => a end in
  {| rc_user := firstn 5 a; rc_fqhn := f; rc_host := firstn 2 f |}.
(** oa/plugins/header_eval.py:396-401 *)
Fixpoint no_repeats (prev : str) (l : list str) : list str :=
  match l with
  | [] => []
  | x :: r => if streqb prev x then no_repeats x r else x :: no_repeats x r
  end.
(** For oa/plugins/header_eval.py:376-421. *)
Definition distinct_neighbours (l : list str) : list str := match l with [] => [] | x :: r => x :: no_repeats x r end.
(** [itertools.combinations(l, 2)].  For oa/plugins/header_eval.py:376-421. *)
Fixpoint combinations {A} (l : list A) : list (A * A) :=
  match l with [] => [] | x :: r => map (pair x) r ++ combinations r end.
(** oa/plugins/header_eval.py:409-416, for one pair *)
Definition same_user (p : str * str) : bool := streqb (rc_user (parse_rcpt (fst p))) (rc_user (parse_rcpt (snd p))).
(** For oa/plugins/header_eval.py:376-421. *)
Definition similar_host (p : str * str) : bool :=
  streqb (rc_host (parse_rcpt (fst p))) (rc_host (parse_rcpt (snd p))) &&
  negb (streqb (rc_fqhn (parse_rcpt (fst p))) (rc_fqhn (parse_rcpt (snd p)))).
(** For oa/plugins/header_eval.py:376-421. *)
Definition hits (ps : list (str * str)) : nat := length (filter same_user ps) + length (filter similar_host ps).
(** For oa/plugins/header_eval.py:376-421. *)
Definition similarity (addresses : list str) : Q :=
  inject_Z (Z.of_nat (hits (combinations addresses))) / inject_Z (Z.of_nat (length (combinations addresses))).
(** The data kept for a message.  For oa/plugins/header_eval.py:376-421. *)
Record tocc := { to_similar : option Q; to_sorted : option bool }.
(** oa/plugins/header_eval.py:376-421. *)
Definition tocc0 : tocc := {| to_similar := None; to_sorted := None |}.
(** oa/plugins/header_eval.py:376-421: the value returned ([None] is Python's) *)
Definition check_recipients (recipients : list str) (t : tocc) : option Q * tocc :=
  match to_similar t with
  | Some q => (Some q, t)
  | None =>
      match recipients with
      | [] => (None, {| to_similar := Some 0%Q; to_sorted := Some false |})
      | _ =>
          let srt := Some (if list_eq_dec (list_eq_dec N.eq_dec) (sorted recipients) recipients then true else false) in
          let a := distinct_neighbours recipients in
          if Nat.ltb (length a) 5 then (None, {| to_similar := Some 0%Q; to_sorted := srt |})
          else (Some (similarity a), {| to_similar := Some (similarity a); to_sorted := srt |})
      end
  end.
(** oa/plugins/header_eval.py:423-426; [None]: KeyError *)
Definition sorted_recipients (recipients : list str) (t : tocc) : option bool * tocc :=
  let '(_, t) := check_recipients recipients t in (to_sorted t, t).
(** oa/plugins/header_eval.py:428-443; the bounds are numbers, if given.  A comparison with Python's [None] raises
    TypeError, which is caught: False. *)
Definition lt (a b : Q) : bool := negb (Qle_bool b a).
(** oa/plugins/header_eval.py:428-443. *)
Definition similar_recipients (minr maxr : option Q) (recipients : list str) (t : tocc) : bool * tocc :=
  let '(r, t) := check_recipients recipients t in
  (match r with
   | Some q => (match minr with None => true | Some m => lt m q end) && (match maxr with None => true | Some m => lt q m end)
   | None => match minr, maxr with None, None => true | _, _ => false end
   end, t).
(** oa/plugins/header_eval.py:376-443. *)
Inductive tquestion := TSorted | TSimilar (minr maxr : option Q).
(** oa/plugins/header_eval.py:376-443. *)
Definition task (recipients : list str) (q : tquestion) (t : tocc) : bool * tocc :=
  match q with
  | TSorted => let '(b, t) := sorted_recipients recipients t in (match b with Some b => b | None => false end, t)
  | TSimilar a b => similar_recipients a b recipients t
  end.
(** oa/plugins/header_eval.py:376-443. *)
Fixpoint tanswers (recipients : list str) (qs : list tquestion) (t : tocc) : list bool :=
  match qs with
  | [] => []
  | q :: r => let '(b, t) := task recipients q t in b :: tanswers recipients r t
  end.

(** ** Dates, 470-546 and 757-823 *)
(** oa/plugins/header_eval.py:470-478: the time (in seconds), [None] returned (ValueError), or an exception that is
    not caught ([parsedate] gives [None] for a text that is no date: TypeError). *)
Inductive pdate := Time (z : Z) | NoTime | Fails.
(** What a stored or computed time is: a time, Python's [None], or -1 (495).
    For oa/plugins/header_eval.py:480-497. *)
Inductive dvalue := DTime (z : Z) | DNone | DMinus.
(** For oa/plugins/header_eval.py:480-497. *)
Record dates := { da_header : option dvalue; da_received : option (list Z); da_diff : option Z; da_median : option dvalue }.
(** oa/plugins/header_eval.py:480-497. *)
Definition dates0 : dates := {| da_header := None; da_received := None; da_diff := None; da_median := None |}.
(** What the rules read of the message: the dates in its Resent-Date and Date headers, and
    those found in its Received headers (oa/plugins/header_eval.py:508-515) *)
Record dmsg := { d_resent : list pdate; d_date : list pdate; d_received : list pdate }.
(** oa/plugins/header_eval.py:487-491: the dates of one header, starting from [v]; [None]: an exception *)
Fixpoint one_header (l : list pdate) (v : dvalue) : option dvalue :=
  match l with
  | [] => Some v
  | Time z :: _ => Some (DTime z)
  | NoTime :: r => one_header r DNone
  | Fails :: _ => None
  end.
(** oa/plugins/header_eval.py:480-497; [None]: an exception *)
Definition get_date_header_time (m : dmsg) (s : dates) : option dvalue * dates :=
  match da_header s with
  | Some v => (Some v, s)
  | None =>
      match one_header (d_resent m) DNone with
      | None => (None, s)
      | Some v =>
          match one_header (d_date m) v with
          | None => (None, s)
          | Some v => (Some v, {| da_header := Some (match v with DTime z => DTime z | _ => DMinus end);
                                  da_received := da_received s; da_diff := da_diff s; da_median := da_median s |})
          end
      end
  end.
(** oa/plugins/header_eval.py:499-521: the list is stored first (506) and then filled: the times before the one that
    raises stay *)
Fixpoint read_times (l : list pdate) : list Z * bool :=
  match l with
  | [] => ([], true)
  | Time z :: r => let '(ts, ok) := read_times r in (z :: ts, ok)
  | NoTime :: r => read_times r
  | Fails :: _ => ([], false)
  end.
(** For oa/plugins/header_eval.py:523-546. *)
Definition get_received_times (m : dmsg) (s : dates) : option (list Z) * dates :=
  match da_received s with
  | Some l => (Some l, s)
  | None => let '(ts, ok) := read_times (d_received m) in
            (if ok then Some ts else None,
             {| da_header := da_header s; da_received := Some ts; da_diff := da_diff s; da_median := da_median s |})
  end.
(** For oa/plugins/header_eval.py:523-546. *)
Definition set_diff (z : Z) (s : dates) : dates :=
  {| da_header := da_header s; da_received := da_received s; da_diff := Some z; da_median := da_median s |}.
(** oa/plugins/header_eval.py:534-541: the smallest of the differences that are not zero *)
Definition differences (ts : list Z) (d : Z) : list Z := filter (fun z => negb (Z.eqb z 0)) (map (fun t => Z.abs (t - d)) ts).
(** For oa/plugins/header_eval.py:523-546. *)
Definition least (l : list Z) : Z := match l with [] => 0%Z | x :: r => fold_left Z.min r x end.
(** oa/plugins/header_eval.py:523-546; [None]: an exception.  A difference of 0 is stored first (529). *)
Definition check_date_diff (m : dmsg) (s : dates) : option Z * dates :=
  match da_diff s with
  | Some z => (Some z, s)
  | None =>
      let s := set_diff 0 s in
      match get_date_header_time m s with
      | (None, s) => (None, s)
      | (Some v, s) =>
          match get_received_times m s with
          | (None, s) => (None, s)
          | (Some ts, s) =>
              match v, ts with
              | DTime d, _ => let z := least (differences ts d) in (Some z, set_diff z s)
              | _, [] => (Some 0%Z, set_diff 0 s)
              | _, _ => (None, s)
              end
          end
      end
  end.
(** oa/plugins/header_eval.py:799-823; the bounds are hours, if given (and not "undef"); an exception means no hit *)
Definition within (minv maxv : option Z) (n : Z) : bool :=
  (match minv with None => true | Some m => Z.eqb m 0 || Z.leb m n end) &&
  (match maxv with None => true | Some m => Z.eqb m 0 || Z.ltb n m end).
(** oa/plugins/header_eval.py:799-823. *)
Definition check_for_shifted_date (minv maxv : option Z) (m : dmsg) (s : dates) : bool * dates :=
  match check_date_diff m s with
  | (None, s) => (false, s)
  | (Some z, s) => (within minv maxv (z / 3600), s)
  end.

(** oa/plugins/header_eval.py:765-767: the middle of the times, latest first.  [None]: an exception, values that
    cannot be compared; one value alone is not compared. *)
Fixpoint insert_desc (x : Z) (l : list Z) : list Z :=
  match l with [] => [x] | y :: r => if Z.leb x y then y :: insert_desc x r else x :: l end.
(** For oa/plugins/header_eval.py:757-769. *)
Definition sort_desc (l : list Z) : list Z := fold_right insert_desc [] l.
(** For oa/plugins/header_eval.py:757-769. *)
Definition median (ts : list Z) : Z := nth (Nat.div (length ts) 2) (sort_desc ts) 0%Z.
(** oa/plugins/header_eval.py:757-769; [None]: an exception.  A value alone is not compared with any. *)
Definition check_date_received (m : dmsg) (s : dates) : option dvalue * dates :=
  let keep v s := {| da_header := da_header s; da_received := da_received s; da_diff := da_diff s; da_median := Some v |} in
  match da_median s with
  | Some v => (Some v, s)
  | None =>
      match get_received_times m s with
      | (None, s) => (None, s)
      | (Some ts, s) =>
          match get_date_header_time m s with
          | (None, s) => (None, s)
          | (Some v, s) =>
              match v, ts with
              | DTime d, _ => let z := median (ts ++ [d]) in (Some (DTime z), keep (DTime z) s)
              | _, [] => (Some v, keep v s)
              | _, _ => (None, s)
              end
          end
      end
  end.
(** oa/plugins/header_eval.py:771-797.  [delta]: [relativedelta(now, then)] as years and months.  The code reads the
    attribute [year], which is not [years] and always [None] here.  With [None] as the
    second date the difference is zero, with -1 TypeError is raised. *)
Definition received_within_months (delta : Z -> Z * Z) (minv maxv : option Z) (m : dmsg) (s : dates) : bool * dates :=
  match check_date_received m s with
  | (None, s) => (false, s)
  | (Some v, s) => (match v with
                    | DTime z => within minv maxv (snd (delta z))
                    | DNone => within minv maxv 0
                    | DMinus => false
                    end, s)
  end.
(** oa/plugins/header_eval.py:480-546,757-823. *)
Inductive dquestion := DShifted (minv maxv : option Z) | DWithin (minv maxv : option Z).
(** oa/plugins/header_eval.py:480-546,757-823. *)
Definition dask (delta : Z -> Z * Z) (m : dmsg) (q : dquestion) (s : dates) : bool * dates :=
  match q with DShifted a b => check_for_shifted_date a b m s | DWithin a b => received_within_months delta a b m s end.
(** oa/plugins/header_eval.py:480-546,757-823. *)
Fixpoint danswers (delta : Z -> Z * Z) (m : dmsg) (qs : list dquestion) (s : dates) : list bool :=
  match qs with
  | [] => []
  | q :: r => let '(b, s) := dask delta m q s in b :: danswers delta m r s
  end.
