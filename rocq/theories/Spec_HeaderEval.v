(** Small independent definitions for the header rules. *)
From Coq Require Import QArith.
From Verif Require Import PyStr PyDict Spec_Files Model_HeaderEval.
Open Scope nat_scope.

(** ** Charsets *)
(** A charset that is always accepted, by its cleaned name *)
Definition usual (c : str) : Prop :=
  In c [$"USASCII"; $"XUNKNOWN"; $"ISO"] \/
  exists p r, In p [$"ISO8859"; $"ISO10646"; $"UTF"; $"USC"; $"CP125"; $"WINDOWS"; $"UNICODE11UTF7"; $"UNICODE11UTF8"] /\ c = p ++ r.
(** A charset of the language [l]: its first two letters name a list that has it *)
Definition of_language (l c : str) : Prop := exists u, dget (firstn 2 l) unusual_charsets = Some u /\ In c u.
Definition acceptable (ok_locales : str) (charset : str) : Prop :=
  usual (clean_charset charset) \/ exists l, In l (words ok_locales) /\ of_language l (clean_charset charset).
(** The same name apart from case and from characters that are no letters or digits *)
Definition same_name (a b : str) : Prop :=
  filter (fun c => (N.leb 97 c && N.leb c 122) || is_digit c) (lower a) = filter (fun c => (N.leb 97 c && N.leb c 122) || is_digit c) (lower b).
(** Languages and charsets in use for them *)
Definition common_charsets : list (str * str) :=
  [($"ja", $"iso-2022-jp"); ($"ja", $"euc-jp"); ($"ja", $"shift-jis"); ($"ko", $"euc-kr"); ($"ko", $"ks_c_5601-1987"); ($"ru", $"koi8-r");
   ($"ru", $"cp866"); ($"uk", $"koi8-u"); ($"bg", $"cp1251"); ($"th", $"tis-620"); ($"zh", $"gb2312"); ($"zh", $"gbk"); ($"zh", $"gb18030");
   ($"zh", $"big5"); ($"zh", $"euc-tw"); ($"be", $"koi8-r"); ($"tg", $"koi8-t"); ($"ka", $"georgian-ps")].
(** The languages are restricted. *)
Definition restricted (ok_locales : str) : Prop := ok_locales <> [] /\ lower ok_locales <> $"all".

(** ** Illegal characters *)
Definition non_ascii (s : str) : nat := length (filter (fun c => N.leb 128 c) s).
(** Exactly one of the cent, pound and registered signs is used. *)
Definition one_sign (s : str) : Prop :=
  exists c, In c [162; 163; 174]%N /\ In c s /\ forall d, In d [162; 163; 174]%N -> In d s -> d = c.
(** The number that counts *)
Definition illegal_count (subject : bool) (s : str) (n : Z) : Prop :=
  (subject = true /\ one_sign s /\ n = (Z.of_nat (non_ascii s) - 1)%Z) \/
  (~ (subject = true /\ one_sign s) /\ n = Z.of_nat (non_ascii s)).
Definition too_many (ratio : Q) (count : Z) (s : str) (n : Z) : Prop :=
  s <> [] /\ (ratio * inject_Z (Z.of_nat (length s)) <= inject_Z n)%Q /\ (count <= n)%Z.

(** ** Rules asked one after the other *)
Definition not_all (q : hquestion) : Prop := match q with HIllegal n _ _ => n <> $"ALL" | _ => True end.
Definition message (raw : dict (list str)) : hstate := {| h_raw := raw; h_decoded := [] |}.

(** ** Subjects *)
(** [rest] is the text without one of the notations at its front, in any case. *)
Definition without_notation (s rest : str) : Prop :=
  (exists p q, In (lower p) notations /\ s = p ++ q /\ rest = q) \/
  ((forall p q, s = p ++ q -> ~ In (lower p) notations) /\ rest = s).
Definition shouted (up low : char -> bool) (s : str) : Prop :=
  (exists c, In c s /\ up c = true) /\ forall c, In c s -> low c = false.

(** ** Recipients *)
(** No recipient comes twice in a row. *)
Fixpoint no_neighbours (l : list str) : Prop :=
  match l with
  | x :: ((y :: _) as r) => x <> y /\ no_neighbours r
  | _ => True
  end.
(** [n] pairs of positions in the list, the earlier first, have recipients so related. *)
Definition pairs_number (R : str -> str -> Prop) (l : list str) (n : nat) : Prop :=
  exists ps, NoDup ps /\ length ps = n /\
    forall i j, In (i, j) ps <-> i < j /\ exists a b, nth_error l i = Some a /\ nth_error l j = Some b /\ R a b.
(** The addresses begin with the same five characters. *)
Definition alike (a b : str) : Prop := firstn 5 a = firstn 5 b.
(** What is after the last "@" (all, without "@") is different and begins with the same two
    characters. *)
Definition domain (a d : str) : Prop := (exists u, a = u ++ 64%N :: d /\ ~ In 64%N d) \/ (~ In 64%N a /\ d = a).
Definition near (a b : str) : Prop := exists d e, domain a d /\ domain b e /\ d <> e /\ firstn 2 d = firstn 2 e.

(** ** Dates *)
(** [d] is the smallest difference, in seconds, between the Date header and a Received
    header that is not zero; zero if there is none. *)
Definition smallest_shift (ts : list Z) (date d : Z) : Prop :=
  (d = 0%Z /\ forall t, In t ts -> t = date) \/
  ((exists t, In t ts /\ t <> date /\ d = Z.abs (t - date)) /\ forall t, In t ts -> t <> date -> (d <= Z.abs (t - date))%Z).
Definition in_range (minv maxv : option Z) (n : Z) : Prop :=
  (match minv with Some m => m = 0 \/ m <= n | None => True end)%Z /\
  (match maxv with Some m => m = 0 \/ n < m | None => True end)%Z.
(** The dates of the message can be read; [ts] are those of the Received headers, [date] is
    that of the first Date header.  There may be others, and Resent-Date headers. *)
Definition well_dated (m : dmsg) (ts : list Z) (date : Z) : Prop :=
  (exists rs, d_resent m = map Time rs) /\ (exists more, d_date m = Time date :: more) /\ d_received m = map Time ts.
(** [z] is the middle of the times: no more than half are later, and fewer than half are
    earlier. *)
Definition middle (ts : list Z) (z : Z) : Prop :=
  In z ts /\ 2 * length (filter (Z.ltb z) ts) <= length ts /\ 2 * length (filter (fun t => Z.ltb t z) ts) < length ts.
