(** Model of oa/received_parser.py: the patterns, compiled from their text, and every function
    of [ReceivedParser].  The addresses and the authentication are [get_ip] and [get_auth] of
    Model_Relays, here with the real patterns.  Definitions only. *)
From Verif Require Import PyStr Regexp.
From Verif Require Model_Relays.

(** [Regex(text, flags)]: the first two arguments are IGNORECASE and VERBOSE.
    (Every text below compiles: Proofs_Received.).  For oa/received_parser.py:88-170. *)
Definition pattern (i x : bool) (text : str) : re :=
  match compile i x text with Some r => r | None => Eps end.

(** oa/received_parser.py:16-86 *)
Definition LOCALHOST_pattern : str := $"
(?:
              # as a string
              localhost(?:\.localdomain)?
            |
              \b(?<!:)    # ensure no ""::"" IPv6 marker before this one
              # plain IPv4
              127\.0\.0\.1 \b
            |
              # IPv6 addresses
              # don't use \b here, it hits on :'s
              (?:IPv6:    # with optional prefix
                        | (?<![a-f0-9:])
                      )
              (?:
            # IPv4 mapped in IPv6
            # note the colon after the 12th byte in each here
            (?:
              # first 6 (12 bytes) non-zero
              (?:0{1,4}:){5}        ffff:
              |
              # leading zeros omitted (note {0,5} not {1,5})
              ::(?:0{1,4}:){0,4}        ffff:
              |
              # trailing zeros (in the first 6) omitted
              (?:0{1,4}:){1,4}:        ffff:
              |
              # 0000 in second up to (including) fifth omitted
              0{1,4}::(?:0{1,4}:){1,3}    ffff:
              |
              # 0000 in third up to (including) fifth omitted
              (?:0{1,4}:){2}:0{1,2}:    ffff:
              |
              # 0000 in fourth up to (including) fifth omitted
              (?:0{1,4}:){3}:0:        ffff:
              |
              # 0000 in fifth omitted
              (?:0{1,4}:){4}:        ffff:
            )
            # and the IPv4 address appended to all of the 12 bytes above
            127\.0\.0\.1    # no \b, we check later

            | # or (separately) a pure IPv6 address

            # all 8 (16 bytes) of them present
            (?:0{1,4}:){7}            0{0,3}1
            |
            # leading zeros omitted
            :(?::0{1,4}){0,6}:        0{0,3}1
            |
            # 0000 in second up to (including) seventh omitted
            0{1,4}:(?::0{1,4}){0,5}:    0{0,3}1
            |
            # 0000 in third up to (including) seventh omitted
            (?:0{1,4}:){2}(?::0{1,4}){0,4}:    0{0,3}1
            |
            # 0000 in fouth up to (including) seventh omitted
            (?:0{1,4}:){3}(?::0{1,4}){0,3}:    0{0,3}1
            |
            # 0000 in fifth up to (including) seventh omitted
            (?:0{1,4}:){4}(?::0{1,4}){0,2}:    0{0,3}1
            |
            # 0000 in sixth up to (including) seventh omitted
            (?:0{1,4}:){5}(?::0{1,4}){0,1}:    0{0,3}1
            |
            # 0000 in seventh omitted
            (?:0{1,4}:){6}:            0{0,3}1
              )
              (?![a-f0-9:])
            )
".
(** oa/received_parser.py:88-170 *)
Definition IP_PRIVATE : re := Eval vm_compute in pattern true true (($"
^(?:
  (?:   # IPv4 addresses
    10|                    # 10.0.0.0/8      Private Use (5735, 1918)
    127|                            # 127.0.0.0/8     Host-local  (5735, 1122)
    169\.254|                # 1690.0/12   Private Use (5735, 1918)
    192\.168|                 # 192.168.0.0/16  Private Use (5735, 1918)
    100\.(?:6[4-9]|[7-9][0-9]|1[01][0-9]|12[0-7])  # 100.64.0.0/10 CGN (6598)
    )\..*
|
  (?:   # IPv6 addresses
    # don't use \b here, it hits on :'s
    (?:IPv6:    # with optional prefix
      | (?<![a-f0-9:])
    )
    (?:
      # IPv4 mapped in IPv6
      # note the colon after the 12th byte in each here
      (?:
        # first 6 (12 bytes) non-zero
        (?:0{1,4}:){5}        ffff:
        |
        # leading zeros omitted (note {0,5} not {1,5})
        ::(?:0{1,4}:){0,4}        ffff:
        |
        # trailing zeros (in the first 6) omitted
        (?:0{1,4}:){1,4}:        ffff:
        |
        # 0000 in second up to (including) fifth omitted
        0{1,4}::(?:0{1,4}:){1,3}    ffff:
        |
        # 0000 in third up to (including) fifth omitted
        (?:0{1,4}:){2}:0{1,2}:    ffff:
        |
        # 0000 in fourth up to (including) fifth omitted
        (?:0{1,4}:){3}:0:        ffff:
        |
        # 0000 in fifth omitted
        (?:0{1,4}:){4}:        ffff:
      )
      # and the IPv4 address appended to all of the 12 bytes above
      (?:
        10|
        127|
        169\.254|
        172\.(?:1[6-9]|2[0-9]|3[01])|
        192\.168|
        100\.(?:6[4-9]|[7-9][0-9]|1[01][0-9]|12[0-7])
      )\..*

    | # or IPv6 link-local address space, fe80::/10
      fe[89ab][0-9a-f]:.*

    | # or the host-local ::1 addr, as a pure IPv6 address

      # all 8 (16 bytes) of them present
      (?:0{1,4}:){7}            0{0,3}1
      |
      # leading zeros omitted
      :(?::0{1,4}){0,6}:        0{0,3}1
      |
      # 0000 in second up to (including) seventh omitted
      0{1,4}:(?::0{1,4}){0,5}:    0{0,3}1
      |
      # 0000 in third up to (including) seventh omitted
      (?:0{1,4}:){2}(?::0{1,4}){0,4}:    0{0,3}1
      |
      # 0000 in fouth up to (including) seventh omitted
      (?:0{1,4}:){3}(?::0{1,4}){0,3}:    0{0,3}1
      |
      # 0000 in fifth up to (including) seventh omitted
      (?:0{1,4}:){4}(?::0{1,4}){0,2}:    0{0,3}1
      |
      # 0000 in sixth up to (including) seventh omitted
      (?:0{1,4}:){5}(?::0{1,4}){0,1}:    0{0,3}1
      |
      # 0000 in seventh omitted
      (?:0{1,4}:){6}:            0{0,3}1
    )
    (?![a-f0-9:])
  )
)
")).
(** oa/received_parser.py:172-253 *)
Definition IP_ADDRESS_pattern : str := $"
            (?:
              \b(?<!:)    # ensure no ""::"" IPv4 marker before this one
              # plain IPv4, as above
              (?:1\d\d|2[0-4]\d|25[0-5]|\d\d|\d)\.
              (?:1\d\d|2[0-4]\d|25[0-5]|\d\d|\d)\.
              (?:1\d\d|2[0-4]\d|25[0-5]|\d\d|\d)\.
              (?:1\d\d|2[0-4]\d|25[0-5]|\d\d|\d)\b
            |
              # IPv6 addresses
              # don't use \b here, it hits on :'s
              (?:IPv6:    # with optional prefix
                        | (?<![a-f0-9:])
                      )
              (?:
            # IPv4 mapped in IPv6
            # note the colon after the 12th byte in each here
            (?:
              # first 6 (12 bytes) non-zero
              (?:[a-f0-9]{1,4}:){6}
              |
              # leading zeros omitted (note {0,5} not {1,5})
              ::(?:[a-f0-9]{1,4}:){0,5}
              |
              # trailing zeros (in the first 6) omitted
              (?:[a-f0-9]{1,4}:){1,5}:
              |
              # 0000 in second up to (including) fifth omitted
              [a-f0-9]{1,4}::(?:[a-f0-9]{1,4}:){1,4}
              |
              # 0000 in third up to (including) fifth omitted
              (?:[a-f0-9]{1,4}:){2}:(?:[a-f0-9]{1,4}:){1,3}
              |
              # 0000 in fourth up to (including) fifth omitted
              (?:[a-f0-9]{1,4}:){3}:(?:[a-f0-9]{1,4}:){1,2}
              |
              # 0000 in fifth omitted
              (?:[a-f0-9]{1,4}:){4}:[a-f0-9]{1,4}:
            )
            # and the IPv4 address appended to all of the 12 bytes above
            (?:1\d\d|2[0-4]\d|25[0-5]|\d\d|\d)\.
            (?:1\d\d|2[0-4]\d|25[0-5]|\d\d|\d)\.
            (?:1\d\d|2[0-4]\d|25[0-5]|\d\d|\d)\.
            (?:1\d\d|2[0-4]\d|25[0-5]|\d\d|\d)   # no \b, we check later

            | # or (separately) a pure IPv6 address

            # all 8 (16 bytes) of them present
            (?:[a-f0-9]{1,4}:){7}[a-f0-9]{1,4}
            |
            # leading zeros omitted
            :(?::[a-f0-9]{1,4}){1,7}
            |
            # trailing zeros omitted
            (?:[a-f0-9]{1,4}:){1,7}:
            |
            # 0000 in second up to (including) seventh omitted
            [a-f0-9]{1,4}:(?::[a-f0-9]{1,4}){1,6}
            |
            # 0000 in third up to (including) seventh omitted
            (?:[a-f0-9]{1,4}:){2}(?::[a-f0-9]{1,4}){1,5}
            |
            # 0000 in fouth up to (including) seventh omitted
            (?:[a-f0-9]{1,4}:){3}(?::[a-f0-9]{1,4}){1,4}
            |
            # 0000 in fifth up to (including) seventh omitted
            (?:[a-f0-9]{1,4}:){4}(?::[a-f0-9]{1,4}){1,3}
            |
            # 0000 in sixth up to (including) seventh omitted
            (?:[a-f0-9]{1,4}:){5}(?::[a-f0-9]{1,4}){1,2}
            |
            # 0000 in seventh omitted
            (?:[a-f0-9]{1,4}:){6}:[a-f0-9]{1,4}
            |
            # :: (the unspecified address 0:0:0:0:0:0:0:0)
            # dos: I don't expect to see this address in a header, and
            # it may cause non-address strings to match, but we'll
            # include it for now since it is valid
            ::
              )
              (?![a-f0-9:])
            )".
(** For oa/received_parser.py:529-553. *)
Definition IP_ADDRESS : re := Eval vm_compute in pattern false true IP_ADDRESS_pattern.
(** oa/received_parser.py:257-260 *)
Definition FETCHMAIL : re := Eval vm_compute in pattern false true (($"
.*?\s(\S+)\s(?:\[(") ++ IP_ADDRESS_pattern ++ ($")\]\s)?
by\s(\S+)\swith
\s\S+\s\(fetchmail")).
(** oa/received_parser.py:262-264 *)
Definition LOCALHOST_RE : re := Eval vm_compute in pattern true true (($"
^\S+\s\([^\s\@]+\@") ++ LOCALHOST_pattern ++ ($"\)\sby\s\S+\s\(
")).
(** oa/received_parser.py:266-268 *)
Definition UNKNOWN_RE_RDNS : re := Eval vm_compute in pattern false true (($"
^(\S+)\s\((unknown)\s\[(") ++ IP_ADDRESS_pattern ++ ($")\]\)\s\(
")).
(** oa/received_parser.py:271 *)
Definition WITH_LOCAL_RE : re := Eval vm_compute in pattern true false ($"\bwith local(?:-\S+)? ").
(** oa/received_parser.py:272 *)
Definition BSMTP_RE : re := Eval vm_compute in pattern true false ($"^\S+ by \S+ with BSMTP").
(** oa/received_parser.py:273-274 *)
Definition CONTENT_TECH_RE : re := Eval vm_compute in pattern true true (($"
^\S+\s\(\S+\)\sby\s\S+\s\(Content\sTechnologies\s")).
(** oa/received_parser.py:275 *)
Definition AVG_SMTP_RE : re := Eval vm_compute in pattern false false ($"^127\.0\.0\.1 \(AVG SMTP \S+ \[\S+\]\)").
(** oa/received_parser.py:276 *)
Definition QMAIL_RE : re := Eval vm_compute in pattern false false ($"^\S+\@\S+ by \S+ by uid \S+ ").
(** oa/received_parser.py:277 *)
Definition FROM_RE : re := Eval vm_compute in pattern false false ($"^\S+\@\S+ by \S+ ").
(** oa/received_parser.py:278 *)
Definition UNKNOWN_RE : re := Eval vm_compute in pattern false false ($"^Unknown\/Local \(").
(** oa/received_parser.py:279 *)
Definition AUTH_SKIP_RE : re := Eval vm_compute in pattern false false ($"^\(AUTH: \S+\) by \S+ with ").
(** oa/received_parser.py:280-281 *)
Definition LOCAL_SKIP_RE : re := Eval vm_compute in pattern false true (($"
^localhost\s\(localhost\s\[\[UNIX:\slocalhost\]\]\)\sby\s")).
(** oa/received_parser.py:282-284 *)
Definition AMAZON_RE : re := Eval vm_compute in pattern false true (($"
^\S+\.amazon\.com\sby
\s\S+\.amazon\.com\swith\sESMTP\s\(peer\scrosscheck:\s")).
(** oa/received_parser.py:285 *)
Definition NOVELL_RE : re := Eval vm_compute in pattern false false ($"^[^\.]+ by \S+ with Novell_GroupWise").
(** oa/received_parser.py:286 *)
Definition NO_NAME_RE : re := Eval vm_compute in pattern false false ($"^no\.name\.available by \S+ via smtpd \(for ").
(** oa/received_parser.py:287-288 *)
Definition SMTPSVC_RE : re := Eval vm_compute in pattern false true (($"
^mail\spickup\sservice\sby\s(\S+)\swith\sMicrosoft\sSMTPSVC$")).
(** oa/received_parser.py:293-294 *)
Definition ENVFROM_RE : re := Eval vm_compute in pattern false true (($"
.*?(?:return-path:?\s|envelope-(?:sender|from)[\s=])(\S+)\b")).
(** oa/received_parser.py:295 *)
Definition RDNS_RE : re := Eval vm_compute in pattern false false ($"^(\S+) ").
(** oa/received_parser.py:296 *)
Definition RDNS_RE2 : re := Eval vm_compute in pattern false false ($"^(\S+)\(").
(** oa/received_parser.py:297-299 *)
Definition HEADER_RE : re := Eval vm_compute in pattern false true (($"
    ^\(?\[?(") ++ IP_ADDRESS_pattern ++ ($")\]?\)?\sby
")).
(** oa/received_parser.py:300-302 *)
Definition RDNS_IP_RE : re := Eval vm_compute in pattern false true (($"
    ^\[(") ++ IP_ADDRESS_pattern ++ ($")\]
")).
(** oa/received_parser.py:303-305 *)
Definition RDNS_SMTP : re := Eval vm_compute in pattern false true (($"
    ^(\S+)\s\(\s?") ++ IP_ADDRESS_pattern ++ ($"\)\sby.*\(") ++ IP_ADDRESS_pattern ++ ($"\)\swith.*(ESMTP|SMTP)
")).
(** oa/received_parser.py:306-308 *)
Definition RDNS_SMTP1 : re := Eval vm_compute in pattern false true (($"
    ^(\S+)\s\(\s?\[") ++ IP_ADDRESS_pattern ++ ($"\]\)\sby.*(\S+)\swith.*(esmtp|smtp|ESMTP|SMTP)
")).
(** oa/received_parser.py:309-311 *)
Definition RDNS_RE4 : re := Eval vm_compute in pattern false true (($"
    ^((\S+)\s\(\[") ++ IP_ADDRESS_pattern ++ ($")(?:[.:]\d+)?\]\).*?\sby\s(\S+)
")).
(** oa/received_parser.py:312-314 *)
Definition RDNS_RE1 : re := Eval vm_compute in pattern false true (($"
    ^\(\[(") ++ IP_ADDRESS_pattern ++ ($")\]\)\sby\s(\S+)
")).
(** oa/received_parser.py:315-317 *)
Definition RDNS_RE3 : re := Eval vm_compute in pattern false true (($"
    ^(\S+)\s\[(") ++ IP_ADDRESS_pattern ++ ($")\]\sby\s(\S+)\s\[(") ++ IP_ADDRESS_pattern ++ ($")]
")).
(** oa/received_parser.py:318 *)
Definition BY_RE : re := Eval vm_compute in pattern false false ($".*? by (\S+) .*").
(** oa/received_parser.py:319 *)
Definition HELO_RE : re := Eval vm_compute in pattern true false ($".*?\((?:HELO|EHLO) (\S*)\)").
(** oa/received_parser.py:320 *)
Definition HELO_RE10 : re := Eval vm_compute in pattern true false ($".*\(.* (HELO|EHLO) (\S+)\)").
(** oa/received_parser.py:321-323 *)
Definition HELO_RE2 : re := Eval vm_compute in pattern false true (($"
    .*?\((\S+)\s\[") ++ IP_ADDRESS_pattern ++ ($"\]\)
")).
(** oa/received_parser.py:324 *)
Definition HELO_RE3 : re := Eval vm_compute in pattern true false ($".*?helo=(\S+)\)").
(** oa/received_parser.py:325-327 *)
Definition HELO_RE4 : re := Eval vm_compute in pattern false true (($"
    ^\(?(\S+)\s\(?\s?\[") ++ IP_ADDRESS_pattern ++ ($"\]\)
")).
(** oa/received_parser.py:328-330 *)
Definition HELO_RE5 : re := Eval vm_compute in pattern false true (($"
    ^(\S+)\s\(\s?") ++ IP_ADDRESS_pattern ++ ($"\)
")).
(** oa/received_parser.py:331-333 *)
Definition HELO_RE6 : re := Eval vm_compute in pattern false true (($"
    ^(\S+)\s\(\[") ++ IP_ADDRESS_pattern ++ ($"\]\s\[") ++ IP_ADDRESS_pattern ++ ($"\]\)
")).
(** oa/received_parser.py:334-336 *)
Definition HELO_RE7 : re := Eval vm_compute in pattern false true (($"
    ^(\S+)\s\((\S+)\s?\[") ++ IP_ADDRESS_pattern ++ ($"\].*\)
")).
(** oa/received_parser.py:337-339 *)
Definition HELO_RE8 : re := Eval vm_compute in pattern false true (($"
    ^\(?(\S+)\s\[\s?") ++ IP_ADDRESS_pattern ++ ($"\]
")).
(** oa/received_parser.py:340-342 *)
Definition HELO_RE9 : re := Eval vm_compute in pattern false true (($"
    ^\(?(\S+)\s\(?\s?\[") ++ IP_ADDRESS_pattern ++ ($"\] \s?(\S+)\)
")).
(** oa/received_parser.py:343 *)
Definition IDENT_RE : re := Eval vm_compute in pattern false false ($".*ident=(\S+)\)").
(** oa/received_parser.py:344 *)
Definition IDENT_RE2 : re := Eval vm_compute in pattern false false ($".*\((\S+)@").
(** oa/received_parser.py:345 *)
Definition ID_RE : re := Eval vm_compute in pattern false false ($".*id (\S+)").
(** oa/received_parser.py:346-347 *)
Definition AUTH_RE : re := Eval vm_compute in pattern true true (($"
.*?\swith\s((?:ES|L|UTF8S|UTF8L)MTPS?A|ASMTP|HTTPU?)(?:\s|;|$)")).
(** oa/received_parser.py:348 *)
Definition AUTH_VC_RE : re := Eval vm_compute in pattern false false ($".*? \(version=([^ ]+) cipher=([^\)]+)\)").
(** oa/received_parser.py:349 *)
Definition AUTH_RE2 : re := Eval vm_compute in pattern false false ($".*? \(authenticated as (\S+)\)").
(** oa/received_parser.py:350-351 *)
Definition AUTH_RE3 : re := Eval vm_compute in pattern false true (($"
\)\s\(Authenticated\ssender:\s\S+\)\sby\s\S+\s\(Postfix\)\swith\s")).
(** oa/received_parser.py:352 *)
Definition AUTH_RE4 : re := Eval vm_compute in pattern false false ($".* by (mail\.gmx\.(net|com)) \([^\)]+\) with ((ESMTP|SMTP))").
(** oa/received_parser.py:353-354 *)
Definition AUTH_RE5 : re := Eval vm_compute in pattern false false ($".* \(account .* by .* \(CommuniGate Pro (HTTP|SMTP)").

Section Parser.
(** Digits and word characters above 127. *)
Variable udigit uword : char -> bool.
(** For oa/received_parser.py:462-477. *)
Definition m_ (r : re) (h : str) : option state := re_match udigit uword r h.
(** For oa/received_parser.py:376-460. *)
Definition s_ (r : re) (h : str) : bool := matched (re_search udigit uword r h).
(** [r.match(h).groups()[n - 1]]; a group that took no part would be [None]: it is a part of
    every match in the uses below *)
(** For oa/received_parser.py:462-477. *)
Definition g_ (n : nat) (st : state) : str := match group n (s_caps st) with Some w => w | None => [] end.

(** oa/received_parser.py:376-460 *)
Definition check_for_skip (h : str) : bool :=
  s_ WITH_LOCAL_RE h
  || (contains ($"fetchmail") h && s_ FETCHMAIL h)
  || (contains ($" with BSMTP") h && s_ BSMTP_RE h)
  || s_ CONTENT_TECH_RE h
  || s_ LOCALHOST_RE h
  || s_ AVG_SMTP_RE h
  || s_ QMAIL_RE h
  || s_ FROM_RE h
  || s_ UNKNOWN_RE h
  || s_ AUTH_SKIP_RE h
  || s_ LOCAL_SKIP_RE h
  || s_ AMAZON_RE h
  || s_ NOVELL_RE h
  || s_ NO_NAME_RE h
  || s_ SMTPSVC_RE h.

(** oa/received_parser.py:462-477 *)
Definition get_envfrom (h : str) : str :=
  let e := match m_ ENVFROM_RE h with Some st => strip_chars ($"><[]") (g_ 1 st) | None => [] end in
  match rsplit1 61%N e with Some (_, b) => b | None => e end.

(** oa/received_parser.py:487-514: the chain of patterns *)
Definition rdns_raw (h : str) : str :=
  let exim := contains ($"Exim") h in
  match m_ HELO_RE7 h with
  | Some st => let r := g_ 2 st in if streqb r ($"softdnserr") then [] else r
  | None =>
  match m_ HELO_RE5 h with
  | Some st => if contains ($"(Scalix SMTP Relay") h then [] else g_ 1 st
  | None =>
  if matched (m_ HELO_RE4 h) && negb exim then
    match m_ RDNS_SMTP h with Some st => g_ 1 st | None => [] end
  else if matched (m_ HEADER_RE h) then []
  else match m_ RDNS_RE2 h with
  | Some st => g_ 1 st
  | None =>
  if matched (m_ RDNS_SMTP1 h) && negb exim then []
  else if matched (m_ RDNS_RE1 h) || matched (m_ RDNS_RE3 h) then []
  else if matched (m_ RDNS_RE4 h) && negb exim then []
  else match m_ RDNS_RE h with Some st => g_ 1 st | None => [] end
  end end end.
(** oa/received_parser.py:479-527 *)
Definition get_rdns (h : str) : str :=
  let r1 := rdns_raw h in
  let r2 := if contains ($"@") r1 then [] else r1 in
  let r3 := if contains ($"(Postfix)") h then
              match m_ UNKNOWN_RE_RDNS h with Some st => g_ 2 st | None => r2 end
            else r2 in
  let r4 := if matched (m_ RDNS_IP_RE r3) then [] else r3 in
  let r5 := if contains ($"unknown") r4 || streqb r4 ($"UnknownHost") then [] else r4 in
  strip_chars ($"[]") r5.

(** oa/received_parser.py:529-553 *)
Definition get_ip (h : str) : str :=
  Model_Relays.get_ip (findall udigit uword IP_ADDRESS) (s_ IP_PRIVATE) h.

(** oa/received_parser.py:555-570 *)
Definition get_by (h : str) : str :=
  match m_ RDNS_RE3 h with
  | Some st => g_ 4 st
  | None => match m_ BY_RE h with Some st => g_ 1 st | None => [] end
  end.

(** oa/received_parser.py:572-608 *)
Definition get_helo (h : str) : str :=
  let a := match m_ HELO_RE2 h with
           | Some st => let x := g_ 1 st in if streqb x ($"unknown") then [] else x
           | None => []
           end in
  let b := match m_ HELO_RE7 h with Some st => g_ 1 st | None => a end in
  match m_ HELO_RE h with
  | Some st => g_ 1 st
  | None =>
  match m_ HELO_RE3 h with
  | Some st => strip_chars ($"[ ]();" ++ [10%N]) (g_ 1 st)
  | None =>
  match m_ HELO_RE4 h with
  | Some st => g_ 1 st
  | None =>
  match m_ HELO_RE5 h with
  | Some st => g_ 1 st
  | None =>
  match m_ HELO_RE6 h with
  | Some st => g_ 1 st
  | None =>
  match m_ HELO_RE8 h with
  | Some st => g_ 1 st
  | None =>
  match m_ HELO_RE9 h with
  | Some st => g_ 1 st
  | None =>
  match m_ RDNS_RE4 h with
  | Some st => g_ 2 st
  | None =>
  match m_ HELO_RE10 h with
  | Some st => strip_chars ($"[]") (g_ 2 st)
  | None => b
  end end end end end end end end end.

(** oa/received_parser.py:610-625 *)
Definition get_ident (h : str) : str :=
  match m_ IDENT_RE h with
  | Some st => g_ 1 st
  | None => match m_ IDENT_RE2 h with Some st => g_ 1 st | None => [] end
  end.

(** oa/received_parser.py:627-640 *)
Definition get_id (h : str) : str :=
  match m_ ID_RE h with Some st => strip_chars ($"<>") (g_ 1 st) | None => [] end.

(** oa/received_parser.py:346-354 *)
Definition auth_patterns : Model_Relays.auth_re :=
  Model_Relays.mkAR
    (fun h => option_map (g_ 1) (m_ AUTH_RE h))
    (s_ AUTH_RE3)
    (fun h => option_map (fun st => (g_ 1 st, g_ 2 st)) (m_ AUTH_VC_RE h))
    (s_ AUTH_RE2)
    (fun h => option_map (fun st => (g_ 4 st, g_ 1 st)) (re_search udigit uword AUTH_RE4 h))
    (s_ AUTH_RE5).
(** oa/received_parser.py:642-675 *)
Definition get_auth (h : str) : str := Model_Relays.get_auth auth_patterns h.

(** [re.sub(r'\s+', ' ', h)].  For oa/received_parser.py:363-375. *)
Fixpoint collapse (in_blank : bool) (s : str) : str :=
  match s with
  | [] => []
  | c :: r => if is_space c then (if in_blank then collapse true r else 32%N :: collapse true r)
              else c :: collapse false r
  end.
(** [h.replace('from ', '', 1)].  For oa/received_parser.py:363-375. *)
Definition drop_from (h : str) : str :=
  match split1_sub ($"from ") h with Some (a, b) => a ++ b | None => h end.
(** [h.split(';')[0]].  For oa/received_parser.py:363-375. *)
Definition before_semicolon (h : str) : str := match split1 59%N h with Some (a, _) => a | None => h end.
(** oa/received_parser.py:363-375: [None]: the header is not kept *)
Definition prepare (h : str) : option str :=
  if startswith ($"from") h then Some (before_semicolon (drop_from (collapse false h)))
  else if startswith ($"X-ORIGINATING-IP") h then Some h
  else None.
(** oa/received_parser.py:677-697: one header *)
Definition parse_one (h : str) : option Model_Relays.relay :=
  if check_for_skip h then None
  else if startswith ($"X-ORIGINATING-IP") h then
    Some (Model_Relays.mkRelay [] (get_ip h) [] [] [] [] [] [] false None)
  else
    Some (Model_Relays.mkRelay (get_rdns h) (get_ip h) (get_by h) (get_helo h) (get_ident h) (get_id h)
            (get_envfrom h) (get_auth h) false None).
(** [ReceivedParser(headers).received], oa/received_parser.py:362-375,677-697 *)
Fixpoint parse_received (headers : list str) : list Model_Relays.relay :=
  match headers with
  | [] => []
  | h :: r =>
      match prepare h with
      | None => parse_received r
      | Some h' => match parse_one h' with Some x => x :: parse_received r | None => parse_received r end
      end
  end.
End Parser.
