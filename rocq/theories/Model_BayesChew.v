(** Model of the regular expressions of the tokeniser of oa/plugins/bayes.py: the lines of the body (582-600) and what
    is made of Content-Type, Message-ID, Received and address headers before their words are taken (962-1041).  They are
    the functions Model_BayesTok leaves open.  Definitions only. *)
From Verif Require Import PyStr Regexp RegexpSub Model_Received Model_MimeEval.

Section Chew.
Variable udigit uword : char -> bool.   (** see Regexp *)
Notation re_sub := (re_sub udigit uword).

(** [\n+\s*\n+], oa/plugins/bayes.py:587 *)
Definition PARAGRAPH : re := Eval vm_compute in pattern false false ($"\n+\s*\n+").
(** oa/plugins/bayes.py:589: not a class of characters but five characters in a row (blank, tab, line feed, carriage
    return, vertical tab) *)
Definition BLANKS : re := Eval vm_compute in fold_right (fun c r => Cat (Chr false false [IChar c]) r) Eps [32; 9; 10; 13; 11]%N.
(** oa/plugins/bayes.py:591 *)
Definition FORM_FEED : re := Chr false false [IChar 12].
(** oa/plugins/bayes.py:582-600 [get_body_text_array_common], [split_into_array_of_short_lines] *)
Definition body_lines (text : str) : list str :=
  let text := re_sub (always [12%N]) PARAGRAPH text in
  let text := re_sub (always ($" ")) BLANKS text in
  let text := re_sub (always [10%N]) FORM_FEED text in
  splitlines text.

(** oa/plugins/bayes.py:965 *)
Definition BOUNDARY : re := Eval vm_compute in pattern true false ($"boundary=[\""\'](.*?)[\""\']").
(** oa/plugins/bayes.py:968 *)
Definition HEX : re := Eval vm_compute in pattern false false ($"[a-fA-F0-9]").
(** oa/plugins/bayes.py:970 *)
Definition SEPARATORS : re := Eval vm_compute in pattern false false ($"([-_\.=]+)").
(** oa/plugins/bayes.py:973 *)
Definition CT_STOP : re := Eval vm_compute in pattern false false ($"\b(?:text|charset)\b").
(** oa/plugins/bayes.py:962-973 [_pre_chew_content_type].  The replacement of the separators is the text " \1 " written
    without r: a blank, the character 1, a blank. *)
Definition chew_content_type (v : str) : str :=
  let v := match re_search udigit uword BOUNDARY v with
           | Some st =>
               let b := re_sub (always ($"H")) HEX (grp 1 st) in
               v ++ re_sub (always [32; 1; 32]%N) SEPARATORS b
           | None => v
           end in
  re_sub (always []) CT_STOP v.

(** oa/plugins/bayes.py:982-986 *)
Definition OUTLOOK : re := Eval vm_compute in
  pattern false false ($"<([0-9a-f]{4})[0-9a-f]{4}[0-9a-f]{4}\$([0-9a-f]{4})[0-9a-f]{4}\$([0-9a-f]{8})\@(\S+)>").
(** oa/plugins/bayes.py:989 *)
Definition EXIM : re := Eval vm_compute in pattern false false ($"<[A-Za-z0-9]{7}-[A-Za-z0-9]{6}-0[A-Za-z0-9]\@").
(** oa/plugins/bayes.py:992-993 *)
Definition SENDMAIL : re := Eval vm_compute in
  pattern false false ($"<20\d\d[01]\d[0123]\d[012]\d[012345]\d[012345]\d\.[A-F0-9]{10,12}\@").
(** oa/plugins/bayes.py:999 *)
Definition NO_WORD : re := Eval vm_compute in pattern false false ($"[^_A-Za-z0-9]").
(** oa/plugins/bayes.py:976-1000 [_pre_chew_message_id] *)
Definition chew_id (v : str) : str :=
  let v := re_sub (fun st => $" OEA" ++ grp 1 st ++ $" OEB" ++ grp 2 st ++ $" OEC" ++ grp 3 st ++ $" " ++ grp 4 st ++ $" ") OUTLOOK v in
  let v := re_sub (always []) EXIM v in
  let v := re_sub (always []) SENDMAIL v in
  re_sub (always ($" ")) NO_WORD v.

(** oa/plugins/bayes.py:1006-1010 *)
Definition WITH_SMTP : re := Eval vm_compute in pattern false false ($"\swith\sSMTP\sid\sg[\dA-Z]{10,12}\s").
(** oa/plugins/bayes.py:1007 *)
Definition WITH_ESMTP : re := Eval vm_compute in pattern false false ($"\swith\sESMTP\sid\s[\dA-F]{10,12}\s").
(** oa/plugins/bayes.py:1008 *)
Definition ID_SENDMAIL : re := Eval vm_compute in pattern false false ($"\bid\s[a-zA-Z0-9]{7,20}\b").
(** oa/plugins/bayes.py:1009-1010 *)
Definition ID_EXIM : re := Eval vm_compute in pattern false false ($"\bid\s[A-Za-z0-9]{7}-[A-Za-z0-9]{6}-0[A-Za-z0-9]").
(** oa/plugins/bayes.py:1012-1018 *)
Definition DATE : re := Eval vm_compute in
  pattern false false (($"(?:(?:Mon|Tue|Wed|Thu|Fri|Sat|Sun),\s)?") ++ ($"[0-3\s]?[0-9]\s") ++
    ($"(?:Jan|Feb|Ma[ry]|Apr|Ju[nl]|Aug|Sep|Oct|Nov|Dec)\s") ++ ($"(?:19|20)?[0-9]{2}\s") ++
    ($"[0-2][0-9](?:\:[0-5][0-9]){1,2}\s") ++ ($"(?:\s*\(|\)|\s*(?:[+-][0-9]{4})|\s*(?:UT|[A-Z]{2,3}T))*")).
(** oa/plugins/bayes.py:1031 *)
Definition RCVD_STOP : re := Eval vm_compute in pattern false false ($"\b(?:with|from|for|SMTP|ESMTP)\b").
(** oa/plugins/bayes.py:1003-1032 [_pre_chew_received] *)
Definition chew_received (v : str) : str :=
  let v := re_sub (always ($" ")) WITH_SMTP v in
  let v := re_sub (always ($" ")) WITH_ESMTP v in
  let v := re_sub (always ($" ")) ID_SENDMAIL v in
  let v := re_sub (always ($" ")) ID_EXIM v in
  let v := re_sub (always []) DATE v in
  re_sub (always ($" ")) RCVD_STOP v.

(** oa/plugins/bayes.py:1035-1036 *)
Definition ADDR : re := Eval vm_compute in
  pattern false false ($"(?:mailto:)?\s([-a-z0-9_\+\:\=\!\#\$\%\&\*\^\?\{\}\|\~\/\.]+\@[-a-z0-9_\+\:\/]+)[-a-z0-9_\+\:\/]+").
(** oa/plugins/bayes.py:1034-1041: the group of [find_all_addrs_in_line] (the code takes its first character, see
    [chew_addr] in Model_BayesTok) *)
Definition find_addr (line : str) : option str :=
  match re_search udigit uword ADDR line with Some st => group 1 (s_caps st) | None => None end.
End Chew.
