(** Model of the rules of oa/plugins/header_eval.py that recognise the headers of particular
    providers and programs by regular expressions.  Definitions only.
    What the rules read of a message is a record of the answers of oa/message.py; header names
    are in lower case, as both [get_decoded_header] and [msg.get] ignore case.  A result [None]
    means that the rule raises an exception.  [str] values that the e-mail library gives as
    [Header] objects (undecodable bytes) are not modelled. *)
From Coq Require Import QArith Qround.
From Verif Require Import PyStr Regexp Model_Received.
From Verif Require Model_Relays.
Open Scope nat_scope.

(** For oa/plugins/header_eval.py:718-733. *)
Record mail := mkMail {
  decoded : str -> list str;                 (** [msg.get_decoded_header(name)] *)
  first_of : str -> option str;              (** [msg.msg.get(name)] *)
  addresses : str -> list str;               (** [msg.get_all_addr_header(name)] *)
  sender : str;                              (** [msg.sender_address] *)
  trusted : list Model_Relays.relay;
  untrusted : list Model_Relays.relay;
  raw_text : str                             (** [msg.raw_msg] *)
}.
(** For oa/plugins/header_eval.py:718-733. *)
Definition joined (m : mail) (name : str) : str := concat (decoded m name).
(** For oa/plugins/header_eval.py:718-733. *)
Definition nil_ {A} (l : list A) : bool := match l with [] => true | _ => false end.
(** [x.rsplit("@", 1)[-1]].  For oa/plugins/header_eval.py:273-288. *)
Definition domain_of (a : str) : str := match rsplit1 64%N a with Some (_, d) => d | None => a end.

(** ** The patterns *)
(** oa/plugins/header_eval.py:67,69,71 *)
Definition AOL_RLY : re := Eval vm_compute in pattern true false ($" rly-[a-z][a-z]\d\d\.").
(** For oa/plugins/header_eval.py:64-74. *)
Definition AOL_VER : re := Eval vm_compute in pattern false false ($"\/AOL-\d+\.\d+\.\d+\)").
(** For oa/plugins/header_eval.py:64-74. *)
Definition AOL_ID : re := Eval vm_compute in pattern false false ($"ESMTP id (?:RELAY|MAILRELAY|MAILIN)").
(** oa/plugins/header_eval.py:722,724-726,731 *)
Definition EZMLM : re := Eval vm_compute in pattern false false ($"^contact \S+\@\S+\; run by ezmlm$").
(** For oa/plugins/header_eval.py:718-733. *)
Definition EZMLM_TO : re := Eval vm_compute in pattern false false ($"^mailing list \S+\@\S+").
(** For oa/plugins/header_eval.py:718-733. *)
Definition QMAIL : re := Eval vm_compute in pattern false false ($"qmail \d+ invoked (?:from network|by .{3,20})\); \d+ ... \d+").
(** For oa/plugins/header_eval.py:718-733. *)
Definition MSN_GATE : re := Eval vm_compute in pattern false false ($"from groups\.msn\.com \(\S+\.msn\.com ").
(** oa/plugins/header_eval.py:213-214,221-228,234 *)
Definition PICKUP : re := Eval vm_compute in pattern false false ($"from mail pickup service by hotmail\.com with Microsoft SMTPSVC;").
(** For oa/plugins/header_eval.py:207-243. *)
Definition HOTMAIL_VIA : re := Eval vm_compute in pattern true true
  ($"from\s+(?:\S*\.)?hotmail.com\s+\(\S+\.hotmail(?:\.msn)?\.com[\)]|from\s+\S*\.hotmail\.com\s+\(\[" ++ IP_ADDRESS_pattern ++
   $"\]|from\s+\S+\s+by\s+\S+\.hotmail(?:\.msn)?\.com\s+with\s+ HTTP\;|from\s+\[66\.218.\S+\]\s+by\s+\S+\.yahoo\.com").
(** For oa/plugins/header_eval.py:207-243. *)
Definition HOTMAIL_HELO : re := Eval vm_compute in pattern false false ($"(?:from |HELO |helo=)\S*hotmail\.com\b").
(** oa/plugins/header_eval.py:248,251-252 *)
Definition MSN_TO : re := Eval vm_compute in pattern false false ($"<(\S+)\@groups\.msn\.com>").
(** For oa/plugins/header_eval.py:245-271. *)
Definition MSN_SERVER : re := Eval vm_compute in pattern false false ($"from mail pickup service by ((?:p\d\d\.)groups\.msn\.com)\b").
(** oa/plugins/header_eval.py:286 *)
Definition WHOWHERE : re := Eval vm_compute in pattern false false ($"by \S*whowhere.com\;").
(** oa/plugins/header_eval.py:307,309,311-314,317,320-321 *)
Definition YAHOO_WEB : re := Eval vm_compute in pattern false false ($"by web\S+\.mail\S*\.yahoo\.com via HTTP").
(** For oa/plugins/header_eval.py:290-323. *)
Definition YAHOO_SMTP : re := Eval vm_compute in pattern false false ($"by smtp\S+\.yahoo\.com with SMTP").
(** For oa/plugins/header_eval.py:290-323. *)
Definition YAHOO_IP : re := Eval vm_compute in pattern false true
  ($"from\s+\[" ++ IP_ADDRESS_pattern ++ $"\]\s+by\s+\S+\.(?:groups|scd|dcn)\.yahoo\.com\s+with\s+NNFMP").
(** For oa/plugins/header_eval.py:290-323. *)
Definition YAHOO_BULK : re := Eval vm_compute in pattern false false ($"\bmailer\d+\.bulk\.scd\.yahoo\.com\b").
(** For oa/plugins/header_eval.py:290-323. *)
Definition YAHOO_BY : re := Eval vm_compute in pattern false false
  ($"by \w+\.\w+\.yahoo\.com \(\d+\.\d+\.\d+\/\d+\.\d+\.\d+\)(?: with ESMTP)? id \w+").
(** oa/plugins/header_eval.py:335-337 *)
Definition JUNO_FROM : re := Eval vm_compute in pattern false true
  ($"from.*\b(?:juno|untd)\.com.*[\[\(]" ++ IP_ADDRESS_pattern ++ $"[\]\)].*by").
(** oa/plugins/header_eval.py:325-356. *)
Definition JUNO_COOKIE : re := Eval vm_compute in pattern false false ($" cookie\.(?:juno|untd)\.com ").
(** oa/plugins/header_eval.py:454-456 *)
Definition GW05 : re := Eval vm_compute in pattern true true
  ($"from\s(\S+)\sby\s(\S+)\swith\sESMTP\;\s+\S\S\S,\s+\d+\s+\S\S\S\s+\d{4}\s+\d\d:\d\d:\d\d\s+[-+]*\d{4}").
(** oa/plugins/header_eval.py:606-607,621 *)
Definition OUTLOOK_ID : re := Eval vm_compute in pattern false false ($"^<[0-9a-f]{4}([0-9a-f]{8})\$[0-9a-f]{8}\$[0-9a-f]{8}\@").
(** For oa/plugins/header_eval.py:602-627. *)
Definition RCVD_DATE : re := Eval vm_compute in pattern false false ($"(\s.?\d+ \S\S\S \d+ \d+:\d+:\d+ \S+).*?$").
(** oa/plugins/header_eval.py:632,638,640 *)
Definition UNSUBSCRIBE : re := Eval vm_compute in pattern false false ($"<mailto:(?:leave-\S+|\S+-unsubscribe)\@\S+>$").
(** For oa/plugins/header_eval.py:629-642. *)
Definition CWT_DCE : re := Eval vm_compute in pattern false false ($"/CWT/DCE\)").
(** For oa/plugins/header_eval.py:629-642. *)
Definition IPLANET : re := Eval vm_compute in pattern false false ($"iPlanet Messaging Server").
(** oa/plugins/header_eval.py:660,661-663 *)
Definition TEMPLATE : re := Eval vm_compute in pattern false false ($"%[A-Z][A-Z_-]").
(** For oa/plugins/header_eval.py:656-665. *)
Definition TEMPLATE_OK : re := Eval vm_compute in pattern false false
  ($"^(?:x-vms-to|x-uidl|x-face|to|cc|from|subject|references|in-reply-to|(?:x-|resent-|x-original-)?message-id):").
(** oa/plugins/header_eval.py:673,706,708 *)
Definition RATWARE_ID : re := Eval vm_compute in pattern false false ($"<[A-Z]{28}\.([^>]+?)>").
(** For oa/plugins/header_eval.py:700-716. *)
Definition SRS : re := Eval vm_compute in pattern false false ($"^SRS\d=").
(** For oa/plugins/header_eval.py:700-716. *)
Definition TO_PARTS : re := Eval vm_compute in pattern false false ($"^([^@]+)@(.+)$").
(** oa/plugins/header_eval.py:107-130 *)
Definition UNIQUE_IDS : list re := Eval vm_compute in map (pattern true false)
  [$"[-_\.\s]{7,}([-a-z0-9]{4,})$"; $"\s{10,}(?:\S\s)?(\S+)$"; $"\s{3,}[-:\#\(\[]+([-a-z0-9]{4,})[\]\)]+$";
   $"\s{3,}[-:\#]([a-z0-9]{5,})$"; $"[\s._]{3,}([^0\s._]\d{3,})$"; $"[\s._]{3,}\[(\S+)\]$";
   $"\(([-\w]{7,}\@\d+)\)$"; $"\b(\d{7,})\s*$"; $"[!\?]\s*(\d{4,}|\w+(-\w+)+)\s*$";
   $"(?:\w{2,3}:\s)?\w+\s+(\w{7,}-\w{7,}(-\w+)*)\s*$"; $"\s#\s*([a-f0-9]{4,})\s*$"].
(** oa/plugins/header_eval.py:138 *)
Definition FIVE_DIGITS : re := Eval vm_compute in pattern false false ($"\d{5,}").

Section Rules.
Variable udigit uword : char -> bool.
Notation s_ := (s_ udigit uword).
Notation m_ := (m_ udigit uword).
(** [r.search(h).groups()[n - 1]].  For oa/plugins/header_eval.py:245-271. *)
Definition search_group (r : re) (n : nat) (h : str) : option str :=
  match re_search udigit uword r h with Some st => Some (g_ n st) | None => None end.

(** oa/plugins/header_eval.py:64-74 *)
Definition check_for_fake_aol_relay_in_rcvd (m : mail) : bool :=
  existsb (fun h => s_ AOL_RLY h && negb (s_ AOL_VER h) && negb (s_ AOL_ID h)) (decoded m ($"received")).

(** oa/plugins/header_eval.py:718-733 *)
Definition gated_through_received_hdr_remover (m : mail) : bool :=
  let txt := joined m ($"mailing-list") in
  let rcvd := joined m ($"received") in
  if s_ EZMLM txt && s_ EZMLM_TO (joined m ($"delivered-to")) && s_ QMAIL rcvd then true
  else if nil_ rcvd then true
  else s_ MSN_GATE rcvd.

(** oa/plugins/header_eval.py:245-271.  A pattern that does not compile raises [re.error]. *)
Definition check_for_msn_groups_headers (m : mail) : option bool :=
  let to := joined m ($"to") in
  if negb (s_ MSN_TO to) then Some false
  else match m_ MSN_TO to with
  | None => None                             (** 250: [None.groups()] *)
  | Some st =>
      let listname := g_ 1 st in
      match find (s_ MSN_SERVER) (decoded m ($"received")) with
      | None => Some false
      | Some rcvd =>
          let server := match search_group MSN_SERVER 1 rcvd with Some w => w | None => [] end in
          let message_id := joined m ($"message-id") in
          if streqb listname ($"notifications") then
            option_map (fun r => s_ r message_id) (compile false false ($"^<\S+\@" ++ server))
          else match compile false false ($"^<" ++ listname ++ $"-\S+\@groups\.msn\.com>") with
          | None => None
          | Some r => if negb (s_ r message_id) then Some false
                      else Some (streqb (sender m) (listname ++ $"-bounce@groups.msn.com"))
          end
      end
  end.

(** oa/plugins/header_eval.py:207-243: the two fields it leaves: with forged headers, without headers of Hotmail *)
Definition hotmail_received (m : mail) : option (bool * bool) :=
  match first_of m ($"received") with
  | None | Some [] => Some (false, false)
  | Some rcvd =>
      if s_ PICKUP rcvd then Some (false, false)
      else match check_for_msn_groups_headers m with
      | None => None
      | Some true => Some (false, false)
      | Some false =>
          let via := match first_of m ($"x-originating-ip") with
                     | Some ip => negb (nil_ ip) && s_ IP_ADDRESS ip && s_ HOTMAIL_VIA rcvd
                     | None => false
                     end in
          if via then Some (false, false)
          else if gated_through_received_hdr_remover m then Some (false, false)
          else if s_ HOTMAIL_HELO rcvd then Some (true, false)
          else let from := match first_of m ($"from") with Some f => f | None => [] end in
               Some (false, contains ($"hotmail.com") from)
      end
  end.
(** oa/plugins/header_eval.py:197-205 *)
Definition check_for_forged_hotmail_received_headers (m : mail) : option bool := option_map fst (hotmail_received m).
(** oa/plugins/header_eval.py:202-205. *)
Definition check_for_no_hotmail_received_headers (m : mail) : option bool := option_map snd (hotmail_received m).

(** oa/plugins/header_eval.py:273-288 *)
Definition check_for_forged_eudoramail_received_headers (m : mail) : bool :=
  let from_addr := concat (addresses m ($"from")) in
  if negb (streqb (domain_of from_addr) ($"eudoramail.com")) then false
  else
    let rcvd := joined m ($"received") in
    let ip := joined m ($"x-sender-ip") in
    if gated_through_received_hdr_remover m then false
    else negb (s_ WHOWHERE rcvd && (negb (nil_ ip) && s_ IP_ADDRESS ip)).

(** oa/plugins/header_eval.py:290-323 *)
Definition check_for_forged_yahoo_received_headers (m : mail) : bool :=
  let from_addr := concat (addresses m ($"from")) in
  if negb (contains ($"yahoo.com") from_addr) then false
  else
    let rcvd := if negb (nil_ (decoded m ($"resent-from"))) && negb (nil_ (decoded m ($"resent-to"))) && negb (nil_ (joined m ($"x-received")))
                then joined m ($"x-received") else joined m ($"received") in
    if gated_through_received_hdr_remover m then false
    else if existsb (fun r => contains ($"yahoo.com") (Model_Relays.rl_rdns r)) (untrusted m ++ trusted m) then false
    else if s_ YAHOO_WEB rcvd then false
    else if s_ YAHOO_SMTP rcvd then false
    else if s_ YAHOO_IP rcvd then false
    else if s_ YAHOO_BULK rcvd && streqb (domain_of from_addr) ($"reply.yahoo.com") then false
    else if s_ YAHOO_BY rcvd then false
    else true.

(** 325-356.  Without X-Originating-IP all three branches return [True]; their patterns (one of
    them with a back reference) cannot matter. *)
(** oa/plugins/header_eval.py:325-356. *)
Definition check_for_forged_juno_received_headers (m : mail) : bool :=
  let from_addr := concat (addresses m ($"from")) in
  if negb (endswith ($"juno.com") (domain_of from_addr)) then false
  else if gated_through_received_hdr_remover m then false
  else
    let rcvd := joined m ($"received") in
    if negb (nil_ (joined m ($"x-originating-ip"))) then
      if negb (s_ JUNO_FROM rcvd) && negb (s_ JUNO_COOKIE rcvd) then true
      else negb (contains ($"Juno ") (joined m ($"x-mailer")))
    else true.

(** oa/plugins/header_eval.py:358-365 *)
Definition check_for_matching_env_and_hdr_from (m : mail) : bool :=
  let envfrom := match find (fun r => negb (nil_ (Model_Relays.rl_envfrom r))) (trusted m ++ untrusted m) with
                 | Some r => Model_Relays.rl_envfrom r
                 | None => []
                 end in
  contains envfrom (concat (addresses m ($"from"))).

(** oa/plugins/header_eval.py:453-468 *)
Definition check_for_forged_gw05_received_headers (m : mail) : bool :=
  existsb (fun h => match m_ GW05 h with
                    | Some st => negb (nil_ (g_ 1 st)) && negb (nil_ (g_ 2 st)) && negb (streqb (g_ 2 st) ($"."))
                    | None => false
                    end) (decoded m ($"received")).

(** oa/plugins/header_eval.py:569-600.  [re.escape(to)] is the expression that matches exactly [to]. *)
Fixpoint escaped (ci : bool) (s : str) : re :=
  match s with [] => Eps | c :: r => Cat (Chr ci false [IChar c]) (escaped ci r) end.
(** For oa/plugins/header_eval.py:569-600. *)
Definition dots : re := Rep true 0 None Dot.
(** For oa/plugins/header_eval.py:569-600. *)
Definition user_patterns (to : str) : list re :=
  let e := escaped false to in
  let mark := Chr false false (map IChar ($",:;!?-")) in
  let blanks := Rep true 0 None (Chr false false [ISpace]) in
  [Cat Bos (Cat e Eos);
   Cat (Alt (escaped false ($"re")) (escaped false ($"fw"))) (Cat (Chr false false [IChar 58%N]) (Cat blanks
     (Cat (Rep true 0 (Some 1) (Cat (Rep true 1 None (Chr false false [IWord])) (Rep true 1 None (Chr false false [ISpace])))) (Cat e Eos))));
   Cat blanks (Cat e (Cat mark Eos));
   Cat Bos (Cat e (Cat blanks (Cat mark (Cat (Grp 1 (Chr false false [ISpace])) dots))))].
(** For oa/plugins/header_eval.py:569-600. *)
Definition USER_RE : re := Eval vm_compute in pattern false false ($"(\S+)@.*").
(** oa/plugins/header_eval.py:569-600. *)
Definition check_for_to_in_subject (test : str) (m : mail) : bool :=
  let subject := match first_of m ($"subject") with Some s => s | None => [] end in
  existsb (fun to =>
    if streqb test ($"address") then s_ (Cat dots (Cat (escaped true to) dots)) subject
    else if streqb test ($"user") then
      match m_ USER_RE to with
      | Some st => existsb (fun r => s_ r subject) (user_patterns (g_ 1 st))
      | None => false
      end
    else false) (addresses m ($"to")).

(** 602-627.  [mktime]: [time.mktime(email.utils.parsedate(date))], [None]: it raises. *)
Section Outlook.
Variable mktime : option str -> option Z.
(** oa/plugins/header_eval.py:602-627. *)
Definition hex_digit (c : char) : N := if N.leb c 57 then (c - 48)%N else (c - 87)%N.
(** oa/plugins/header_eval.py:602-627. *)
Definition hex (s : str) : Z := Z.of_N (fold_left (fun n c => (n * 16 + hex_digit c)%N) s 0%N).
(** oa/plugins/header_eval.py:602-627. *)
Definition ticks (d : Z) : Z :=
  let q := (inject_Z d * (23283064365387 # 10000000000000000) + (271119028329849 # 10000000))%Q in
  if Qle_bool 0 q then Qfloor q else Qceiling q.
(** oa/plugins/header_eval.py:602-627. *)
Definition near (a b : Z) : bool := Z.ltb (Z.abs (a - b)) 250.
(** oa/plugins/header_eval.py:602-627. *)
Definition check_outlook_message_id (m : mail) : option bool :=
  match first_of m ($"message-id") with
  | None | Some [] => Some false              (** [None], which counts as no match *)
  | Some message_id =>
      match search_group OUTLOOK_ID 1 message_id with
      | None => Some false
      | Some token =>
          match mktime (first_of m ($"date")) with
          | None => None
          | Some d =>
              if near (hex token) (ticks d) then Some false
              else match first_of m ($"received") with
              | None => None                 (** [search(None)] *)
              | Some received =>
                  match re_search udigit uword (Grp 0 RCVD_DATE) received with
                  | None => Some (negb (near (hex token) (ticks 0)))
                  | Some st => match mktime (Some (g_ 0 st)) with
                               | None => None
                               | Some d' => Some (negb (near (hex token) (ticks d')))
                               end
                  end
              end
          end
      end
  end.
End Outlook.

(** oa/plugins/header_eval.py:629-642 *)
Definition check_messageid_not_usable (m : mail) : option bool :=
  let unsubscribe := match first_of m ($"list-unsubscribe") with Some l => negb (nil_ l) && s_ UNSUBSCRIBE l | None => false end in
  if unsubscribe then Some true
  else if gated_through_received_hdr_remover m then Some true
  else match first_of m ($"received") with
       | None => None                        (** [search(None)] *)
       | Some received => Some (s_ CWT_DCE received || s_ IPLANET received)
       end.

(** oa/plugins/header_eval.py:656-665 *)
Definition check_unresolved_template (m : mail) : bool :=
  existsb (fun h => s_ TEMPLATE h && negb (s_ TEMPLATE_OK (lower h))) (split_char 10%N (raw_text m)).

(** oa/plugins/header_eval.py:667-678 *)
Definition check_ratware_name_id (m : mail) : option bool :=
  match first_of m ($"message-id"), first_of m ($"from") with
  | (None | Some []), (None | Some []) => Some false
  | None, Some _ => None                     (** [search(None)] *)
  | Some message_id, from =>
      match search_group RATWARE_ID 1 message_id with
      | None => Some false
      | Some id =>
          match compile false false ($"\""[^\""]+\""\s*<" ++ id ++ $">"), from with
          | Some r, Some f => Some (s_ r f)
          | _, _ => None
          end
      end
  end.

(** 680-716; [tlds]: the three lists of settings together *)
Section Envelope.
Variable tlds : list str.
(** oa/plugins/header_eval.py:689-698. *)
Definition is_domain_valid (domain : str) : bool :=
  let d := lower domain in
  if contains ($" ") d then false
  else match split_char 46%N d with
       | [] | [_] => false
       | _ :: r => mem_str (join ($".") r) tlds
       end.
(** oa/plugins/header_eval.py:700-716. *)
Definition check_ratware_envelope_from (m : mail) : option bool :=
  match first_of m ($"to") with
  | None | Some [] => Some false
  | Some to =>
      if nil_ (sender m) then Some false
      else if s_ SRS (sender m) then Some false
      else match re_search udigit uword TO_PARTS to with
      | None => Some false
      | Some st =>
          if negb (is_domain_valid (g_ 2 st)) then Some false
          else option_map (fun r => s_ r (sender m)) (compile false false ($"\b" ++ g_ 2 st ++ $"." ++ g_ 1 st ++ $"@"))
      end
  end.
End Envelope.

(** oa/plugins/header_eval.py:103-140 *)
Definition unique_id (subject : str) : option str :=
  fold_right (fun r rest => match re_search udigit uword (Grp 0 r) subject with Some st => Some (g_ 0 st) | None => rest end) None UNIQUE_IDS.
(** oa/plugins/header_eval.py:103-140. *)
Definition check_for_unique_subject_id (m : mail) : option bool :=
  let subject := joined m ($"subject") in
  match unique_id subject with
  | None | Some [] => Some false
  | Some id =>
      if s_ FIVE_DIGITS id then
        option_map (fun r => negb (s_ r subject))
          (compile true true ($"(?:item|invoice|order|number|confirmation).{1,6}" ++ id ++ $"\s*$"))
      else Some true
  end.
End Rules.
