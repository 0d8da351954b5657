(** The address and host lists from the configuration to the answers of the rules: the options of
    oa/plugins/wlbl_eval.py:28-51, [check_start] (69-95) and the rules that look at the lists (261-384,441-462).
    Definitions only. *)
From Verif Require Import PyStr PyDict PyRe Model_Rules Model_Net Model_Relays Model_Wlbl Model_Parser Model_Conf Model_Headers Model_Address.

(** oa/plugins/wlbl_eval.py:17: the name the data of the plugin are kept under (oa/conf.py:52-58). *)
Definition wlbl : str := $"WLBLEvalPlugin".
(** oa/plugins/wlbl_eval.py:28-51.  The lists are numbered after those of the main options. *)
Definition wlbl_options : table :=
  [($"blacklist_from", (OAppendSplit, CList 13));
   ($"whitelist_from", (OAppendSplit, CList 14));
   ($"whitelist_to", (OAppendSplit, CList 15));
   ($"blacklist_to", (OAppendSplit, CList 16));
   ($"all_spam_to", (OAppendSplit, CList 17));
   ($"more_spam_to", (OAppendSplit, CList 18));
   ($"def_whitelist_from_rcvd", (OList, CList 19));
   ($"whitelist_from_rcvd", (OList, CList 20));
   ($"whitelist_allow_relays", (OAppendSplit, CList 21));
   ($"enlist_uri_host", (OList, CList 22));
   ($"delist_uri_host", (OList, CList 23));
   ($"blacklist_uri_host", (OList, CList 24));
   ($"whitelist_uri_host", (OList, CList 25));
   ($"util_rb_tld", (OAppendSplit, CList 26));
   ($"util_rb_2tld", (OAppendSplit, CList 27));
   ($"util_rb_3tld", (OAppendSplit, CList 28))].
(** The classes that have options here: oa/conf.py:191-234 and oa/plugins/wlbl_eval.py:28-51. *)
Definition list_classes : dict table := [(main, pad_options); (wlbl, wlbl_options)].
(** oa/conf.py:194-234, oa/plugins/wlbl_eval.py:28-51: all default lists are empty. *)
Definition list_heap : list (list str) := pad_heap ++ repeat [] 16.

(** A new process that makes one context, loads the plugin and reads option lines, each a key and a text
    (oa/context.py:137-150,169-207,276-284).  Simplification: no other plugin is loaded; one with an option of the same
    name loaded before this one would take the lines. *)
Definition configured (py_float : str -> option Q) (lines : list (str * str)) : world :=
  crun list_classes py_float (mkW list_heap [])
    (Create :: Load 0 wlbl :: map (fun l => Set_ 0 (fst l) (snd l)) lines).

(** [self\[key\]] for an option that is a list, oa/conf.py:46-47; [None]: an exception. *)
Definition option_list (w : world) (key : str) : option (list str) :=
  match view w 0 wlbl key with Some (SList l) => Some l | _ => None end.

Section Lists.
Variable escaped : char -> bool.             (** what [re.escape] escapes *)
Variable parse_net6 : str -> option net.     (** [IPv6Network(text)] *)
Variable ip_address : str -> option addr.    (** [ipaddress.ip_address] *)
Variable lim : nat.                          (** see PyAddr *)
Variable strict : bool.
Variable decode : str -> option str.         (** see Model_Headers *)

(** What [check_start] leaves for the rules: the lists of regular expressions, the configuration of the whitelists with
    relays, and the host lists.  oa/plugins/wlbl_eval.py:69-95.  Simplification: the four lists of [wlconf] are kept as
    configured, and parsed where they are used (Model_Wlbl). *)
Record started := mkStarted { st_lists : dict (list str); st_white : wlconf; st_hosts : enlisted }.
(** oa/plugins/wlbl_eval.py:69-95 [check_start]; [None]: an exception. *)
Definition check_start (w : world) : option started :=
  match option_list w ($"whitelist_from"), option_list w ($"whitelist_to"), option_list w ($"blacklist_from"),
        option_list w ($"blacklist_to"), option_list w ($"all_spam_to"), option_list w ($"more_spam_to") with
  | Some wf, Some wt, Some bf, Some bt, Some al, Some mo =>
    match option_list w ($"def_whitelist_from_rcvd"), option_list w ($"whitelist_from_rcvd"), option_list w ($"whitelist_allow_relays"),
          option_list w ($"delist_uri_host"), option_list w ($"whitelist_uri_host"), option_list w ($"blacklist_uri_host"),
          option_list w ($"enlist_uri_host") with
    | Some dr, Some wr, Some ar, Some de, Some wu, Some bu, Some en =>
      match uri_lists en de wu bu with
      | Some hosts =>
          Some (mkStarted
            [($"parsed_whitelist_from", parse_list escaped wf); ($"parsed_whitelist_to", parse_list escaped wt);
             ($"parsed_blacklist_from", parse_list escaped bf); ($"parsed_blacklist_to", parse_list escaped bt);
             ($"parsed_all_spam_to", parse_list escaped al); ($"parsed_more_spam_to", parse_list escaped mo);
             ($"parsed_whitelist_allow_relays", parse_list escaped ar)]
            (mkWl wf wr dr ar) hosts)
      | None => None
      end
    | _, _, _, _, _, _, _ => None
    end
  | _, _, _, _, _, _ => None
  end.

(** What the rules look at in a message: its headers, its relays and its addresses of pages
    (oa/message.py:520-547, oa/plugins/wlbl_eval.py:386-395,446). *)
Record letter := mkLetter { le_headers : hmsg; le_untrusted : list relay; le_trusted : list relay; le_uris : list str }.

(** oa/plugins/wlbl_eval.py:212-219 [check_address_in_list]: the list is looked up for each address; [None]: an
    exception.  Simplification: the lists of the two options with relays and of the hosts are left out, a rule that
    names one of them is not covered. *)
Definition address_in (addresses : list str) (name : str) (st : started) : option bool :=
  match addresses with
  | [] => Some false
  | _ => match dget name (st_lists st) with
         | Some regexes => check_address_in_list addresses regexes
         | None => None
         end
  end.

(** The rules by name, oa/plugins/wlbl_eval.py:18-27, except [check_mailfrom_matches_rcvd]. *)
Inductive lrule :=
| FromIn (name : str) | ToIn (name : str) | FromBlack | ToWhite | ToBlack | ToAllSpam | ToMoreSpam
| White (k : wcheck)
| HostListed (name : str) | HostWhite | HostBlack.
(** oa/plugins/wlbl_eval.py:261-384,441-462: the answer of a rule, and the marks of the message after it. *)
Definition ask (st : started) (m : letter) (r : lrule) (k : marks) : option (bool * marks) :=
  let from := senders lim strict decode (le_headers m) in
  let to := recipients lim strict decode (le_headers m) in
  let plain b := option_map (fun b => (b, k)) b in
  match r with
  | FromIn name => match name with [] => Some (false, k) | _ => plain (address_in from ($"parsed_" ++ name) st) end
  | ToIn name => plain (address_in to ($"parsed_" ++ name) st)
  | FromBlack => plain (address_in from ($"parsed_blacklist_from") st)
  | ToWhite => plain (address_in to ($"parsed_whitelist_to") st)
  | ToBlack => plain (address_in to ($"parsed_blacklist_to") st)
  | ToAllSpam => plain (address_in to ($"parsed_all_spam_to") st)
  | ToMoreSpam => plain (address_in to ($"parsed_more_spam_to") st)
  | White c => run_check escaped parse_net6 ip_address (st_white st) (le_untrusted m) (le_trusted m) from c k
  | HostListed name => Some (uri_listed (st_hosts st) name (le_uris m), k)
  | HostWhite => Some (uri_listed (st_hosts st) ($"WHITE") (le_uris m), k)
  | HostBlack => Some (uri_listed (st_hosts st) ($"BLACK") (le_uris m), k)
  end.
(** A message is made ([check_start], oa/message.py:431), some rules are asked, then one more: its answer.
    [None]: an exception on the way. *)
Fixpoint ask_all (st : started) (m : letter) (rs : list lrule) (k : marks) : option marks :=
  match rs with
  | [] => Some k
  | r :: rest => match ask st m r k with Some (_, k') => ask_all st m rest k' | None => None end
  end.
(** oa/message.py:431, oa/plugins/wlbl_eval.py:69-95,261-384,441-462. *)
Definition answer (w : world) (m : letter) (before : list lrule) (r : lrule) : option bool :=
  match check_start w with
  | Some st => match ask_all st m before marks0 with
               | Some k => option_map fst (ask st m r k)
               | None => None
               end
  | None => None
  end.
End Lists.
