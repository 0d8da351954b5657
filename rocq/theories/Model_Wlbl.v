(** Model of oa/plugins/wlbl_eval.py (address lists, lists with relays, URI host
    lists) and of the choice of addresses, oa/message.py:520-547.  Definitions only. *)
From Verif Require Import PyStr PyDict PyRe Model_Net Model_Relays.

(** oa/message.py:598-603 *)
Definition from_headers : list str := [$"From"; $"Envelope-Sender"; $"Resent-From"; $"X-Envelope-From"; $"EnvelopeFrom"].
(** For oa/message.py:534-547. *)
Definition to_headers : list str :=
  [$"To"; $"Resent-To"; $"Resent-Cc"; $"Apparently-To"; $"Delivered-To"; $"Envelope-Recipients"; $"Apparently-Resent-To";
   $"X-Envelope-To"; $"Envelope-To"; $"X-Delivered-To"; $"X-Original-To"; $"X-Rcpt-To"; $"X-Real-To"; $"Cc"].
(** oa/message.py:520-532; [addr_header] is [get_all_addr_header]. *)
Definition from_addresses (addr_header : str -> list str) : list str :=
  match addr_header ($"Resent-From") with
  | [] => concat (map addr_header from_headers)
  | l => l
  end.
(** oa/message.py:534-547 *)
Definition to_addresses (addr_header : str -> list str) : list str :=
  match addr_header ($"Resent-To") ++ addr_header ($"Resent-Cc") with
  | [] => concat (map addr_header to_headers)
  | l => l
  end.

Section Wlbl.
Variable escaped : char -> bool.             (** what [re.escape] escapes *)
Variable parse_net6 : str -> option net.     (** [IPv6Network(text)] *)
Variable ip_address : str -> option addr.    (** [ipaddress.ip_address] *)

(** oa/plugins/wlbl_eval.py:97-99 [check_input], also the test in 119-121 *)
Definition check_input (address : str) : bool :=
  existsb (fun e => contains e address) [$"?"; $"@"; $"."; $"*@"].
(** oa/plugins/wlbl_eval.py:101-102 [escape_addr], also 122 *)
Definition escape_addr (address : str) : str :=
  replace ($"\?") ($".?") (replace ($"\*") ($".*") (escape escaped address)).
(** oa/plugins/wlbl_eval.py:117-127 [parse_list] *)
Definition parse_list (entries : list str) : list str :=
  map (fun e => let address := escape_addr e in if contains ($"@") address then address else $".*@" ++ address)
    (filter check_input entries).
(** oa/plugins/wlbl_eval.py:104-115 [parse_input] *)
Definition parse_input (lines : list str) : dict (list str) :=
  let add d (p : str * str) :=
    dset (fst p) (match dget (fst p) d with Some l => l | None => [] end ++ [snd p]) d in
  fold_left (fun d line =>
    match split_ws_max 1 line with
    | [a; doms] => if check_input a then fold_left (fun d dom => add d (escape_addr a, dom)) (words doms) d else d
    | _ => d
    end) lines [].

(** Whether some regular expression of the list finds the address; [None]: an
    exception.  For oa/plugins/wlbl_eval.py:212-219. *)
Fixpoint any_search (regexes : list str) (address : str) : option bool :=
  match regexes with
  | [] => Some false
  | r :: rest => match re_search r address with
                 | Some true => Some true
                 | Some false => any_search rest address
                 | None => None
                 end
  end.
(** oa/plugins/wlbl_eval.py:212-219 [check_address_in_list] *)
Fixpoint check_address_in_list (addresses regexes : list str) : option bool :=
  match addresses with
  | [] => Some false
  | a :: rest => match any_search regexes a with
                 | Some true => Some true
                 | Some false => check_address_in_list rest regexes
                 | None => None
                 end
  end.
(** oa/plugins/wlbl_eval.py:288-293: [check_from_in_blacklist], and with the list of
    the same name the other checks of 281-332 *)
Definition check_in (entries : list str) (addresses : list str) : option bool :=
  check_address_in_list addresses (parse_list entries).

(** oa/plugins/wlbl_eval.py:410-429 [check_rcvd] *)
Definition relay_matches (domain : str) (r : relay) : bool :=
  let wl_ip := rstrip_chars ($" ]") (strip_chars ($"[ ") domain) in
  let by_name := let rdns := lower (rl_rdns r) in streqb wl_ip rdns || endswith ($"." ++ wl_ip) rdns in
  match ip_network parse_net6 (format_network wl_ip []) with
  | Some n => match ip_address (rl_ip r) with Some a => in_net a n | None => by_name end
  | None => by_name
  end.
(** oa/plugins/wlbl_eval.py:410-429. *)
Definition check_rcvd (domain : str) (relays : list relay) : bool := existsb (relay_matches domain) relays.

(** oa/plugins/wlbl_eval.py:391-395: the relays looked at *)
Definition relays_looked_at (untrusted trusted : list relay) : list relay :=
  match untrusted with r :: _ => [r] | [] => trusted end.

(** oa/plugins/wlbl_eval.py:386-408 [check_whitelist_rcvd] and 431-439
    [check_found_forged]; [None]: an exception. *)
Fixpoint rcvd_loop (entries : list (str * str)) (relays : list relay) (address : str) (forged : Z) : option (bool * Z) :=
  match entries with
  | [] => Some (false, forged)
  | (white_addr, domain) :: rest =>
      match re_search (replace ($"*") ($".*") white_addr) address with
      | None => None
      | Some found => if found && check_rcvd domain relays then Some (true, forged) else rcvd_loop rest relays address (-1)
      end
  end.
(** oa/plugins/wlbl_eval.py:386-408. *)
Definition check_whitelist_rcvd (lists : dict (list str)) (allow : list str) (untrusted trusted : list relay) (address : str) : option Z :=
  match untrusted, trusted with
  | [], [] => Some 0%Z
  | _, _ =>
      let relays := relays_looked_at untrusted trusted in
      let address := lower address in
      let entries := concat (map (fun e => map (fun d => (fst e, d)) (snd e)) lists) in
      match rcvd_loop entries relays address 0 with
      | None => None
      | Some (true, _) => Some 1%Z
      | Some (false, forged) =>
          if Z.eqb forged 0 then Some 0%Z
          else match any_search allow address with
               | None => None
               | Some true => Some 0%Z
               | Some false => Some forged
               end
      end
  end.

(** oa/plugins/wlbl_eval.py:193-210 [check_in_list]: the message's mark after it. *)
Fixpoint check_in_list (regexes : list str) (rcvd : str -> option Z) (addresses : list str) (mark : Z) : option Z :=
  match addresses with
  | [] => Some mark
  | a :: rest =>
      match any_search regexes a with
      | None => None
      | Some true => Some 1%Z
      | Some false =>
          match rcvd a with
          | None => None
          | Some wh => if Z.eqb wh 1 then Some 1%Z
                       else if Z.eqb wh (-1) then check_in_list regexes rcvd rest (-1)
                       else check_in_list regexes rcvd rest mark
          end
      end
  end.
(** oa/plugins/wlbl_eval.py:221-235 [check_in_default_whitelist] *)
Fixpoint check_in_default (rcvd : str -> option Z) (addresses : list str) (found : Z) : option Z :=
  match addresses with
  | [] => Some found
  | a :: rest =>
      match rcvd a with
      | None => None
      | Some wh => if Z.eqb wh 1 then Some 1%Z
                   else if Z.eqb wh (-1) then check_in_default rcvd rest (-1)
                   else check_in_default rcvd rest found
      end
  end.

(** The configuration the checks use.  For oa/plugins/wlbl_eval.py:261-279,334-336. *)
Record wlconf := mkWl {
  whitelist_from : list str; whitelist_from_rcvd : list str; def_whitelist_from_rcvd : list str; allow_relays : list str
}.
(** The two marks kept with a message, oa/plugins/wlbl_eval.py:73-74. *)
Record marks := mkMarks { in_white : Z; in_default : Z }.
(** oa/plugins/wlbl_eval.py:73-74. *)
Definition marks0 : marks := mkMarks 0 0.

(** oa/plugins/wlbl_eval.py:261-279,334-336 [check_from_in_whitelist],
    [check_from_in_default_whitelist] *)
Definition rcvd_of (lines : list str) (c : wlconf) (u t : list relay) (a : str) : option Z :=
  check_whitelist_rcvd (parse_input lines) (parse_list (allow_relays c)) u t a.
(** For oa/plugins/wlbl_eval.py:364-384. *)
Definition check_white (c : wlconf) (u t : list relay) (addresses : list str) (m : marks) : option (bool * marks) :=
  if Z.eqb (in_white m) 0 then
    match check_in_list (parse_list (whitelist_from c)) (rcvd_of (whitelist_from_rcvd c) c u t) addresses (in_white m) with
    | Some w => Some (Z.ltb 0 w, mkMarks w (in_default m))
    | None => None
    end
  else Some (Z.ltb 0 (in_white m), m).
(** For oa/plugins/wlbl_eval.py:364-384. *)
Definition check_default (c : wlconf) (u t : list relay) (addresses : list str) (m : marks) : option (bool * marks) :=
  if Z.eqb (in_default m) 0 then
    match check_in_default (rcvd_of (def_whitelist_from_rcvd c) c u t) addresses 0 with
    | Some w => Some (Z.ltb 0 w, mkMarks (in_white m) w)
    | None => None
    end
  else Some (Z.ltb 0 (in_default m), m).
(** oa/plugins/wlbl_eval.py:364-384 [check_forged_in_whitelist],
    [check_forged_in_default_whitelist] *)
Definition check_both (c : wlconf) (u t : list relay) (addresses : list str) (m : marks) : option marks :=
  match check_white c u t addresses m with
  | None => None
  | Some (_, m) => option_map snd (check_default c u t addresses m)
  end.
(** oa/plugins/wlbl_eval.py:364-384. *)
Definition check_forged (c : wlconf) (u t : list relay) (addresses : list str) (m : marks) : option (bool * marks) :=
  option_map (fun m => (Z.ltb (in_white m) 0 && Z.eqb (in_default m) 0, m)) (check_both c u t addresses m).
(** oa/plugins/wlbl_eval.py:364-384. *)
Definition check_forged_default (c : wlconf) (u t : list relay) (addresses : list str) (m : marks) : option (bool * marks) :=
  option_map (fun m => (Z.eqb (in_white m) 0 && Z.ltb (in_default m) 0, m)) (check_both c u t addresses m).
(** The four checks by name, oa/plugins/wlbl_eval.py:261,334,364,375. *)
Inductive wcheck := InWhitelist | InDefaultWhitelist | ForgedInWhitelist | ForgedInDefault.
(** oa/plugins/wlbl_eval.py:261,334,364,375. *)
Definition run_check (c : wlconf) (u t : list relay) (addresses : list str) (k : wcheck) (m : marks) : option (bool * marks) :=
  match k with
  | InWhitelist => check_white c u t addresses m
  | InDefaultWhitelist => check_default c u t addresses m
  | ForgedInWhitelist => check_forged c u t addresses m
  | ForgedInDefault => check_forged_default c u t addresses m
  end.
(** Any number of checks of one message.  oa/plugins/wlbl_eval.py:261,334,364,375. *)
Fixpoint run_checks (c : wlconf) (u t : list relay) (addresses : list str) (ks : list wcheck) (m : marks) : option marks :=
  match ks with
  | [] => Some m
  | k :: rest => match run_check c u t addresses k m with Some (_, m) => run_checks c u t addresses rest m | None => None end
  end.
End Wlbl.

(** ** oa/plugins/wlbl_eval.py:237-259,338-362 *)
(** [base_domain]; [tlds]: the three options together *)
Definition last_n {A} (n : nat) (l : list A) : list A := skipn (length l - n) l.
(** oa/plugins/wlbl_eval.py:237-259. *)
Definition isdigit (s : str) : bool := match s with [] => false | _ => forallb is_digit s end.
(** oa/plugins/wlbl_eval.py:237-259. *)
Definition base_domain (tlds : list str) (address : str) : str :=
  let parts := split_char 46%N address in
  if length parts <? 3 then join ($".") parts
  else if forallb isdigit parts then join ($".") (rev parts)
  else if mem_str (join ($".") (last_n 3 parts)) tlds then join ($".") (last_n 4 parts)
  else if mem_str (join ($".") (last_n 2 parts)) tlds then join ($".") (last_n 3 parts)
  else join ($".") (last_n 2 parts).
(** [check_mailfrom_matches_rcvd]; [None]: [IndexError].  oa/plugins/wlbl_eval.py:338-362. *)
Definition mailfrom_matches_rcvd (tlds : list str) (sender : str) (untrusted trusted : list relay) : option bool :=
  match sender with
  | [] => Some false
  | _ => match split_char 64%N sender with
         | _ :: host :: _ =>
             let domain := base_domain tlds host in
             Some (existsb (fun r => endswith domain (rl_rdns r)) (relays_looked_at untrusted trusted))
         | _ => None
         end
  end.

(** ** URI host lists, oa/plugins/wlbl_eval.py:132-191,441-462 *)
Definition append_to (k v : str) (d : dict (list str)) : dict (list str) :=
  dset k (match dget k d with Some l => l | None => [] end ++ [v]) d.
(** For oa/plugins/wlbl_eval.py:157-164. *)
Definition list_of (k : str) (d : dict (list str)) : list str := match dget k d with Some l => l | None => [] end.
(** [uri_host_list\[0\].strip("( ").rstrip(" )")].  oa/plugins/wlbl_eval.py:132-155. *)
Definition list_key (w : str) : str := rstrip_chars ($" )") (strip_chars ($"( ") w).
(** [parse_delist_uri]; [None]: [IndexError].  oa/plugins/wlbl_eval.py:132-191. *)
Fixpoint parse_delist (lines : list str) (d : dict (list str)) : option (dict (list str)) :=
  match lines with
  | [] => Some d
  | x :: rest =>
      if contains ($"(") x then
        match words x with
        | [] => None
        | k :: uris => parse_delist rest (fold_left (fun d u => append_to (list_key k) (strip_chars ($".") u) d) uris d)
        end
      else parse_delist rest (fold_left (fun d u => append_to ($"ALL") (strip_chars ($"!") u) d) (words x) d)
  end.
(** [add_in_dict] with [add_in_list]: the names enlisted and those excluded, per list.
    For oa/plugins/wlbl_eval.py:157-164. *)
Record enlisted := mkEn { in_list : dict (list str); not_in_list : dict (list str) }.
(** oa/plugins/wlbl_eval.py:157-164. *)
Definition add_in_dict (delist : dict (list str)) (items : list str) (key : str) (p : enlisted) : enlisted :=
  fold_left (fun p item =>
    if mem_str item (list_of key delist) || mem_str item (list_of ($"ALL") delist) then p
    else if startswith ($"!") item then mkEn (in_list p) (append_to key (strip_chars ($"!") item) (not_in_list p))
    else mkEn (append_to key item (in_list p)) (not_in_list p)) items p.
(** [parse_list_uri].  The names of the two options come from a set in the code: their
    order is not fixed, and only membership matters.  [None]: [IndexError].
    oa/plugins/wlbl_eval.py:132-191. *)
Fixpoint parse_enlist (delist : dict (list str)) (lines : list str) (p : enlisted) : option enlisted :=
  match lines with
  | [] => Some p
  | x :: rest => match words x with
                 | [] => None
                 | k :: uris => parse_enlist delist rest (add_in_dict delist uris (list_key k) p)
                 end
  end.
(** oa/plugins/wlbl_eval.py:132-191. *)
Definition uri_lists (enlist delist white black : list str) : option enlisted :=
  match parse_delist delist [] with
  | None => None
  | Some d =>
      option_map (fun p => add_in_dict d (concat (map words black)) ($"BLACK")
                             (add_in_dict d (concat (map words white)) ($"WHITE") p))
        (parse_enlist d enlist (mkEn [] []))
  end.
(** [check_uri_host_listed].  oa/plugins/wlbl_eval.py:441-462. *)
Definition uri_listed (p : enlisted) (list_name : str) (uris : list str) : bool :=
  existsb (fun u => negb (mem_str u (list_of list_name (not_in_list p))) &&
                    existsb (fun n => endswith n u) (list_of list_name (in_list p))) uris.
