(** Model of oa/plugins/spf.py.  Definitions only. *)
From Verif Require Import PyStr PyRe.

(** ** The expressions (oa/plugins/spf.py:13-23); letters and word characters are taken to be ASCII *)
(** [\b] between a character (if any) and the next *)
Definition word_at (s : str) : bool := match s with c :: _ => is_alnum c | [] => false end.
(** For oa/plugins/spf.py:13-17. *)
Definition boundary (before : bool) (after : str) : bool := negb (Bool.eqb before (word_at after)).
(** A literal, letters of any case.  For oa/plugins/spf.py:13-17. *)
Definition ci_prefix (p s : str) : bool := startswith (lower p) (lower s).
(** The first of the words at the front: what is matched and the rest.
    For oa/plugins/spf.py:13-17. *)
Fixpoint one_of (ws : list str) (s : str) : option (str * str) :=
  match ws with
  | [] => None
  | w :: rest => if ci_prefix w s then Some (firstn (length w) s, skipn (length w) s) else one_of rest s
  end.
(** For oa/plugins/spf.py:13-17. *)
Definition spf_words : list str :=
  [$"pass"; $"neutral"; $"softfail"; $"fail"; $"none"; $"permerror"; $"temperror"].
(** [(\S+?);?\b]: the group, shortest first.  For oa/plugins/spf.py:13-17. *)
Fixpoint lazy_token (acc : str) (s : str) : option str :=
  match s with
  | [] => None
  | c :: r =>
      if is_space c then None
      else let acc := acc ++ [c] in
           if (match r with d :: r' => N.eqb d 59 && boundary false r' | [] => false end) || boundary (is_alnum c) r
           then Some acc else lazy_token acc r
  end.
(** [.*\bidentity=(\S+?);?\b]: the last place that matches; [before]: the character before
    is a word character.  For oa/plugins/spf.py:13-17. *)
Fixpoint last_identity (before : bool) (s : str) : option str :=
  match s with
  | [] => None
  | c :: r => match last_identity (is_alnum c) r with
              | Some x => Some x
              | None => if boundary before s && ci_prefix ($"identity=") s then lazy_token [] (skipn 9 s) else None
              end
  end.
(** oa/plugins/spf.py:13-17 [RECEIVED_RE.match]: the result and the identity *)
Definition received_re (s : str) : option (str * option str) :=
  match one_of spf_words s with
  | Some (res, rest) => if boundary true rest then Some (res, last_identity true rest) else None
  | None => None
  end.

(** oa/plugins/spf.py:18 [AUTHRES_SPF.match]: group 1 of the last place *)
Fixpoint last_spf (s : str) : option str :=
  match s with
  | [] => None
  | c :: r => match last_spf r with
              | Some x => Some x
              | None => if N.eqb c 59 then
                          let s1 := drop_while is_space r in
                          if ci_prefix ($"spf") s1 then
                            match drop_while is_space (skipn 3 s1) with
                            | 61%N :: s2 => Some (take_while (fun d => negb (N.eqb d 59)) (drop_while is_space s2))
                            | _ => None
                            end
                          else None
                        else None
              end
  end.
(** For oa/plugins/spf.py:19-23. *)
Definition auth_words : list str :=
  [$"pass"; $"neutral"; $"hardfail"; $"softfail"; $"fail"; $"none"; $"permerror"; $"temperror"].
(** [(\S+)\s*=[^;]+], longest first.  The text has no ";".  For oa/plugins/spf.py:19-23. *)
Fixpoint longest_key (s : str) : option str :=
  match s with
  | [] => None
  | c :: r => if is_space c then None
              else match longest_key r with
                   | Some k => Some (c :: k)
                   | None => match drop_while is_space r with
                             | 61%N :: _ :: _ => Some [c]
                             | _ => None
                             end
                   end
  end.
(** [[^;]*?\bsmtp\.(\S+)\s*=[^;]+]: the first place that matches.
    For oa/plugins/spf.py:19-23. *)
Fixpoint first_smtp (before : bool) (s : str) : option str :=
  match s with
  | [] => None
  | c :: r => match (if boundary before s && ci_prefix ($"smtp.") s then longest_key (skipn 5 s) else None) with
              | Some k => Some k
              | None => first_smtp (is_alnum c) r
              end
  end.
(** oa/plugins/spf.py:19-23 [AUTHRES_RE.match] *)
Definition authres_re (s : str) : option (str * option str) :=
  match one_of auth_words s with
  | Some (res, rest) => Some (res, first_smtp (match rev res with c :: _ => is_alnum c | [] => false end) rest)
  | None => None
  end.

(** ** The plugin *)
(** The three flags and the names of the results that are set.  The flags belong to the
    plugin, the results to its class; none is ever reset.  For oa/plugins/spf.py:183-220. *)
Record spf_state := mkSpf { spf_check : bool; spf_check_helo : bool; no_valid_identity : bool; check_result : list str }.
(** oa/plugins/spf.py:183-220. *)
Definition fresh : spf_state := mkSpf false false false [].
(** What the plugin reads of a message.  [m_relay]: HELO name and address of the first
    external relay.  For oa/plugins/spf.py:247-265. *)
Record spf_msg := mkMsg { m_received_spf : list str; m_authres : option str; m_received : bool;
                          m_relay : option (str * str); m_sender : str }.
(** For oa/plugins/spf.py:183-220. *)
Definition set_result (k : str) (st : spf_state) : spf_state :=
  mkSpf (spf_check st) (spf_check_helo st) (no_valid_identity st) (k :: check_result st).
(** For oa/plugins/spf.py:183-220. *)
Definition mfrom_key (r : str) : str := $"check_spf_" ++ r.
(** For oa/plugins/spf.py:183-220. *)
Definition helo_key (r : str) : str := $"check_spf_helo_" ++ r.

(** oa/plugins/spf.py:183-220, one header *)
Definition read_received (st : spf_state) (h : str) : spf_state :=
  match received_re h with
  | None => st
  | Some (result, identity) =>
      let mfrom st := set_result (mfrom_key result) (mkSpf true (spf_check_helo st) true (check_result st)) in
      match identity with
      | None => if spf_check st then st else mfrom st
      | Some i =>
          if streqb (lower i) ($"none") then st
          else if mem_str (lower i) [$"mfrom"; $"mailfrom"] then (if spf_check st then st else mfrom st)
          else if streqb i ($"helo") then
            if spf_check_helo st then st
            else set_result (helo_key result) (mkSpf (spf_check st) true (no_valid_identity st) (check_result st))
          else st
      end
  end.
(** oa/plugins/spf.py:182-222 *)
Definition check_spf_received_header (headers : list str) (st : spf_state) : spf_state := fold_left read_received headers st.
(** oa/plugins/spf.py:224-245 *)
Definition check_authres_header (h : str) (st : spf_state) : spf_state :=
  match last_spf h with
  | None => st
  | Some t => match authres_re t with
              | None => st
              | Some (r, i) =>
                  let result := if streqb r ($"hardfail") then $"fail" else r in
                  let identity := match i with Some x => x | None => $"None" end in
                  if mem_str identity [$"mfrom"; $"mailfrom"; $"None"] then set_result (mfrom_key result) st
                  else set_result ($"check_spf_" ++ identity ++ $"_" ++ result) st
              end
  end.

Section Spf.
(** [spf.check2]: address, sender, HELO name *)
Variable query : str -> str -> str -> str.

(** oa/plugins/spf.py:247-265 *)
Definition received_headers (m : spf_msg) (sender : str) (st : spf_state) : spf_state :=
  match m_relay m with
  | None => st
  | Some (mx, ip) =>
      let r := query ip sender mx in
      let r := if streqb r ($"error") then $"temperror" else r in
      if spf_check_helo st then set_result (mfrom_key r) st
      else
        let st := mkSpf (spf_check st) true (no_valid_identity st) (check_result st) in
        if mem_char 46%N (take_while (fun c => negb (N.eqb c 10)) mx) then set_result (helo_key r) st else st
  end.
(** oa/plugins/spf.py:161-180.  [newest]: use_newest_received_spf_header *)
Definition check_spf_header (newest : bool) (m : spf_msg) (st : spf_state) : spf_state :=
  let headers := if newest then m_received_spf m else rev (m_received_spf m) in
  let st := match headers with
            | [] => match m_authres m with Some (c :: h) => check_authres_header (c :: h) st | _ => st end
            | _ => let st := check_spf_received_header headers st in
                   if no_valid_identity st then st else received_headers m [] st
            end in
  if m_received m then
    let st := match headers with [] => received_headers m [] st | _ => st end in
    match m_sender m with
    | [] => st
    | s => if spf_check_helo st then received_headers m s st else received_headers m [] st
    end
  else st.
(** oa/plugins/spf.py:76-88.  [ignore]: ignore_received_spf_header *)
Definition parsed_metadata (ignore newest : bool) (st : spf_state) (m : spf_msg) : spf_state :=
  if ignore then
    if m_received m then
      let st := received_headers m [] st in
      match m_sender m with [] => st | s => received_headers m s st end
    else st
  else check_spf_header newest m st.
End Spf.

(** oa/plugins/spf.py:90-130: the check for one result *)
Definition check_for_spf (r : str) (st : spf_state) : bool := mem_str (mfrom_key r) (check_result st).
(** oa/plugins/spf.py:90-130. *)
Definition check_for_spf_helo (r : str) (st : spf_state) : bool := mem_str (helo_key r) (check_result st).

(** oa/plugins/spf.py:148-159 [parse_list].  [escaped]: see [PyRe.escape] *)
Definition parse_list (escaped : char -> bool) (entries : list str) : list str :=
  map (fun addr => let address := replace ($"\?") ($".?") (replace ($"\*") ($".*") (escape escaped addr)) in
                   if contains ($"@") address then address else $".*@" ++ address)
    (filter (fun addr => existsb (fun e => contains e addr) [$"?"; $"@"; $"."; $"*@"]) entries).
(** [re.match(pattern, s)]; [None]: not in the fragment.  For oa/plugins/spf.py:138-146. *)
Definition re_match_text (pattern s : str) : option bool := option_map (fun l => re_match l s) (re_compile pattern).
(** oa/plugins/spf.py:138-146 [check_spf_whitelist] *)
Fixpoint any_match (regexes : list str) (s : str) : option bool :=
  match regexes with
  | [] => Some false
  | r :: rest => match re_match_text r s with
                 | None => None
                 | Some true => Some true
                 | Some false => any_match rest s
                 end
  end.
(** oa/plugins/spf.py:138-146. *)
Definition check_spf_whitelist (escaped : char -> bool) (entries : list str) (sender : str) (st : spf_state) : option bool :=
  match entries with
  | [] => any_match (parse_list escaped entries) sender
  | _ => if check_for_spf ($"pass") st then any_match (parse_list escaped entries) sender else Some false
  end.
