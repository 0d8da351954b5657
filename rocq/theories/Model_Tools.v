(** Model of oa/plugins/base.py (the database settings), oa/plugins/relay_country.py,
    oa/plugins/textcat.py, the identifier and the date of a message (oa/message.py:549-595)
    and the loop of scripts/match.py.  The geographical databases, the language detector,
    SHA-1 and the parser of dates are functions that the theorems range over.
    Definitions only. *)
From Coq Require Import QArith.
From Verif Require Import PyStr PyDict.
From Verif Require Model_Headers Model_Relays.
Open Scope nat_scope.

(** ** Database settings, oa/plugins/base.py *)
(** What [finish_parsing_end] leaves as engine (oa/plugins/base.py:109-133) *)
Inductive engine :=
| NoEngine
| Connect (url : str)                              (** [create_engine(url)] *)
| Direct (host db : str) (cred : option (str * str))   (** the dictionary of [dbi_to_mysql] *)
.
(** For oa/plugins/base.py:21-34. *)
Definition nonempty (s : str) : bool := match s with [] => false | _ => true end.
(** [a, b, c = dsn.split(":", 2)]; [None]: [ValueError].  For oa/plugins/base.py:21-34. *)
Definition dsn_parts (dsn : str) : option (str * str) :=
  match split1 58%N dsn with
  | Some (_, r) => split1 58%N r
  | None => None
  end.
(** oa/plugins/base.py:21-34; [None]: an exception.  [Some None] is Python's [None]. *)
Definition dbi_to_mysql (dsn user password : str) : option (option engine) :=
  match dsn_parts dsn with
  | None => None
  | Some (driver, connection) =>
      if streqb (lower driver) ($"mysql") then
        match split1 58%N connection with
        | None => None
        | Some (db_name, hostname) =>
            Some (Some (Direct hostname db_name
              (if negb (nonempty user) || negb (nonempty password) then None else Some (user, password))))
        end
      else Some None
  end.
(** [dict(item.split("=") for item in connection.split(";"))].
    For oa/plugins/base.py:36-58. *)
Fixpoint dict_of (items : list str) (d : dict str) : option (dict str) :=
  match items with
  | [] => Some d
  | i :: r => match split_char 61%N i with [k; v] => dict_of r (dset k v d) | _ => None end
  end.
(** For oa/plugins/base.py:36-58. *)
Definition values (connection : str) : option (dict str) := dict_of (split_char 59%N connection) [].
(** oa/message.py:85-86. *)
Definition get (k : str) (d : dict str) (default : str) : str := match dget k d with Some v => v | None => default end.
(** oa/plugins/base.py:56-58 *)
Definition url (driver user password hostname db_name : str) : str :=
  if negb (nonempty user) || negb (nonempty password) then driver ++ $"://" ++ hostname ++ $"/" ++ db_name
  else driver ++ $"://" ++ user ++ $":" ++ password ++ $"@" ++ hostname ++ $"/" ++ db_name.
(** oa/plugins/base.py:36-58 *)
Definition dbi_to_alchemy (dsn user password : str) : option str :=
  match dsn_parts dsn with
  | None => None
  | Some (driver, connection) =>
      let is n := streqb (lower driver) (of_string n) in
      if is "mysql"%string then
        match split1 58%N connection with
        | None => None
        | Some (db_name, hostname) => Some (url ($"mysql+pymysql") user password hostname db_name)
        end
      else if is "pg"%string then
        match values connection with
        | None => None
        | Some v =>
            let host := get ($"host") v ($"localhost") in
            let hostname := match dget ($"port") v with Some p => host ++ $":" ++ p | None => host end in
            Some (url ($"postgresql") user password hostname (get ($"dbname") v ($"spamassassin")))
        end
      else if is "sqlite"%string then
        match values connection with
        | None => None
        | Some v => match dget ($"dbname") v with Some db => Some (url ($"sqlite") [] [] [] db) | None => None end
        end
      else Some []
  end.
(** oa/plugins/base.py:117-133.  [alchemy]: whether SQLAlchemy is installed; without it [create_engine] is [None],
    and calling it raises. *)
Definition finish_parsing_end (alchemy : bool) (dsn user password : str) : option engine :=
  if nonempty dsn then
    if startswith ($"DBI") (upper dsn) then
      if alchemy then option_map Connect (dbi_to_alchemy dsn user password)
      else match dbi_to_mysql dsn user password with
           | None => None
           | Some (Some e) => Some e
           | Some None => Some NoEngine
           end
    else if alchemy then Some (Connect dsn) else None
  else Some NoEngine.

(** ** oa/plugins/relay_country.py *)
Section Country.
Variable addr : Type.
Variable ip_address : str -> option addr.      (** [ipaddress.ip_address]; [None]: [ValueError] *)
Variable is_private is_v4 : addr -> bool.
(** A loaded database: [country_code_by_addr], [[]] when it knows nothing (also for [None]).
    Other errors of the library are not modelled. *)
Variable db4 db6 : option (addr -> str).
(** oa/plugins/relay_country.py:55-74 *)
Definition get_country (a : addr) : str :=
  if is_private a then $"**"
  else match (if is_v4 a then db4 else db6) with
       | None => $"XX"
       | Some code => match code a with [] => $"XX" | c => c end
       end.
(** oa/message.py:249-253 *)
Fixpoint header_ips (ips : list str) : option (list addr) :=
  match ips with
  | [] => Some []
  | i :: r => match ip_address i, header_ips r with Some a, Some l => Some (a :: l) | _, _ => None end
  end.
(** oa/plugins/relay_country.py:76-90; the addresses of the relays, the headers of the message; result: the headers and
    the tag RELAYCOUNTRY.  [None]: an exception, which ends the loading of the message. *)
Definition country_metadata (ips : list str) (m : Model_Headers.hmsg) : option (Model_Headers.hmsg * option str) :=
  match header_ips ips with
  | None => None
  | Some [] => Some (m, None)
  | Some l => let result := join ($" ") (map get_country l) in
              Some (Model_Headers.plugin_add ($"X-Relay-Countries") result m, Some result)
  end.
(** oa/message.py:228-237 in lazy mode (98-122), which is the default (oa/config.py:32):
    nothing is remembered *)
Definition lazy_decoded (decode : str -> option str) (k : str) (m : Model_Headers.hmsg) : list (option str) :=
  map decode (Model_Headers.h_get k (Model_Headers.h_raw m)) ++ Model_Headers.h_get k (Model_Headers.h_cache m).
End Country.

(** ** oa/plugins/textcat.py *)
(** [ok_languages]: the words of the setting, or the text "all" when it is not set (39).
    For oa/plugins/textcat.py:46-48. *)
Inductive languages := Default | Set_ (l : list str).
(** oa/plugins/textcat.py:46-48: the setting is split at blanks *)
Definition set_ok_languages (value : str) : languages := Set_ (words value).
(** For oa/plugins/textcat.py:50-75. *)
Definition in_languages (x : str) (l : languages) : bool :=
  match l with Default => contains x ($"all") | Set_ l => mem_str x l end.
(** oa/plugins/textcat.py:50-75: the answer and the tag LANGUAGES.  [results]: the languages found, with their
    probabilities.  Not modelled: the detector raises on a text without letters. *)
Definition check_language (results : list (str * Q)) (prob : Q) (max_languages : Z) (ok : languages) : bool * option str :=
  let langs := map fst (filter (fun r => negb (Qle_bool (snd r) prob)) results) in
  if (max_languages <? Z.of_nat (length langs))%Z then (false, None)
  else if in_languages ($"all") ok then (false, Some (join ($" ") langs))
  else (existsb (fun l => negb (in_languages l ok)) langs, Some (join ($" ") langs)).

(** ** oa/message.py:549-581 [msgid] *)
(** [^\s*<\s*(?:\@sa_generated)?>.*$], without DOTALL: "." is not a line feed and "$" is the
    end or before a last line feed *)
Definition end_of_line (s : str) : bool :=
  match drop_while (fun c => negb (N.eqb c 10)) s with [] => true | [_] => true | _ => false end.
(** For oa/message.py:549-581. *)
Definition empty_id (s : str) : bool :=
  match drop_while is_space s with
  | [] => false
  | c :: r =>
      N.eqb c 60 &&
      match drop_while is_space r with
      | [] => false
      | d :: r' => if N.eqb d 62 then end_of_line r'
                   else startswith ($"@sa_generated>") (d :: r') && end_of_line (skipn 13 r')
      end
  end.
(** For oa/message.py:567-575. *)
Definition limit : N := 64.
(** For oa/message.py:567-575. *)
Definition long : N := 2048.
(** For oa/message.py:567-575. *)
Definition keep_long : N := 1024.
(** oa/message.py:567-575 *)
Definition id_body (body : str) : str :=
  let n := N.of_nat (length body) in
  let kept := if N.ltb limit n then firstn (N.to_nat (if N.ltb long n then keep_long else n / 2)) body else body in
  replace [13%N] [] (replace [10%N] [] kept).
(** [message_id], [date]: the two headers; [text]: [as_string()].  [None]: [IndexError].
    oa/message.py:549-581. *)
Definition msgid (sha1 : str -> str) (message_id date : option str) (text : str) : option str :=
  let generated :=
    match split1_sub [10%N; 10%N] text with
    | None => None
    | Some (_, body) =>
        let d := match date with Some (c :: r) => c :: r | _ => $"None" end in
        Some (sha1 (d ++ [0%N] ++ id_body body) ++ $"@sa_generated")
    end in
  match message_id with
  | Some (c :: r) => if empty_id (c :: r) then generated
                     else Some (strip_chars [62%N] (strip_chars [60%N] (strip (c :: r))))
  | _ => generated
  end.

(** [Message(raw).msgid]: the line breaks are translated (140), then the [email] package parses
    ([parse]: the two headers and [as_string()]).  oa/message.py:549-581. *)
Definition message_msgid (sha1 : str -> str) (parse : str -> option str * option str * str) (raw : str) : option str :=
  let p := parse (Model_Headers.translate_line_breaks raw) in msgid sha1 (fst (fst p)) (snd (fst p)) (snd p).

(** oa/message.py:583-595 [receive_date]; [parse]: [parsedate] and [timegm], which raise ([None]) for
    something that is not a date *)
Fixpoint receive_date (parse : str -> option Z) (now : Z) (received : list str) : option Z :=
  match received with
  | [] => Some now
  | h :: r => match rsplit1 59%N h with
              | Some (_, ts) => parse ts
              | None => receive_date parse now r
              end
  end.

(** ** scripts/match.py:151-177, the loop over the messages *)
Inductive mode := Revoke | Report | ReportOnly | Normal (test_mode : bool).
(** For scripts/match.py:160-173. *)
Inductive event := Revoked (m : str) | Reported (m : str) | Matched (m : str)
  | PrintReport (m : str) | PrintMessage (m : str) | PrintCount (n : nat).
(** scripts/match.py:160-173 *)
Definition handle (o : mode) (m : str) : list event :=
  match o with
  | Revoke => [Revoked m]
  | Report => [Reported m]
  | ReportOnly => [Matched m; PrintReport m]
  | Normal t => [Matched m; PrintMessage m] ++ (if t then [PrintReport m] else [])
  end.
(** scripts/match.py:108-112: [--report] and [--revoke] exclude each other; 160-173 gives the others an order *)
Definition mode_of (revoke report report_only test_mode : bool) : mode :=
  if revoke then Revoke else if report then Report else if report_only then ReportOnly else Normal test_mode.
(** scripts/match.py:151-177: every argument is a list of messages (a directory or one file); [count] grows
    once for each argument (174) *)
Definition run (o : mode) (arguments : list (list str)) : list event :=
  concat (map (fun ms => concat (map (handle o) ms)) arguments) ++
  match o with Revoke | Report => [PrintCount (length arguments)] | _ => [] end.
