(** Model of oa/server.py and oa/protocol/*.py.  Definitions only. *)
From Verif Require Import PyStr PyDict PyUtf8 Model_Rules Model_Net.

(** The exceptions that are told apart: [UnicodeError], [ValueError],
    [oa.errors.InvalidOption], [KeyError], [TypeError], any other.
    For oa/protocol/base.py:32-46. *)
Inductive exn := EUnicode | EValue | EInvalid (text : str) | EKey | EType | EOther.
(** For oa/protocol/base.py:32-46. *)
Inductive res (A : Type) := Ok (a : A) | Err (e : exn).
Arguments Ok {A}. Arguments Err {A}.

(** ** Reading from the client.  The stream is the list of bytes still to come
    before the client closes its side. *)
(** [rfile.readline()].  For oa/protocol/base.py:32-46. *)
Fixpoint readline (s : list N) : list N * list N :=
  match s with
  | [] => ([], [])
  | c :: r => if N.eqb c 10 then ([c], r) else let (l, t) := readline r in (c :: l, t)
  end.
(** [rfile.readline().decode("utf8").strip()].  For oa/protocol/base.py:32-46. *)
Definition read_text_line (s : list N) : res str * list N :=
  let (l, t) := readline s in
  (match decode l with Some x => Ok (strip x) | None => Err EUnicode end, t).

(** For oa/protocol/base.py:32-46. *)
Definition bad_option : str := $"header not in 'Name: value' format".
(** For oa/protocol/base.py:56-64. *)
Definition bad_length : str := $"Content-Length contains non-numeric bytes".

(** oa/protocol/base.py:32-46 [get_options].  [fuel]: more than the number of
    bytes in the stream (every round reads one, or stops). *)
Fixpoint get_options (fuel : nat) (s : list N) (options : dict str) : res (dict str * list N) :=
  match fuel with
  | 0 => Err EOther
  | S fuel' =>
      let (line, t) := read_text_line s in
      match line with
      | Err e => Err e
      | Ok [] => Ok (options, t)
      | Ok text =>
          match split1 58 text with
          | None => Err (EInvalid bad_option)
          | Some (name, value) => get_options fuel' t (dset (lower name) (strip value) options)
          end
      end
  end.

(** oa/protocol/base.py:17 *)
Definition chunk_size : N := 8192.

(** oa/protocol/base.py:56-64: the announced length. *)
Definition content_length (options : dict str) : res (option N) :=
  match dget ($"content-length") options with
  | None => Ok None
  | Some t => match py_int t with
              | None => Err (EInvalid bad_length)
              | Some z => if Z.ltb z 0 then Err (EInvalid bad_length) else Ok (Some (Z.to_N z))
              end
  end.

(** oa/protocol/base.py:65-72: the read loop.  [give n s]: how many bytes
    [rfile.read(n)] returns when [s] is still to come; a buffered file returns all
    [n], an unbuffered one what has arrived. *)
Fixpoint read_loop (give : N -> list N -> N) (fuel : nat) (want : option N) (s : list N) (chunks : list str) : res (list str) :=
  match fuel with
  | 0 => Err EOther
  | S fuel' =>
      match want with
      | Some 0%N => Ok chunks
      | _ =>
          let n := match want with Some w => N.min w chunk_size | None => chunk_size end in
          let k := N.to_nat (give n s) in
          match firstn k s with
          | [] => Ok chunks
          | chunk =>
              match decode chunk with
              | None => Err EUnicode
              | Some t => read_loop give fuel' (match want with Some w => Some (w - N.of_nat (length chunk))%N | None => None end)
                            (skipn k s) (chunks ++ [t])
              end
          end
      end
  end.

(** oa/protocol/base.py:48-75 [get_message].  [zlib.decompress] is called with a
    [str], a [TypeError] on Python 3. *)
Definition get_message (give : N -> list N -> N) (options : dict str) (s : list N) : res str :=
  match content_length options with
  | Err e => Err e
  | Ok want =>
      match read_loop give (S (length s)) want s [] with
      | Err e => Err e
      | Ok chunks =>
          match dget ($"compress") options with
          | Some v => if streqb v ($"zlib") then Err EType else Ok (concat chunks)
          | None => Ok (concat chunks)
          end
      end
  end.

(** ** What the server uses of the rest of the program.  [R]: rule sets, [M]:
    parsed messages, [A]: messages after [match], [P]: parser results, [F]:
    contents of a preference file.  oa/server.py:56-113. *)
Record engine (R M A P F : Type) := mkEngine {
  e_version : str;
  e_load : R -> str -> res M;                  (** [oa.message.Message(ctxt, text)] *)
  e_match : R -> M -> res A;                   (** [ruleset.match(msg)] *)
  e_score : A -> Q;                            (** [msg.score] *)
  e_required : R -> Q;                         (** [conf["required_score"]] *)
  e_show : R -> str;                           (** ["%s"] of it *)
  e_fmt1 : Q -> str;                           (** ["%.1f"] *)
  e_hits : A -> list str;                      (** names in [msg.rules_checked] with a true result *)
  e_report : R -> A -> res str;                (** [ruleset.get_report(msg)] *)
  e_adjusted : R -> A -> bool -> res str;      (** [ruleset.get_adjusted_message(msg, header_only)] *)
  e_hook_report : R -> M -> bool -> bool -> bool -> res unit;  (** [ctxt.hook_report(msg, spam, local, remote)] *)
  e_hook_revoke : R -> M -> bool -> bool -> bool -> res unit;
  e_allow : R -> bool;                         (** [conf["allow_user_rules"]] *)
  e_build_user : R -> P -> str -> F -> res R   (** oa/server.py:100-109: [PADParser] with the site's
                                                   parser results, then the preference file *)
}.
Arguments mkEngine {R M A P F}.
Arguments e_version {R M A P F}. Arguments e_load {R M A P F}. Arguments e_match {R M A P F}.
Arguments e_score {R M A P F}. Arguments e_required {R M A P F}. Arguments e_show {R M A P F}.
Arguments e_fmt1 {R M A P F}. Arguments e_hits {R M A P F}. Arguments e_report {R M A P F}.
Arguments e_adjusted {R M A P F}. Arguments e_hook_report {R M A P F}. Arguments e_hook_revoke {R M A P F}.
Arguments e_allow {R M A P F}. Arguments e_build_user {R M A P F}.

Section Server.
Context {R M A P F : Type}.
Variable E : engine R M A P F.

(** oa/server.py:59-66 *)
Record server := mkServer { sv_ruleset : R; sv_results : P; sv_users : dict R }.

(** oa/server.py:71-81 [load_config], given what parsing the files produced. *)
Definition load_config (ruleset : R) (results : P) (sv : server) : server := mkServer ruleset results [].

(** oa/server.py:83-113 [get_user_ruleset].  [prefs user]: the contents of the
    user's preference file, [None] if there is none. *)
Definition get_user_ruleset (prefs : str -> option F) (user : option str) (sv : server) : server * res R :=
  match user with
  | None => (sv, Ok (sv_ruleset sv))
  | Some u =>
      if e_allow E (sv_ruleset sv) then
        match dget u (sv_users sv) with
        | Some r => (sv, Ok r)
        | None =>
            match prefs u with
            | None => (sv, Ok (sv_ruleset sv))
            | Some f =>
                match e_build_user E (sv_ruleset sv) (sv_results sv) u f with
                | Err e => (sv, Err e)
                | Ok r => (mkServer (sv_ruleset sv) (sv_results sv) (dset u r (sv_users sv)), Ok r)
                end
            end
        end
      else (sv, Ok (sv_ruleset sv))
  end.

(** ** Replies: the text written, the effects on other parts of the program in
    order, and how the handler ended.  For oa/protocol/check.py:14-24. *)
Inductive event :=
| Matched (r : R) (m : M)
| Reported (r : R) (m : M) (spam local remote : bool)
| Revoked (r : R) (m : M) (spam local remote : bool).
(** For oa/protocol/check.py:14-24. *)
Record reply := mkReply { rp_text : list str; rp_events : list event; rp_end : res unit }.
(** For oa/protocol/check.py:14-24. *)
Definition silent : reply := mkReply [] [] (Ok tt).
(** For oa/protocol/check.py:14-24. *)
Definition failed (e : exn) : reply := mkReply [] [] (Err e).
(** For oa/protocol/check.py:14-24. *)
Definition say (t : str) (r : reply) : reply := mkReply (t :: rp_text r) (rp_events r) (rp_end r).
(** For oa/protocol/check.py:14-24. *)
Definition doing (v : event) (r : reply) : reply := mkReply (rp_text r) (v :: rp_events r) (rp_end r).
(** Run the second part if the first one did not raise.  For oa/protocol/tell.py:15-31. *)
Definition andthen (a b : reply) : reply :=
  match rp_end a with
  | Err e => a
  | Ok _ => mkReply (rp_text a ++ rp_text b) (rp_events a ++ rp_events b) (rp_end b)
  end.

(** For oa/server.py:22-32. *)
Inductive command := CTell | CPing | CSkip | CCheck | CSymbols | CReport | CReportIfSpam | CProcess | CHeaders.

(** oa/server.py:22-32 [COMMANDS] *)
Definition commands : dict command :=
  [ ($"TELL", CTell); ($"PING", CPing); ($"SKIP", CSkip); ($"CHECK", CCheck); ($"SYMBOLS", CSymbols);
    ($"REPORT", CReport); ($"REPORT_IFSPAM", CReportIfSpam); ($"PROCESS", CProcess); ($"HEADERS", CHeaders) ].

(** [msg.score >= required_score], oa/protocol/check.py:16 *)
Definition is_spam (r : R) (a : A) : bool := Qle_bool (e_required E r) (e_score E a).
(** For oa/protocol/check.py:26-28,37-42,52-56,66-74. *)
Definition score_lt (r : R) (a : A) : bool := negb (Qle_bool (e_required E r) (e_score E a)).

(** [extra_details]: oa/protocol/check.py:26-28,37-42,52-56,66-74,
    oa/protocol/process.py:16-19,27-30.  The pieces are joined by [handle]. *)
Definition extra_details (c : command) (r : R) (a : A) : res str :=
  match c with
  | CSymbols => Ok (join ($",") (e_hits E a))
  | CReport => e_report E r a
  | CReportIfSpam => if score_lt r a then Ok [] else e_report E r a
  | CProcess => e_adjusted E r a false
  | CHeaders => e_adjusted E r a true
  | _ => Ok []
  end.

(** For oa/protocol/check.py:14-24. *)
Definition spam_line (r : R) (a : A) : str :=
  $"Spam: " ++ (if is_spam r a then $"True" else $"False") ++ $" ; " ++ e_fmt1 E (e_score E a) ++ $" / " ++ e_show E r ++ crlf.

(** oa/protocol/check.py:14-24 [CheckCommand.handle] *)
Definition check_handle (c : command) (r : R) (m : M) : reply :=
  match e_match E r m with
  | Err e => failed e
  | Ok a =>
      doing (Matched r m)
        (say (spam_line r a)
          match extra_details c r a with
          | Err e => failed e
          | Ok result =>
              say ($"Content-length: " ++ dec (N.of_nat (length result)) ++ crlf ++ crlf)
                (say result silent)
          end)
  end.

(** [options.get(key).split(",")], then the two tests.  For oa/protocol/tell.py:15-31. *)
Definition targets (v : str) : bool * bool :=
  let ts := split_char 44 v in (mem_str ($"local") ts, mem_str ($"remote") ts).

(** oa/protocol/tell.py:15-31 [TellCommand.handle]; the lines are written after
    all hooks have run. *)
Definition tell_handle (options : dict str) (r : R) (m : M) : reply :=
  let spam := streqb (lower (match dget ($"message-class") options with Some c => c | None => $"spam" end)) ($"spam") in
  let act (key : str) (hook : R -> M -> bool -> bool -> bool -> res unit) (ev : bool -> bool -> event) :=
    match dget key options with
    | None => silent
    | Some v => let (local, remote) := targets v in
                match hook r m spam local remote with
                | Err e => mkReply [] [ev local remote] (Err e)
                | Ok _ => mkReply [] [ev local remote] (Ok tt)
                end
    end in
  andthen (act ($"set") (e_hook_report E) (Reported r m spam))
    (andthen (act ($"remove") (e_hook_revoke E) (Revoked r m spam))
      (mkReply
        ((match dget ($"set") options with Some v => [$"DidSet: " ++ v ++ crlf] | None => [] end) ++
         (match dget ($"remove") options with Some v => [$"DidRemove: " ++ v ++ crlf] | None => [] end))
        [] (Ok tt))).

(** For oa/protocol/base.py:77-99. *)
Definition has_options (c : command) : bool := match c with CPing | CSkip => false | _ => true end.
(** For oa/protocol/base.py:77-99. *)
Definition has_message (c : command) : bool := match c with CPing | CSkip => false | _ => true end.
(** For oa/server.py:37-49. *)
Definition ok_code (c : command) : str := match c with CPing => $"PONG" | _ => $"EX_OK" end.

(** For oa/server.py:37-49. *)
Definition error_line (text : str) : str := $"SPAMD/" ++ e_version E ++ $" 76 Bad header line: " ++ text ++ crlf.
(** For oa/server.py:37-49. *)
Definition ok_line (c : command) : str := $"SPAMD/" ++ e_version E ++ $" 0 " ++ ok_code c ++ crlf.

(** oa/protocol/base.py:77-99 [get_and_handle] *)
Definition receive (give : N -> list N -> N) (prefs : str -> option F) (c : command) (s : list N) (sv : server)
  : server * res (R * option M * dict str) :=
  match (if has_options c then get_options (S (length s)) s [] else Ok ([], s)) with
  | Err e => (sv, Err e)
  | Ok (options, t) =>
      let (sv', ruleset) := get_user_ruleset prefs (dget ($"user") options) sv in
      match ruleset with
      | Err e => (sv', Err e)
      | Ok r =>
          if has_message c then
            match get_message give options t with
            | Err e => (sv', Err e)
            | Ok text => match e_load E r text with
                         | Err e => (sv', Err e)
                         | Ok m => (sv', Ok (r, Some m, options))
                         end
            end
          else (sv', Ok (r, None, options))
      end
  end.
(** For oa/server.py:37-49. *)
Definition get_and_handle (give : N -> list N -> N) (prefs : str -> option F) (c : command) (s : list N) (sv : server)
  : server * reply :=
  match c with
  | CSkip => (sv, silent)                      (* oa/protocol/noop.py:22-23 *)
  | _ =>
      match receive give prefs c s sv with
      | (sv', Err (EInvalid text)) => (sv', say (error_line ($"(" ++ text ++ $")")) silent)
      | (sv', Err e) => (sv', failed e)
      | (sv', Ok (r, m, options)) =>
          (sv', say (ok_line c)
                  match m with
                  | None => silent              (* oa/protocol/noop.py:12-13 *)
                  | Some m => match c with
                              | CTell => tell_handle options r m
                              | _ => check_handle c r m
                              end
                  end)
      end
  end.

(** oa/server.py:37-49 [RequestHandler.handle] *)
Definition handle (give : N -> list N -> N) (prefs : str -> option F) (s : list N) (sv : server) : server * reply :=
  let (line, t) := read_text_line s in
  match line with
  | Err e => (sv, failed e)
  | Ok line =>
      match words line with
      | [command; _] =>
          match dget (upper command) commands with
          | None => (sv, say (error_line line) silent)
          | Some c =>
              let (sv', r) := get_and_handle give prefs c t sv in
              match rp_end r with
              | Err EKey => (sv', mkReply (rp_text r ++ [error_line line]) (rp_events r) (Ok tt))
              | _ => (sv', r)
              end
          end
      | _ => (sv, failed EValue)
      end
  end.

(** What goes over the wire: every piece is encoded on its own; [None]: a piece
    cannot be encoded.  oa/server.py:37-49. *)
Fixpoint wire (pieces : list str) : option (list N) :=
  match pieces with
  | [] => Some []
  | p :: r => match encode p, wire r with Some a, Some b => Some (a ++ b) | _, _ => None end
  end.

(** A history of the server: reloads, and requests with the preference files and
    transport of their time.  oa/server.py:56-113. *)
Inductive sv_event :=
| Reload (ruleset : R) (results : P)
| Request (give : N -> list N -> N) (prefs : str -> option F) (bytes : list N).
(** oa/server.py:56-113. *)
Definition sv_step (sv : server) (e : sv_event) : server :=
  match e with
  | Reload r p => load_config r p sv
  | Request give prefs s => fst (handle give prefs s sv)
  end.
(** oa/server.py:56-113. *)
Definition sv_run (es : list sv_event) (sv : server) : server := fold_left sv_step es sv.
End Server.
