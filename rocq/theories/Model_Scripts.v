(** Model of scripts/match.py, scripts/compile.py, scripts/oad.py, oa/common.py and of
    [setup_logging] in oa/config.py.  Definitions only. *)
From Coq Require Import ZArith.
From Verif Require Import PyStr PyUtf8 Model_Rules Model_Tools.
Open Scope nat_scope.

(** ** oa/common.py:7-21 [can_compile].  [implementation] is [platform.python_implementation()],
    the numbers are the texts of [platform.python_version_tuple()].  [None]: [int] raises
    [ValueError].  Conditions are evaluated from the left, and only as far as needed. *)
Definition can_compile (implementation major minor patch : str) : option bool :=
  if contains ($"pypy") (lower implementation) then Some false
  else
    match py_int major with
    | None => None
    | Some M =>
        if Z.leb 3 M then
          match py_int minor with
          | None => None
          | Some m => Some (negb (Z.ltb m 5))
          end
        else
          match py_int minor with
          | None => None
          | Some m =>
              if Z.ltb m 7 then Some false
              else match py_int patch with
                   | None => None
                   | Some p => Some (negb (Z.ltb p 11))
                   end
          end
    end.

(** ** Reading messages *)
(** [open(path)] and [read()] in text mode: UTF-8, strict, and every line break is read as a
    line feed.  Simplification: the locale's encoding is UTF-8.
    For scripts/match.py:26-34. *)
Fixpoint universal_newlines (s : str) : str :=
  match s with
  | [] => []
  | c :: r =>
      if N.eqb c 13 then
        match r with
        | d :: r' => if N.eqb d 10 then 10%N :: universal_newlines r' else 10%N :: universal_newlines r
        | [] => [10%N]
        end
      else c :: universal_newlines r
  end.
(** For scripts/match.py:26-34. *)
Definition read_text (bytes : list N) : option str := option_map universal_newlines (decode bytes).

(** [bytes.decode("utf-8", "ignore")]: what is not the code of a character is left out.  (The
    codec leaves out several bytes at once where it can; the bytes that continue a broken
    code are not codes of their own either, so it makes no difference.).
    For scripts/match.py:100-103. *)
Definition first_char (bs : list N) : option (char * nat) :=
  let try n := match decode (firstn n bs) with Some [c] => Some (c, n) | _ => None end in
  match try 1 with
  | Some r => Some r
  | None => match try 2 with
            | Some r => Some r
            | None => match try 3 with Some r => Some r | None => try 4 end
            end
  end.
(** For scripts/match.py:100-103. *)
Fixpoint decode_from (skip : nat) (bs : list N) : str :=
  match bs with
  | [] => []
  | _ :: r => match skip with
              | S k => decode_from k r
              | O => match first_char bs with
                     | Some (c, n) => c :: decode_from (n - 1) r
                     | None => decode_from 0 r
                     end
              end
  end.
(** For scripts/match.py:100-103. *)
Definition decode_ignore (bs : list N) : str := decode_from 0 bs.

Section Files.
(** The file system: [os.path.isdir]; [os.listdir] ([None]: it raises), as paths; the bytes
    of a file ([None]: it cannot be opened - it is missing, unreadable or a directory). *)
Variable isdir : str -> bool.
Variable listdir : str -> option (list str).
Variable content : str -> option (list N).
(** The bytes on standard input. *)
Variable stdin : list N.

(** scripts/match.py:26-34 [MessageList.__call__] (a generator: nothing is opened before it
    is needed) and 154-159 [msgf.read()].  The texts of an argument; [None]: an exception at
    this place.  "-" is standard input in text mode ([argparse.FileType]); simplification: it
    is given once at most (it is closed after it is read). *)
Definition file_text (path : str) : option str :=
  if streqb path ($"-") then read_text stdin
  else match content path with Some b => read_text b | None => None end.
(** For scripts/match.py:100-103. *)
Definition argument (path : str) : list (option str) :=
  if isdir path then
    match listdir path with
    | None => [None]
    | Some paths => map file_text paths
    end
  else [file_text path].
(** scripts/match.py:100-103: without arguments, the binary standard input, 157-158. *)
Definition arguments (paths : list str) : list (list (option str)) :=
  match paths with
  | [] => [[Some (decode_ignore stdin)]]
  | _ => map argument paths
  end.
End Files.

(** scripts/match.py:153-176.  [loads m]: the constructor of [Message] does not raise, so that
    the message is handled.  The boolean: the loop ends without an exception. *)
Section Loop.
Variable loads : str -> bool.
(** For scripts/match.py:108-177. *)
Fixpoint one_argument (o : mode) (texts : list (option str)) : list event * bool :=
  match texts with
  | [] => ([], true)
  | None :: _ => ([], false)
  | Some m :: r =>
      if loads m then let (e, ok) := one_argument o r in (handle o m ++ e, ok)
      else ([], false)
  end.
(** For scripts/match.py:108-177. *)
Fixpoint all_arguments (o : mode) (count : nat) (args : list (list (option str))) : list event * bool :=
  match args with
  | [] => (match o with Revoke | Report => [PrintCount count] | _ => [] end, true)
  | a :: r =>
      let (e, ok) := one_argument o a in
      if ok then let (e', ok') := all_arguments o (S count) r in (e ++ e', ok')
      else (e, false)
  end.
End Loop.

(** ** scripts/match.py:115-148 [main], before the loop *)
(** What reading the configuration produces (oa/rules/parser.py), and what the file with the
    serialized rule set holds. *)
Inductive parsed (R : Type) := Parsed (r : R) | ParsingError | OtherError.
(** For scripts/match.py:115-148. *)
Inductive stored (R : Type) := Missing | Empty | Corrupt | Holds (r : R).
Arguments Parsed {R}. Arguments ParsingError {R}. Arguments OtherError {R}.
Arguments Missing {R}. Arguments Empty {R}. Arguments Corrupt {R}. Arguments Holds {R}.
(** How a program ends.  An exception that is not caught ends Python with status 1 after
    printing a traceback.  scripts/match.py:115-177. *)
Inductive ending := Ended | Exits (logged : bool) | Traceback.
(** scripts/match.py:115-177. *)
Definition status (e : ending) : nat := match e with Ended => 0 | _ => 1 end.

Section Main.
Variable R : Type.
Variable parse : list str -> bool -> bool -> parsed R.  (** [parse_pad_rules(files, paranoid, ignore_unknown).get_ruleset()] *)
Variable post : R -> option R.                          (** 108-112 [call_post_parsing]; [None]: it raises *)

(** The rule set used, or the ending.  scripts/match.py:115-148. *)
Definition load_ruleset (files : option (list str)) (serialize : bool) (compiles : option bool)
    (store : stored R) (paranoid show_unknown : bool) : R + ending :=
  match files with
  | None => inr Traceback                       (* [get_config_files] raises, 119-121 *)
  | Some [] => inr (Exits true)                 (* 123-125 *)
  | Some fs =>
      let direct := match parse fs paranoid (negb show_unknown) with
                    | Parsed r => inl r
                    | ParsingError => inr (Exits true)       (* 138-143 *)
                    | OtherError => inr Traceback
                    end in
      if serialize then
        match compiles with                     (* 129-131 *)
        | None => inr Traceback
        | Some false => direct
        | Some true =>
            match store with                    (* 145-151 *)
            | Holds r => match post r with Some r' => inl r' | None => inr Traceback end
            | Empty => inr (Exits true)
            | Missing | Corrupt => inr Traceback
            end
        end
      else direct
  end.

(** The whole run: what happened with which rule set, and the ending.
    scripts/match.py:108-177. *)
Definition match_main (files : option (list str)) (serialize : bool) (compiles : option bool)
    (store : stored R) (paranoid show_unknown : bool)
    (loads : R -> str -> bool) (o : mode) (args : list (list (option str))) : option R * list event * ending :=
  match load_ruleset files serialize compiles store paranoid show_unknown with
  | inr e => (None, [], e)
  | inl r => let (ev, ok) := all_arguments (loads r) o 0 args in (Some r, ev, if ok then Ended else Traceback)
  end.

(** ** scripts/compile.py:109-128 [main] and 98-106 [serialize].  The new content of the file
    and the ending.  [writable]: the file can be opened; [pickles]: [pickle.dump] succeeds. *)
Definition compile_main (files : option (list str)) (compiles : option bool) (paranoid show_unknown : bool)
    (writable : bool) (pickles : R -> bool) (before : stored R) : stored R * ending :=
  match files with
  | None => (before, Traceback)
  | Some fs =>
      match compiles with
      | None => (before, Traceback)
      | Some false => (before, Exits true)
      | Some true =>
          match fs with
          | [] => (before, Exits true)
          | _ =>
              match parse fs paranoid (negb show_unknown) with
              | Parsed r =>
                  if writable then
                    if pickles r then (Holds r, Ended) else (Corrupt, Traceback)
                  else (before, Exits true)
              | ParsingError | OtherError => (before, Traceback)
              end
          end
      end
  end.
End Main.

(** ** scripts/oad.py *)
(** scripts/oad.py:49-92: the options *)
Record options := mkO {
  o_debug : bool; o_paranoid : bool; o_show_unknown : bool; o_allow_tell : bool; o_daemonize : bool;
  o_prefork : option Z; o_listen : str; o_port : N; o_configpath : str; o_sitepath : str;
  o_pidfile : str; o_log_file : str; o_deactivate_lazy : bool
}.
(** scripts/oad.py:23-34: the server that is started: number of processes for [PreForkServer], address, paths
    and the flags of the parser. *)
Record server := mkSrv {
  v_prefork : option Z; v_address : str * N; v_sitepath : str; v_configpath : str;
  v_paranoid : bool; v_ignore_unknown : bool
}.
(** scripts/oad.py:23-34. *)
Definition server_of (o : options) : server :=
  mkSrv (o_prefork o) (o_listen o, o_port o) (o_sitepath o) (o_configpath o) (o_paranoid o) (negb (o_show_unknown o)).

(** scripts/oad.py:19-41 [run_daemon], seen from the machine: the number in the pid file and the processes
    that serve.  [spoon.daemon.detach(pidfile=...)] writes the number of the new process into
    the file.  Simplification: all daemons use the same pid file. *)
Record machine := mkM { pid_file : option N; serving : list N }.
(** scripts/oad.py:19-41. *)
Inductive happening :=
| Launch (pid : N) (daemonize : bool) (ok : bool)  (** [ok]: the server could be created (23-34) *)
| Leaves (pid : N)                                 (** [serve_forever] returns or raises: 35-41 *)
| Killed (pid : N).                                (** the process is killed: nothing more is executed *)
(** scripts/oad.py:19-41. *)
Definition without (p : N) (l : list N) : list N := filter (fun q => negb (N.eqb q p)) l.
(** scripts/oad.py:19-41. *)
Definition happens (m : machine) (h : happening) : machine :=
  match h with
  | Launch p d ok =>
      mkM (if d then Some p else pid_file m) (if ok then p :: serving m else serving m)
  | Leaves p =>
      if existsb (N.eqb p) (serving m) then mkM None (without p (serving m)) else m
  | Killed p => mkM (pid_file m) (without p (serving m))
  end.
(** scripts/oad.py:19-41. *)
Definition history (hs : list happening) (m : machine) : machine := fold_left happens hs m.

(** ** oa/config.py:34-71 [setup_logging].  Levels are numbers: DEBUG 10, INFO 20, WARN 30,
    ERROR 40, CRITICAL 50.  A record reaches a handler if it reaches the level of the logger
    and that of the handler. *)
Inductive output := Stream | File (path : str) | Sentry (dsn : str).
(** For oa/config.py:34-71. *)
Record logger := mkLog { l_level : N; l_handlers : list (output * N) }.
(** oa/config.py:34-71. *)
Definition setup_logging (debug : bool) (filepath sentry_dsn : option str) (file_lvl sentry_lvl : N)
    (has_raven : bool) (before : list (output * N)) : logger :=
  let stream_level := if debug then 10%N else 50%N in
  let file_level := if debug then 10%N else file_lvl in
  mkLog file_level
    (before ++ [(Stream, stream_level)]
     ++ (match filepath with Some (c :: p) => [(File (c :: p), file_level)] | _ => [] end)
     ++ (match sentry_dsn with
         | Some (c :: d) => if has_raven then [(Sentry (c :: d), sentry_lvl)] else []
         | _ => []
         end)).
(** [Logger.handle] and [Logger.callHandlers] of Python's [logging].
    oa/config.py:34-71. *)
Definition emitted (l : logger) (level : N) : list output :=
  if N.leb (l_level l) level
  then map fst (filter (fun h => N.leb (snd h) level) (l_handlers l))
  else [].
