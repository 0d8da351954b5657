(** Model of the reports of oa/plugins/razor2.py.  Definitions only. *)
From Verif Require Import PyStr PyUtf8.

(** What a process comes to: it cannot be started ([OSError]), the exchange with it fails ([IOError],
    [OSError]), or it ends with a code (also when the timer kills it).  For oa/plugins/razor2.py:88-106. *)
Inductive process := NoStart | Broken | Exits (code : Z).
(** A process that was started: its arguments, the bytes sent to it (if any), and whether its timer was stopped.
    For oa/plugins/razor2.py:80-106. *)
Record started := mkStarted { p_args : list str; p_input : option (list N); p_timer_stopped : bool }.
(** What [launch_subprocess] gives: nothing, false, a code, or [UnicodeEncodeError].
    For oa/plugins/razor2.py:80-106. *)
Inductive launched := LNone | LFalse | LCode (code : Z) | LRaises.
(** oa/plugins/razor2.py:80-106 [launch_subprocess] *)
Definition launch_subprocess (razor_config raw_msg : str) (behaves : list str -> process) (name : str) : launched * list started :=
  let args := match razor_config with [] => [name] | _ => [name; $"-conf=" ++ razor_config] end in
  match behaves args with
  | NoStart => (LNone, [])
  | p => match encode raw_msg with
         | None => (LRaises, [mkStarted args None true])
         | Some bytes =>
             (match p with Exits code => LCode code | _ => LFalse end, [mkStarted args (Some bytes) true])
         end
  end.
(** oa/plugins/razor2.py:108-116 [plugin_report], [plugin_revoke]: the code is dropped; [None]: an exception.
    The option [use_razor2] is not read. *)
Definition razor_tell (use_razor2 spam : bool) (razor_config raw_msg : str) (behaves : list str -> process) : option unit * list started :=
  let (r, l) := launch_subprocess razor_config raw_msg behaves (if spam then $"razor-report" else $"razor-revoke") in
  (match r with LRaises => None | _ => Some tt end, l).
