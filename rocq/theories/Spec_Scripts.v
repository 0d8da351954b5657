(** Small independent definitions for the properties of the command line programs. *)
From Coq Require Import ZArith.
From Verif Require Import PyStr PyUtf8 Model_Tools Model_Scripts.
Open Scope nat_scope.

(** What is done with one message, by the options given. *)
Definition expected (revoke report report_only test_mode : bool) (m : str) : list event :=
  if revoke then [Revoked m]
  else if report then [Reported m]
  else if report_only then [Matched m; PrintReport m]
  else if test_mode then [Matched m; PrintMessage m; PrintReport m]
  else [Matched m; PrintMessage m].
(** The line at the end, for [n] arguments. *)
Definition summary (revoke report : bool) (n : nat) : list event :=
  if revoke || report then [PrintCount n] else [].

(** A message that can be read and loaded, with its text; one that cannot. *)
Definition arg_ok (loads : str -> bool) (a : option str) (t : str) : Prop := a = Some t /\ loads t = true.
Definition broken (loads : str -> bool) (a : option str) : Prop := match a with None => True | Some m => loads m = false end.

(** Versions, in order: (major, minor, patch). *)
Definition version := (N * N * N)%type.
Definition at_least (v w : version) : Prop :=
  let '(a, b, c) := v in let '(x, y, z) := w in
  (x < a \/ x = a /\ (y < b \/ y = b /\ z <= c))%N.

(** A byte that never begins the code of a character. *)
Definition no_start (b : N) : Prop := (128 <= b <= 193 \/ 245 <= b)%N.
(** Codes of texts with such bytes between them. *)
Fixpoint spoilt (pieces : list (list N * str)) : option (list N) :=
  match pieces with
  | [] => Some []
  | (junk, t) :: r => match encode t, spoilt r with
                      | Some b, Some rest => Some (junk ++ b ++ rest)
                      | _, _ => None
                      end
  end.

(** Options of the daemon that are the same but for the permission to learn. *)
Definition with_tell (b : bool) (o : options) : options :=
  mkO (o_debug o) (o_paranoid o) (o_show_unknown o) b (o_daemonize o) (o_prefork o) (o_listen o) (o_port o)
      (o_configpath o) (o_sitepath o) (o_pidfile o) (o_log_file o) (o_deactivate_lazy o).

(** A history without accidents: every launch is of a daemon, works, and happens while nothing
    is serving; nothing is killed.  [up]: the process that serves. *)
Fixpoint orderly (up : option N) (hs : list happening) : Prop :=
  match hs with
  | [] => True
  | Launch p d ok :: r => up = None /\ d = true /\ ok = true /\ orderly (Some p) r
  | Leaves p :: r => match up with
                     | Some q => if N.eqb p q then orderly None r else orderly up r
                     | None => orderly None r
                     end
  | Killed _ :: r => False
  end.

(** The text of an argument that is not a directory: - is standard input. *)
Definition read_from (content : str -> option (list N)) (stdin : list N) (path : str) (t : option str) : Prop :=
  (path = $"-" -> t = read_text stdin) /\
  (path <> $"-" -> match content path with Some b => t = read_text b | None => t = None end).
