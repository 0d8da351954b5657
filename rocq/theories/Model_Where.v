(** Model of what the configuration parser tells about the lines it cannot use:
    the places named in its errors (oa/rules/parser.py:110-135,165-260,
    oa/errors.py:30-64).  The outcome of parsing is that of [Model_Parser].
    Definitions only. *)
From Verif Require Import PyStr PyDict PyPath Model_Rules Model_Parser.

(** A file, the number of a line, the text of the line.
    For oa/errors.py:33-38,54-56. *)
Definition place := (str * nat * str)%type.

(** The exceptions of [Model_Parser.pexn] with what they carry:
    [InvalidSyntax] (oa/errors.py:30-42; the description is always that of a
    missing argument) and [MaxRecursionDepthExceeded] with its list
    (oa/errors.py:45-64). *)
Inductive wexn := WSyntax (p : place) | WPluginLoad | WMaxDepth (calls : list place) | WFatal.

(** The outcome and the syntax errors given to [ctxt.err] on the way.
    For oa/rules/parser.py:110-118. *)
Inductive wres (X : Type) := WDone (s : pstate X) (log : list place) | WRaise (e : wexn) (s : pstate X) (log : list place).
Arguments WDone {X}. Arguments WRaise {X}.

Section Where.
Context {X : Type}.
Variable E : penv X.

(** An exception of the line handlers that take no place; [p] is the line being
    handled.  For oa/rules/parser.py:188-222. *)
Definition at_line (p : place) (r : pres X) : wres X :=
  match r with
  | PDone s => WDone s []
  | PRaise ESyntax s => WRaise (WSyntax p) s []
  | PRaise EPluginLoad s => WRaise WPluginLoad s []
  | PRaise EMaxDepth s => WRaise (WMaxDepth []) s []
  | PRaise EFatal s => WRaise WFatal s []
  end.

(** oa/rules/parser.py:250-260 [_handle_include]: the call is added with the name
    of the file that is included, the number and the text of the line that
    includes it. *)
Definition add_call (p : place) (r : wres X) : wres X :=
  match r with
  | WRaise (WMaxDepth calls) s log => WRaise (WMaxDepth (calls ++ [p])) s log
  | _ => r
  end.

(** oa/rules/parser.py:137-248 [_handle_line] with the number of the line; the
    texts in the errors are those of the line without comment and outer blanks
    (170). *)
Definition handle_line_at (inc : str -> pstate X -> wres X) (filename : str) (n : nat) (line : str) (st : pstate X) : wres X :=
  let l := strip line in
  if startswith ($"endif") l then WDone (set_ignore false st) []
  else if startswith ($"else") l then WDone (set_ignore (negb (p_ignore st)) st) []
  else if startswith ($"require_version") l then WDone st []
  else match l with
  | [] => WDone st []
  | _ =>
    if startswith ($"#") l || p_ignore st then WDone st []
    else
      let b := bare_line line in
      let '(rtype, value) := match split_ws_max 1 b with
                             | [t; v] => (t, v)
                             | _ => (b, [])
                             end in
      if streqb rtype ($"include")
      then let g := include_path filename value in add_call (g, n, b) (inc g st)
      else at_line (filename, n, b)
             (if streqb rtype ($"ifplugin") then PDone (handle_ifplugin E value st)
              else if streqb rtype ($"loadplugin") then handle_loadplugin E value st
              else if mem_str rtype known2 || mem_str rtype (e_cmds E (p_ctx st)) then handle_rule_line E b st
              else offer E rtype value st)
  end.

(** For oa/rules/parser.py:129-135: what came before is in the log first. *)
Definition after (log : list place) (r : wres X) : wres X :=
  match r with
  | WDone s log' => WDone s (log ++ log')
  | WRaise e s log' => WRaise e s (log ++ log')
  end.

(** oa/rules/parser.py:110-118,129-135: [n] is the number of the next line, which
    starts at 1 ([line_no + 1]).  A syntax error is given to [ctxt.err] by every
    [_paranoid] block it passes. *)
Fixpoint run_lines_at (inc : str -> pstate X -> wres X) (filename : str) (n : nat) (lines : list str) (st : pstate X) : wres X :=
  match lines with
  | [] => WDone st []
  | l :: rest =>
      match handle_line_at inc filename n l st with
      | WDone st' log => after log (run_lines_at inc filename (S n) rest st')
      | WRaise (WSyntax p) st' log =>
          if e_paranoid E then WRaise (WSyntax p) st' (log ++ [p])
          else after (log ++ [p]) (run_lines_at inc filename (S n) rest st')
      | WRaise WPluginLoad st' log => after log (run_lines_at inc filename (S n) rest st')
      | WRaise e st' log => WRaise e st' log
      end
  end.

(** oa/rules/parser.py:120-135 [parse_file], as [Model_Parser.parse_file]. *)
Fixpoint parse_file_at (levels : nat) (filename : str) (st : pstate X) : wres X :=
  match levels with
  | 0 => WRaise (WMaxDepth []) st []
  | S k => match e_files E filename with
           | None => WDone st []
           | Some lines => run_lines_at (parse_file_at k) filename 1 lines st
           end
  end.

(** oa/rules/parser.py:328-330 *)
Fixpoint parse_files_at (files : list str) (st : pstate X) : wres X :=
  match files with
  | [] => WDone st []
  | f :: rest => match parse_file_at max_levels f st with
                 | WDone st' log => after log (parse_files_at rest st')
                 | r => r
                 end
  end.
End Where.
