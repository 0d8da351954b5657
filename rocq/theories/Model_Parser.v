(** Model of oa/rules/parser.py: configuration files, lines, includes,
    conditional blocks, and the construction of the rule set.  Definitions
    only. *)
From Verif Require Import PyStr PyDict PyPath Model_Rules.

(** A value stored for a rule attribute: text, or the words of a [tflags] line
    (oa/rules/parser.py:194-195). *)
Inductive attr := AStr (s : str) | AList (l : list str).
(** For oa/rules/parser.py:101-108. *)
Definition results := dict (dict attr).

(** oa/rules/parser.py:41-57 [KNOWN_2_RTYPE] *)
Definition known2 : list str :=
  [$"score"; $"priority"; $"describe"; $"full"; $"body"; $"rawbody"; $"uri";
   $"header"; $"mimeheader"; $"meta"; $"eval"; $"lang"; $"tflags"].
(** oa/rules/parser.py:81-90, the keys of [RULES] *)
Definition rule_types : list str :=
  [$"full"; $"body"; $"rawbody"; $"uri"; $"meta"; $"header"; $"mimeheader"; $"eval"].

(** What can leave a line handler as an exception: [InvalidSyntax],
    [PluginLoadError], [MaxRecursionDepthExceeded], and everything else
    ([PluginError], [AttributeError], ...) that [parse_file] lets through.
    For oa/rules/parser.py:140,170. *)
Inductive pexn := ESyntax | EPluginLoad | EMaxDepth | EFatal.

(** Outcome of offering an option to the context (oa/context.py:276-284
    [hook_parse_config]): taken ([InhibitCallbacks]), not taken, or an exception
    such as [PluginError]. *)
Inductive cres (X : Type) := CHandled (x : X) | CUnknown (x : X) | CFails (x : X).
Arguments CHandled {X}. Arguments CUnknown {X}. Arguments CFails {X}.
(** Outcome of oa/context.py:169-207 [load_plugin]. *)
Inductive lres (X : Type) := LLoaded (x : X) | LError (x : X) | LFails (x : X).
Arguments LLoaded {X}. Arguments LError {X}. Arguments LFails {X}.

(** What the parser uses of its surroundings.  [X] is the state of the global
    context (options, plugins).  For oa/rules/parser.py:140,170. *)
Record penv (X : Type) := mkEnv {
  e_paranoid : bool;
  e_plugins : X -> list str;                  (** names of the loaded plugins *)
  e_cmds : X -> list str;                     (** rule types added by plugins *)
  e_option : X -> str -> str -> cres X;       (** [hook_parse_config] *)
  e_load : X -> str -> option str -> lres X;  (** [load_plugin] *)
  e_known : str -> option str;                (** [REIMPLEMENTED_PLUGINS] *)
  e_locale : option str;                      (** the locale's language *)
  e_files : str -> option (list str)          (** the lines of a file; [None]: not a file *)
}.
Arguments mkEnv {X}. Arguments e_paranoid {X}. Arguments e_plugins {X}.
Arguments e_cmds {X}. Arguments e_option {X}. Arguments e_load {X}.
Arguments e_known {X}. Arguments e_locale {X}. Arguments e_files {X}.

(** oa/rules/parser.py:101-108: the parser's own state and the context. *)
Record pstate (X : Type) := mkP { p_results : results; p_ignore : bool; p_ctx : X }.
Arguments mkP {X}. Arguments p_results {X}. Arguments p_ignore {X}. Arguments p_ctx {X}.

(** For oa/rules/parser.py:140,170. *)
Inductive pres (X : Type) := PDone (s : pstate X) | PRaise (e : pexn) (s : pstate X).
Arguments PDone {X}. Arguments PRaise {X}.

(** oa/rules/parser.py:92,170: removes everything from the first "#" that has a
    character other than a backslash before it.  [prev]: there is such a
    character just before.  The text has no line feed (it comes from one
    line). *)
Fixpoint cut_comment (prev : bool) (s : str) : str :=
  match s with
  | [] => []
  | c :: s' => if prev && N.eqb c 35 then [] else c :: cut_comment (negb (N.eqb c 92)) s'
  end.

(** The line after the [strip]s and the comment removal, oa/rules/parser.py:140,170. *)
Definition bare_line (line : str) : str := strip (cut_comment false (strip line)).

Section Parser.
Context {X : Type}.
Variable E : penv X.
Notation pstate := (pstate X).
Notation pres := (pres X).

(** For oa/rules/parser.py:262-271. *)
Definition set_ignore (b : bool) (st : pstate) : pstate := mkP (p_results st) b (p_ctx st).
(** For oa/rules/parser.py:212-216,245-248. *)
Definition set_ctx (x : X) (st : pstate) : pstate := mkP (p_results st) (p_ignore st) x.

(** [self.results[name][key] = value].  For oa/rules/parser.py:224-243. *)
Definition set_attr (name key : str) (v : attr) (r : results) : results :=
  dset name (dset key v (match dget name r with Some d => d | None => [] end)) r.
(** oa/rules/parser.py:224-225 *)
Definition touch (name : str) (r : results) : results :=
  if dhas name r then r else dset name [] r.

(** oa/rules/parser.py:224-243: storing an attribute of a rule.  The check of
    the priority value (235-242) only logs. *)
Definition store (rtype name : str) (v : attr) (st : pstate) : pstate :=
  let r := touch name (p_results st) in
  let r' :=
    if mem_str rtype rule_types || mem_str rtype (e_cmds E (p_ctx st))
    then
      let isev := match v with AStr s => startswith ($"eval:") s | AList _ => false end in
      let r1 := if isev then set_attr name ($"target") (AStr rtype) r else r in
      let ty := if isev then $"eval" else rtype in
      set_attr name ($"value") v (set_attr name ($"type") (AStr ty) r1)
    else set_attr name rtype v r in
  mkP r' (p_ignore st) (p_ctx st).

(** The context takes the option, ignores it or fails
    (oa/rules/parser.py:212-216,245-248). *)
Definition offer (key value : str) (st : pstate) : pres :=
  match e_option E (p_ctx st) key value with
  | CHandled x | CUnknown x => PDone (set_ctx x st)
  | CFails x => PRaise EFatal (set_ctx x st)
  end.

(** oa/rules/parser.py:188-243: a line with a rule type.  A plugin command
    called [tflags] is not considered separately: [tflags] lines are always
    split into words. *)
Definition handle_rule_line (line : str) (st : pstate) : pres :=
  match split_ws_max 2 line with
  | [rtype; name; value] =>
      if streqb rtype ($"lang")
      then match e_locale E with
           | None => PRaise EFatal st
           | Some lg =>
               if negb (startswith name lg) then PDone st
               else if contains ($"report") value
                    then match split_ws_max 1 value with
                         | [k; v] => offer k v st
                         | _ => PRaise ESyntax st
                         end
                    else match split_ws_max 2 value with
                         | [k; n; v] => PDone (store k n (AStr v) st)
                         | _ => PRaise ESyntax st
                         end
           end
      else PDone (store rtype name (if streqb rtype ($"tflags") then AList (words value) else AStr value) st)
  | _ => PRaise ESyntax st
  end.

(** oa/rules/parser.py:262-271 [_handle_ifplugin] *)
Definition plugin_class (value : str) : str :=
  let n := match e_known E value with Some p => p | None => value end in
  match rsplit1 46%N n with Some (_, c) => c | None => n end.
(** oa/rules/parser.py:262-271. *)
Definition handle_ifplugin (value : str) (st : pstate) : pstate :=
  if mem_str (plugin_class value) (e_plugins E (p_ctx st)) then st else set_ignore true st.

(** oa/rules/parser.py:273-284 [_handle_loadplugin] *)
Definition handle_loadplugin (value : str) (st : pstate) : pres :=
  let '(name, path) := match split_ws_max 1 value with
                       | [n; p] => (n, Some p)
                       | _ => (value, None)
                       end in
  let name' := if contains ($"::") name then e_known E name else Some name in
  match name' with
  | None | Some [] => PDone st
  | Some n => match e_load E (p_ctx st) n path with
              | LLoaded x => PDone (set_ctx x st)
              | LError x => PRaise EPluginLoad (set_ctx x st)
              | LFails x => PRaise EFatal (set_ctx x st)
              end
  end.

(** oa/rules/parser.py:250-255: the file an include names. *)
Definition include_path (filename value : str) : str :=
  let v := strip value in
  if negb (isabs v) && isabs filename then path_join (dirname filename) v else v.

(** oa/rules/parser.py:137-248 [_handle_line].  [inc] is [parse_file] one level
    deeper.  ISO-8859-1 decoding (140) cannot fail and keeps the code points, so
    a line is its code points; line numbers are only used in messages. *)
Definition handle_line (inc : str -> pstate -> pres) (filename line : str) (st : pstate) : pres :=
  let l := strip line in
  if startswith ($"endif") l then PDone (set_ignore false st)
  else if startswith ($"else") l then PDone (set_ignore (negb (p_ignore st)) st)
  else if startswith ($"require_version") l then PDone st
  else match l with
  | [] => PDone st
  | _ =>
    if startswith ($"#") l || p_ignore st then PDone st
    else
      let b := bare_line line in
      let '(rtype, value) := match split_ws_max 1 b with
                             | [t; v] => (t, v)
                             | _ => (b, [])
                             end in
      if streqb rtype ($"include") then inc (include_path filename value) st
      else if streqb rtype ($"ifplugin") then PDone (handle_ifplugin value st)
      else if streqb rtype ($"loadplugin") then handle_loadplugin value st
      else if mem_str rtype known2 || mem_str rtype (e_cmds E (p_ctx st)) then handle_rule_line b st
      else offer rtype value st
  end.

(** oa/rules/parser.py:110-118,129-135: the loop of [parse_file] over the lines
    and its exception handling. *)
Fixpoint run_lines (inc : str -> pstate -> pres) (filename : str) (lines : list str) (st : pstate) : pres :=
  match lines with
  | [] => PDone st
  | l :: rest =>
      match handle_line inc filename l st with
      | PDone st' => run_lines inc filename rest st'
      | PRaise ESyntax st' => if e_paranoid E then PRaise ESyntax st' else run_lines inc filename rest st'
      | PRaise EPluginLoad st' => run_lines inc filename rest st'
      | PRaise e st' => PRaise e st'
      end
  end.

(** oa/rules/parser.py:120-135 [parse_file]; [levels] is
    [MAX_RECURSION + 1 - _depth] (oa/rules/parser.py:38,122-123). *)
Fixpoint parse_file (levels : nat) (filename : str) (st : pstate) : pres :=
  match levels with
  | 0 => PRaise EMaxDepth st
  | S n => match e_files E filename with
           | None => PDone st
           | Some lines => run_lines (parse_file n) filename lines st
           end
  end.

(** oa/rules/parser.py:328-330: the files are parsed in order by one parser. *)
Definition max_levels : nat := 11.
(** oa/rules/parser.py:328-330. *)
Fixpoint parse_files (files : list str) (st : pstate) : pres :=
  match files with
  | [] => PDone st
  | f :: rest => match parse_file max_levels f st with
                 | PDone st' => parse_files rest st'
                 | r => r
                 end
  end.
End Parser.

(** ** oa/rules/base.py:106-132 [get_rule_kwargs]; [None] is the [ValueError] of
    [float]. *)
Record kwargs := mkKw { k_score : option (list Q); k_desc : option str; k_prio : option str; k_tflags : list str }.

(** For oa/rules/base.py:106-132. *)
Fixpoint map_opt {A B} (f : A -> option B) (l : list A) : option (list B) :=
  match l with
  | [] => Some []
  | x :: l' => match f x, map_opt f l' with Some y, Some ys => Some (y :: ys) | _, _ => None end
  end.

(** [data[key].strip()] for a text attribute.  For oa/rules/base.py:106-132. *)
Definition text_attr (key : str) (data : dict attr) : option str :=
  match dget key data with Some (AStr s) => Some (strip s) | _ => None end.

(** [py_float] is Python's [float] on text.  A [tflags] value that is text (a
    [lang] line) is iterated character by character.  oa/rules/base.py:106-132. *)
Definition get_rule_kwargs (py_float : str -> option Q) (data : dict attr) : option kwargs :=
  let score := match text_attr ($"score") data with
               | None => Some None
               | Some s => option_map Some (map_opt py_float (words s))
               end in
  match score with
  | None => None
  | Some sc =>
      Some (mkKw sc (text_attr ($"describe") data) (text_attr ($"priority") data)
                 (match dget ($"tflags") data with
                  | Some (AList l) => map strip l
                  | Some (AStr s) => map (fun c => strip [c]) s
                  | None => []
                  end))
  end.

(** ** Building the rules, oa/rules/parser.py:286-308 *)
Inductive bres (R : Type) :=
| BRule (r : R)     (** a rule *)
| BInvalid          (** [InvalidRule] or [InvalidRegex] *)
| BCrash.           (** any other exception *)
Arguments BRule {R}. Arguments BInvalid {R}. Arguments BCrash {R}.

(** For oa/rules/parser.py:289-308. *)
Inductive gres (R : Type) := GRules (l : list R) | GInvalidRule | GCrash.
Arguments GRules {R}. Arguments GInvalidRule {R}. Arguments GCrash {R}.

(** oa/rules/parser.py:289-308: the rules added to the rule set, in order.
    [build] is [rule_class.get_rule(name, data)] followed by [add_rule]'s own
    checks; [None] returned by [get_rule] makes [add_rule] fail, i.e. [BCrash].
    Simplification: the plugins' [finish_parsing_start] has already run on the
    table. *)
Fixpoint get_rules {R} (paranoid : bool) (build : str -> dict attr -> bres R) (table : results) : gres R :=
  match table with
  | [] => GRules []
  | (name, data) :: rest =>
      match (if dhas ($"type") data then build name data else BInvalid) with
      | BInvalid => if paranoid then GInvalidRule else get_rules paranoid build rest
      | BCrash => GCrash
      | BRule r => match get_rules paranoid build rest with
                   | GRules l => GRules (r :: l)
                   | g => g
                   end
      end
  end.
