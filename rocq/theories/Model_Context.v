(** Model of oa/context.py: the plugin registry, the hooks, plugin data and
    pickling.  Definitions only. *)
From Verif Require Import PyStr PyDict.

(** A plugin class: its [eval_rules] (and whether each is an attribute of the
    class), its [cmds] (and whether each is a subclass of [BaseRule]), the defaults
    of its options, and whether it is a subclass of [BasePlugin].  [V]: option
    values.  For oa/context.py:138-154. *)
Record pclass (V : Type) := mkPC {
  pc_evals : list (str * bool); pc_cmds : list (str * bool); pc_options : list (str * V); pc_sub : bool }.
Arguments mkPC {V}. Arguments pc_evals {V}. Arguments pc_cmds {V}. Arguments pc_options {V}. Arguments pc_sub {V}.

(** oa/context.py:138-154 [GlobalContext], the part about plugins.  Plugin objects
    are told apart by the number of the [load_plugin] call that made them, counted
    in [x_next]; a registered eval rule or command is known by the object it came
    from.  [plugins] also holds the object's class and the path it came from. *)
Record ctx (V : Type) := mkCtx {
  x_plugins : dict (nat * pclass V * option str); x_evals : dict nat; x_cmds : dict nat; x_data : dict (dict V); x_next : nat }.
Arguments mkCtx {V}. Arguments x_plugins {V}. Arguments x_evals {V}. Arguments x_cmds {V}.
Arguments x_data {V}. Arguments x_next {V}.

Section Context_.
Context {V : Type}.
(** oa/context.py:138-154. *)
Definition empty_ctx : ctx V := mkCtx [] [] [] [] 0.

(** oa/context.py:74-106: data of a plugin.  [None]: [KeyError].  (Reading creates
    an empty dictionary for an unknown plugin, which no reader can tell apart.) *)
Definition data_of (p : str) (d : dict (dict V)) : dict V := match dget p d with Some e => e | None => [] end.
(** For oa/context.py:169-207. *)
Definition set_data (p k : str) (v : V) (d : dict (dict V)) : dict (dict V) := dset p (dset k v (data_of p d)) d.
(** oa/context.py:74-106. *)
Definition get_data (p k : str) (d : dict (dict V)) : option V := dget k (data_of p d).
(** For oa/context.py:74-106. *)
Definition remove {A} (k : str) (d : dict A) : dict A := filter (fun e => negb (streqb k (fst e))) d.
(** oa/context.py:74-106. *)
Definition del_data (p k : str) (d : dict (dict V)) : option (dict (dict V)) :=
  match dget k (data_of p d) with Some _ => Some (dset p (remove k (data_of p d)) d) | None => None end.
(** oa/context.py:74-106. *)
Definition pop_data (p k : str) (d : dict (dict V)) : dict (dict V) * option V :=
  (dset p (remove k (data_of p d)) d, dget k (data_of p d)).
(** For oa/context.py:239-253. *)
Definition pop_all (p : str) (d : dict (dict V)) : dict (dict V) := remove p d.

(** oa/context.py:171 [name.rsplit(".", 1)[-1]] *)
Definition class_name (name : str) : str := match rsplit1 46 name with Some (_, c) => c | None => name end.

(** oa/context.py:239-253 [unload_plugin]; [None]: [PluginLoadError]. *)
Definition unload_plugin (name : str) (x : ctx V) : option (ctx V) :=
  match dget name (x_plugins x) with
  | None => None
  | Some (_, c, _) =>
      Some (mkCtx (remove name (x_plugins x))
              (fold_left (fun d r => remove (fst r) d) (pc_evals c) (x_evals x))
              (fold_left (fun d r => remove (fst r) d) (pc_cmds c) (x_cmds x))
              (pop_all name (x_data x)) (x_next x))
  end.

(** oa/context.py:209-237 [_load_cmds], [_load_eval_rules]: what is registered up
    to the first one that is wrong, and whether there was none. *)
Fixpoint register (i : nat) (rules : list (str * bool)) (d : dict nat) : dict nat * bool :=
  match rules with
  | [] => (d, true)
  | (r, ok) :: rest => if ok then register i rest (dset r i d) else (d, false)
  end.

(** oa/context.py:169-207 [load_plugin] and oa/conf.py:33-42 (the constructor of the
    plugin stores the defaults of its options).  [found]: the class the module has
    under that name; [None]: no such module or class.  The second result tells
    whether loading succeeded. *)
Definition load_plugin (name : str) (path : option str) (found : option (pclass V)) (x : ctx V) : ctx V * bool :=
  let cls := class_name name in
  let x1 := match unload_plugin cls x with Some x' => x' | None => x end in
  let i := x_next x1 in
  let next := S i in
  match found with
  | None => (mkCtx (x_plugins x1) (x_evals x1) (x_cmds x1) (x_data x1) next, false)
  | Some c =>
      if pc_sub c then
        let data := fold_left (fun d o => set_data cls (fst o) (snd o) d) (pc_options c) (x_data x1) in
        let (cmds, ok1) := register i (pc_cmds c) (x_cmds x1) in
        if ok1 then
          let (evals, ok2) := register i (pc_evals c) (x_evals x1) in
          if ok2 then (mkCtx (dset cls (i, c, path) (x_plugins x1)) evals cmds data next, true)
          else (mkCtx (x_plugins x1) evals cmds data next, false)
        else (mkCtx (x_plugins x1) (x_evals x1) cmds data next, false)
      else (mkCtx (x_plugins x1) (x_evals x1) (x_cmds x1) (x_data x1) next, false)
  end.

(** Histories.  oa/context.py:169-207. *)
Inductive pop := LoadP (name : str) (path : option str) (found : option (pclass V)) | UnloadP (name : str).
(** oa/context.py:169-207. *)
Definition pstep (x : ctx V) (o : pop) : ctx V :=
  match o with
  | LoadP name path found => fst (load_plugin name path found x)
  | UnloadP name => match unload_plugin name x with Some x' => x' | None => x end
  end.
(** oa/context.py:169-207. *)
Definition prun (h : list pop) : ctx V := fold_left pstep h empty_ctx.

(** ** Hooks *)
(** oa/context.py:110-124 [_callback_chain] around a loop over the plugins.  A
    plugin's method changes the state, then returns, raises [InhibitCallbacks] or
    raises something else.  Returns the state, the plugins called, and how it ended:
    [Some b] is the value of the hook, [None] another exception. *)
Inductive act := Goes | Inhibits | Fails.
(** For oa/context.py:286-291,344-369. *)
Fixpoint chain {S} (method : nat -> S -> S * act) (plugins : list nat) (s : S) : S * list nat * option bool :=
  match plugins with
  | [] => (s, [], Some false)
  | p :: rest =>
      match method p s with
      | (s', Goes) => let '(s'', called, r) := chain method rest s' in (s'', p :: called, r)
      | (s', Inhibits) => (s', [p], Some true)
      | (s', Fails) => (s', [p], None)
      end
  end.
(** For oa/context.py:286-291,344-369. *)
Definition plugin_ids (x : ctx V) : list nat := map (fun e => fst (fst (snd e))) (x_plugins x).

(** oa/context.py:286-291,344-369: the other hooks only differ in the method. *)
Definition run_hook {S} (x : ctx V) (method : nat -> S -> S * act) (s : S) : S * list nat * option bool :=
  chain method (plugin_ids x) s.
(** oa/context.py:276-284 [hook_parse_config]: the program's own options first.
    [core]: [self.conf.parse_config]; a plugin that returns true ([Inhibits] here
    too) ends the loop. *)
Definition hook_parse_config {S} (x : ctx V) (core : S -> S * act) (method : nat -> S -> S * act) (s : S)
  : S * list nat * option bool :=
  match core s with
  | (s', Goes) => run_hook x method s'
  | (s', Inhibits) => (s', [], Some true)
  | (s', Fails) => (s', [], None)
  end.
(** oa/context.py:356-369 [hook_report], [hook_revoke]: the arguments [spam],
    [local] and [remote] are not used. *)
Definition hook_report {S} (x : ctx V) (plugin_report : nat -> S -> S * act) (spam local remote : bool) (s : S) :=
  run_hook x plugin_report s.
(** oa/context.py:362-366. *)
Definition hook_revoke {S} (x : ctx V) (plugin_revoke : nat -> S -> S * act) (spam local remote : bool) (s : S) :=
  run_hook x plugin_revoke s.

(** ** Pickling *)
(** oa/context.py:54-67 [__getstate__] (without the two entries of one plugin): the
    state that is written, and the context afterwards.  [odict] shares its
    dictionaries with the context, so both lose the plugins that came from a path.
    [None]: [KeyError] for an eval rule that is gone already. *)
Fixpoint del_rules (rules : list (str * bool)) (d : dict nat) : option (dict nat) :=
  match rules with
  | [] => Some d
  | (r, _) :: rest => match dget r d with Some _ => del_rules rest (remove r d) | None => None end
  end.
(** oa/context.py:54-67. *)
Fixpoint strip_path_plugins (l : dict (nat * pclass V * option str)) (x : ctx V) (todo : list (str * str))
  : option (ctx V * list (str * str)) :=
  match l with
  | [] => Some (x, todo)
  | (name, (_, c, path)) :: rest =>
      match path with
      | None => strip_path_plugins rest x todo
      | Some p =>
          match del_rules (pc_evals c) (x_evals x) with
          | None => None
          | Some evals => strip_path_plugins rest (mkCtx (remove name (x_plugins x)) evals (x_cmds x) (x_data x) (x_next x))
                            (todo ++ [(name, p)])
          end
      end
  end.
(** oa/context.py:54-67. *)
Definition getstate (x : ctx V) : option (ctx V * list (str * str)) := strip_path_plugins (x_plugins x) x [].
(** oa/context.py:69-72 [__setstate__]; [find name path]: the class in that file.
    (Plugins are listed by class name here, which is what [load_plugin] makes of the
    full name that is written.) *)
Definition setstate (find : str -> str -> option (pclass V)) (state : ctx V * list (str * str)) : ctx V :=
  fold_left (fun x np => fst (load_plugin (fst np) (Some (snd np)) (find (fst np) (snd np)) x)) (snd state) (fst state).
End Context_.
