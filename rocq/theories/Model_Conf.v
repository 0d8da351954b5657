(** Model of oa/conf.py (options and their values), of the option part of
    oa/context.py, and of the lists shared between contexts.  Definitions
    only. *)
From Verif Require Import PyStr PyDict Model_Rules Model_Parser.

(** oa/conf.py:20-29: the option types; the name of the method that sets an
    option is "set_<type>_option" (oa/conf.py:184). *)
Inductive otype := OInt | OFloat | OTime | OBool | OStr | OList | OAppend | OAppendSplit | OClear.

(** Values stored for options.  A Python list is a mutable object: [CList] holds
    its address.  [CKeys]: the tuple/list of keys of a "clear" option, never
    changed.  For oa/conf.py:31,191-234. *)
Inductive cval :=
| CInt (z : Z) | CFloat (q : Q) | CBool (b : bool) | CStr (s : str)
| CList (loc : nat) | CKeys (ks : list str).

(** The class attribute [options] (oa/conf.py:31,191-234): type and default.
    Defaults that are lists are objects created once, with the class. *)
Definition table := dict (otype * cval).

(** One context (oa/context.py:48-52,137-150): the plugins in order of loading
    and the data stored per class and key (oa/context.py:74-76). *)
Record ctx := mkCtx { c_order : list str; c_data : str -> str -> option cval }.
(** Everything: the list objects and the contexts of the process.
    For oa/conf.py:56-58. *)
Record world := mkW { w_heap : list (list str); w_ctxs : list ctx }.

(** For oa/conf.py:52-54. *)
Fixpoint upd {A} (l : list A) (n : nat) (x : A) : list A :=
  match l, n with
  | [], _ => []
  | _ :: l', 0 => x :: l'
  | y :: l', S n' => y :: upd l' n' x
  end.

(** What an option looks like to its readers.  oa/conf.py:56-58. *)
Inductive seen := SInt (z : Z) | SFloat (q : Q) | SBool (b : bool) | SStr (s : str) | SList (l : list str) | SKeys (ks : list str).
(** oa/conf.py:56-58. *)
Definition see (w : world) (v : cval) : option seen :=
  match v with
  | CInt z => Some (SInt z) | CFloat q => Some (SFloat q) | CBool b => Some (SBool b) | CStr s => Some (SStr s)
  | CList n => option_map SList (nth_error (w_heap w) n)
  | CKeys ks => Some (SKeys ks)
  end.
(** oa/conf.py:56-58. *)
Definition view (w : world) (c : nat) (cls key : str) : option seen :=
  match nth_error (w_ctxs w) c with
  | Some x => match c_data x cls key with Some v => see w v | None => None end
  | None => None
  end.

(** oa/context.py:74-76 [set_plugin_data] *)
Definition put (cls key : str) (v : cval) (x : ctx) : ctx :=
  mkCtx (c_order x) (fun cls' key' => if streqb cls cls' && streqb key key' then Some v else c_data x cls' key').
(** oa/conf.py:52-54. *)
Definition set_global (c : nat) (cls key : str) (v : cval) (w : world) : world :=
  match nth_error (w_ctxs w) c with
  | Some x => mkW (w_heap w) (upd (w_ctxs w) c (put cls key v x))
  | None => w
  end.
(** [set_global(key, <a new list>)].  For oa/conf.py:76-165. *)
Definition set_new_list (c : nat) (cls key : str) (l : list str) (w : world) : world :=
  set_global c cls key (CList (length (w_heap w))) (mkW (w_heap w ++ [l]) (w_ctxs w)).

Section Conf.
Variable classes : dict table.        (** the classes with options, by name *)
Variable py_float : str -> option Q.  (** [float(text)]; [None]: [ValueError] *)

(** For oa/conf.py:33-41. *)
Definition table_of (cls : str) : table := match dget cls classes with Some t => t | None => [] end.

(** oa/conf.py:33-41 [Conf.__init__] *)
Definition defaults (cls : str) (x : ctx) : ctx :=
  fold_left (fun x e => put cls (fst e) (snd (snd e)) x) (table_of cls) x.

(** oa/context.py:137-150: a new context with the main options. *)
Definition main : str := $"PADConf".
(** oa/context.py:137-150. *)
Definition new_ctx : ctx := defaults main (mkCtx [] (fun _ _ => None)).

(** Outcome of setting an option: done, nothing happened, or an exception.
    For oa/conf.py:76-165. *)
Inductive sres := SSet (w : world) | SError (w : world).

(** oa/conf.py:94-130: a time value. [None]: unchanged; [Some None]: an error.
    Simplifications: [timedelta] arithmetic is exact; a NaN, which [float]
    accepts, is not a number here. *)
Definition unit_seconds (u : str) : option Q :=
  if streqb u ($"m") then Some (inject_Z 60)
  else if streqb u ($"h") then Some (inject_Z 3600)
  else if streqb u ($"d") then Some (inject_Z 86400)
  else if streqb u ($"w") then Some (inject_Z 604800)
  else if streqb u ($"s") then Some 1%Q
  else None.
(** For oa/conf.py:76-165. *)
Definition Qneg (q : Q) : bool := negb (Qle_bool 0 q).
(** For oa/conf.py:76-165. *)
Definition time_value (value : str) : option (option Q) :=
  match value with
  | [] => None
  | _ =>
      match py_float value with
      | Some q => if Qneg q then None else Some (Some q)
      | None =>
          let u := skipn (length value - 1) value in
          let num := firstn (length value - 1) value in
          match num with
          | [] => None
          | _ => match py_float num with
                 | None => Some None
                 | Some q => if Qneg q then None
                             else match unit_seconds u with
                                  | Some k => Some (Some (q * k)%Q)
                                  | None => None
                                  end
                 end
          end
      end
  end.

(** oa/conf.py:76-165: the [set_*_option] methods.  [SError]: [PluginError], or
    an [AttributeError]/[KeyError] when an append option does not hold a
    list. *)
Definition set_value (c : nat) (cls key : str) (ty : otype) (dflt : cval) (value : str) (w : world) : sres :=
  match ty with
  | OInt => match value with
            | [] => SSet w
            | _ => match py_int value with Some z => SSet (set_global c cls key (CInt z) w) | None => SError w end
            end
  | OFloat => match value with
              | [] => SSet w
              | _ => match py_float value with Some q => SSet (set_global c cls key (CFloat q) w) | None => SError w end
              end
  | OTime => match time_value value with
             | None => SSet w
             | Some None => SError w
             | Some (Some q) => SSet (set_global c cls key (CFloat q) w)
             end
  | OBool => SSet (set_global c cls key (CBool (mem_str (lower value) [$"1"; $"true"])) w)
  | OStr => SSet (set_global c cls key (CStr value) w)
  | OList => SSet (set_new_list c cls key (split_char 44%N value) w)
  | OAppend | OAppendSplit =>
      match nth_error (w_ctxs w) c with
      | Some x =>
          match c_data x cls key with
          | Some (CList n) =>
              match nth_error (w_heap w) n with
              | Some l => SSet (mkW (upd (w_heap w) n (l ++ match ty with OAppend => [value] | _ => words value end)) (w_ctxs w))
              | None => SError w
              end
          | _ => SError w
          end
      | None => SError w
      end
  | OClear =>
      match dflt with
      | CKeys ks => SSet (fold_left (fun w k => set_new_list c cls k [] w) ks w)
      | _ => SError w
      end
  end.

(** oa/conf.py:173-186 [parse_config] of the classes in order,
    oa/context.py:276-284 [hook_parse_config]: the first class that has the
    option takes it. *)
Fixpoint offer_classes (c : nat) (order : list str) (key value : str) (w : world) : cres world :=
  match order with
  | [] => CUnknown w
  | cls :: rest =>
      match dget key (table_of cls) with
      | Some (ty, dflt) => match set_value c cls key ty dflt value w with
                           | SSet w' => CHandled w'
                           | SError w' => CFails w'
                           end
      | None => offer_classes c rest key value w
      end
  end.
(** oa/context.py:276-284. *)
Definition hook_parse_config (c : nat) (key value : str) (w : world) : cres world :=
  match nth_error (w_ctxs w) c with
  | Some x => offer_classes c (main :: c_order x) key value w
  | None => CFails w
  end.

(** Histories: contexts are created, plugin classes are loaded into them
    (oa/context.py:169-207,241-257: a class loaded again is unloaded first and
    its data dropped), options are set.  An option that fails leaves what it
    changed. *)
Inductive cop := Create | Load (c : nat) (cls : str) | Set_ (c : nat) (key value : str).
(** oa/context.py:169-207,241-257. *)
Definition drop_class (cls : str) (x : ctx) : ctx :=
  if mem_str cls (c_order x)
  then mkCtx (filter (fun n => negb (streqb cls n)) (c_order x))
             (fun cls' key => if streqb cls cls' then None else c_data x cls' key)
  else x.
(** oa/context.py:169-207,241-257. *)
Definition load_class (cls : str) (x : ctx) : ctx :=
  let y := defaults cls (drop_class cls x) in mkCtx (c_order y ++ [cls]) (c_data y).
(** oa/context.py:169-207,241-257. *)
Definition cstep (w : world) (o : cop) : world :=
  match o with
  | Create => mkW (w_heap w) (w_ctxs w ++ [new_ctx])
  | Load c cls => match nth_error (w_ctxs w) c with
                  | Some x => mkW (w_heap w) (upd (w_ctxs w) c (load_class cls x))
                  | None => w
                  end
  | Set_ c key value => match hook_parse_config c key value w with
                        | CHandled w' | CUnknown w' | CFails w' => w'
                        end
  end.
(** oa/context.py:169-207,241-257. *)
Definition crun (w : world) (ops : list cop) : world := fold_left cstep ops w.
End Conf.

(** oa/conf.py:194-234: the main options.  The lists are numbered in order. *)
Definition pad_options : table :=
  [($"report", (OAppend, CList 0));
   ($"clear_report_template", (OClear, CKeys [$"report"]));
   ($"unsafe_report", (OAppend, CList 1));
   ($"clear_unsafe_report_template", (OClear, CKeys [$"unsafe_report"]));
   ($"report_contact", (OStr, CStr []));
   ($"report_safe", (OInt, CInt 1));
   ($"add_header", (OAppend, CList 2));
   ($"remove_header", (OAppend, CList 3));
   ($"clear_headers", (OClear, CKeys [$"add_header"; $"remove_header"]));
   ($"required_score", (OFloat, CFloat 5));
   ($"use_bayes", (OBool, CBool true));
   ($"use_network", (OBool, CBool true));
   ($"envelope_sender_header", (OAppend, CList 4));
   ($"dns_server", (OAppend, CList 5));
   ($"clear_dns_servers", (OClear, CKeys [$"dns_server"]));
   ($"default_dns_lifetime", (OFloat, CFloat 10));
   ($"default_dns_timeout", (OFloat, CFloat 2));
   ($"allow_user_rules", (OBool, CBool false));
   ($"skip_rbl_checks", (OBool, CInt 0));
   ($"trusted_networks", (OAppendSplit, CList 6));
   ($"clear_trusted_networks", (OClear, CKeys [$"trusted_networks"]));
   ($"internal_networks", (OAppendSplit, CList 7));
   ($"clear_internal_networks", (OClear, CKeys [$"internal_networks"]));
   ($"msa_networks", (OAppendSplit, CList 8));
   ($"clear_msa_networks", (OClear, CKeys [$"msa_networks"]));
   ($"originating_ip_headers", (OAppendSplit, CList 9));
   ($"clear_originating_ip_headers", (OClear, CKeys [$"originating_ip_headers"]));
   ($"clear_dns_query_restriction", (OClear, CKeys [$"dns_query_restriction"]));
   ($"always_trust_envelope_sender", (OInt, CInt 0));
   ($"dns_available", (OStr, CStr ($"yes")));
   ($"dns_local_ports_permit", (OAppendSplit, CList 10));
   ($"dns_local_ports_avoid", (OAppendSplit, CList 11));
   ($"dns_test_interval", (OStr, CStr ($"600")));
   ($"dns_options", (OStr, CStr ($"norotate, nodns0x20, edns=4096")));
   ($"dns_query_restriction", (OAppend, CList 12));
   ($"autolearn", (OBool, CBool false));
   ($"training", (OBool, CBool false));
   ($"user_config", (OBool, CBool true));
   ($"ok_locales", (OStr, CStr []))].
(** oa/conf.py:194-234. *)
Definition pad_heap : list (list str) := repeat [] 13.
