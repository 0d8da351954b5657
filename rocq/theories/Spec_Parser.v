(** Vocabulary for the configuration-file properties (C15-C19). *)
From Verif Require Import PyStr PyDict PyPath Model_Rules Model_Parser.

Definition blanks (s : str) : Prop := forallb is_space s = true.
Definition word (s : str) : Prop := s <> [] /\ (forall c, In c s -> is_space c = false) /\ ~ In 35%N s.

(** Every "#" comes directly after a backslash. *)
Definition hashes_escaped (s : str) : Prop :=
  forall a b, s = a ++ 35%N :: b -> exists a', a = a' ++ [92%N].
Definition trimmed (s : str) : Prop := s <> [] /\ strip s = s.

(** A definition line: keyword, rule name, text. *)
Record entry := mkEntry { en_kw : str; en_name : str; en_value : str }.
(** The keywords of the manual that take a rule name and a text. *)
Definition keywords : list str :=
  [$"score"; $"priority"; $"describe"; $"full"; $"body"; $"rawbody"; $"uri";
   $"header"; $"mimeheader"; $"meta"; $"eval"; $"tflags"].
Definition entry_ok (e : entry) : Prop :=
  In (en_kw e) keywords /\ word (en_name e) /\ trimmed (en_value e) /\ hashes_escaped (en_value e).
(** [line] is the definition [e], with any blanks. *)
Definition spells (line : str) (e : entry) : Prop :=
  exists b0 b1 b2 b3, blanks b0 /\ blanks b1 /\ b1 <> [] /\ blanks b2 /\ b2 <> [] /\ blanks b3 /\
    line = b0 ++ en_kw e ++ b1 ++ en_name e ++ b2 ++ en_value e ++ b3.

(** What a definition sets: a pattern keyword sets the rule's type and text,
    "eval:" texts make an eval rule whose target is the keyword; the other
    keywords set the attribute they name. *)
Definition is_pattern_kw (k : str) : bool :=
  mem_str k [$"full"; $"body"; $"rawbody"; $"uri"; $"header"; $"mimeheader"; $"meta"; $"eval"].
Definition effects (e : entry) : list (str * attr) :=
  if is_pattern_kw (en_kw e)
  then if startswith ($"eval:") (en_value e)
       then [($"type", AStr ($"eval")); ($"value", AStr (en_value e)); ($"target", AStr (en_kw e))]
       else [($"type", AStr (en_kw e)); ($"value", AStr (en_value e))]
  else if streqb (en_kw e) ($"tflags") then [($"tflags", AList (words (en_value e)))]
  else [(en_kw e, AStr (en_value e))].

(** The attribute of a rule in a table. *)
Definition attr_of (r : results) (name key : str) : option attr :=
  match dget name r with Some d => dget key d | None => None end.

(** The value of [name]'s attribute [key] after the definitions [es], starting
    from [old]: the last definition that sets it. *)
Fixpoint last_set (name key : str) (es : list entry) (old : option attr) : option attr :=
  match es with
  | [] => old
  | e :: rest =>
      last_set name key rest
        (if streqb name (en_name e)
         then match dget key (effects e) with Some v => Some v | None => old end
         else old)
  end.

(** Lines that leave every rule definition to the lines around them: those that
    open, close or switch a conditional block, or include a file. *)
Definition directive (line : str) : Prop :=
  exists w, In w [$"endif"; $"else"; $"ifplugin"; $"include"] /\ startswith w (strip line) = true.

(** A history of lines seen from one rule: definitions (of any rule), and lines
    in which the rule's name does not occur as a word. *)
Inductive item := Def (e : entry) (line : str) | Other (line : str).
Definition item_line (i : item) : str := match i with Def _ l => l | Other l => l end.
Definition item_ok (name : str) (i : item) : Prop :=
  match i with
  | Def e l => entry_ok e /\ spells l e
  | Other l => ~ In name (words l)
  end.
Definition entries (is_ : list item) : list entry :=
  flat_map (fun i => match i with Def e _ => [e] | Other _ => [] end) is_.

(** ** Conditional blocks *)
(** The text of an ifplugin line. *)
Definition ifplugin_line (line P : str) : Prop :=
  word P /\ exists b0 b1 b2, blanks b0 /\ blanks b1 /\ b1 <> [] /\ blanks b2 /\
    line = b0 ++ $"ifplugin" ++ b1 ++ P ++ b2.
Definition else_line (line : str) : Prop := exists b0 t, blanks b0 /\ line = b0 ++ $"else" ++ t.
Definition endif_line (line : str) : Prop := exists b0 t, blanks b0 /\ line = b0 ++ $"endif" ++ t.
(** [P] names the plugin class [c]: directly, with its module, or by the name of
    the plugin it replaces. *)
Definition names_class {X} (E : penv X) (P c : str) : Prop :=
  exists q, (e_known E P = Some q \/ (e_known E P = None /\ q = P)) /\
            ((~ In 46%N q /\ c = q) \/ (exists m, q = m ++ 46%N :: c /\ ~ In 46%N c)).

(** ** Comments *)
Definition comment_or_blank (line : str) : Prop :=
  blanks line \/ exists b c, blanks b /\ line = b ++ 35%N :: c.
(** [l'] is [l] with a trailing comment. *)
Definition commented (l l' : str) : Prop :=
  ~ blanks l /\ (forall a, l <> a ++ [92%N]) /\ exists c, l' = l ++ 35%N :: c.
(** The same file up to blank lines and comments. *)
Inductive same_up_to_comments : list str -> list str -> Prop :=
| suc_nil : same_up_to_comments [] []
| suc_same l a b : same_up_to_comments a b -> same_up_to_comments (l :: a) (l :: b)
| suc_left l a b : comment_or_blank l -> same_up_to_comments a b -> same_up_to_comments (l :: a) b
| suc_right l a b : comment_or_blank l -> same_up_to_comments a b -> same_up_to_comments a (l :: b)
| suc_trail_l l l' a b : commented l l' -> same_up_to_comments a b -> same_up_to_comments (l' :: a) (l :: b)
| suc_trail_r l l' a b : commented l l' -> same_up_to_comments a b -> same_up_to_comments (l :: a) (l' :: b).

Definition with_files {X} (E : penv X) (fs : str -> option (list str)) : penv X :=
  mkEnv (e_paranoid E) (e_plugins E) (e_cmds E) (e_option E) (e_load E) (e_known E) (e_locale E) fs.

(** ** Includes: processing without any depth bookkeeping.  [reads E n f st st']:
    processing file [f] takes the parser from [st] to [st'], following includes
    at most [n] levels below [f]. *)
Section Reads.
Context {X : Type}.
Variable E : penv X.

(** A line "include path" (with any blanks and comments). *)
Definition include_line (line v : str) : Prop :=
  (bare_line line = $"include" /\ v = []) \/
  exists b, blanks b /\ b <> [] /\ trimmed v /\ bare_line line = $"include" ++ b ++ v.
(** The file a line asks for when it is in force: relative paths are relative to
    the directory of the including file when that is absolute. *)
Definition asks (filename line : str) (st : pstate X) (g : str) : Prop :=
  p_ignore st = false /\ exists v, include_line line v /\
    g = if isabs v then v else if isabs filename then path_join (dirname filename) v else v.
(** Any other line. *)
Definition one_line (filename line : str) (st : pstate X) : pres X :=
  run_lines E (fun _ s => PDone s) filename [line] st.

Inductive reads : nat -> str -> pstate X -> pstate X -> Prop :=
| reads_missing n f st : e_files E f = None -> reads n f st st
| reads_file n f lines st st' : e_files E f = Some lines -> reads_lines n f lines st st' -> reads n f st st'
with reads_lines : nat -> str -> list str -> pstate X -> pstate X -> Prop :=
| rl_nil n f st : reads_lines n f [] st st
| rl_include n f l g rest st st1 st2 :
    asks f l st g -> reads n g st st1 -> reads_lines (S n) f rest st1 st2 ->
    reads_lines (S n) f (l :: rest) st st2
| rl_line n f l rest st st1 st2 :
    (forall g, ~ asks f l st g) -> one_line f l st = PDone st1 -> reads_lines n f rest st1 st2 ->
    reads_lines n f (l :: rest) st st2.

(** The same, collecting the lines in force in the order they are met: those of
    included files in place of the include, those in a skipped part of a
    conditional block left out. *)
Inductive takes : nat -> str -> pstate X -> list str -> pstate X -> Prop :=
| takes_missing n f st : e_files E f = None -> takes n f st [] st
| takes_file n f lines st T st' : e_files E f = Some lines -> takes_lines n f lines st T st' -> takes n f st T st'
with takes_lines : nat -> str -> list str -> pstate X -> list str -> pstate X -> Prop :=
| tl_nil n f st : takes_lines n f [] st [] st
| tl_include n f l g rest st st1 st2 T1 T2 :
    asks f l st g -> takes n g st T1 st1 -> takes_lines (S n) f rest st1 T2 st2 ->
    takes_lines (S n) f (l :: rest) st (T1 ++ T2) st2
| tl_skip n f l rest st st1 st2 T :
    p_ignore st = true -> one_line f l st = PDone st1 -> takes_lines n f rest st1 T st2 ->
    takes_lines n f (l :: rest) st T st2
| tl_line n f l rest st st1 st2 T :
    p_ignore st = false -> (forall g, ~ asks f l st g) -> one_line f l st = PDone st1 ->
    takes_lines n f rest st1 T st2 -> takes_lines n f (l :: rest) st (l :: T) st2.

(** Over the files given to the parser, in order. *)
Inductive takes_all (n : nat) : list str -> pstate X -> list str -> pstate X -> Prop :=
| ta_nil st : takes_all n [] st [] st
| ta_cons f fs st st1 st2 T1 T2 : takes n f st T1 st1 -> takes_all n fs st1 T2 st2 ->
    takes_all n (f :: fs) st (T1 ++ T2) st2.
End Reads.

(** ** Unusable lines *)
(** A rule line without name or text. *)
Definition missing_argument (line : str) : Prop :=
  exists k rest, words (bare_line line) = k :: rest /\ In k ($"lang" :: keywords) /\ length rest < 2.
(** An option nobody knows, whatever the context. *)
Definition unknown_option {X} (E : penv X) (line : str) : Prop :=
  ~ directive line /\
  exists k v, word k /\
    (bare_line line = k /\ v = [] \/ exists b, blanks b /\ b <> [] /\ trimmed v /\ bare_line line = k ++ b ++ v) /\
    ~ In k ([$"loadplugin"; $"lang"] ++ keywords) /\
    forall x, ~ In k (e_cmds E x) /\ e_option E x k v = CUnknown x.
(** [ls'] is [ls] without some unusable lines. *)
Inductive dropped {X} (E : penv X) : list str -> list str -> Prop :=
| dr_nil : dropped E [] []
| dr_keep l a b : dropped E a b -> dropped E (l :: a) (l :: b)
| dr_drop l a b : missing_argument l \/ unknown_option E l -> dropped E a b -> dropped E (l :: a) b.
