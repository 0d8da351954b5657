(** Small configurations, and what they say about a mail: the vocabulary of the properties of the program as a whole. *)
From Verif Require Import PyStr PyPath Model_Net Model_Parser Spec_Parser Spec_Headers Spec_Load Spec_Message.
From Verif Require Model_Meta Spec_Meta.
From Coq Require Import QArith.
Open Scope nat_scope.

(** ** Configurations *)
(** Where a rule looks: the text, the text as it was sent, the whole mail, or the fields of a name *)
Inductive place := Body | Raw | Full | Field (name : str).
Inductive setting :=
| Search (where_ : place) (name word : str)   (** body, rawbody, full or header: the rule looks for a word *)
| Combine (name text : str)         (** meta: the rule is worked out from others *)
| Points (name number : str)        (** score *)
| Words (name text : str).          (** describe *)
Definition definition (s : setting) : entry :=
  match s with
  | Search Body n w => mkEntry ($"body") n ($"/" ++ w ++ $"/")
  | Search Raw n w => mkEntry ($"rawbody") n ($"/" ++ w ++ $"/")
  | Search Full n w => mkEntry ($"full") n ($"/" ++ w ++ $"/")
  | Search (Field f) n w => mkEntry ($"header") n (f ++ $" =~ /" ++ w ++ $"/")
  | Combine n t => mkEntry ($"meta") n t
  | Points n q => mkEntry ($"score") n q
  | Words n t => mkEntry ($"describe") n t
  end.
(** The file an include names: relative paths start from the directory of the including file when that is absolute *)
Definition named_file (f v : str) : str := if isabs v then v else if isabs f then path_join (dirname f) v else v.
(** The text after an "ifplugin" stands for a plugin that is there, or for one that is not *)
Definition present {Y} (E : penv Y) (y : Y) (l : str) : Prop := exists P c, ifplugin_line l P /\ names_class E P c /\ In c (e_plugins E y).
Definition missing {Y} (E : penv Y) (y : Y) (l : str) : Prop := exists P c, ifplugin_line l P /\ names_class E P c /\ ~ In c (e_plugins E y).
(** Any line but "else" and "endif" *)
Definition inside (l : str) : Prop := ~ exists w, In w [$"endif"; $"else"] /\ startswith w (strip l) = true.
(** [written d f lines settings]: the lines of the file [f] have each setting on a line of its own, with any blanks, in
    between comments, empty lines, lines that lack an argument or set an option nobody knows, includes, at most [d] files
    deep, and blocks for plugins.  An include stands for the
    settings of its file; if there is no such file it stands for none.  A block stands for what is in it if the plugin
    is there, and else for what follows its "else", if there is one. *)
Inductive written {Y} (E : penv Y) (y : Y) : nat -> str -> list str -> list setting -> Prop :=
| written_end d f : written E y d f [] []
| written_note d f l ls ss : comment_or_blank l -> written E y d f ls ss -> written E y d f (l :: ls) ss
| written_line d f l s ls ss : spells l (definition s) -> written E y d f ls ss -> written E y d f (l :: ls) (s :: ss)
| written_unusable d f l ls ss : missing_argument l \/ unknown_option E l -> written E y d f ls ss -> written E y d f (l :: ls) ss
| written_include d f l v inner here ls ss : include_line l v -> e_files E (named_file f v) = Some inner ->
    written E y d (named_file f v) inner here -> written E y (S d) f ls ss -> written E y (S d) f (l :: ls) (here ++ ss)
| written_no_file d f l v ls ss : include_line l v -> e_files E (named_file f v) = None ->
    written E y (S d) f ls ss -> written E y (S d) f (l :: ls) ss
| written_block d f l body e here ls ss : present E y l -> written E y d f body here -> endif_line e ->
    written E y d f ls ss -> written E y d f (l :: body ++ e :: ls) (here ++ ss)
| written_left_out d f l body e ls ss : missing E y l -> Forall inside body -> endif_line e ->
    written E y d f ls ss -> written E y d f (l :: body ++ e :: ls) ss
| written_first d f l body a other e here ls ss : present E y l -> written E y d f body here -> else_line a ->
    Forall inside other -> endif_line e -> written E y d f ls ss -> written E y d f (l :: body ++ a :: other ++ e :: ls) (here ++ ss)
| written_other d f l body a other e here ls ss : missing E y l -> Forall inside body -> else_line a ->
    written E y d f other here -> endif_line e -> written E y d f ls ss -> written E y d f (l :: body ++ a :: other ++ e :: ls) (here ++ ss).
(** The files, read one after the other; those that are not there are left out.  Includes go at most ten files deep. *)
Inductive configuration {Y} (E : penv Y) (y : Y) : list str -> list setting -> Prop :=
| configuration_end : configuration E y [] []
| configuration_absent f fs ss : e_files E f = None -> configuration E y fs ss -> configuration E y (f :: fs) ss
| configuration_file f fs ls here further : e_files E f = Some ls -> written E y 10 f ls here -> configuration E y fs further ->
    configuration E y (f :: fs) (here ++ further).
Definition alphanumeric (c : char) : Prop := (48 <= c <= 57 \/ 65 <= c <= 90 \/ 97 <= c <= 122)%N.
(** A name of a header field without a meaning of its own in rules *)
Definition plain_field (f : str) : Prop :=
  f <> [] /\ Forall (fun c => alphanumeric c \/ c = 45%N) f /\ ~ In f [$"ALL"; $"ToCc"; $"MESSAGEID"].
Definition proper_setting (py_float : str -> option Q) (s : setting) : Prop :=
  word (en_name (definition s)) /\
  match s with
  | Search p _ w => (forall f, p = Field f -> plain_field f) /\ w <> [] /\ Forall alphanumeric w
  | Combine _ t => trimmed t /\ exists e, Spec_Meta.writes t e
  | Points _ q => word q /\ py_float q <> None
  | Words _ t => trimmed t /\ hashes_escaped t
  end.

(** The names, each once *)
Definition names (ss : list setting) : list str := nodup str_eq_dec (map (fun s => en_name (definition s)) ss).
(** What the last setting for a name says *)
Inductive task := Look (where_ : place) (word : str) | Compute (text : str).
Fixpoint task_of (n : str) (ss : list setting) : option task :=
  match ss with
  | [] => None
  | s :: r => match task_of n r, s with
              | Some x, _ => Some x
              | None, Search p m w => if streqb n m then Some (Look p w) else None
              | None, Combine m t => if streqb n m then Some (Compute t) else None
              | None, _ => None
              end
  end.
Fixpoint number_of (n : str) (ss : list setting) : option str :=
  match ss with
  | [] => None
  | s :: r => match number_of n r, s with
              | Some x, _ => Some x
              | None, Points m q => if streqb n m then Some q else None
              | None, _ => None
              end
  end.
(** A rule without a score is worth 1, one whose name begins with two underscores nothing. *)
Definition worth (py_float : str -> option Q) (n : str) (ss : list setting) : Q :=
  if startswith ($"__") n then 0%Q else
  match number_of n ss with
  | Some q => match py_float q with Some v => v | None => 0%Q end
  | None => 1%Q
  end.

(** A rule over at most [d] layers of combined rules, all the rules it names being there *)
Inductive nested (ss : list setting) : str -> nat -> Prop :=
| nested_look n p w d : task_of n ss = Some (Look p w) -> nested ss n d
| nested_compute n t e d : task_of n ss = Some (Compute t) -> Spec_Meta.writes t e ->
    (forall s, In s (Model_Meta.expr_names e) -> nested ss s d) -> nested ss n (S d).
(** Settings that can be loaded: each on its own, and as to the rules they combine *)
Definition proper_settings (py_float : str -> option Q) (ss : list setting) : Prop :=
  Forall (proper_setting py_float) ss /\ forall n t, task_of n ss = Some (Compute t) -> nested ss n 11.

(** ** Mails *)
Definition flat (s : str) : str := map (fun c => if N.eqb c 10 then 32%N else c) s.
(** The texts a rule looks at *)
Definition texts_at (p : place) (m : mail) : list str :=
  match p with
  | Body => [join ($" ") (values_of ($"Subject") (fields_of (head_of m)) ++ map (fun x => flat (snd x)) (texts_of m))]
  | Raw => [join [10%N] (map snd (texts_of m))]
  | Full => [mail_text m]
  | Field f => values_of f (fields_of (head_of m))
  end.
(** A mail whose texts are plain ASCII, written as they are meant *)
Definition plain_mail (m : mail) : Prop :=
  proper_mail m /\
  (forall f, In f (fields_of (head_of m)) -> contains ($"=?") (snd f) = false) /\
  forall h t, In (h, t) (texts_of m) ->
    sub_of h <> $"html" /\ ~ In (transfer_of h) [$"quoted-printable"; $"base64"] /\ Forall (fun c => (c < 128)%N) t /\ In (declared (charset_of h)) [$"ascii"; $"us-ascii"].

(** ** The verdict *)
Definition occurs (w s : str) : Prop := exists a b, s = a ++ w ++ b.
Definition found (w : str) (p : place) (m : mail) : Prop := exists t, In t (texts_at p m) /\ occurs w t.
(** [q]: what the rule called [n] comes to for the mail: 1 or 0 if it looks for a word, or else what its expression gives *)
Inductive comes_to (ss : list setting) (m : mail) : str -> Q -> Prop :=
| comes_look n p w q : task_of n ss = Some (Look p w) -> (found w p m /\ q == 1 \/ ~ found w p m /\ q == 0)%Q -> comes_to ss m n q
| comes_compute n t e v q : task_of n ss = Some (Compute t) -> Spec_Meta.writes t e ->
    (forall s, In s (Model_Meta.expr_names e) -> comes_to ss m s (v s)) -> (q == Spec_Meta.worth v e)%Q -> comes_to ss m n q.
(** The rule called [n] hits, or misses *)
Definition hits (ss : list setting) (m : mail) (n : str) : Prop := exists v, comes_to ss m n v /\ ~ (v == 0)%Q.
Definition misses (ss : list setting) (m : mail) (n : str) : Prop := exists v, comes_to ss m n v /\ (v == 0)%Q.
(** [q]: what the rule called [n] adds to the score of the mail *)
Definition adds_points (py_float : str -> option Q) (ss : list setting) (m : mail) (n : str) (q : Q) : Prop :=
  hits ss m n /\ q = worth py_float n ss \/ (misses ss m n \/ task_of n ss = None) /\ q = 0%Q.
Definition sum (l : list Q) : Q := fold_right Qplus 0%Q l.
(** The rule called [n] is one of those that made the score. *)
Definition counts (py_float : str -> option Q) (ss : list setting) (m : mail) (n : str) : Prop :=
  hits ss m n /\ ~ (worth py_float n ss == 0)%Q.
(** What a client sends to have a mail checked *)
Definition request (command body : str) : list N :=
  command ++ $" SPAMC/1.2" ++ [13; 10]%N ++ $"Content-length: " ++ dec (N.of_nat (length body)) ++ [13; 10; 13; 10]%N ++ body.
