(** Model of the training part of oa/plugins/bayes.py and of the two stores
    oa/db/bayes/sqlalchemy.py and oa/db/bayes/mysql.py.  Definitions only.

    Simplifications: a statement takes effect when it is executed (every function
    that changes counts commits); the columns [id] and [username] are left out, the
    statements do not use them; the tables hold at most what the statements read. *)
From Verif Require Import PyStr PyDict.

(** ** Tables and statements *)
(** What is passed as a parameter of a statement.  Database drivers convert
    strings, bytes and numbers; a tuple of two is no value of any column type, the
    statement fails (for example [sqlite3.InterfaceError: Error binding parameter],
    MySQL error 1241).  For oa/db/bayes/sqlalchemy.py:170-183. *)
Inductive param := PInt (z : Z) | PStr (s : str) | PBytes (b : str) | PTuple (l : list param).
(** For oa/db/bayes/sqlalchemy.py:170-183. *)
Definition column_value (p : param) : option str :=
  match p with PStr s => Some s | PBytes b => Some b | PInt _ | PTuple _ => None end.

(** For oa/db/bayes/sqlalchemy.py:32-79. *)
Record counts := mkCounts { c_spam : Z; c_ham : Z }.
(** oa/db/bayes/sqlalchemy.py:32-79: tables bayes_vars, bayes_seen (message id,
    flag) and bayes_token (token, counts, access time). *)
Record db := mkDb { d_vars : list counts; d_seen : list (str * str); d_token : list (str * (counts * Z)) }.

(** For oa/db/bayes/sqlalchemy.py:138-142. *)
Inductive backend := SqlAlchemy | MySql.

(** A step ends with a value or with an exception; what was stored stays stored.
    For oa/db/bayes/sqlalchemy.py:170-183. *)
Inductive res (A : Type) := Ok (a : A) | Raise.
Arguments Ok {A} a. Arguments Raise {A}.
(** For oa/db/bayes/sqlalchemy.py:170-183. *)
Definition step (A : Type) := db -> db * res A.
(** For oa/db/bayes/sqlalchemy.py:170-183. *)
Definition ret {A} (a : A) : step A := fun d => (d, Ok a).
(** For oa/plugins/bayes.py:703-736. *)
Definition raise {A} : step A := fun d => (d, Raise).
(** oa/plugins/bayes.py:703-736. *)
Definition bind {A B} (x : step A) (f : A -> step B) : step B :=
  fun d => let (d', r) := x d in match r with Ok a => f a d' | Raise => (d', Raise) end.
Notation "'do' a <- x ; y" := (bind x (fun a => y)) (at level 200, a pattern, x at level 100, y at level 200).
Notation "x ;; y" := (bind x (fun _ => y)) (at level 100, right associativity).

(** oa/db/bayes/sqlalchemy.py:132-136, oa/db/bayes/mysql.py:56-64 [seen_get]:
    [fetchone()] is [None] when there is no row, and [None[0]] raises [TypeError]. *)
Definition seen_get (msgid : str) : step str := fun d =>
  match dget msgid (d_seen d) with Some flag => (d, Ok flag) | None => (d, Raise) end.
(** oa/db/bayes/sqlalchemy.py:144-149, oa/db/bayes/mysql.py:74-81 [seen_put] *)
Definition seen_put (msgid flag : str) : step unit := fun d =>
  (mkDb (d_vars d) (map (fun e => if streqb (fst e) msgid then (fst e, flag) else e) (d_seen d)) (d_token d), Ok tt).
(** oa/db/bayes/sqlalchemy.py:138-142: takes [id] and [msgid] and is called with one
    argument ([TypeError]); oa/db/bayes/mysql.py:66-72. *)
Definition seen_delete (b : backend) (msgid : str) : step unit := fun d =>
  match b with
  | SqlAlchemy => (d, Raise)
  | MySql => (mkDb (d_vars d) (ddel msgid (d_seen d)) (d_token d), Ok tt)
  end.
(** oa/db/bayes/sqlalchemy.py:161-168, oa/db/bayes/mysql.py:97-103 [nspam_nham_change] *)
Definition nspam_nham_change (spam ham : Z) : step unit := fun d =>
  (mkDb (map (fun _ => mkCounts spam ham) (d_vars d)) (d_seen d) (d_token d), Ok tt).
(** oa/db/bayes/sqlalchemy.py:170-183, oa/db/bayes/mysql.py:105-114
    [multi_tok_count_change].  [tokens] is a generator: [None] if producing the
    tokens fails. *)
Fixpoint tok_count_change (spam ham : Z) (tokens : list param) (atime : Z) : step unit :=
  match tokens with
  | [] => ret tt
  | t :: rest => fun d =>
      match column_value t with
      | None => (d, Raise)
      | Some key =>
          tok_count_change spam ham rest atime
            (mkDb (d_vars d) (d_seen d)
               (map (fun e => if streqb (fst e) key then (fst e, (mkCounts spam ham, atime)) else e) (d_token d)))
      end
  end.
(** For oa/plugins/bayes.py:703-736. *)
Definition multi_tok_count_change (spam ham : Z) (tokens : option (list param)) (atime : Z) : step unit :=
  match tokens with None => raise | Some l => tok_count_change spam ham l atime end.

(** ** Learning *)
(** A message as training sees it: its id, its date ([None]: [receive_date] raises,
    oa/message.py:583-595) and its tokens ([None]: tokenising raises). *)
Record tmsg := mkTmsg { tm_id : str; tm_date : option Z; tm_tokens : option (list (str * str)) }.
(** oa/message.py:583-595. *)
Definition receive_date (m : tmsg) : step Z := match tm_date m with Some z => ret z | None => raise end.
(** oa/plugins/bayes.py:782-787: what [tokenise] yields, the hash and the text. *)
Definition tokenise (m : tmsg) : option (list param) :=
  option_map (map (fun t => PTuple [PBytes (fst t); PStr (snd t)])) (tm_tokens m).

(** oa/plugins/bayes.py:703-736 [_forget_trapped]; called with the id of the
    message.  [Ok true]/[Ok false] are the returned values. *)
Definition forget_trapped (b : backend) (m : tmsg) : step bool :=
  do seen <- seen_get (tm_id m);
  if streqb seen [] then ret false
  else if streqb seen ($"s") then
    nspam_nham_change (-1) 0 ;; do date <- receive_date m; multi_tok_count_change (-1) 0 (tokenise m) date ;;
    seen_delete b (tm_id m) ;; ret true
  else if streqb seen ($"h") then
    nspam_nham_change 0 (-1) ;; do date <- receive_date m; multi_tok_count_change 0 (-1) (tokenise m) date ;;
    seen_delete b (tm_id m) ;; ret true
  else ret false.
(** oa/plugins/bayes.py:692-701 [forget_message]: [None] is the fatal result. *)
Definition forget_message (use_bayes : bool) (b : backend) (m : tmsg) : step (option bool) :=
  if use_bayes then do r <- forget_trapped b m; ret (Some r) else ret None.

(** oa/plugins/bayes.py:671-690: the part of [_learn_trapped] that learns. *)
Definition learn_now (now : Z) (m : tmsg) (isspam : bool) : step (option bool) :=
  do date <- receive_date m;
  let atime := if (86400 <? date - now)%Z then now else date in
  (if isspam then nspam_nham_change 1 0 ;; multi_tok_count_change 1 0 (tokenise m) atime
   else nspam_nham_change 0 1 ;; multi_tok_count_change 0 1 (tokenise m) atime) ;;
  seen_put (tm_id m) (if isspam then $"s" else $"h") ;; ret (Some true).
(** oa/plugins/bayes.py:624-690 [_learn_trapped]; [learn_no_relearn] is [False]
    (line 464). *)
Definition learn_trapped (use_bayes : bool) (b : backend) (now : Z) (m : tmsg) (isspam : bool) : step (option bool) :=
  do seen <- seen_get (tm_id m);
  if streqb seen [] then learn_now now m isspam
  else if (streqb seen ($"s") && isspam) || (streqb seen ($"h") && negb isspam) then ret (Some false)
  else
    do fatal <- forget_message use_bayes b m;
    match fatal with None => ret None | Some _ => learn_now now m isspam end.
(** oa/plugins/bayes.py:602-622 [plugin_report], [plugin_revoke], [learn_message];
    [tie_db_writeable] returns [True] in both stores. *)
Definition learn_message (use_bayes : bool) (b : backend) (now : Z) (m : tmsg) (isspam : bool) : step (option bool) :=
  if use_bayes then learn_trapped use_bayes b now m isspam else ret None.
