(** Model of oa/plugins/auto_learn_threshold.py.  Numbers are exact rationals
    instead of floats.  Definitions only. *)
From Verif Require Import PyStr PyDict.

(** What the plugin reads of a rule.  [t_type] is [rule.rule_type]; [None]: the
    class has no such attribute (oa/rules/base.py:23-25, for example the rules of
    oa/plugins/uri_detail.py). *)
Record test := mkTest { t_type : option str; t_score : Q; t_tflags : list str }.

(** oa/plugins/auto_learn_threshold.py:22-33 [valid_tests] *)
Definition valid_test (t : test) : bool :=
  negb (Qeq_bool (t_score t) 0) && negb (mem_str ($"noautolearn") (t_tflags t)) && negb (mem_str ($"userconf") (t_tflags t)).

(** For oa/plugins/auto_learn_threshold.py:118-131. *)
Record points := mkPoints { p_header : Q; p_body : Q; p_learn : Q; p_points : Q; p_forced : bool }.
(** oa/plugins/auto_learn_threshold.py:118-131: one round of the loop.  [None]:
    [AttributeError]. *)
Definition add_test (t : test) (p : points) : option points :=
  match t_type t with
  | None => None
  | Some ty =>
      let meta := streqb ty ($"meta") && negb (mem_str ($"net") (t_tflags t)) in
      let to_header := streqb ty ($"header") || meta in
      let to_body := streqb ty ($"body") || streqb ty ($"uri") || meta in
      let h := if to_header then (p_header p + t_score t)%Q else p_header p in
      let b := if to_body then (p_body p + t_score t)%Q else p_body p in
      if mem_str ($"learn") (t_tflags t)
      then Some (mkPoints h b (p_learn p + t_score t)%Q (p_points p) (p_forced p))
      else Some (mkPoints h b (p_learn p) (p_points p + t_score t)%Q
                   (p_forced p || mem_str ($"autolearn_force") (t_tflags t)))
  end.
(** For oa/plugins/auto_learn_threshold.py:164-174. *)
Fixpoint add_tests (l : dict test) (p : points) : option points :=
  match l with
  | [] => Some p
  | (_, t) :: r => if valid_test t then match add_test t p with Some p' => add_tests r p' | None => None end
                   else add_tests r p
  end.

(** The options.  For oa/plugins/auto_learn_threshold.py:35-98,101-163. *)
Record al_conf := mkAL { al_nonspam : Q; al_spam : Q; al_on_error : bool; al_required : Q }.

(** For oa/plugins/auto_learn_threshold.py:164-174. *)
Inductive verdict := LearnSpam | LearnHam.

(** oa/plugins/auto_learn_threshold.py:35-98,101-163 [bayes_agrees], [should_learn],
    [prepare_learning_metadata].  [score]: [msg.score]. *)
Definition thinks_spam (c : al_conf) (p : points) : bool := Qle_bool (al_spam c) (p_points p).
(** For oa/plugins/auto_learn_threshold.py:48-98. *)
Definition thinks_ham (c : al_conf) (p : points) : bool := negb (Qle_bool (al_nonspam c) (p_points p)).
(** For oa/plugins/auto_learn_threshold.py:48-98. *)
Definition lt (a b : Q) : bool := negb (Qle_bool b a).
(** oa/plugins/auto_learn_threshold.py:35-46. *)
Definition bayes_agrees (c : al_conf) (tests : dict test) (p : points) : bool :=
  if thinks_spam c p then dhas ($"BAYES_99") tests else dhas ($"BAYES_00") tests.
(** For oa/plugins/auto_learn_threshold.py:48-98. *)
Definition minimum (p : points) : Q := if p_forced p then (-99)%Q else 3%Q.
(** oa/plugins/auto_learn_threshold.py:48-98. *)
Definition should_learn (c : al_conf) (tests : dict test) (p : points) (score : Q) : bool :=
  let ok :=
    if thinks_spam c p then
      negb (lt (p_header p) (minimum p)) && negb (lt (p_body p) (minimum p)) && negb (lt (p_learn p) (-1)%Q)
      && negb (Qle_bool score (al_required c))
    else if thinks_ham c p then
      negb (lt 1%Q (p_learn p)) && negb (Qle_bool (al_required c) score)
    else false in
  ok && negb (al_on_error c && bayes_agrees c tests p).

(** oa/plugins/auto_learn_threshold.py:164-174 [auto_learn_discriminator].  [tests]:
    [ruleset.checked].  Both branches test [learner_thinks_spam].  [None]: an
    exception; [Some None]: nothing is learned. *)
Definition discriminator (c : al_conf) (bayes : bool) (tests : dict test) (score : Q) : option (option verdict) :=
  match add_tests tests (mkPoints 0 0 0 0 false) with
  | None => None
  | Some p =>
      Some (if should_learn c tests p score && bayes
            then if thinks_spam c p then Some LearnSpam
                 else if thinks_spam c p then Some LearnHam else None
            else None)
  end.
