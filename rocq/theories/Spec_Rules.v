(** Vocabulary for the properties of rule scoring and matching. *)
From Verif Require Import PyStr PyDict Model_Rules.
From Coq Require Export Permutation Sorted.

(** Adding numbers up one after the other, starting from [s0]. *)
Definition add_up (s0 : Q) (l : list Q) : Q := fold_left Qplus l s0.

(** The score a rule with the configured list [scores] should contribute in a
    given mode: one value for all modes, or one per mode in the order
    neither / network only / Bayes only / both. *)
Definition mode_score (bayes net : bool) (scores : list Q) : option Q :=
  match scores with
  | [s] => Some s
  | [s_none; s_net; s_bayes; s_both] =>
      Some (if bayes then (if net then s_both else s_bayes)
            else (if net then s_net else s_none))
  | _ => None
  end.

(** A rule with flags [tf] is switched off by the configuration [c]. *)
Definition switched_off (c : switches) (tf : list str) : Prop :=
  (In ($"net") tf /\ use_network c = false) \/
  (In ($"learn") tf /\ use_bayes c = false) \/
  (In ($"noautolearn") tf /\ autolearn c = true) \/
  (In ($"userconf") tf /\ user_config c = false).

Section Spec.
Context {X : Type}.

(** A rule that looks at the message but leaves its score, its recorded results
    and its recorded descriptions alone (everything except auto-whitelisting
    and short-circuiting); it may update plugin data. *)
Definition observer (r : rule X) : Prop :=
  forall m, let m' := fst (r_match r m) in
    m_score m' = m_score m /\ m_checked m' = m_checked m /\ m_descs m' = m_descs m.

(** A plugin hook that does not touch score, results, descriptions. *)
Definition observer_hook (h : msg X -> msg X * bool) : Prop :=
  forall m, let m' := fst (h m) in
    m_score m' = m_score m /\ m_checked m' = m_checked m /\ m_descs m' = m_descs m.

(** A rule that only reads the message content [x]: its outcome is [o x]. *)
Definition reads_only (r : rule X) (o : X -> outcome) : Prop :=
  forall m, r_match r m = (m, o (m_ext m)).

(** An outcome that counts as a hit: a text (even an empty one) or a true value. *)
Definition is_hit (o : outcome) : bool :=
  match o with
  | Returns (VStr _) => true
  | Returns v => truthy v
  | Raises => false
  | Stops => false
  end.
Definition is_stop (o : outcome) : bool := match o with Stops => true | _ => false end.

(** The message [m] records a hit for [name]. *)
Definition recorded_hit (m : msg X) (name : str) : bool :=
  match dget name (m_checked m) with Some v => truthy v | None => false end.

(** The first configured short-circuit setting that names [name]. *)
Definition sc_setting (configs : list str) (name : str) : option sctype :=
  match find (fun c => match sc_parse c with Some (n, _) => streqb n name | None => false end) configs with
  | Some c => option_map snd (sc_parse c)
  | None => None
  end.

Definition sc_bonus (t : sctype) (spam_score ham_score : Q) : Q :=
  match t with SC_on => 0 | SC_ham => ham_score | SC_spam => spam_score end.

(** While running [rules] from [m], no short-circuited rule returns a true value. *)
Definition no_sc_hit (configs : list str) (rules : list (str * rule X)) (m : msg X) : Prop :=
  forall a n r b, rules = a ++ (n, r) :: b -> sc_setting configs n <> None ->
    match snd (r_match r (fst (match_loop a m))) with
    | Returns v => truthy v = false
    | _ => True
    end.

(** A table whose keys are the rules' own names, each once. *)
Definition well_keyed (d : dict (rule X)) : Prop :=
  NoDup (dkeys d) /\ Forall (fun e => r_name (snd e) = fst e) d.

End Spec.
