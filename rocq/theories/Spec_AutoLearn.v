(** Vocabulary for the property of auto-learning. *)
From Verif Require Import PyStr PyDict Model_AutoLearn.

Definition flag (f : string) (t : test) : bool := mem_str ($ f) (t_tflags t).
Definition of_type (ty : string) (t : test) : bool := match t_type t with Some x => streqb x ($ ty) | None => false end.
(** Rules that may count at all. *)
Definition counts (t : test) : bool := negb (flag "noautolearn" t) && negb (flag "userconf" t).
Definition header_test (t : test) : bool := of_type "header" t || (of_type "meta" t && negb (flag "net" t)).
Definition body_test (t : test) : bool := of_type "body" t || of_type "uri" t || (of_type "meta" t && negb (flag "net" t)).
(** The sum of the scores of the rules that count and satisfy [f]. *)
Definition sum_of (f : test -> bool) (l : dict test) : Q :=
  fold_right (fun e s => ((if counts (snd e) && f (snd e) then t_score (snd e) else 0) + s)%Q) 0%Q l.
Definition all_points (l : dict test) : Q := sum_of (fun t => negb (flag "learn" t)) l.
Definition forced (l : dict test) : Prop :=
  exists n t, In (n, t) l /\ counts t = true /\ ~ (t_score t == 0)%Q /\ flag "learn" t = false /\ flag "autolearn_force" t = true.

(** What makes a message fit to be learned as spam, given the rules that hit. *)
Definition spam_evidence (c : al_conf) (hits : dict test) (score : Q) : Prop :=
  (al_spam c <= all_points hits)%Q /\ (al_required c < score)%Q /\
  (-1 <= sum_of (flag "learn") hits)%Q /\
  ((forced hits /\ (-99 <= sum_of header_test hits)%Q /\ (-99 <= sum_of body_test hits)%Q) \/
   (~ forced hits /\ (3 <= sum_of header_test hits)%Q /\ (3 <= sum_of body_test hits)%Q)).

(** The same, given the sums, and what makes a message fit to be learned as ham *)
Definition fit_as_spam (c : al_conf) (header body learn points : Q) (force : bool) (score : Q) : Prop :=
  (al_spam c <= points)%Q /\ (al_required c < score)%Q /\ (-1 <= learn)%Q /\
  let least := if force then (-99)%Q else 3%Q in (least <= header)%Q /\ (least <= body)%Q.
Definition fit_as_ham (c : al_conf) (learn points score : Q) : Prop :=
  (points < al_spam c)%Q /\ (points < al_nonspam c)%Q /\ (score < al_required c)%Q /\ (learn <= 1)%Q.

(** The rules of [tests] that are named in [names]. *)
Definition hit_tests (names : list str) (tests : dict test) : dict test := filter (fun e => mem_str (fst e) names) tests.
