(** What the training tables should hold. *)
From Verif Require Import PyStr PyDict Model_BayesStore.

(** A history of trainings: the message and whether it was said to be spam. *)
Definition history := list (tmsg * bool).

(** The class a message has been given last. *)
Fixpoint class_of (msgid : str) (h : history) : option bool :=
  match h with
  | [] => None
  | (m, isspam) :: r =>
      match class_of msgid r with Some c => Some c | None => if streqb (tm_id m) msgid then Some isspam else None end
  end.
(** The messages of a history, one for each id. *)
Fixpoint messages (h : history) : list tmsg :=
  match h with
  | [] => []
  | (m, _) :: r => if existsb (fun x => streqb (tm_id x) (tm_id m)) (messages r) then messages r else m :: messages r
  end.
Definition in_class (c : bool) (h : history) (m : tmsg) : bool :=
  match class_of (tm_id m) h with Some c' => Bool.eqb c c' | None => false end.
Definition has_token (t : str) (m : tmsg) : bool :=
  match tm_tokens m with Some l => existsb (fun e => streqb t (fst e)) l | None => false end.
Definition number (f : tmsg -> bool) (h : history) : Z := Z.of_nat (length (filter f (messages h))).

(** The claim: totals and token counts equal the numbers of messages learned. *)
Definition exact (h : history) (d : db) : Prop :=
  d_vars d = [mkCounts (number (in_class true h) h) (number (in_class false h) h)] /\
  forall t c, option_map fst (dget t (d_token d)) = Some c ->
    c = mkCounts (number (fun m => in_class true h m && has_token t m) h) (number (fun m => in_class false h m && has_token t m) h).

(** A freshly created database. *)
Definition fresh : db := mkDb [mkCounts 0 0] [] [].

(** Training one message after the other; an exception ends one training only. *)
Definition train1 (b : backend) (now : Z) (d : db) (e : tmsg * bool) : db := fst (learn_message true b now (fst e) (snd e) d).
Definition train (b : backend) (now : Z) (d : db) (h : history) : db := fold_left (train1 b now) h d.
