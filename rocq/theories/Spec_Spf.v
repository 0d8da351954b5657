(** Small independent definitions for the SPF properties. *)
From Verif Require Import PyStr PyRe Spec_Wlbl Model_Spf.

(** The results SPF can have (RFC 7208). *)
Definition is_result (r : str) : Prop :=
  In r [$"pass"; $"neutral"; $"softfail"; $"fail"; $"none"; $"permerror"; $"temperror"].
(** A Received-SPF header about the sender or about the HELO name, with its result. *)
Definition about_sender (h r : str) : Prop :=
  received_re h = Some (r, None) \/
  exists i, received_re h = Some (r, Some i) /\ (lower i = $"mfrom" \/ lower i = $"mailfrom").
Definition about_helo (h r : str) : Prop := received_re h = Some (r, Some ($"helo")).
(** [r] is the result of the first header of the kind. *)
Definition first_of (kind : str -> str -> Prop) (headers : list str) (r : str) : Prop :=
  exists a h b, headers = a ++ h :: b /\ kind h r /\ forall x q, In x a -> ~ kind x q.
(** The order in which the headers are looked at: the oldest first unless the newest is
    asked for. *)
Definition in_order (newest : bool) (headers : list str) : list str := if newest then headers else rev headers.
(** An old name of a result *)
Definition result_name (r : str) : str := if streqb r ($"error") then $"temperror" else r.
(** The beginning of [a] reads like [e]. *)
Definition front_like (e a : str) : Prop := exists w y, a = w ++ y /\ like one_line at_most_one e w.
