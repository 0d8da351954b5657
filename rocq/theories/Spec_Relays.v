(** Small independent definitions for the relay properties. *)
From Verif Require Import PyStr Model_Net Model_Relays.

(** A relay with the marks left by the analysis removed: what the header says. *)
Definition unmark (r : relay) : relay := set_marks false None r.
Definition has_address (r : relay) : bool := nonempty (rl_ip r).

(** The address is outside what the configuration trusts: outside the trusted
    networks, or, if none are configured, public. *)
Definition outside (is_private : addr -> bool) (nw : nets) (a : addr) : Prop :=
  if configured nw then contains_addr (n_trusted nw) a = Some false else is_private a = false.

(** The relay states an address that is in the MSA list. *)
Definition is_msa (ip_address : str -> option addr) (nw : nets) (r : relay) : Prop :=
  exists a, rl_ip r <> [] /\ ip_address (rl_ip r) = Some a /\ contains_addr (n_msa nw) a = Some true.

(** [front] is the part of a Received header before the first " by ". *)
Definition before_by (header front : str) : Prop :=
  (contains ($" by ") header = false /\ front = header) \/
  exists rest, header = front ++ $" by " ++ rest /\
    forall x y, header = x ++ $" by " ++ y -> length front <= length x.
