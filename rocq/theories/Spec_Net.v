(** Small independent definitions for the network properties. *)
From Verif Require Import PyStr Model_Net.

(** The address a.b.c.d *)
Definition ip4 (a b c d : N) : addr := mkA V4 (a * 2 ^ 24 + b * 2 ^ 16 + c * 2 ^ 8 + d).
Definition octet (n : N) : Prop := (n < 256)%N.
Definition loopback (a : addr) : Prop :=
  (exists b c d, octet b /\ octet c /\ octet d /\ a = ip4 127 b c d) \/ a = mkA V6 1.

(** The first entry of the list that contains the address. *)
Definition first_containing (l : netlist) (a : addr) (accepted : bool) : Prop :=
  exists before n after, l = before ++ (Some n, accepted) :: after /\ in_net a n = true /\
    forall m x, In (m, x) before -> exists n', m = Some n' /\ in_net a n' = false.

(** "!" or nothing *)
Definition mark (excluded : bool) : str := if excluded then $"!" else [].
Definition dot : str := $".".
