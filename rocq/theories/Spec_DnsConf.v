(** Small independent definitions for the properties of the resolver's configuration. *)
From Coq Require Import ZArith.
From Verif Require Import PyStr Model_Net.
Open Scope nat_scope.

(** ** Lines that name a DNS server *)
Definition dotted (a : str) : Prop := a <> [] /\ Forall (fun c => 48 <= c <= 57 \/ c = 46)%N a.
Definition hexadecimal (c : char) : Prop := (48 <= c <= 57 \/ 97 <= c <= 102 \/ 65 <= c <= 70)%N.
(** An IPv6 address has two colons or more. *)
Definition colons (a : str) : Prop := Forall (fun c => hexadecimal c \/ c = 58%N) a /\ 2 <= count_occ N.eq_dec a 58%N.
Definition port_text (p : option N) : str := match p with Some n => $":" ++ dec n | None => [] end.
(** The line, the address and the port it states. *)
Inductive written : str -> str -> option N -> Prop :=
| plain4 a p : dotted a -> written (a ++ port_text p) a p
| brackets4 a p : dotted a -> written ($"[" ++ a ++ $"]" ++ port_text p) a p
| plain6 a : colons a -> written a a None
| brackets6 a p : colons a -> written ($"[" ++ a ++ $"]" ++ port_text p) a p.
(** A line that is nothing of the kind, even if brackets are missing. *)
Definition unreadable (line : str) : Prop :=
  ~ exists o a c p, line = o ++ a ++ c ++ p /\ (o = [] \/ o = $"[") /\ (c = [] \/ c = $"]") /\
      (dotted a \/ a <> [] /\ Forall (fun c => hexadecimal c \/ c = 58%N) a) /\
      (p = [] \/ exists d, p = $":" ++ d /\ d <> [] /\ Forall (fun c => 48 <= c <= 57)%N d).
Definition entry (line : str) (e : option (str * option N)) : Prop :=
  match e with Some (a, p) => written line a p | None => unreadable line /\ ~ In 10%N line end.

(** The port is the first one that is stated; lines that state another one are left out. *)
Fixpoint stated (es : list (option (str * option N))) : option N :=
  match es with
  | [] => None
  | Some (_, Some p) :: _ => Some p
  | _ :: r => stated r
  end.
Definition agrees (port : option N) (e : option (str * option N)) : list str :=
  match e with
  | None => []
  | Some (a, None) => [a]
  | Some (a, Some p) => match port with Some q => if N.eqb p q then [a] else [] | None => [] end
  end.
Definition chosen (es : list (option (str * option N))) : list str := flat_map (agrees (stated es)) es.

(** Seconds of a unit of time. *)
Inductive unit_of_time : char -> Z -> Prop :=
| second : unit_of_time 115%N 1
| minute : unit_of_time 109%N 60
| hour : unit_of_time 104%N 3600
| day : unit_of_time 100%N 86400
| week : unit_of_time 119%N 604800.
