(** Small independent definitions for the Razor, Pyzor and SpamCop plugins and the
    subject lists. *)
From Verif Require Import PyStr Model_Feedback.

(** razor-check ends with 0 if the message is listed, with 1 if not. *)
Definition listed_by (r : run) : Prop := r = Ended 0.

(** The server lists the message often enough and has no report that it is not spam. *)
Definition accuses (max : Z) (reply : str -> answer) (s : str) : Prop :=
  exists count wl, reply s = Some (count, wl) /\ (max <= count)%Z /\ wl = 0%Z.
(** The servers before an entry of the list all answer. *)
Definition reached (reply : str -> answer) (servers : list str) (s : str) : Prop :=
  exists l1 l2, servers = l1 ++ s :: l2 /\ forall x, In x l1 -> reply x <> None.

(** An address: something, "@", something, on one line. *)
Definition addressed (to : str) : Prop :=
  exists a b rest, to = a ++ $"@" ++ b ++ rest /\ a <> [] /\ b <> [] /\ ~ In 10%N a /\ ~ In 10%N b.
(** The date a Received header ends with *)
Definition header_date (parse : str -> option Z) (h : str) (d : Z) : Prop :=
  exists a t, h = a ++ $";" ++ t /\ ~ In 59%N a /\ ~ In 59%N t /\ parse t = Some d.

(** Some line of the configuration of some context gives the expression. *)
Definition given (lines : list (str * str)) (key item : str) : Prop := In (key, item) lines.
Definition subject_key (key : str) : Prop := key = $"whitelist_subject" \/ key = $"blacklist_subject".
