(** Small independent definitions for the DNS properties. *)
From Coq Require Import ZArith.
From Verif Require Import PyStr PyDict Model_Net Model_Dns.

(** [name] is [d] or a name below it. *)
Definition at_or_below (d name : str) : Prop := name = d \/ exists p, name = p ++ $"." ++ d.

(** A line of dns_query_restriction. *)
Definition restriction_line (denied : bool) (d : str) : str := (if denied then $"deny " else $"allow ") ++ d.
(** The last line about [d] says [denied]. *)
Definition last_says (lines : list str) (d : str) (denied : bool) : Prop :=
  exists before after, lines = before ++ restriction_line denied d :: after /\ forall x, ~ In (restriction_line x d) after.
(** The nearest domain with a line is denied. *)
Definition denied (lines : list str) (name : str) : Prop :=
  exists d, last_says lines d true /\ at_or_below d name /\
    forall d' b, last_says lines d' b -> at_or_below d' name -> length d' <= length d.

(** The answer passes the sub-test: a regular expression, if there is one. *)
Definition passes (re_ok : str -> str -> option bool) (subtest : option str) (answer : str) : Prop :=
  match subtest with None => True | Some t => re_ok t answer = Some true end.
(** The mask has a bit in common with the number, or is zero. *)
Definition shares_bit (mask : Z) (a : N) : Prop :=
  mask = 0%Z \/ exists i, N.testbit a i = true /\ Z.testbit mask (Z.of_N i) = true.
(** The number belongs to an address of its version. *)
Definition valid_addr (a : addr) : Prop := (a_val a < 2 ^ bits (a_ver a))%N.

(** The text before the first "-". *)
Definition before_dash (s p : str) : Prop :=
  (s = p \/ exists r, s = p ++ $"-" ++ r) /\ ~ In 45%N p.
(** The rules whose second argument is the server of the zone *)
Definition zone_rules : list str :=
  [$"check_rbl"; $"check_rbl_txt"; $"check_rbl_envfrom"; $"check_rbl_from_host"; $"check_rbl_from_domain"; $"check_rbl_accreditor"].
(** The eval rule says that zone [z] is served by [server]. *)
Definition declares (rule : str * list str) (z server : str) : Prop :=
  In (fst rule) zone_rules /\
  exists zone more p, snd rule = zone :: server :: more /\ before_dash zone p /\ z = strip p.

(** The part after the last "@", or everything. *)
Definition domain_part (address d : str) : Prop :=
  (~ In 64%N address /\ d = address) \/ (~ In 64%N d /\ exists local, address = local ++ $"@" ++ d).
(** The Accreditor header lists the tag: it is the text before the first comma of
    a part between semicolons, without the blanks around it. *)
Definition lists_tag (header tag : str) : Prop :=
  exists parts part p, header = join ($";") parts /\ (forall x, In x parts -> ~ In 59%N x) /\ In part parts /\
    (part = p \/ exists r, part = p ++ $"," ++ r) /\ ~ In 44%N p /\ tag = strip p.
