(** Small independent definitions for the DKIM rules. *)
From Verif Require Import PyStr PyRe Model_Dkim.

(** An address without blanks or line ends, as mail programs write them. *)
Definition plain_address (a : str) : Prop := ~ In 32%N a /\ ~ In 9%N a /\ ~ In 10%N a.
(** The domain of an address is what follows its last "@". *)
Definition domain_of (a d : str) : Prop := d <> [] /\ ~ In 64%N d /\ exists u, a = u ++ $"@" ++ d.
(** A domain the message says it comes from *)
Definition author_domain (m : dmsg) (d : str) : Prop := exists a, In a (dm_from m) /\ domain_of a d.

(** The signature names the domain [d]. *)
Definition names (m : dmsg) (d : str) : Prop := dm_tags m = Some (Some d).
(** The signature can be read, and nothing unexpected happens while it is verified. *)
Definition checkable (m : dmsg) : Prop := dm_tags m <> None /\ dm_verify m <> Raised.
(** The message carries a correct signature of the author's domain. *)
Definition properly_signed (m : dmsg) : Prop :=
  (exists d, names m d /\ author_domain m d) /\ dm_verify m = Passed /\ dm_fields m = true.

(** The process before it sees a message, and a new context in a process that has seen
    messages of the domains [l] *)
Definition new_process : dstate := {| ds_domains := []; ds_me := dkim0 |}.
Definition new_context (l : list str) : dstate := {| ds_domains := l; ds_me := dkim0 |}.

(** [w] reads like [e]: a "*" is any text, a "." any character, all others themselves. *)
Fixpoint loosely (e w : str) : Prop :=
  match e with
  | [] => w = []
  | c :: e' =>
      exists a b, w = a ++ b /\ loosely e' b /\
        (if N.eqb c 42 then ~ In 10%N a else if N.eqb c 46 then exists d, a = [d] /\ d <> 10%N else a = [c])
  end.
(** Only characters without a meaning in expressions, but for "." and "*" *)
Definition plain_pattern (p : str) : Prop := forall c, In c p -> c = 42%N \/ c = 46%N \/ ~ In c re_special.
Definition begins_like (e a : str) : Prop := exists w y, a = w ++ y /\ loosely e w.
Definition has_like (e a : str) : Prop := exists x w y, a = x ++ w ++ y /\ loosely e w.

(** What the list says about the pattern [p]: the last line with it counts, and of that the
    last word. *)
Definition listed (unlisted entries : list str) (p v : str) : Prop :=
  exists l1 e l2 doms, entries = l1 ++ e :: l2 /\ words e = p :: doms /\ v = last doms [] /\
    (forall e', In e' l2 -> hd_error (words e') <> Some p) /\ ~ In p unlisted.
(** Every line has a pattern, of plain characters. *)
Definition plain_list (entries : list str) : Prop := forall e, In e entries -> exists p doms, words e = p :: doms /\ plain_pattern p.

(** The last two labels of a name, with the dot between them *)
Definition last_two (name t : str) : Prop :=
  exists pre a b, name = join ($".") (pre ++ [a; b]) /\ (forall x, In x (pre ++ [a; b]) -> ~ In 46%N x) /\ t = a ++ $"." ++ b.
Definition occurs (t s : str) : Prop := exists x y, s = x ++ t ++ y.

(** The practices that an override can give a domain, but for "discardable" and "unknown" *)
Definition practice_name (c name : str) : Prop :=
  (c = $"A" /\ name = $"all") \/ (c = $"N" /\ name = $"nxdomain") \/
  (c = $"1" /\ name = $"custom_low") \/ (c = $"2" /\ name = $"custom_med") \/ (c = $"3" /\ name = $"custom_high").
(** A domain the rule is about: those of the authors, or only the one given *)
Definition concerned (m : dmsg) (only d : str) : Prop := author_domain m d /\ (only = [] \/ only = d).
