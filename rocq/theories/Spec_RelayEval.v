(** Small independent definitions for the relay evaluation properties. *)
From Verif Require Import PyStr Model_Net Spec_Net Model_Relays.

(** The text "a.b.c.d" *)
Definition ip4_text (a b c d : N) : str := dec a ++ $"." ++ dec b ++ $"." ++ dec c ++ $"." ++ dec d.
Definition octets4 (a b c d : N) : Prop := octet a /\ octet b /\ octet c /\ octet d.
(** RFC 1918 and friends, as users understand "private": *)
Definition private_range (a b : N) : Prop :=
  a = 10%N \/ a = 127%N \/ (a = 169 /\ b = 254)%N \/ (a = 192 /\ b = 168)%N \/ (a = 100 /\ 64 <= b <= 127)%N \/
  (a = 172 /\ 16 <= b <= 31)%N.
(** the same without 172.16.0.0/12 *)
Definition private_range' (a b : N) : Prop :=
  a = 10%N \/ a = 127%N \/ (a = 169 /\ b = 254)%N \/ (a = 192 /\ b = 168)%N \/ (a = 100 /\ 64 <= b <= 127)%N.

(** The relay named itself with the address a.b.c.d, which is not private. *)
Definition numeric_helo (r : relay) (a b c d : N) : Prop :=
  octets4 a b c d /\ rl_helo r = ip4_text a b c d /\ ~ private_range' a b.

(** The name of one of the providers, or a name below one. *)
Definition provider (h : str) : Prop :=
  exists n, In n [$"lycos.com"; $"lycos.co.uk"; $"hotmail.com"; $"localhost.com"; $"excite.com"; $"caramail.com";
                  $"cs.com"; $"aol.com"; $"msn.com"; $"yahoo.com"; $"drizzle.com"] /\
    (h = n \/ exists sub, h = sub ++ $"." ++ n).

(** Relays that do not matter for the provider check: private address or no HELO. *)
Definition passed_over (private : str -> bool) (r : relay) : Prop := private (rl_ip r) = true \/ rl_helo r = [].

(** Host names: labels joined by dots, more than two of them, and the last starting in
    a way that makes the name's domain its last two labels. *)
Definition label (w : str) : Prop := ~ In 46%N w.
Definition generic_end (t : str) : Prop :=
  (3 <= length t /\ forall x, In x (firstn 3 t) -> is_space x = false) \/
  exists r, t = $"ie" ++ r \/ t = $"fr" ++ r \/ t = $"de" ++ r.
Definition starts_with_letter (h : str) : Prop :=
  exists c r, h = c :: r /\ ((65 <= c <= 90)%N \/ (97 <= c <= 122)%N).
(** [d] is what the name [h] is reduced to. *)
Definition reduced (h d : str) : Prop :=
  (~ starts_with_letter h /\ d = h) \/
  (starts_with_letter h /\ exists pre w t, (forall x, In x (pre ++ [w; t]) -> label x) /\ generic_end t /\
     h = join ($".") (pre ++ [w; t]) /\ d = w ++ $"." ++ t) \/
  (starts_with_letter h /\ exists pre v w t, (forall x, In x (pre ++ [v; w; t]) -> label x) /\ ~ generic_end t /\
     h = join ($".") (pre ++ [v; w; t]) /\ d = v ++ $"." ++ w ++ $"." ++ t) \/
  (starts_with_letter h /\ (label h \/ exists w t, label w /\ label t /\ ~ generic_end t /\ h = w ++ $"." ++ t) /\ d = h).

(** A plain host name: word characters, dots and hyphens, beginning and ending in a word
    character, with a dot not before the third character. *)
Definition word_char (c : char) : Prop := (48 <= c <= 57)%N \/ (65 <= c <= 90)%N \/ (97 <= c <= 122)%N \/ c = 95%N.
Definition plain_host (h : str) : Prop :=
  exists c p t, h = c :: p ++ $"." ++ t /\ word_char c /\ p <> [] /\ (forall x, In x p -> word_char x \/ x = 46%N \/ x = 45%N) /\
    t <> [] /\ (forall x, In x t -> word_char x).
(** The hand-over between two neighbouring relays does not fit: the domain of the host
    that received the message is a plain name, so is the name of the host that sent it on,
    and they differ (one pair of names excepted). *)
Definition broken (sent_on received : relay) : Prop :=
  exists d, reduced (rl_by received) d /\ plain_host d /\ plain_host (rl_rdns sent_on) /\ d <> rl_rdns sent_on /\
    ~ (d = $"msn.com" /\ rl_rdns sent_on = $"hotmail.com").
Definition two_broken (rs : list relay) : Prop :=
  exists i j p q p' q', i < j /\ nth_error rs i = Some p /\ nth_error rs (S i) = Some q /\ broken p q /\
    nth_error rs j = Some p' /\ nth_error rs (S j) = Some q' /\ broken p' q'.
(** Every host that received the message is the one that sent it on. *)
Definition fitting (rs : list relay) : Prop :=
  forall i p q, nth_error rs i = Some p -> nth_error rs (S i) = Some q -> rl_by q = rl_rdns p.
(** No line breaks in names. *)
Definition one_lined (r : relay) : Prop := ~ In 10%N (rl_rdns r) /\ ~ In 10%N (rl_by r).
(** What follows the last "@" of an address, or all of it. *)
Definition address_domain (a d : str) : Prop :=
  (exists u, a = u ++ $"@" ++ d /\ ~ In 64%N d) \/ (~ In 64%N a /\ d = a).
(** A test that needs a colon in the text *)
Definition needs_colon (private6 : str -> bool) : Prop := forall s, ~ In 58%N s -> private6 s = false.
