(** Small independent definitions for the address and host lists. *)
From Verif Require Import PyStr PyRe Model_Net Model_Relays.

(** What is assumed of [re.escape]: it escapes every character with a meaning in a
    pattern, and no letter, digit or underscore. *)
Definition escapes_right (escaped : char -> bool) : Prop :=
  (forall c, In c re_special -> escaped c = true) /\ (forall c, is_alnum c = true -> escaped c = false).

(** [w] reads like the entry [e], where a "*" stands for a string in [star], a "?" for
    a string in [one] and every other character for itself. *)
Fixpoint like (star one : str -> Prop) (e w : str) : Prop :=
  match e with
  | [] => w = []
  | c :: e' =>
      exists a b, w = a ++ b /\ like star one e' b /\
        (if N.eqb c 42 then star a else if N.eqb c 63 then one a else a = [c])
  end.
Definition one_line (a : str) : Prop := ~ In 10%N a.
(** What an entry means. *)
Definition any_text (a : str) : Prop := True.
Definition one_char (a : str) : Prop := length a = 1.
(** What it means to the code: "?" also stands for nothing. *)
Definition at_most_one (a : str) : Prop := length a <= 1 /\ one_line a.
Definition some_text (a : str) : Prop := a <> [] /\ one_line a.

(** Entries without one of these characters are left out. *)
Definition usable (e : str) : Prop := In 63%N e \/ In 64%N e \/ In 46%N e.
(** An entry without "@" is a domain. *)
Definition whole (e : str) : str := if mem_char 64%N e then e else $"*@" ++ e.
(** Some part of [a] reads like [e]. *)
Definition part_like (star : str -> Prop) (e a : str) : Prop :=
  exists x w y, a = x ++ w ++ y /\ like star at_most_one e w.

(** The list has an entry that a part of the address reads like. *)
Definition found_in (entries : list str) (a : str) : Prop := exists e, In e entries /\ usable e /\ part_like one_line (whole e) a.

(** ** Lists with relays *)
(** A line "pattern domain domain ...". *)
Definition entry_of (line pattern domain : str) : Prop :=
  exists doms, words line = pattern :: doms /\ In domain doms /\ usable pattern.
(** The relay is the domain: by address if the domain is a network and the relay has
    an address, by name otherwise. *)
Definition unbracket (d : str) : str := rstrip_chars ($" ]") (strip_chars ($"[ ") d).
Definition relay_is (parse_net6 : str -> option net) (ip_address : str -> option addr) (d : str) (r : relay) : Prop :=
  (exists n a, ip_network parse_net6 (format_network (unbracket d) []) = Some n /\ ip_address (rl_ip r) = Some a /\ in_net a n = true) \/
  ((ip_network parse_net6 (format_network (unbracket d) []) = None \/ ip_address (rl_ip r) = None) /\
   (lower (rl_rdns r) = unbracket d \/ exists x, lower (rl_rdns r) = x ++ $"." ++ unbracket d)).

(** The relay that handed the message over, or, if all are trusted, any. *)
Definition handed_over (u t : list relay) (r : relay) : Prop := match u with x :: _ => r = x | [] => In r t end.
(** A line of the list has a pattern for the address and a domain for the relay. *)
Definition rcvd_listed (parse_net6 : str -> option net) (ip_address : str -> option addr) (lines : list str) (u t : list relay) (a : str) : Prop :=
  exists line p d r, In line lines /\ entry_of line p d /\ part_like some_text p (lower a) /\
    handed_over u t r /\ relay_is parse_net6 ip_address d r.
Definition has_entry (lines : list str) : Prop := exists line p d, In line lines /\ entry_of line p d.

(** The name [n] is the domain [d] or below it. *)
Definition within (d n : str) : Prop := n = d \/ exists x, n = x ++ $"." ++ d.

(** ** URI host lists *)
(** "(NAME)" without its brackets. *)
Definition unparen (w : str) : str := rstrip_chars ($" )") (strip_chars ($"( ") w).
(** The configuration puts [item] on the list [name] ... *)
Definition put_on (enlist white black : list str) (name item : str) : Prop :=
  (exists line k items, In line enlist /\ words line = k :: items /\ unparen k = name /\ In item items) \/
  (name = $"WHITE" /\ exists line, In line white /\ In item (words line)) \/
  (name = $"BLACK" /\ exists line, In line black /\ In item (words line)).
(** ... and takes it off again. *)
Definition taken_off (delist : list str) (name item : str) : Prop :=
  exists line, In line delist /\
    if mem_char 40%N line
    then exists k items u, words line = k :: items /\ (unparen k = name \/ unparen k = $"ALL") /\ In u items /\ item = strip_chars ($".") u
    else exists u, In u (words line) /\ item = strip_chars ($"!") u.
Definition on_list (enlist delist white black : list str) (name item : str) : Prop :=
  put_on enlist white black name item /\ ~ taken_off delist name item.

(** The base domain of a host name given by its labels: one label more than a listed
    ending of three or of two labels, otherwise the last two labels. *)
Inductive base_of (tlds : list str) : list str -> list str -> Prop :=
| Bshort l : length l < 3 -> base_of tlds l l
| Bending a b c : In (join ($".") [a; b; c]) tlds -> base_of tlds [a; b; c] [a; b; c]
| Bthree p x a b c : In (join ($".") [a; b; c]) tlds -> base_of tlds (p ++ [x; a; b; c]) [x; a; b; c]
| Btwo p a b c : ~ In (join ($".") [a; b; c]) tlds -> In (join ($".") [b; c]) tlds -> base_of tlds (p ++ [a; b; c]) [a; b; c]
| Bone p a b c : ~ In (join ($".") [a; b; c]) tlds -> ~ In (join ($".") [b; c]) tlds -> base_of tlds (p ++ [a; b; c]) [b; c].
