(** Small independent definitions for the URI properties. *)
From Verif Require Import PyStr PyDict Model_Uri.

(** The URI [u] is a web address [a] with a second one [b] inside. *)
Definition embeds (u a b : str) : Prop :=
  (exists rest, u = a ++ b ++ rest) /\
  (startswith ($"http://") a = true \/ startswith ($"https://") a = true) /\
  (startswith ($"http:") b = true \/ startswith ($"https:") b = true).
(** "http://" or "https://" *)
Definition scheme (secure : bool) : str := if secure then $"https://" else $"http://".
(** A plain host name: no character that ends or structures a host. *)
Definition host_name (h : str) : Prop := h <> [] /\ forall c, In c h -> ~ In c ($"/:?#[]" ++ [10%N]).

(** The texts shown for a link: what a reader sees between the tags. *)
Definition shows_host (is_ip : str -> bool) (url_netloc : str -> option str) (texts : list str) : Prop :=
  exists t w d, In t texts /\ In w (words t) /\ startswith ($"https://") w = true /\ url_netloc w = Some d /\ is_ip d = false.

(** A document without tags inside its anchors. *)
Inductive block :=
| Anchor (u : str) (texts : list str)        (** <a href="u">texts</a> *)
| Between (t : str)                          (** text outside anchors *)
| OtherTag (tag : str) (attrs : list (str * str)) (contents : list str).   (** another element *)
Definition block_events (b : block) : list html_event :=
  match b with
  | Anchor u texts => StartTag ($"a") [($"href", u)] :: map Data texts ++ [EndTag ($"a")]
  | Between t => [Data t]
  | OtherTag tag attrs contents => StartTag tag attrs :: map Data contents ++ [EndTag tag]
  end.
Definition block_ok (b : block) : Prop :=
  match b with
  | Anchor u texts => u <> [] /\ ~ In [] texts
  | Between _ => True
  | OtherTag tag _ _ => tag <> $"a" /\ tag <> $"link"
  end.
(** The texts of all anchors that lead to [u]. *)
Definition texts_of (u : str) (doc : list block) : list str :=
  concat (map (fun b => match b with Anchor v texts => if streqb v u then texts else [] | _ => [] end) doc).
Definition leads_to (u : str) (b : block) : Prop := match b with Anchor v _ => v = u | _ => False end.

(** A link whose anchor leads to an address while its text shows a secure web address
    with a host name. *)
Definition mismatch (is_ip : str -> bool) (url_netloc : str -> option str) (e : dict item) : Prop :=
  exists i, dget ($"a") e = Some i /\ is_ip (i_domain i) = true /\
    shows_host is_ip url_netloc (match i_text i with Some t => t | None => [] end).
