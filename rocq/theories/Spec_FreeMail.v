(** Small independent definitions for the free mail rules. *)
From Verif Require Import PyStr Spec_Wlbl Model_FreeMail.

(** An address with one "@", on one line *)
Definition mailbox (a u d : str) : Prop := a = u ++ $"@" ++ d /\ ~ In 64%N u /\ ~ In 64%N d /\ ~ In 10%N d.
Definition address (a : str) : Prop := exists u d, mailbox a u d.
(** The domain [d] reads like the entry [e]: "*" is any text without a dot, "?" any one
    character. *)
Definition part (a : str) : Prop := ~ In 46%N a.
Definition single (a : str) : Prop := length a = 1.
Definition fits (e d : str) : Prop := like part single e d.

(** The address belongs to a free mail provider of the list: its domain is listed, or fits
    an entry with a "*". *)
Definition free_domain (domains : list str) (d : str) : Prop :=
  In d domains \/ exists e, In e domains /\ In 42%N e /\ fits e d.
Definition freemail (role : str -> bool) (whitelist domains : list str) (a : str) : Prop :=
  exists u d, mailbox a u d /\ ~ In a whitelist /\ ~ In d whitelist /\ role a = false /\ free_domain domains d.
(** Small letters, digits, dots, dashes and the two signs of patterns *)
Definition good_domain (d : str) : Prop :=
  d <> [] /\ forall c, In c d -> (97 <= c <= 122)%N \/ (48 <= c <= 57)%N \/ In c ($".*?-").
(** Entries are made of these characters. *)
Definition plain_domains (domains : list str) : Prop := forall d, In d domains -> good_domain d.
(** The data after [check_start] for any message of a context with these domains *)
Inductive started (domains : list str) : fdomains -> Prop :=
| started_first : started domains (check_start_domains {| fd_list := domains; fd_wild := None |})
| started_next s : started domains s -> started domains (check_start_domains s).

(** The body is looked at: not too many addresses, and not too many of free providers. *)
Definition looked_at (free : str -> Prop) (max_emails max_free : nat) (skip : bool) (body : list str) : Prop :=
  (skip = true -> length body < max_emails) /\
  (body = [] \/ exists f, (forall a, In a f <-> In a body /\ free a) /\ NoDup f /\ length f < max_free).
(** Python's order on strings, by code points *)
Inductive before : str -> str -> Prop :=
| before_nil b : before [] b
| before_less x a y b : (x < y)%N -> before (x :: a) (y :: b)
| before_same x a b : before a b -> before (x :: a) (x :: b).
(** The alphabetically first free mail address of the list *)
Definition first_free (free : str -> Prop) (l : list str) (a : str) : Prop :=
  In a l /\ free a /\ forall b, In b l -> free b -> before a b.
(** The free mail address that comes first in the list *)
Definition leading_free (free : str -> Prop) (l : list str) (a : str) : Prop :=
  exists l1 l2, l = l1 ++ a :: l2 /\ free a /\ forall b, In b l1 -> ~ free b.
(** Rules that look at the body *)
Inductive question :=
| AskBody (check : option (str -> bool))
| AskReply (m : mode) (from reply_to : str).
(** One rule, given what the ones before it left; and the answers of several, asked one
    after the other about one message. *)
Definition ask other role whitelist s me mf skip body (q : question) (kept : option (list str)) : bool * option (list str) :=
  match q with
  | AskBody check => check_freemail_body other role whitelist s me mf skip check body kept
  | AskReply m from rt => check_freemail_replyto other role whitelist s me mf skip false m from rt body kept
  end.
Fixpoint answers other role whitelist s me mf skip body (qs : list question) (kept : option (list str)) : list bool :=
  match qs with
  | [] => []
  | q :: r => fst (ask other role whitelist s me mf skip body q kept) ::
              answers other role whitelist s me mf skip body r (snd (ask other role whitelist s me mf skip body q kept))
  end.
