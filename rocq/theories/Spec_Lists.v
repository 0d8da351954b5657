(** Small independent definitions for the lists from the configuration lines to the answers. *)
From Verif Require Import PyStr PyRe Model_Net Model_Relays Model_Wlbl Spec_Wlbl Spec_Address Model_Lists.

Definition line := (str * str)%type.

(** Some line of the option has the word [e]. *)
Definition configured_entry (lines : list line) (key e : str) : Prop := exists v, In (key, v) lines /\ In e (words v).
(** The list of the option has an entry that a part of the address reads like. *)
Definition listed (lines : list line) (key a : str) : Prop :=
  exists e, configured_entry lines key e /\ usable e /\ part_like one_line (whole e) a.

(** The last line of the option. *)
Definition last_line (lines : list line) (key v : str) : Prop :=
  exists l1 l2, lines = l1 ++ (key, v) :: l2 /\ forall v', ~ In (key, v') l2.
(** What is between the commas of a text. *)
Definition pieces (v : str) (ps : list str) : Prop := ps <> [] /\ join ($",") ps = v /\ Forall (fun p => ~ In 44%N p) ps.
(** The entries that count for an option whose lines replace each other: the pieces of the last line. *)
Definition last_pieces (lines : list line) (key : str) (ps : list str) : Prop :=
  (ps = [] /\ forall v, ~ In (key, v) lines) \/ exists v, last_line lines key v /\ pieces v ps.

(** The addresses that count as senders and as recipients, for headers that show entries [ess]. *)
Definition in_header (ess : str -> list (list entry)) (h a : str) : Prop := In a (flat_map addresses_in (ess h)).
Definition is_sender (ess : str -> list (list entry)) (a : str) : Prop :=
  in_header ess ($"Resent-From") a \/
  ((forall b, ~ in_header ess ($"Resent-From") b) /\
   exists h, In h [$"From"; $"Envelope-Sender"; $"X-Envelope-From"; $"EnvelopeFrom"] /\ in_header ess h a).
Definition is_recipient (ess : str -> list (list entry)) (a : str) : Prop :=
  in_header ess ($"Resent-To") a \/ in_header ess ($"Resent-Cc") a \/
  ((forall b, ~ in_header ess ($"Resent-To") b) /\ (forall b, ~ in_header ess ($"Resent-Cc") b) /\
   exists h, In h [$"To"; $"Apparently-To"; $"Delivered-To"; $"Envelope-Recipients"; $"Apparently-Resent-To"; $"X-Envelope-To";
                   $"Envelope-To"; $"X-Delivered-To"; $"X-Original-To"; $"X-Rcpt-To"; $"X-Real-To"; $"Cc"] /\ in_header ess h a).
(** The headers looked at. *)
Definition address_headers : list str :=
  [$"From"; $"Envelope-Sender"; $"Resent-From"; $"X-Envelope-From"; $"EnvelopeFrom";
   $"To"; $"Resent-To"; $"Resent-Cc"; $"Apparently-To"; $"Delivered-To"; $"Envelope-Recipients"; $"Apparently-Resent-To";
   $"X-Envelope-To"; $"Envelope-To"; $"X-Delivered-To"; $"X-Original-To"; $"X-Rcpt-To"; $"X-Real-To"; $"Cc"].
(** The lists of addresses a rule can name. *)
Definition address_lists : list str :=
  [$"whitelist_from"; $"whitelist_to"; $"blacklist_from"; $"blacklist_to"; $"all_spam_to"; $"more_spam_to"; $"whitelist_allow_relays"].
(** Rules that do not name a list that does not exist. *)
Definition known (r : lrule) : Prop :=
  match r with
  | FromIn n => n = [] \/ In n address_lists
  | ToIn n => In n address_lists
  | _ => True
  end.
(** The answer is given, and it says whether [P]. *)
Definition tells (answer : option bool) (P : Prop) : Prop := exists b, answer = Some b /\ (b = true <-> P).
(** What the last lines of the four options put on the host list [name]. *)
Definition host_listed (lines : list line) (name item : str) : Prop :=
  exists en de wh bl, last_pieces lines ($"enlist_uri_host") en /\ last_pieces lines ($"delist_uri_host") de /\
    last_pieces lines ($"whitelist_uri_host") wh /\ last_pieces lines ($"blacklist_uri_host") bl /\ on_list en de wh bl name item.
