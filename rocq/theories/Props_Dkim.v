(** Theorems about the DKIM rules. *)
From Verif Require Import PyStr PyRe Model_Dkim Spec_Dkim Proofs_Dkim.

(** Messages for the examples *)
Definition from_bank (sig : str) (tags : option (option str)) (v : outcome) (f : bool) : dmsg :=
  {| dm_from := [$"joe@bank.com"]; dm_signature := sig; dm_tags := tags; dm_verify := v; dm_fields := f |}.
Definition good_mail : dmsg := from_bank ($"v=1; d=bank.com; b=abc") (Some (Some ($"bank.com"))) Passed true.
Definition forged_mail : dmsg := from_bank ($"v=1; d=bank.com; b=abc") (Some (Some ($"bank.com"))) Failed true.
Definition unsigned_mail : dmsg := from_bank [] (Some None) Failed false.
Definition third_party : dmsg := from_bank ($"v=1; d=lists.org; b=abc") (Some (Some ($"lists.org"))) Passed true.
Definition malformed_mail : dmsg := from_bank ($"nonsense") None Failed false.
Definition no_answer : dmsg := from_bank ($"v=1; d=bank.com; b=abc") (Some (Some ($"bank.com"))) Raised true.
Lemma bank_plain sig t v f : Forall plain_address (dm_from (from_bank sig t v f)).
Proof. constructor; [|constructor]. repeat split; vm_compute; intuition discriminate. Qed.

(** C98: the author's domain is the same when blanks follow the address. *)
Theorem C98_blanks m a d t : plain_address a -> domain_of a d -> Forall (fun c => c = 32%N \/ c = 9%N) t ->
  dm_from m = [a ++ t] -> ds_domains (get_authors m new_process) = [d].
Proof. intros P D B E. rewrite first_domains, E. unfold authors. cbn [flat_map]. rewrite (author_of_blanks a d t P D B). reflexivity. Qed.
Print Assumptions C98_blanks.
Example C98_blanks_case : plain_address ($"joe@bank.com") /\ domain_of ($"joe@bank.com") ($"bank.com") /\
  ds_domains (get_authors {| dm_from := [$"joe@bank.com" ++ [32%N; 9%N]]; dm_signature := []; dm_tags := None; dm_verify := Failed; dm_fields := false |} new_process) = [$"bank.com"].
Proof.
  split; [repeat split; vm_compute; intuition discriminate|]. split; [|vm_compute; reflexivity].
  repeat split; [discriminate | vm_compute; intuition discriminate | exists ($"joe"); reflexivity].
Qed.

(** C97 *)
(** Asked first about a message, the rule says "valid" exactly if the signature is
    correct and names a domain of the From header. *)
Theorem C97_valid m : Forall plain_address (dm_from m) -> checkable m ->
  (fst (check_dkim_valid [] m new_process) = true <-> properly_signed m).
Proof. exact (valid_first m). Qed.
Print Assumptions C97_valid.
Example C97_example : checkable good_mail /\ checkable forged_mail /\ checkable unsigned_mail /\ checkable third_party /\
  map (fun m => fst (check_dkim_valid [] m new_process)) [good_mail; forged_mail; unsigned_mail; third_party] = [true; false; false; false].
Proof. unfold checkable. repeat split; try discriminate. Qed.

(** C98 *)
(** "Signed": there is a signature, unless it names a domain that is not the author's. *)
Theorem C98_signed_partial m : Forall plain_address (dm_from m) -> checkable m ->
  (fst (check_dkim_signed [] m new_process) = true <->
   dm_signature m <> [] /\ (dm_tags m = Some None \/ exists d, names m d /\ author_domain m d)).
Proof. exact (signed_first m). Qed.
Print Assumptions C98_signed_partial.
(** A message with a correct signature of somebody else, say a mailing list, is not "signed". *)
Theorem C98_signed_refuted : exists m, checkable m /\ Forall plain_address (dm_from m) /\
  dm_signature m <> [] /\ dm_verify m = Passed /\ dm_fields m = true /\ fst (check_dkim_signed [] m new_process) = false.
Proof. exists third_party. unfold checkable. repeat split; try discriminate. apply bank_plain. Qed.
Print Assumptions C98_signed_refuted.
(** "Valid signature of the author's domain": it is enough that the signature has all its
    fields, and names no domain but an author's. *)
Theorem C98_author_partial m : Forall plain_address (dm_from m) -> checkable m ->
  (fst (check_dkim_valid_author_sig [] m new_process) = true <->
   (dm_tags m = Some None \/ exists d, names m d /\ author_domain m d) /\ dm_verify m <> Rejected /\ dm_fields m = true).
Proof. exact (author_first m). Qed.
Print Assumptions C98_author_partial.
Theorem C98_author_sound m : Forall plain_address (dm_from m) -> checkable m ->
  properly_signed m -> fst (check_dkim_valid_author_sig [] m new_process) = true.
Proof.
  intros F C (H & V & FO). apply (author_first m F C). split; [right; exact H|]. split; [rewrite V; discriminate | exact FO].
Qed.
Print Assumptions C98_author_sound.
(** A forged message with a signature that does not verify has one. *)
Theorem C98_author_refuted : exists m, checkable m /\ Forall plain_address (dm_from m) /\
  dm_verify m = Failed /\ fst (check_dkim_valid_author_sig [] m new_process) = true.
Proof. exists forged_mail. unfold checkable. repeat split; try discriminate. apply bank_plain. Qed.
Print Assumptions C98_author_refuted.
(** "Dependable": also of a message without any signature. *)
Theorem C98_dependable_partial m : Forall plain_address (dm_from m) -> checkable m ->
  (fst (check_dkim_dependable m new_process) = true <-> dm_tags m = Some None \/ exists d, names m d /\ author_domain m d).
Proof. exact (dependable_first m). Qed.
Print Assumptions C98_dependable_partial.
Theorem C98_dependable_refuted : exists m, checkable m /\ Forall plain_address (dm_from m) /\
  dm_signature m = [] /\ fst (check_dkim_dependable m new_process) = true.
Proof. exists unsigned_mail. unfold checkable. repeat split; try discriminate. apply bank_plain. Qed.
Print Assumptions C98_dependable_refuted.
Example C98_example :
  map (fun m => fst (check_dkim_signed [] m new_process)) [good_mail; forged_mail; unsigned_mail; third_party] = [true; true; false; false] /\
  map (fun m => fst (check_dkim_valid_author_sig [] m new_process)) [good_mail; forged_mail; unsigned_mail; third_party] = [true; true; false; false].
Proof. split; reflexivity. Qed.

(** C99 *)
(** If the signature cannot be checked, the rule that finds out does not hit. *)
Theorem C99_first_partial q m s : dk_checked (ds_me s) = false -> ~ checkable m -> fst (ask q m s) = Some false.
Proof. exact (raised_false q m s). Qed.
Print Assumptions C99_first_partial.
(** But all later ones take the message, and every later message, for correctly signed:
    it is enough to send a DKIM-Signature header that cannot be parsed. *)
Theorem C99_malformed_refuted q m l m' : dm_tags m = None ->
  fst (check_dkim_valid [] m' (asked ((q, m) :: l) new_process)) = true /\
  fst (check_dkim_valid_author_sig [] m' (asked ((q, m) :: l) new_process)) = true /\
  fst (check_dkim_dependable m' (asked ((q, m) :: l) new_process)) = true.
Proof. exact (malformed_valid q m l m'). Qed.
Print Assumptions C99_malformed_refuted.
(** The same if the author's domain has no answer for the key. *)
Theorem C99_unanswered_refuted q m l m' d : Forall plain_address (dm_from m) -> names m d -> author_domain m d -> dm_verify m = Raised ->
  fst (check_dkim_valid [] m' (asked ((q, m) :: l) new_process)) = true.
Proof. exact (unanswered_valid q m l m' d). Qed.
Print Assumptions C99_unanswered_refuted.
Example C99_example :
  ~ checkable malformed_mail /\ ~ checkable no_answer /\
  fst (ask (QSigned []) malformed_mail new_process) = Some false /\
  fst (ask (QValid []) malformed_mail (asked [(QSigned [], malformed_mail)] new_process)) = Some true /\
  fst (ask (QWhitelist [] [$"*@bank.com"]) malformed_mail (asked [(QSigned [], malformed_mail)] new_process)) = Some true /\
  fst (ask (QValid []) unsigned_mail (asked [(QSigned [], no_answer)] new_process)) = Some true.
Proof. unfold checkable. repeat split; intros [H1 H2]; [apply H1 | apply H2]; reflexivity. Qed.

(** C46 *)
(** Every later message of the context has the first message's answer. *)
Theorem C46_dkim_sticky q m l m' : checkable m ->
  fst (check_dkim_valid [] m' (asked ((q, m) :: l) new_process)) = fst (check_dkim_valid [] m new_process).
Proof. exact (valid_sticky q m l m'). Qed.
Print Assumptions C46_dkim_sticky.
Theorem C46_dkim_refuted : exists q m m', checkable m /\ checkable m' /\ Forall plain_address (dm_from m') /\
  ~ properly_signed m' /\ fst (check_dkim_valid [] m' (asked [(q, m)] new_process)) = true.
Proof.
  exists (QValid []), good_mail, unsigned_mail. unfold checkable. repeat split; try discriminate; [apply bank_plain|].
  intros ((d & N & _) & _). discriminate.
Qed.
Print Assumptions C46_dkim_refuted.
(** In every other context the signature is compared with the author of the message the
    process saw first. *)
Theorem C46_dkim_contexts l m : l <> [] -> checkable m ->
  (fst (check_dkim_valid [] m (new_context l)) = true <->
   (exists d, names m d /\ In d l) /\ dm_verify m = Passed /\ dm_fields m = true).
Proof. exact (other_context l m). Qed.
Print Assumptions C46_dkim_contexts.
Example C46_dkim_example : fst (check_dkim_valid [] third_party (new_context [$"lists.org"])) = true /\
  fst (check_dkim_valid [] good_mail (new_context [$"lists.org"])) = false.
Proof. split; reflexivity. Qed.

(** C100 *)
(** A sender is on the list if the message is properly signed and the beginning of an
    author's address reads like an entry, where "." is any character; if the entry has
    domains, the last must be a domain of the From header. *)
Theorem C100_whitelist_partial unlisted entries m : Forall plain_address (dm_from m) -> checkable m -> plain_list entries ->
  exists b, fst (check_whitelist unlisted entries m new_process) = Some b /\
  (b = true <-> properly_signed m /\
     exists a p v, In a (dm_from m) /\ listed unlisted entries p v /\ begins_like p a /\ (v = [] \/ author_domain m v)).
Proof. exact (whitelist_exact unlisted entries m). Qed.
Print Assumptions C100_whitelist_partial.
(** An entry for one address lets in another, of another domain. *)
Theorem C100_refuted : exists m e, checkable m /\ Forall plain_address (dm_from m) /\ plain_list [e] /\
  e = $"joe@bank.com" /\ dm_from m = [$"joe@bankXcom.evil.org"] /\ names m ($"bankXcom.evil.org") /\
  fst (check_whitelist [] [e] m new_process) = Some true.
Proof.
  exists {| dm_from := [$"joe@bankXcom.evil.org"]; dm_signature := $"d=bankXcom.evil.org"; dm_tags := Some (Some ($"bankXcom.evil.org"));
            dm_verify := Passed; dm_fields := true |}, ($"joe@bank.com").
  split; [split; discriminate|]. split; [constructor; [repeat split; vm_compute; intuition discriminate | constructor]|].
  split; [|repeat split; vm_compute; reflexivity].
  intros e [<- | []]. exists ($"joe@bank.com"), []. split; [reflexivity|]. intros c Hc. vm_compute in Hc.
  repeat (destruct Hc as [<- | Hc]; [try (right; left; reflexivity); right; right; vm_compute; intuition discriminate|]). destruct Hc.
Qed.
Print Assumptions C100_refuted.
(** In the contexts that are not the process's first, nobody is on the list. *)
Theorem C100_contexts_refuted l unlisted entries m : l <> [] -> checkable m -> plain_list entries ->
  fst (check_whitelist unlisted entries m (new_context l)) = Some false.
Proof. exact (whitelist_other_context l unlisted entries m). Qed.
Print Assumptions C100_contexts_refuted.
Example C100_example :
  fst (check_whitelist [] [$"*@bank.com bank.com"] good_mail new_process) = Some true /\
  fst (check_whitelist [] [$"*@bank.com bank.com other.org"] good_mail new_process) = Some false /\
  fst (check_whitelist [$"*@bank.com"] [$"*@bank.com bank.com"] good_mail new_process) = Some false /\
  fst (check_whitelist [] [$"*@bank.com bank.com"] forged_mail new_process) = Some false.
Proof. repeat split; vm_compute; reflexivity. Qed.

(** C101 *)
(** With domains as arguments: the last two labels of one must occur in the signature's
    domain, anywhere. *)
Theorem C101_domains_partial m args : args <> [] -> Forall plain_address (dm_from m) -> checkable m ->
  (fst (check_dkim_valid args m new_process) = true <->
   properly_signed m /\ exists x d t, In x args /\ names m d /\ last_two x t /\ occurs t d).
Proof. exact (valid_for m args). Qed.
Print Assumptions C101_domains_partial.
(** So a rule for bank.co.uk hits on evil.co.uk. *)
Theorem C101_refuted : exists m, checkable m /\ Forall plain_address (dm_from m) /\ names m ($"evil.co.uk") /\
  fst (check_dkim_valid [$"bank.co.uk"] m new_process) = true.
Proof.
  exists {| dm_from := [$"joe@evil.co.uk"]; dm_signature := $"d=evil.co.uk"; dm_tags := Some (Some ($"evil.co.uk"));
            dm_verify := Passed; dm_fields := true |}.
  split; [split; discriminate|]. split; [constructor; [repeat split; vm_compute; intuition discriminate | constructor]|]. split; reflexivity.
Qed.
Print Assumptions C101_refuted.
Example C101_example : fst (check_dkim_valid [$"bank.com"] good_mail new_process) = true /\
  fst (check_dkim_valid [$"other.org"; $"mail.bank.com"] good_mail new_process) = true /\
  fst (check_dkim_valid [$"other.org"] good_mail new_process) = false.
Proof. repeat split; vm_compute; reflexivity. Qed.

(** C102 *)
(** A practice other than "discardable" and "unknown": the message is not properly
    signed, and at most three overrides are configured, one of which gives the practice to
    a domain of the From header. *)
Theorem C102_override_partial unlisted overrides c name only m :
  practice_name c name -> Forall plain_address (dm_from m) -> checkable m -> plain_list overrides ->
  exists b, fst (check_dkim_adsp unlisted overrides c only m new_process) = Some b /\
  (b = true <-> ~ properly_signed m /\ length overrides <= 3 /\
     exists d p v, concerned m only d /\ listed unlisted overrides p v /\ has_like p d /\ lower v = name).
Proof. exact (adsp_named unlisted overrides c name only m). Qed.
Print Assumptions C102_override_partial.
(** Without overrides no practice is looked up: every message that is not properly signed
    is from a domain that asks for it to be discarded. *)
Theorem C102_discardable_refuted only m : Forall plain_address (dm_from m) -> checkable m ->
  (fst (check_dkim_adsp [] [] ($"D") only m new_process) = Some true <-> ~ properly_signed m /\ exists d, concerned m only d).
Proof. exact (adsp_discardable only m). Qed.
Print Assumptions C102_discardable_refuted.
Theorem C102_many_refuted unlisted overrides c only m s : 3 < length overrides -> fst (check_dkim_adsp unlisted overrides c only m s) = Some false.
Proof. exact (adsp_many unlisted overrides c only m s). Qed.
Print Assumptions C102_many_refuted.
Example C102_example :
  fst (check_dkim_adsp [] [$"bank.com all"] ($"A") [] unsigned_mail new_process) = Some true /\
  fst (check_dkim_adsp [] [$"bank.com ALL"; $"*.org nxdomain"] ($"N") [] unsigned_mail new_process) = Some false /\
  fst (check_dkim_adsp [] [] ($"D") [] unsigned_mail new_process) = Some true /\
  fst (check_dkim_adsp [] [] ($"D") [] good_mail new_process) = Some false.
Proof. repeat split; vm_compute; reflexivity. Qed.
