(** Address and host lists: theorems for C45 and C77 to C81. *)
From Verif Require Import PyStr PyDict PyRe Model_Net Model_Relays Model_Wlbl Spec_Wlbl Proofs_PyRe Proofs_Wlbl.

(** An escape function for the examples. *)
Definition esc (c : char) : bool := negb (is_alnum c).
Example esc_right : escapes_right esc.
Proof.
  split; [|intros c H; unfold esc; rewrite H; reflexivity].
  intros c H. vm_compute in H. repeat (destruct H as [<- | H]; [reflexivity|]). destruct H.
Qed.

(** ** C45 *)
(** What a list hits: an entry with "?", "@" or "." that a part of an address reads
    like, "?" standing also for nothing. *)
Theorem C45_found : forall escaped entries addresses, escapes_right escaped ->
  exists b, check_in escaped entries addresses = Some b /\ (b = true <-> exists a, In a addresses /\ found_in entries a).
Proof. intros escaped entries addresses H. exact (check_in_exact escaped H entries addresses). Qed.
Print Assumptions C45_found.

Lemma like_weaken e : forall w, one_line w -> like any_text one_char e w -> like one_line at_most_one e w.
Proof.
  induction e as [|c e IH]; intros w Hw H; [exact H|]. cbn [like] in *. destruct H as (a & b & -> & H1 & H2). exists a, b. split; [reflexivity|].
  assert (Ha : one_line a) by (intros X; apply Hw, in_or_app; left; exact X). assert (Hb : one_line b) by (intros X; apply Hw, in_or_app; right; exact X).
  split; [exact (IH b Hb H1)|]. destruct (N.eqb c 42); [exact Ha|]. destruct (N.eqb c 63); [|exact H2]. split; [unfold one_char in H2; lia | exact Ha].
Qed.
(** Whoever an entry describes is hit.  Missing: nobody else is, and case is ignored. *)
Theorem C45_matches_partial : forall escaped entries addresses e a, escapes_right escaped ->
  In e entries -> usable e -> In a addresses -> one_line a -> like any_text one_char (whole e) a ->
  check_in escaped entries addresses = Some true.
Proof.
  intros escaped entries addresses e a H He Hu Ha Hn Hl. destruct (check_in_exact escaped H entries addresses) as (b & -> & Hb). f_equal. apply Hb.
  exists a. split; [exact Ha|]. exists e. split; [exact He|]. split; [exact Hu|]. exists [], a, []. split; [symmetry; apply app_nil_r|].
  exact (like_weaken _ _ Hn Hl).
Qed.
Print Assumptions C45_matches_partial.
Lemma like_self e : ~ In 42%N e -> ~ In 63%N e -> like one_line at_most_one e e.
Proof.
  induction e as [|c e IH]; intros H1 H2; [reflexivity|]. cbn [like]. exists [c], e. split; [reflexivity|].
  split; [apply IH; intros X; [apply H1 | apply H2]; right; exact X|].
  destruct (N.eqb_spec c 42) as [-> | _]; [exfalso; apply H1; left; reflexivity|]. destruct (N.eqb_spec c 63) as [-> | _]; [exfalso; apply H2; left; reflexivity|]. reflexivity.
Qed.
(** Anything around a plain address is ignored: every address that merely contains a
    listed one is hit, whoever owns it. *)
Theorem C45_whole_address_refuted : forall escaped e x y, escapes_right escaped ->
  In 64%N e -> ~ In 42%N e -> ~ In 63%N e -> check_in escaped [e] [x ++ e ++ y] = Some true.
Proof.
  intros escaped e x y H H64 H42 H63. destruct (check_in_exact escaped H [e] [x ++ e ++ y]) as (b & -> & Hb). f_equal. apply Hb.
  exists (x ++ e ++ y). split; [left; reflexivity|]. exists e. split; [left; reflexivity|]. split; [right; left; exact H64|].
  exists x, e, y. split; [reflexivity|]. unfold whole. rewrite (proj2 (mem_char_In 64%N e) H64). exact (like_self e H42 H63).
Qed.
Print Assumptions C45_whole_address_refuted.
Example C45_whole_example : check_in esc [$"boss@example.com"] [$"not-the-boss@example.com.evil.org"] = Some true.
Proof. reflexivity. Qed.
(** Case counts, "?" stands for nothing, and entries without "?", "@" and "." are left
    out. *)
Theorem C45_case_refuted : check_in esc [$"Boss@Example.com"] [$"boss@example.com"] = Some false.
Proof. reflexivity. Qed.
Print Assumptions C45_case_refuted.
Theorem C45_question_mark_refuted : check_in esc [$"agent?@example.com"] [$"agent@example.com"] = Some true.
Proof. reflexivity. Qed.
Print Assumptions C45_question_mark_refuted.
Theorem C45_plain_entry_refuted : forall escaped entries addresses,
  (forall e, In e entries -> ~ usable e) -> check_in escaped entries addresses = Some false.
Proof.
  intros escaped entries addresses H. unfold check_in, parse_list.
  assert (F : filter check_input entries = []).
  { clear addresses. induction entries as [|e l IH]; [reflexivity|]. cbn [filter]. destruct (check_input e) eqn:E.
    - exfalso. apply (H e); [left; reflexivity|]. apply check_input_usable, E.
    - apply IH. intros x Hx. apply H. right. exact Hx. }
  rewrite F. cbn [map]. induction addresses as [|a l IH]; [reflexivity | exact IH].
Qed.
Print Assumptions C45_plain_entry_refuted.
Example C45_plain_example : check_in esc [$"*"; $"localhost"] [$"root@localhost"] = Some false.
Proof. reflexivity. Qed.
Example C45_domain_example : check_in esc [$"*.example.com"] [$"a@b"; $"me@mail.example.com"] = Some true.
Proof. reflexivity. Qed.

(** ** C79: which addresses are looked at *)
Theorem C79_from : forall h a, In a (from_addresses h) <->
  In a (h ($"Resent-From")) \/
  (h ($"Resent-From") = [] /\ exists k, In k [$"From"; $"Envelope-Sender"; $"Resent-From"; $"X-Envelope-From"; $"EnvelopeFrom"] /\ In a (h k)).
Proof.
  intros h a. unfold from_addresses. destruct (h ($"Resent-From")) as [|b l] eqn:E.
  - rewrite in_concat. split.
    + intros (x & Hx & Ha). apply in_map_iff in Hx as (k & <- & Hk). right. split; [reflexivity|]. exists k. auto.
    + intros [[] | (_ & k & Hk & Ha)]. exists (h k). split; [apply in_map, Hk | exact Ha].
  - split; [auto | intros [H | [H _]]; [exact H | discriminate]].
Qed.
Print Assumptions C79_from.
Theorem C79_to : forall h a, In a (to_addresses h) <->
  In a (h ($"Resent-To")) \/ In a (h ($"Resent-Cc")) \/
  (h ($"Resent-To") = [] /\ h ($"Resent-Cc") = [] /\
   exists k, In k [$"To"; $"Resent-To"; $"Resent-Cc"; $"Apparently-To"; $"Delivered-To"; $"Envelope-Recipients"; $"Apparently-Resent-To";
                   $"X-Envelope-To"; $"Envelope-To"; $"X-Delivered-To"; $"X-Original-To"; $"X-Rcpt-To"; $"X-Real-To"; $"Cc"] /\ In a (h k)).
Proof.
  intros h a. unfold to_addresses. destruct (h ($"Resent-To") ++ h ($"Resent-Cc")) as [|b l] eqn:E.
  - apply app_eq_nil in E as [E1 E2]. rewrite E1, E2, in_concat. split.
    + intros (x & Hx & Ha). apply in_map_iff in Hx as (k & <- & Hk). right. right. split; [reflexivity|]. split; [reflexivity|]. exists k. auto.
    + intros [[] | [[] | (_ & _ & k & Hk & Ha)]]. exists (h k). split; [apply in_map, Hk | exact Ha].
  - rewrite <- E, in_app_iff. split; [intros [H | H]; auto|]. intros [H | [H | (H1 & H2 & _)]]; auto. rewrite H1, H2 in E. discriminate.
Qed.
Print Assumptions C79_to.
Example C79_example : from_addresses (fun k => if streqb k ($"From") then [$"a@b.c"] else if streqb k ($"Resent-From") then [$"d@e.f"] else []) = [$"d@e.f"] /\
  to_addresses (fun k => if streqb k ($"Cc") then [$"a@b.c"] else []) = [$"a@b.c"].
Proof. split; reflexivity. Qed.

(** ** C77: whitelists with relays *)
Theorem C77_whitelist : forall escaped parse_net6 ip_address c u t addresses, escapes_right escaped ->
  exists m b, check_white escaped parse_net6 ip_address c u t addresses marks0 = Some (b, m) /\
    (b = true <-> exists a, In a addresses /\
       (found_in (whitelist_from c) a \/ rcvd_listed parse_net6 ip_address (whitelist_from_rcvd c) u t a)).
Proof. intros escaped p6 ipa c u t addresses H. exact (whitelist_exact escaped H p6 ipa c u t addresses). Qed.
Print Assumptions C77_whitelist.
Theorem C77_default_whitelist : forall escaped parse_net6 ip_address c u t addresses, escapes_right escaped ->
  exists m b, check_default escaped parse_net6 ip_address c u t addresses marks0 = Some (b, m) /\
    (b = true <-> exists a, In a addresses /\ rcvd_listed parse_net6 ip_address (def_whitelist_from_rcvd c) u t a).
Proof. intros escaped p6 ipa c u t addresses H. exact (default_exact escaped H p6 ipa c u t addresses). Qed.
Print Assumptions C77_default_whitelist.
(** The forged check hits when nothing is whitelisted, the whitelist has some entry,
    and the default whitelist none (or the address may use any relay); whether an
    address is on the whitelist does not matter.  Missing: that it is. *)
Theorem C77_forged_partial : forall escaped parse_net6 ip_address c u t addresses, escapes_right escaped ->
  let unlisted lines a := ~ rcvd_listed parse_net6 ip_address lines u t a /\ has_entry lines /\ u ++ t <> [] /\ ~ found_in (allow_relays c) (lower a) in
  exists m b, check_forged escaped parse_net6 ip_address c u t addresses marks0 = Some (b, m) /\
    (b = true <->
     (~ exists a, In a addresses /\ (found_in (whitelist_from c) a \/ rcvd_listed parse_net6 ip_address (whitelist_from_rcvd c) u t a)) /\
     (exists a, In a addresses /\ unlisted (whitelist_from_rcvd c) a) /\
     (~ exists a, In a addresses /\ rcvd_listed parse_net6 ip_address (def_whitelist_from_rcvd c) u t a) /\
     (~ exists a, In a addresses /\ unlisted (def_whitelist_from_rcvd c) a)).
Proof. intros escaped p6 ipa c u t addresses H. exact (forged_exact escaped H p6 ipa c u t addresses). Qed.
Print Assumptions C77_forged_partial.

Definition a_relay (ip rdns : str) : relay := mkRelay rdns ip [] [] [] [] [] [] false None.
Definition no6 (s : str) : option net := None.
Definition ip4 (s : str) : option addr := option_map (mkA V4) (parse_ip4 s).
Definition white_conf : wlconf := mkWl [] [$"*@bank.example  mx.bank.example [10.1.]"] [] [].
Example C77_by_name : option_map fst (check_white esc no6 ip4 white_conf [a_relay ($"192.0.2.1") ($"out.MX.bank.example")] [] [$"it@Bank.example"] marks0) = Some true.
Proof. reflexivity. Qed.
Example C77_by_address : option_map fst (check_white esc no6 ip4 white_conf [a_relay ($"10.1.2.3") ($"unknown")] [] [$"it@bank.example"] marks0) = Some true.
Proof. reflexivity. Qed.
Example C77_other_relay : option_map fst (check_white esc no6 ip4 white_conf [a_relay ($"192.0.2.1") ($"mail.evil.org"); a_relay ($"10.1.2.3") ($"mx.bank.example")] []
  [$"it@bank.example"] marks0) = Some false.
Proof. reflexivity. Qed.
(** A message of somebody the whitelist does not mention is taken for forged. *)
Theorem C77_forged_refuted : exists c u addresses,
  option_map fst (check_forged esc no6 ip4 c u [] addresses marks0) = Some true /\
  forall line p d a, In line (whitelist_from_rcvd c) -> entry_of line p d -> In a addresses -> ~ part_like some_text p (lower a).
Proof.
  exists (mkWl [] [$"it@bank.example mx.bank.example"] [] []), [a_relay ($"192.0.2.1") ($"mail.friend.org")], [$"ann@friend.org"].
  split; [reflexivity|]. intros line p d a [<- | []] (doms & E & _ & _) [<- | []] Hp. vm_compute in E. injection E as <- <-.
  destruct (rcvd_regex esc esc_right ($"it@bank.example") (lower ($"ann@friend.org"))) as (b & E & Hb). vm_compute in E. injection E as <-.
  assert (false = true) by (apply Hb; exact Hp). discriminate.
Qed.
Print Assumptions C77_forged_refuted.

(** ** C78: the checks of one message do not disturb each other *)
Theorem C78_any_order : forall escaped parse_net6 ip_address c u t addresses ks, escapes_right escaped ->
  exists m, run_checks escaped parse_net6 ip_address c u t addresses ks marks0 = Some m /\
    forall k, option_map fst (run_check escaped parse_net6 ip_address c u t addresses k m) =
              option_map fst (run_check escaped parse_net6 ip_address c u t addresses k marks0).
Proof.
  intros escaped p6 ipa c u t addresses ks H. destruct (no_exception escaped H p6 ipa c u t addresses ks) as [m E]. exists m. split; [exact E|].
  intros k. exact (history escaped H p6 ipa c u t addresses ks k m E).
Qed.
Print Assumptions C78_any_order.
Example C78_example : option_map in_white (run_checks esc no6 ip4 white_conf [a_relay ($"192.0.2.1") ($"mail.evil.org")] []
  [$"it@bank.example"] [ForgedInWhitelist; InWhitelist] marks0) = Some (-1)%Z.
Proof. reflexivity. Qed.

(** ** C80: the sender's domain and the relay's name *)
(** The base domain is the host or a domain above it (hosts that are not numeric). *)
Theorem C80_base_domain : forall tlds host, forallb isdigit (split_char 46%N host) = false -> within (base_domain tlds host) host.
Proof. exact base_domain_within. Qed.
Print Assumptions C80_base_domain.
(** Which domain it is *)
Theorem C80_base_domain_exact : forall tlds labels, labels <> [] -> Forall (fun l => ~ In 46%N l) labels -> forallb isdigit labels = false ->
  exists b, base_of tlds labels b /\ base_domain tlds (join ($".") labels) = join ($".") b.
Proof. exact base_domain_of. Qed.
Print Assumptions C80_base_domain_exact.
Example C80_base_domain_example :
  base_domain [] ($"mail.example.com") = $"example.com" /\ base_domain [$"co.uk"] ($"mail.example.co.uk") = $"example.co.uk" /\
  base_domain [$"sch.co.uk"] ($"a.mail.sch.co.uk") = $"mail.sch.co.uk".
Proof. repeat split; reflexivity. Qed.
(** A relay within the sender's base domain is accepted.  Missing: that no other is. *)
Theorem C80_matches_partial : forall tlds local host u t r, ~ In 64%N local -> ~ In 64%N host -> handed_over u t r ->
  within (base_domain tlds host) (rl_rdns r) -> mailfrom_matches_rcvd tlds (local ++ 64%N :: host) u t = Some true.
Proof.
  intros tlds local host u t r Hl Hh Hr Hw. destruct (mailfrom_exact tlds local host [] u t Hl Hh (or_introl eq_refl)) as (b & E & Hb).
  rewrite app_nil_r in E. rewrite E. f_equal. apply Hb. destruct Hw as [E1 | (x & E1)]; [exists r, [] | exists r, (x ++ $".")]; (split; [exact Hr|]).
  - exact E1.
  - rewrite E1, <- app_assoc. reflexivity.
Qed.
Print Assumptions C80_matches_partial.
Theorem C80_rejects : forall tlds local host u t, ~ In 64%N local -> ~ In 64%N host ->
  (forall r x, handed_over u t r -> rl_rdns r <> x ++ base_domain tlds host) -> mailfrom_matches_rcvd tlds (local ++ 64%N :: host) u t = Some false.
Proof.
  intros tlds local host u t Hl Hh H. destruct (mailfrom_exact tlds local host [] u t Hl Hh (or_introl eq_refl)) as (b & E & Hb).
  rewrite app_nil_r in E. rewrite E. f_equal. destruct b; [|reflexivity]. destruct (proj1 Hb eq_refl) as (r & x & H1 & H2). exfalso. exact (H r x H1 H2).
Qed.
Print Assumptions C80_rejects.
(** A foreign name that ends with the same letters is accepted too. *)
Theorem C80_matches_refuted : exists sender u r, handed_over u [] r /\ ~ within ($"example.com") (rl_rdns r) /\
  mailfrom_matches_rcvd [] sender u [] = Some true /\ sender = $"a@example.com".
Proof.
  exists ($"a@example.com"), [a_relay ($"192.0.2.1") ($"mx.evil-example.com")], (a_relay ($"192.0.2.1") ($"mx.evil-example.com")).
  split; [reflexivity|]. split; [|split; reflexivity]. intros [E | (x & E)]; [vm_compute in E; discriminate|].
  assert (E2 : rev ($"mx.evil-example.com") = rev ($"." ++ $"example.com") ++ rev x) by (rewrite <- rev_app_distr, <- E; reflexivity).
  vm_compute in E2. discriminate.
Qed.
Print Assumptions C80_matches_refuted.
(** An envelope sender without "@" makes the check fail. *)
Theorem C80_no_at : forall tlds sender u t, sender <> [] -> ~ In 64%N sender -> mailfrom_matches_rcvd tlds sender u t = None.
Proof.
  intros tlds sender u t Hs H. unfold mailfrom_matches_rcvd. assert (E : split_char 64%N sender = [sender]).
  { clear Hs. induction sender as [|c w IH]; [reflexivity|]. cbn [split_char].
    destruct (N.eqb_spec c 64) as [-> | Hc]; [exfalso; apply H; left; reflexivity|]. rewrite IH by (intros X; apply H; right; exact X). reflexivity. }
  rewrite E. destruct sender; [congruence | reflexivity].
Qed.
Print Assumptions C80_no_at.

(** ** C81: URI host lists *)
(** What a list hits: a URI that ends with a name on the list and is not, as a whole,
    one excluded with "!".  Missing: that the host of the URI is compared. *)
Theorem C81_listed_partial : forall enlist delist white black p name uris, uri_lists enlist delist white black = Some p ->
  uri_listed p name uris = true <->
  exists u n x, In u uris /\ on_list enlist delist white black name n /\ startswith ($"!") n = false /\ u = x ++ n /\
    ~ exists i, on_list enlist delist white black name i /\ startswith ($"!") i = true /\ u = strip_chars ($"!") i.
Proof. exact uri_listed_exact. Qed.
Print Assumptions C81_listed_partial.
Definition lists_ex : option enlisted :=
  uri_lists [$"(BAD) evil.org bad.net !good.bad.net"; $"(ODD) odd.org"] [$"(BAD) gone.org."; $"everywhere.org"] [$"nice.org everywhere.org"] [$"spam.org"].
Example C81_example : exists p, lists_ex = Some p /\
  uri_listed p ($"BAD") [$"http://www.evil.org"] = true /\ uri_listed p ($"ODD") [$"http://www.evil.org"] = false /\
  uri_listed p ($"WHITE") [$"http://nice.org"] = true /\ uri_listed p ($"WHITE") [$"http://everywhere.org"] = false.
Proof.
  exists (match lists_ex with Some p => p | None => mkEn [] [] end). split; [vm_compute; reflexivity|].
  split; [vm_compute; reflexivity|]. split; [vm_compute; reflexivity|]. vm_compute. repeat split.
Qed.
(** So a URI with a path is not hit, one of another domain is, and an exclusion does not
    work for a URI with a scheme. *)
Theorem C81_host_refuted : exists p, lists_ex = Some p /\
  uri_listed p ($"BAD") [$"http://evil.org/index.html"] = false /\
  uri_listed p ($"BAD") [$"http://devil.org"] = true /\
  uri_listed p ($"BAD") [$"http://good.bad.net"] = true.
Proof.
  exists (match lists_ex with Some p => p | None => mkEn [] [] end). split; [vm_compute; reflexivity|].
  split; [vm_compute; reflexivity|]. split; [vm_compute; reflexivity|]. vm_compute. repeat split.
Qed.
Print Assumptions C81_host_refuted.
(** A name taken off a list is not on it, however often it is listed. *)
Theorem C81_delisted : forall enlist delist white black p name uris, uri_lists enlist delist white black = Some p ->
  (forall n, put_on enlist white black name n -> taken_off delist name n) -> uri_listed p name uris = false.
Proof.
  intros enlist delist white black p name uris H Hall. destruct (uri_listed p name uris) eqn:E; [|reflexivity].
  apply (uri_listed_exact _ _ _ _ _ _ _ H) in E as (u & n & x & _ & [Hon Hoff] & _). exfalso. exact (Hoff (Hall n Hon)).
Qed.
Print Assumptions C81_delisted.
