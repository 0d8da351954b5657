(** Theorems about SPF (C46, C89, C90). *)
From Verif Require Import PyStr PyRe Spec_Wlbl Model_Spf Spec_Spf Proofs_Spf.

(** C89: for the first message a process sees, if it has Received-SPF headers and no
    external relay, the result for the sender is that of the first header about the sender
    and the result for the HELO name is that of the first header about it.
    Missing: results not written in lower case, messages with headers and a relay, and
    senders with "=" in Authentication-Results; see below. *)
Theorem C89_headers_partial : forall query newest m, m_relay m = None -> m_received_spf m <> [] -> forall r, is_result r ->
  (check_for_spf r (parsed_metadata query false newest fresh m) = true <-> first_of about_sender (in_order newest (m_received_spf m)) r) /\
  (check_for_spf_helo r (parsed_metadata query false newest fresh m) = true <-> first_of about_helo (in_order newest (m_received_spf m)) r).
Proof. exact headers_only. Qed.
Print Assumptions C89_headers_partial.
(** What such headers look like: "result comment identity=who; ...", *)
Theorem C89_header_text : forall w c sep i t, is_result w -> is_alnum sep = false ->
  i <> [] -> (forall x, In x i -> is_alnum x = true) -> match t with [] => True | x :: _ => is_alnum x = false end ->
  contains ($"identity=") (lower ($"dentity=" ++ i ++ t)) = false -> boundary true (c ++ [sep]) = true ->
  received_re (w ++ c ++ [sep] ++ $"identity=" ++ i ++ t) = Some (w, Some i).
Proof. exact received_text. Qed.
Print Assumptions C89_header_text.
(** or only a result and a comment. *)
Theorem C89_header_text_plain : forall w t, is_result w -> match t with [] => True | x :: _ => is_alnum x = false end ->
  contains ($"identity=") (lower t) = false -> received_re (w ++ t) = Some (w, None).
Proof. exact received_text_plain. Qed.
Print Assumptions C89_header_text_plain.
Definition hdr_sender : str := $"softfail (mx: transitioning) identity=mailfrom; client-ip=1.2.3.4".
Definition hdr_helo : str := $"pass (mx: ok) identity=helo; client-ip=1.2.3.4".
Example C89_read : about_sender hdr_sender ($"softfail") /\ about_helo hdr_helo ($"pass") /\
  first_of about_sender [hdr_helo; hdr_sender] ($"softfail").
Proof.
  assert (A : about_sender hdr_sender ($"softfail")) by (right; exists ($"mailfrom"); split; [vm_compute; reflexivity|now right]).
  split; [exact A|]. split; [vm_compute; reflexivity|]. exists [hdr_helo], hdr_sender, []. split; [reflexivity|]. split; [exact A|].
  intros x q [<-|[]] [H|[i [H Hi]]]; vm_compute in H; [discriminate|]. injection H as _ <-. destruct Hi; discriminate.
Qed.
(** Without headers, or if they are to be ignored, the results are those of the lookups
    for the first external relay. *)
Theorem C89_lookup : forall query ignore newest m mx ip, m_received m = true -> m_relay m = Some (mx, ip) ->
  (forall a b c, startswith ($"helo_") (query a b c) = false) ->
  ignore = true \/ (m_received_spf m = [] /\ (m_authres m = None \/ m_authres m = Some [])) -> forall r, is_result r ->
  (check_for_spf r (parsed_metadata query ignore newest fresh m) = true <-> m_sender m <> [] /\ r = result_name (query ip (m_sender m) mx)) /\
  (check_for_spf_helo r (parsed_metadata query ignore newest fresh m) = true <->
     In 46%N (take_while (fun c => negb (N.eqb c 10)) mx) /\ r = result_name (query ip [] mx)).
Proof. exact query_only. Qed.
Print Assumptions C89_lookup.
Definition q_fail (ip sender mx : str) : str := match sender with [] => $"none" | _ => $"error" end.
Example C89_lookup_case : (forall a b c, startswith ($"helo_") (q_fail a b c) = false) /\
  check_for_spf ($"temperror") (parsed_metadata q_fail false false fresh (mkMsg [] None true (Some ($"mx.a.b", $"1.2.3.4")) ($"joe@a.b"))) = true.
Proof. split; [intros a [|] c; reflexivity|vm_compute; reflexivity]. Qed.
(** An Authentication-Results header "...; spf=result smtp.mailfrom=address" gives the
    result for the sender if the address has no "=". *)
Theorem C89_authres_partial : forall pre w k v st, is_result w -> k = $"mfrom" \/ k = $"mailfrom" -> v <> [] ->
  (forall c, In c v -> is_space c = false /\ c <> 61%N /\ c <> 59%N) ->
  check_authres_header (pre ++ $"; spf=" ++ w ++ $" smtp." ++ k ++ $"=" ++ v) st = set_result (mfrom_key w) st.
Proof. exact authres_text. Qed.
Print Assumptions C89_authres_partial.
(** With a "=", as in addresses rewritten by forwarders, no result is known. *)
Theorem C89_authres_equals_refuted : forall r, is_result r ->
  check_for_spf r (check_authres_header ($"mx.a; spf=pass smtp.mailfrom=SRS0=x@y.org") fresh) = false.
Proof. intros r H. unfold is_result in H. repeat (destruct H as [<-|H]; [vm_compute; reflexivity|]). destruct H. Qed.
Print Assumptions C89_authres_equals_refuted.
(** A result in another case is recognised, stops other headers from being used, but is
    not found by any check. *)
Theorem C89_case_refuted : forall query r, is_result r ->
  received_re ($"Pass (ok) identity=mailfrom;") = Some ($"Pass", Some ($"mailfrom")) /\
  check_for_spf r (parsed_metadata query false true fresh (mkMsg [$"Pass (ok) identity=mailfrom;"; $"fail (x) identity=mailfrom;"] None false None [])) = false.
Proof. intros query r H. split; [vm_compute; reflexivity|]. unfold is_result in H. repeat (destruct H as [<-|H]; [vm_compute; reflexivity|]). destruct H. Qed.
Print Assumptions C89_case_refuted.
(** With headers and a relay the lookup adds a second, possibly opposite, result. *)
Definition q_bad (ip sender mx : str) : str := $"fail".
Theorem C89_two_results_refuted :
  let st := parsed_metadata q_bad false true fresh (mkMsg [hdr_helo; $"pass (ok) identity=mailfrom;"] None true (Some ($"mx.a.b", $"1.2.3.4")) ($"joe@a.b")) in
  check_for_spf ($"pass") st = true /\ check_for_spf ($"fail") st = true.
Proof. vm_compute. split; reflexivity. Qed.
Print Assumptions C89_two_results_refuted.

(** C46, SPF: a result once found holds for every later message, whatever it is. *)
Theorem C46_spf_sticky : forall query ignore newest r ms st,
  (check_for_spf r st = true -> check_for_spf r (fold_left (parsed_metadata query ignore newest) ms st) = true) /\
  (check_for_spf_helo r st = true -> check_for_spf_helo r (fold_left (parsed_metadata query ignore newest) ms st) = true).
Proof. exact spf_sticky. Qed.
Print Assumptions C46_spf_sticky.
Definition msg_pass : spf_msg := mkMsg [$"pass (ok) identity=mailfrom;"] None false None ($"joe@a.b").
Definition msg_fail : spf_msg := mkMsg [$"fail (no) identity=mailfrom;"] None false None ($"eve@c.d").
Theorem C46_spf_refuted : forall query newest,
  check_for_spf ($"pass") (parsed_metadata query false newest fresh msg_fail) = false /\
  check_for_spf ($"fail") (parsed_metadata query false newest fresh msg_fail) = true /\
  check_for_spf ($"pass") (parsed_metadata query false newest (parsed_metadata query false newest fresh msg_pass) msg_fail) = true /\
  check_for_spf ($"fail") (parsed_metadata query false newest (parsed_metadata query false newest fresh msg_pass) msg_fail) = false.
Proof. intros query [|]; vm_compute; repeat split. Qed.
Print Assumptions C46_spf_refuted.

(** C90: a sender is found in a list for SPF exactly when the result for the sender is a
    pass and the beginning of the address reads like a usable entry ("*": any text, "?":
    at most one character).
    Missing: that the whole address reads like the entry, and that the result belongs
    to this message. *)
Theorem C90_whitelist_partial : forall escaped, escapes_right escaped -> forall entries sender st,
  exists b, check_spf_whitelist escaped entries sender st = Some b /\
  (b = true <-> check_for_spf ($"pass") st = true /\ exists e, In e entries /\ usable e /\ front_like (whole e) sender).
Proof. exact whitelist_exact. Qed.
Print Assumptions C90_whitelist_partial.
Definition esc_special (c : char) : bool := mem_char c re_special.
Lemma esc_special_right : escapes_right esc_special.
Proof.
  split; [intros c H; now apply mem_char_In|]. intros c H. unfold esc_special. apply mem_char_notIn. intros Hin. vm_compute in Hin.
  repeat (destruct Hin as [<-|Hin]; [discriminate|]). destruct Hin.
Qed.
Example C90_listed : check_spf_whitelist esc_special [$"*@bank.com"] ($"info@bank.com") (set_result (mfrom_key ($"pass")) fresh) = Some true /\
                     check_spf_whitelist esc_special [$"*@bank.com"] ($"info@bank.com") fresh = Some false.
Proof. split; vm_compute; reflexivity. Qed.
(** An address that only begins like the entry is taken for it. *)
Theorem C90_longer_address_refuted :
  check_spf_whitelist esc_special [$"*@bank.com"] ($"eve@bank.com.evil.org") (set_result (mfrom_key ($"pass")) fresh) = Some true /\
  ~ like any_text one_char ($"*@bank.com") ($"eve@bank.com.evil.org").
Proof.
  split; [vm_compute; reflexivity|]. intros H.
  assert (G : forall e w, like any_text one_char e w -> forall t, e = $"*" ++ t -> ~ In 42%N t -> ~ In 63%N t -> exists a, w = a ++ t).
  { clear. assert (L : forall t w, ~ In 42%N t -> ~ In 63%N t -> like any_text one_char t w -> w = t).
    { induction t as [|c t IH]; intros w H1 H2 H; [exact H|]. destruct H as (a & b & -> & Hb & Ha).
      destruct (N.eqb_spec c 42) as [->|]; [exfalso; apply H1; now left|]. destruct (N.eqb_spec c 63) as [->|]; [exfalso; apply H2; now left|]. subst a.
      rewrite (IH b); [reflexivity|intros X; apply H1; now right|intros X; apply H2; now right|exact Hb]. }
    intros e w H t -> H1 H2. destruct H as (a & b & -> & Hb & _). exists a. f_equal. now apply L. }
  destruct (G _ _ H ($"@bank.com")) as [a E]; [reflexivity|vm_compute; intuition discriminate|vm_compute; intuition discriminate|].
  apply (f_equal (@rev char)) in E. rewrite rev_app_distr in E. vm_compute in E. discriminate.
Qed.
Print Assumptions C90_longer_address_refuted.
