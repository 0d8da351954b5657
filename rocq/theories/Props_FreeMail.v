(** Theorems about the free mail rules. *)
From Verif Require Import PyStr Model_Files Spec_Wlbl Model_FreeMail Spec_FreeMail Proofs_FreeMail.

Definition no_other (_ _ : str) : bool := false.
Definition no_role (_ : str) : bool := false.
Definition start (domains : list str) : fdomains := check_start_domains {| fd_list := domains; fd_wild := None |}.
Lemma starts domains : started domains (start domains). Proof. constructor. Qed.

(** C107 *)
(** For any message of a context whose domain list is well-formed, an address is taken for
    free mail exactly if its domain is listed or fits an entry with a "*", and neither it,
    nor its domain, nor its role is excepted. *)
Theorem C107_freemail_partial other role whitelist domains s a : plain_domains domains -> started domains s -> address a ->
  exists b, is_freemail other role whitelist s a = Some b /\ (b = true <-> freemail role whitelist domains a).
Proof. exact (fun P S => isf_exact other role whitelist domains s P S a). Qed.
Print Assumptions C107_freemail_partial.
Example C107_example :
  let ds := [$"gmail.com"; $"yahoo.*"; $"mail??.*.org"] in
  plain_domains ds /\ address ($"joe@yahoo.fr") /\
  map (is_freemail no_other no_role [$"boss@gmail.com"] (start ds))
    [$"joe@yahoo.fr"; $"joe@yahoo.co.uk"; $"joe@gmail.com"; $"boss@gmail.com"; $"x@mail12.a.org"; $"x@mail1.a.org"; $"x@agmail.com"; $"joe"] =
  [Some true; Some false; Some true; Some false; Some true; Some false; Some false; None].
Proof.
  split; [intros d H; vm_compute in H; repeat (destruct H as [<- | H]; [apply valid_good; reflexivity|]); destruct H|].
  split; [|vm_compute; reflexivity]. exists ($"joe"), ($"yahoo.fr"). split; [reflexivity|].
  repeat split; intros H; vm_compute in H; repeat (destruct H as [H | H]; [discriminate|]); exact H.
Qed.
(** A "?" is a wildcard only in entries that also have a "*", *)
Theorem C107_question_refuted : exists domains a, plain_domains domains /\
  (exists u d e, mailbox a u d /\ In e domains /\ fits e d) /\
  forall whitelist role other s, started domains s -> is_freemail other role whitelist s a <> Some true.
Proof.
  assert (P : plain_domains [$"mail?.com"]) by (intros d H; vm_compute in H; destruct H as [<- | []]; apply valid_good; reflexivity).
  assert (M : mailbox ($"joe@mail1.com") ($"joe") ($"mail1.com")).
  { split; [reflexivity|]. repeat split; intros H; vm_compute in H; repeat (destruct H as [H | H]; [discriminate|]); exact H. }
  exists [$"mail?.com"], ($"joe@mail1.com"). split; [exact P|]. split.
  - exists ($"joe"), ($"mail1.com"), ($"mail?.com"). split; [exact M|]. split; [left; reflexivity|].
    apply gmatch_iff; [|reflexivity]. intros H. vm_compute in H. repeat (destruct H as [H | H]; [discriminate|]). exact H.
  - intros wl role other s S E. destruct (isf_exact other role wl _ s P S _ (ex_intro _ _ (ex_intro _ _ M))) as (b & E2 & H).
    rewrite E2 in E. injection E as ->. destruct (proj1 H eq_refl) as (u & d & (E3 & Hu & Hd & _) & _ & _ & _ & [K | (e & K & W & _)]).
    + vm_compute in K. destruct K as [<- | []]. assert (SP : split_char 64%N ($"joe@mail1.com") = [u; $"mail?.com"]).
      { rewrite E3. apply (split_char_join 64%N [u; $"mail?.com"]); [discriminate|]. repeat constructor; assumption. }
      vm_compute in SP. discriminate.
    + vm_compute in K. destruct K as [<- | []]. vm_compute in W. repeat (destruct W as [W | W]; [discriminate|]). exact W.
Qed.
Print Assumptions C107_question_refuted.
(** domains are compared with their case, *)
Theorem C107_case_refuted : exists domains a b, lower a = lower b /\ plain_domains domains /\
  is_freemail no_other no_role [] (start domains) a = Some true /\ is_freemail no_other no_role [] (start domains) b = Some false.
Proof.
  exists [$"gmail.com"], ($"joe@gmail.com"), ($"joe@Gmail.com"). split; [reflexivity|].
  split; [intros d H; vm_compute in H; destruct H as [<- | []]; apply valid_good; reflexivity|]. split; vm_compute; reflexivity.
Qed.
Print Assumptions C107_case_refuted.
(** and an entry rejected as invalid is still used as an expression if it has a "*". *)
Theorem C107_invalid_refuted : exists domains e a, In e domains /\ ~ good_domain e /\
  ~ In e (fd_list (start domains)) /\
  forall other, other e a = true -> is_freemail other no_role [] (start domains) a = Some true.
Proof.
  exists [$"*|x"], ($"*|x"), ($"a@b"). split; [left; reflexivity|]. split; [intros H; apply valid_good in H; discriminate|]. split; [intros []|].
  intros other H. unfold is_freemail. vm_compute in *. rewrite H. reflexivity.
Qed.
Print Assumptions C107_invalid_refuted.

(** C108 *)
(** The sender rule, for sender addresses that are addresses: without an expression it hits
    exactly if one is free mail, *)
Theorem C108_from_partial other role whitelist domains s l : plain_domains domains -> started domains s ->
  (forall a, In a l -> address a) ->
  (check_freemail_from other role whitelist s None l = true <-> exists a, In a l /\ freemail role whitelist domains a).
Proof.
  intros P S A. rewrite (from_iff other role whitelist domains s P S None l A). split.
  - intros (a & (H1 & H2 & _) & _). exists a. auto.
  - intros H. destruct (first_free_exists other role whitelist domains s P S l A H) as (a & F). exists a. auto.
Qed.
Print Assumptions C108_from_partial.
(** with one, exactly if the alphabetically first free mail address matches it. *)
Theorem C108_expression_partial other role whitelist domains s f l : plain_domains domains -> started domains s ->
  (forall a, In a l -> address a) ->
  (check_freemail_from other role whitelist s (Some f) l = true <->
   exists a, first_free (freemail role whitelist domains) l a /\ f a = true).
Proof. exact (fun P S => from_iff other role whitelist domains s P S (Some f) l). Qed.
Print Assumptions C108_expression_partial.
(** So a free mail sender that matches can be missed because of another sender address, *)
Theorem C108_expression_refuted : exists domains l f a, plain_domains domains /\ In a l /\ f a = true /\
  is_freemail no_other no_role [] (start domains) a = Some true /\
  check_freemail_from no_other no_role [] (start domains) (Some f) l = false.
Proof.
  exists [$"gmail.com"], [$"joe@gmail.com"; $"ann@gmail.com"], (streqb ($"joe@gmail.com")), ($"joe@gmail.com").
  split; [intros d H; vm_compute in H; destruct H as [<- | []]; apply valid_good; reflexivity|]. split; [left; reflexivity|]. repeat split; vm_compute; reflexivity.
Qed.
Print Assumptions C108_expression_refuted.
(** and a sender text without "@" hides those after it. *)
Theorem C108_no_at_refuted other role whitelist s check x l :
  x <> [] -> ~ In 64%N x -> (forall a, In a l -> str_leb x a = true /\ a <> x) ->
  check_freemail_from other role whitelist s check (x :: l) = false.
Proof. exact (from_no_at other role whitelist s check x l). Qed.
Print Assumptions C108_no_at_refuted.
(** The header rule takes the addresses in the order of the header. *)
Theorem C108_header_partial other role whitelist domains s check l : plain_domains domains -> started domains s ->
  (forall a, In a l -> address a) ->
  (check_freemail_header other role whitelist s check l = true <->
   exists a, leading_free (freemail role whitelist domains) l a /\ match check with None => True | Some f => f a = true end).
Proof. exact (fun P S => header_iff other role whitelist domains s P S check l). Qed.
Print Assumptions C108_header_partial.
Example C108_example :
  check_freemail_from no_other no_role [] (start [$"gmail.com"]) None [$"zoe@gmail.com"; $"ann@work.com"] = true /\
  check_freemail_from no_other no_role [] (start [$"gmail.com"]) None [$"zoe@gmail.com"; $"Ann"] = false /\
  check_freemail_from no_other no_role [] (start [$"gmail.com"]) (Some (contains ($"zoe"))) [$"zoe@gmail.com"; $"ann@work.com"] = true /\
  check_freemail_header no_other no_role [] (start [$"gmail.com"]) (Some (contains ($"zoe"))) [$"zoe@gmail.com"; $"ann@gmail.com"] = true.
Proof. repeat split; vm_compute; reflexivity. Qed.

(** C109 *)
(** The body rule hits exactly if the body has few enough addresses and one of them is free
    mail (and matches the expression, if there is one). *)
Theorem C109_body_partial other role whitelist domains s me mf skip check body : plain_domains domains -> started domains s ->
  (forall a, In a body -> address a) -> NoDup body ->
  (fst (check_freemail_body other role whitelist s me mf skip check body None) = true <->
   looked_at (freemail role whitelist domains) me mf skip body /\
   exists a, In a body /\ freemail role whitelist domains a /\ match check with None => True | Some f => f a = true end).
Proof. exact (fun P S => body_exact other role whitelist domains s P S me mf skip check body). Qed.
Print Assumptions C109_body_partial.
(** "Few enough" is fewer than the maximum, so the rule is skipped before the number is
    over it. *)
Theorem C109_over_max_refuted : exists domains me body,
  length body = me /\ plain_domains domains /\ (exists a, In a body /\ is_freemail no_other no_role [] (start domains) a = Some true) /\
  fst (check_freemail_body no_other no_role [] (start domains) me 9 true None body None) = false.
Proof.
  exists [$"gmail.com"], 2, [$"joe@gmail.com"; $"ann@work.com"]. split; [reflexivity|].
  split; [intros d H; vm_compute in H; destruct H as [<- | []]; apply valid_good; reflexivity|]. split; [exists ($"joe@gmail.com"); split; [left; reflexivity | vm_compute; reflexivity]|].
  vm_compute. reflexivity.
Qed.
Print Assumptions C109_over_max_refuted.
(** Each rule that looks at the body answers as if it were the only one. *)
Theorem C109_alone other role whitelist s me mf skip body qs :
  answers other role whitelist s me mf skip body qs None = map (fun q => fst (ask other role whitelist s me mf skip body q None)) qs.
Proof. exact (answers_alone other role whitelist s me mf skip body qs). Qed.
Print Assumptions C109_alone.
Example C109_example :
  answers no_other no_role [] (start [$"gmail.com"]) 3 2 true [$"joe@gmail.com"; $"ann@work.com"]
    [AskBody None; AskReply Reply ($"zoe@gmail.com") []; AskBody (Some (contains ($"zoe")))] None = [true; true; false] /\
  fst (check_freemail_body no_other no_role [] (start [$"gmail.com"]) 3 1 true None [$"joe@gmail.com"] None) = false.
Proof. split; vm_compute; reflexivity. Qed.

(** C110 *)
(** The Reply-To rule for a message that is not bulk mail. *)
Theorem C110_replyto other role whitelist domains s me mf skip from rt body : plain_domains domains -> started domains s ->
  from = [] \/ address from -> rt = [] \/ address rt -> (forall a, In a body -> address a) -> NoDup body ->
  let free := freemail role whitelist domains in
  (fst (check_freemail_replyto other role whitelist s me mf skip false ReplyTo from rt body None) = true <->
   free rt /\ ((free from /\ from <> rt) \/ (looked_at free me mf skip body /\ exists a, In a body /\ free a /\ a <> rt))).
Proof. exact (fun P S => replyto_exact other role whitelist domains s P S me mf skip from rt body). Qed.
Print Assumptions C110_replyto.
(** With "reply", the sender takes the place of a missing Reply-To; and a Reply-To at a free
    mail provider counts only if the sender is at one too. *)
Theorem C110_reply_partial other role whitelist domains s me mf skip from rt body : plain_domains domains -> started domains s ->
  from = [] \/ address from -> rt = [] \/ address rt -> (forall a, In a body -> address a) -> NoDup body ->
  let free := freemail role whitelist domains in
  (fst (check_freemail_replyto other role whitelist s me mf skip false Reply from rt body None) = true <->
   free from /\
   ((free rt /\ from <> rt) \/
    (looked_at free me mf skip body /\ (rt = [] \/ rt = from) /\ exists a, In a body /\ free a /\ a <> from))).
Proof. exact (fun P S => reply_exact other role whitelist domains s P S me mf skip from rt body). Qed.
Print Assumptions C110_reply_partial.
(** So "reply" misses what "replyto" finds, though it is documented as "as above" for
    messages with a Reply-To. *)
Theorem C110_reply_refuted : exists domains from rt body, rt <> [] /\ plain_domains domains /\
  fst (check_freemail_replyto no_other no_role [] (start domains) 5 3 true false ReplyTo from rt body None) = true /\
  fst (check_freemail_replyto no_other no_role [] (start domains) 5 3 true false Reply from rt body None) = false.
Proof.
  exists [$"gmail.com"], ($"ann@work.com"), ($"zoe@gmail.com"), [$"joe@gmail.com"]. split; [discriminate|].
  split; [intros d H; vm_compute in H; destruct H as [<- | []]; apply valid_good; reflexivity|]. split; vm_compute; reflexivity.
Qed.
Print Assumptions C110_reply_refuted.
Example C110_example :
  address ($"zoe@gmail.com") /\
  fst (check_freemail_replyto no_other no_role [] (start [$"gmail.com"]) 5 3 true false ReplyTo ($"ann@gmail.com") ($"zoe@gmail.com") [] None) = true /\
  fst (check_freemail_replyto no_other no_role [] (start [$"gmail.com"]) 5 3 true false Reply ($"ann@gmail.com") [] [$"ann@gmail.com"] None) = false.
Proof.
  split; [|split; vm_compute; reflexivity]. exists ($"zoe"), ($"gmail.com"). split; [reflexivity|].
  repeat split; intros H; vm_compute in H; repeat (destruct H as [H | H]; [discriminate|]); exact H.
Qed.
