(** Proofs about the rules for providers' headers: the patterns with addresses. *)
From Coq Require Import Lia.
From Verif Require Import PyStr Regexp Spec_Regexp Proofs_Regexp Proofs_RegexpLang Model_Received Spec_Received Proofs_ReceivedIp Spec_Template Proofs_Template Model_Provider Spec_Provider Proofs_Provider.
From Verif Require Model_Relays.

(** No pattern is the replacement for one that cannot be read. *)
Lemma patterns_compile : ~ In Eps ([HOTMAIL_VIA; MSN_SERVER; YAHOO_IP; JUNO_FROM; TO_PARTS; RATWARE_ID; USER_RE] ++ UNIQUE_IDS).
Proof. vm_compute. intuition discriminate. Qed.

Section Provider.
Variable udigit uword : char -> bool.
Notation s_ := (s_ udigit uword).
Notation has := (has uword).
Notation reads := (reads udigit uword).
Notation found := (found udigit uword).

Lemma quad_reads a b c d p t : bytes a b c d -> reads IP_ADDRESS (91%N :: p) (quad a b c d) (93%N :: t).
Proof.
  intros B. apply (ways_reads udigit uword IP_ADDRESS ltac:(vm_compute; reflexivity) (91%N :: p) (quad a b c d) (93%N :: t) []). exists [].
  destruct (ip_ways udigit uword (mkS (91%N :: p) (quad a b c d ++ 93%N :: t) [])) as [m ->]. apply in_or_app. left. apply ip4_in, B.
Qed.
Lemma fits_reads r ls l b w a : forms udigit uword r = Some ls -> Forall2 (Forall2 like) [l] ls -> fits uword l b w a -> reads r b w a.
Proof.
  intros E F H. inversion F as [|x y lx ly A B]; subst. inversion B; subst. apply (reads_forms udigit uword r _ E). eexists. split; [left; reflexivity|]. exact (fits_like uword _ _ A _ _ _ H).
Qed.
Lemma fits_reads_in r ls ms l b w a : forms udigit uword r = Some ls -> Forall2 (Forall2 like) ms ls -> In l ms -> fits uword l b w a -> reads r b w a.
Proof.
  intros E F I H. apply (reads_forms udigit uword r _ E). clear E. induction F as [|x y lx ly A B IH]; [destruct I|].
  destruct I as [<-|I]; [exists y; split; [left; reflexivity|exact (fits_like uword _ _ A _ _ _ H)]|]. destruct (IH I) as (l' & Hl & K). exists l'. split; [right; exact Hl|exact K].
Qed.
(** A sequence read as two *)
Lemma reads_take n : forall r b u v a, reads (take_part n r) b u (v ++ a) -> reads (last_part n r) (rev u ++ b) v a ->
  (fix long (n : nat) (r : re) : bool := match n, r with 0, _ => true | S k, Cat _ q => long k q | _, _ => false end) n r = true -> reads r b (u ++ v) a.
Proof.
  induction n as [|n IH]; intros r b u v a H K L.
  - cbn in H. destruct r; cbn [take_part] in H; cbn in H; subst u; exact K.
  - destruct r; try discriminate L. cbn [take_part last_part] in *. destruct H as (u1 & u2 & -> & H1 & H2). exists u1, (u2 ++ v). rewrite <- app_assoc. split; [reflexivity|].
    split; [rewrite <- app_assoc; exact H1|]. apply (IH r2 _ u2 v a H2); [|exact L]. rewrite rev_app_distr, <- app_assoc in K. exact K.
Qed.
Ltac ilikes := repeat (apply Forall2_cons || apply Forall2_nil); apply like_sym; first [apply like_run;
  intros ?c; first [apply cls_char | apply cls_char_i; vm_compute; reflexivity | apply cls_digit | apply cls_digit_i | apply cls_nonblank
    | apply cls_nonblank_i | apply cls_blank_i | apply cls_blank | apply cls_word | reflexivity] | constructor].
Lemma yahoo_groups x a b c d host k y : bytes a b c d -> word host -> In k [$"groups"; $"scd"; $"dcn"] ->
  s_ YAHOO_IP (x ++ $"from [" ++ quad a b c d ++ $"] by " ++ host ++ $"." ++ k ++ $".yahoo.com with NNFMP" ++ y) = true.
Proof.
  intros B [NE W] K. apply search_reads; [vm_compute; reflexivity|].
  exists x, ($"from [" ++ quad a b c d ++ $"] by " ++ host ++ $"." ++ k ++ $".yahoo.com with NNFMP"), y. split; [rewrite <- !app_assoc; reflexivity|].
  apply (reads_take 6); [| |reflexivity].
  - eapply fits_reads with (l := text ($"from") ++ some_ blank ++ text ($"[")); [reflexivity|ilikes|].
    apply fits_app. exists ($"from"), ($" ["). split; [reflexivity|]. split; [apply fits_text; reflexivity|]. apply fits_app. exists ($" "), ($"["). split; [reflexivity|].
    split; [apply fits_run; split; [discriminate|intros z [<-|[]]; reflexivity]|apply fits_text; reflexivity].
  - change (last_part 6 YAHOO_IP) with (Cat IP_ADDRESS (last_part 7 YAHOO_IP)). exists (quad a b c d), ($"] by " ++ host ++ $"." ++ k ++ $".yahoo.com with NNFMP"). split; [reflexivity|]. split.
    + change (rev ($"from [") ++ rev x) with (91%N :: (rev ($"from ") ++ rev x)). rewrite <- !app_assoc. apply quad_reads, B.
    + set (form := fun k => text ($"]") ++ some_ blank ++ text ($"by") ++ some_ blank ++ some_ nonblank ++ text ($".") ++ text k ++ text ($".yahoo.com") ++ some_ blank ++ text ($"with") ++ some_ blank ++ text ($"NNFMP")).
      apply fits_reads_in with (1 := eq_refl) (ms := map form [$"groups"; $"scd"; $"dcn"]) (l := form k); [ilikes|apply in_map; exact K|].
      assert (S1 : forall b a, fits uword (some_ blank) b ($" ") a) by (intros; apply fits_run; split; [discriminate|intros z [<-|[]]; reflexivity]).
      unfold form. apply fits_app. exists ($"]"), ($" by " ++ host ++ $"." ++ k ++ $".yahoo.com with NNFMP"). split; [reflexivity|]. split; [apply fits_text; reflexivity|].
      apply fits_app. exists ($" "), ($"by " ++ host ++ $"." ++ k ++ $".yahoo.com with NNFMP"). split; [reflexivity|]. split; [apply S1|].
      apply fits_app. exists ($"by"), ($" " ++ host ++ $"." ++ k ++ $".yahoo.com with NNFMP"). split; [reflexivity|]. split; [apply fits_text; reflexivity|].
      apply fits_app. exists ($" "), (host ++ $"." ++ k ++ $".yahoo.com with NNFMP"). split; [reflexivity|]. split; [apply S1|].
      apply fits_app. exists host, ($"." ++ k ++ $".yahoo.com with NNFMP"). split; [reflexivity|]. split; [apply fits_run; split; [exact NE|exact W]|].
      apply fits_app. exists ($"."), (k ++ $".yahoo.com with NNFMP"). split; [reflexivity|]. split; [apply fits_text; reflexivity|].
      apply fits_app. exists k, ($".yahoo.com with NNFMP"). split; [reflexivity|]. split; [apply fits_text; reflexivity|].
      apply fits_app. exists ($".yahoo.com"), ($" with NNFMP"). split; [reflexivity|]. split; [apply fits_text; reflexivity|].
      apply fits_app. exists ($" "), ($"with NNFMP"). split; [reflexivity|]. split; [apply S1|].
      apply fits_app. exists ($"with"), ($" NNFMP"). split; [reflexivity|]. split; [apply fits_text; reflexivity|].
      apply fits_app. exists ($" "), ($"NNFMP"). split; [reflexivity|]. split; [apply S1|]. apply fits_text. reflexivity.
Qed.
Lemma yahoo_groups_spared m x a b c d host k y : bytes a b c d -> word host -> In k [$"groups"; $"scd"; $"dcn"] ->
  hops_text m (x ++ $"from [" ++ quad a b c d ++ $"] by " ++ host ++ $"." ++ k ++ $".yahoo.com with NNFMP" ++ y) ->
  check_for_forged_yahoo_received_headers udigit uword m = false.
Proof.
  intros B W K T. unfold check_for_forged_yahoo_received_headers. fold (yahoo_text m). rewrite (yahoo_text_ok m _ T), (yahoo_groups x a b c d host k y B W K).
  destruct (negb (contains _ _)); [reflexivity|]. destruct (gated_through_received_hdr_remover _ _ m); [reflexivity|]. destruct (existsb _ _); [reflexivity|].
  destruct (s_ YAHOO_WEB _); [reflexivity|]. destruct (s_ YAHOO_SMTP _); reflexivity.
Qed.

(** Juno *)
Lemma juno_hop_found x u v a b c d z w y : bytes a b c d -> ~ In 10%N u -> ~ In 10%N v -> ~ In 10%N z -> In w [$"juno"; $"untd"] ->
  ~ begins_with_word uword (rev ($"from" ++ u)) ->
  s_ JUNO_FROM (x ++ $"from" ++ u ++ w ++ $".com" ++ v ++ $"[" ++ quad a b c d ++ $"]" ++ z ++ $"by" ++ y) = true.
Proof.
  intros B U V Z W E. apply search_reads; [vm_compute; reflexivity|].
  exists x, (($"from" ++ u ++ w ++ $".com" ++ v ++ $"[") ++ (quad a b c d ++ ($"]" ++ z ++ $"by"))), y. split; [rewrite <- !app_assoc; reflexivity|].
  assert (AN : forall s b a, ~ In 10%N s -> fits uword (many anyc) b s a).
  { intros s b0 a0 N. exists s, []. rewrite app_nil_r. split; [reflexivity|]. split; [intros e He ->; contradiction|]. split; [apply Nat.le_0_l|]. split; [exact I|reflexivity]. }
  apply (reads_take 13); [| |reflexivity].
  - set (form := fun w => text ($"from") ++ many anyc ++ [Edge] ++ text w ++ text ($".com") ++ many anyc ++ one (fun e => class_in udigit uword false false [IChar 91; IChar 40] e = true)).
    apply fits_reads_in with (1 := eq_refl) (ms := map form [$"juno"; $"untd"]) (l := form w); [ilikes|apply in_map; exact W|]. unfold form.
    apply fits_app. eexists _, _. split; [reflexivity|]. split; [apply fits_text; reflexivity|]. apply fits_app. eexists _, _. split; [reflexivity|]. split; [apply AN, U|].
    cbn [app]. split.
    { right. split.
      - intros (e & t & Ee & He). apply E. exists e. rewrite rev_app_distr. destruct (rev u) as [|e' ru] eqn:Er.
        + cbn [app] in *. change (rev ($"from") ++ rev x) with (109%N :: rev ($"fro") ++ rev x) in Ee. injection Ee as <- _. exists (rev ($"fro")). split; [reflexivity|exact He].
        + cbn [app] in *. injection Ee as <- _. eexists. split; [reflexivity|exact He].
      - destruct W as [<-|[<-|[]]]; (eexists _, _; split; [reflexivity|]); unfold wordc; vm_compute; intuition discriminate. }
    apply fits_app. eexists _, _. split; [reflexivity|]. split; [apply fits_text; reflexivity|]. apply fits_app. eexists _, _. split; [reflexivity|]. split; [apply fits_text; reflexivity|].
    apply fits_app. eexists _, _. split; [reflexivity|]. split; [apply AN, V|]. apply fits_one. eexists. split; reflexivity.
  - change (last_part 13 JUNO_FROM) with (Cat IP_ADDRESS (last_part 14 JUNO_FROM)). eexists _, _. split; [reflexivity|]. split.
    + rewrite !rev_app_distr. cbn [rev app]. rewrite <- !app_assoc. cbn [app]. apply quad_reads, B.
    + eapply fits_reads with (1 := eq_refl) (l := one (fun e => class_in udigit uword false false [IChar 93; IChar 41] e = true) ++ many anyc ++ text ($"by")); [ilikes|].
      apply fits_app. exists ($"]"), (z ++ $"by"). split; [reflexivity|]. split; [apply fits_one; eexists; split; reflexivity|].
      apply fits_app. eexists _, _. split; [reflexivity|]. split; [apply AN, Z|]. apply fits_text. reflexivity.
Qed.
(** The alternatives of the pattern without an address *)
Definition VIA_HOTMAIL : re := match HOTMAIL_VIA with Alt r _ => r | r => r end.
Definition VIA_HTTP : re := match HOTMAIL_VIA with Alt _ (Alt _ (Alt r _)) => r | r => r end.
Definition VIA_YAHOO : re := match HOTMAIL_VIA with Alt _ (Alt _ (Alt _ r)) => r | r => r end.
Ltac by_search' := intros h; unfold Model_Received.s_; apply search_has with (udigit := udigit) (2 := eq_refl); [vm_compute; repeat split; repeat constructor|];
  repeat (apply Forall2_cons || apply Forall2_nil); first [apply like_run; intros ?c; first [apply cls_char_i; vm_compute; reflexivity
  | apply cls_nonblank_i | apply cls_blank_i | reflexivity] | constructor].
Lemma s_via_1 : forall h, s_ VIA_HOTMAIL h = true <-> has via_hotmail h.
Proof. by_search'. Qed.
Lemma s_via_3 : forall h, s_ VIA_HTTP h = true <-> has via_http h.
Proof. by_search'. Qed.
Lemma s_via_4 : forall h, s_ VIA_YAHOO h = true <-> has via_yahoo h.
Proof. by_search'. Qed.
Lemma s_via_hotmail h : has via_hotmail h \/ has via_http h \/ has via_yahoo h -> s_ HOTMAIL_VIA h = true.
Proof.
  rewrite <- s_via_1, <- s_via_3, <- s_via_4. unfold Model_Received.s_. rewrite !search_reads by (vm_compute; reflexivity).
  intros [(x & w & y & -> & H)|[(x & w & y & -> & H)|(x & w & y & -> & H)]]; exists x, w, y; (split; [reflexivity|]).
  - left. exact H.
  - right. right. left. exact H.
  - right. right. right. exact H.
Qed.
Lemma via_spared m r ip : first_of m ($"received") = Some r -> has via_hotmail r \/ has via_http r \/ has via_yahoo r ->
  first_of m ($"x-originating-ip") = Some ip -> states_address ip -> ~ has group_to (texts m ($"to")) ->
  hotmail_received udigit uword m = Some (false, false).
Proof.
  intros E V X A T. unfold hotmail_received. rewrite E, X, (msn_no_groups udigit uword m T), (s_via_hotmail r V). destruct r as [|c r]; [reflexivity|].
  destruct (s_ PICKUP (c :: r)); [reflexivity|]. destruct A as (x & y & a & b & c' & d & B & ->).
  rewrite (s_address udigit uword x y a b c' d B). destruct x; reflexivity.
Qed.
Lemma juno_spared m : texts m ($"x-originating-ip") <> [] -> juno_hop uword (texts m ($"received")) -> part_of ($"Juno ") (texts m ($"x-mailer")) ->
  check_for_forged_juno_received_headers udigit uword m = false.
Proof.
  intros A (x & u & w & v & a & b & c & d & z & y & B & W & C & N & E) X. unfold check_for_forged_juno_received_headers.
  change (joined m ($"received")) with (texts m ($"received")). rewrite B. clear B. rewrite juno_hop_found; try assumption.
  - destruct (negb (endswith _ _)); [reflexivity|]. destruct (gated_through_received_hdr_remover _ _ m); [reflexivity|].
    change (joined m ($"x-originating-ip")) with (texts m ($"x-originating-ip")). destruct (texts m ($"x-originating-ip")); [congruence|]. cbn [nil_ negb andb].
    change (joined m ($"x-mailer")) with (texts m ($"x-mailer")). apply contains_part in X. rewrite X. reflexivity.
  - intros H. apply N. apply in_or_app. auto.
  - intros H. apply N. apply in_or_app. right. apply in_or_app. auto.
  - intros H. apply N. apply in_or_app. right. apply in_or_app. auto.
  - destruct W as [-> | ->]; [left|right; left]; reflexivity.
Qed.
End Provider.
