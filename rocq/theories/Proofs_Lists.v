(** Proofs for the lists from the configuration lines to the answers. *)
From Verif Require Import PyStr PyDict PyRe Model_Rules Model_Net Model_Relays Model_Wlbl Spec_Wlbl Proofs_PyRe Proofs_Wlbl Model_Parser Model_Conf
  Spec_Conf Proofs_Conf Props_Conf Model_Headers Spec_Headers Model_Address Spec_Address Proofs_AddressMsg Proofs_BayesBody Model_Lists Spec_Lists.

Lemma lists_ok : classes_ok list_classes list_heap.
Proof. apply classes_okb_ok. vm_compute. reflexivity. Qed.

Section Configured.
Variable py_float : str -> option Q.
Let reach := reachable list_classes py_float list_heap.
Let step := cstep list_classes py_float.

Lemma reach_step w o : reach w -> reach (step w o).
Proof. intros [ops ->]. exists (ops ++ [o]). unfold crun. rewrite fold_left_app. reflexivity. Qed.

(** One line and one option of the plugin. *)
Lemma line_view w k v key : reach w -> order_of w 0 = [wlbl] -> 0 < length (w_ctxs w) ->
  (exists d, dget key wlbl_options = Some d) -> dget key pad_options = None ->
  (k <> key -> view (step w (Set_ 0 k v)) 0 wlbl key = view w 0 wlbl key) /\
  (k = key ->
     match dget key wlbl_options with
     | Some (OAppendSplit, _) => forall l, view w 0 wlbl key = Some (SList l) ->
         view (step w (Set_ 0 k v)) 0 wlbl key = Some (SList (l ++ words v))
     | Some (OList, _) => view (step w (Set_ 0 k v)) 0 wlbl key = Some (SList (split_char 44%N v))
     | _ => True
     end).
Proof.
  intros R O L [d Hd] Hp. unfold step, cstep.
  assert (Tk : taker list_classes (main :: order_of w 0) k =
    match dget k pad_options with Some (ty, _) => Some (main, ty) | None => match dget k wlbl_options with Some (ty, _) => Some (wlbl, ty) | None => None end end).
  { rewrite O. cbn [taker]. unfold option_of. change (dget main list_classes) with (Some pad_options). change (dget wlbl list_classes) with (Some wlbl_options).
    destruct (dget k pad_options) as [[? ?]|]; [reflexivity|]. destruct (dget k wlbl_options) as [[? ?]|]; reflexivity. }
  pose proof (reachable_inv list_classes py_float list_heap lists_ok w R) as I.
  split.
  - intros N. destruct (taker list_classes (main :: order_of w 0) k) as [[cls ty]|] eqn:Et.
    + destruct (match ty with OClear => true | _ => false end) eqn:Ec.
      * assert (ty = OClear) as -> by (destruct ty; congruence).
        destruct (c22_frame list_classes py_float list_heap lists_ok w 0 k v cls R L Et) as (w' & -> & _ & F). apply F.
        intros (_ & <- & ks & G & _). rewrite Tk in *. clear -G Et. unfold option_of in G. change (dget wlbl list_classes) with (Some wlbl_options) in G.
        apply dget_In in G. cbn in G. repeat (destruct G as [G|G]; [discriminate|]). exact G.
      * pose proof (c20 list_classes py_float list_heap lists_ok w 0 k v cls ty R L Et) as C.
        assert (ty <> OClear) as X by (destruct ty; congruence). specialize (C X).
        destruct (hook_parse_config list_classes py_float 0 k v w) as [w'|w'|w']; [|contradiction|destruct C as [-> _]; reflexivity].
        destruct C as [_ F]. apply F. intros E. injection E as _ E. congruence.
    + pose proof (hook_spec list_classes py_float list_heap 0 k v w I L) as H. rewrite Et in H. rewrite H. reflexivity.
  - intros ->. destruct d as [ty d]. rewrite Hp in Tk. rewrite Hd in *. 
    assert (X : ty <> OClear). { intros ->. clear -Hd. apply dget_In in Hd. cbn in Hd. repeat (destruct Hd as [G|Hd]; [discriminate|]). exact Hd. }
    pose proof (c20 list_classes py_float list_heap lists_ok w 0 key v wlbl ty R L Tk X) as C.
    destruct ty; try exact Logic.I.
    + destruct (hook_parse_config list_classes py_float 0 key v w) as [w'|w'|w']; [|contradiction|destruct C as [_ C]; inversion C].
      destruct C as [C _]. inversion C; subst. f_equal. f_equal. symmetry. apply (split_char_join 44%N); assumption.
    + intros l Hl. destruct (hook_parse_config list_classes py_float 0 key v w) as [w'|w'|w']; [|contradiction|destruct C as [_ C]; inversion C].
      destruct C as [C _]. rewrite Hl in C. inversion C; subst. reflexivity.
Qed.

Definition sets (lines : list line) : list cop := map (fun l => Set_ 0 (fst l) (snd l)) lines.

Lemma line_keeps w k v : reach w -> order_of (step w (Set_ 0 k v)) 0 = order_of w 0 /\ length (w_ctxs (step w (Set_ 0 k v))) = length (w_ctxs w).
Proof. intros R. apply (order_step_set list_classes py_float list_heap lists_ok). apply (reachable_inv list_classes py_float list_heap lists_ok w R). Qed.

Lemma view_append key n lines : dget key wlbl_options = Some (OAppendSplit, n) -> dget key pad_options = None ->
  forall w l, reach w -> order_of w 0 = [wlbl] -> 0 < length (w_ctxs w) -> view w 0 wlbl key = Some (SList l) ->
  view (crun list_classes py_float w (sets lines)) 0 wlbl key =
    Some (SList (l ++ flat_map (fun x => if streqb (fst x) key then words (snd x) else []) lines)).
Proof.
  intros Hd Hp. induction lines as [|[k v] lines IH]; intros w l R O L V; cbn [sets map crun fold_left flat_map].
  - cbn. rewrite app_nil_r. exact V.
  - destruct (line_view w k v key R O L (ex_intro _ _ Hd) Hp) as [A B]. rewrite Hd in B. destruct (line_keeps w k v R) as [O' L'].
    unfold crun in IH. cbn [fst snd] in *. rewrite (app_assoc l). fold (step w (Set_ 0 k v)).
    apply IH; [apply reach_step; exact R|congruence|rewrite L'; exact L|].
    destruct (streqb_spec k key) as [->|N]; [apply B; auto|]. rewrite app_nil_r, A by exact N. exact V.
Qed.

Lemma view_last key n lines : dget key wlbl_options = Some (OList, n) -> dget key pad_options = None ->
  forall w l, reach w -> order_of w 0 = [wlbl] -> 0 < length (w_ctxs w) -> view w 0 wlbl key = Some (SList l) ->
  view (crun list_classes py_float w (sets lines)) 0 wlbl key =
    Some (SList (fold_left (fun acc x => if streqb (fst x) key then split_char 44%N (snd x) else acc) lines l)).
Proof.
  intros Hd Hp. induction lines as [|[k v] lines IH]; intros w l R O L V; cbn [sets map crun fold_left].
  - exact V.
  - destruct (line_view w k v key R O L (ex_intro _ _ Hd) Hp) as [A B]. rewrite Hd in B. destruct (line_keeps w k v R) as [O' L'].
    unfold crun in IH. cbn [fst snd] in *. fold (step w (Set_ 0 k v)).
    apply IH; [apply reach_step; exact R|congruence|rewrite L'; exact L|].
    destruct (streqb_spec k key) as [->|N]; [apply B; auto|]. rewrite A by exact N. exact V.
Qed.

Definition w0 : world := crun list_classes py_float (mkW list_heap []) [Create; Load 0 wlbl].
Lemma w0_reach : reach w0. Proof. eexists. reflexivity. Qed.
Lemma configured_w0 lines : configured py_float lines = crun list_classes py_float w0 (sets lines).
Proof. reflexivity. Qed.

Lemma append_list key n lines : dget key wlbl_options = Some (OAppendSplit, CList n) -> dget key pad_options = None ->
  option_list (configured py_float lines) key = Some (flat_map (fun x => if streqb (fst x) key then words (snd x) else []) lines).
Proof.
  intros Hd Hp. unfold option_list. rewrite configured_w0. erewrite (view_append key _ lines Hd Hp w0 []); [reflexivity|exact w0_reach|reflexivity|cbn; lia|].
  clear Hp. apply dget_In in Hd. cbn in Hd. repeat (destruct Hd as [E|Hd]; [try discriminate E; injection E as <- _; vm_compute; reflexivity|]). contradiction.
Qed.
Lemma replace_list key n lines : dget key wlbl_options = Some (OList, CList n) -> dget key pad_options = None ->
  option_list (configured py_float lines) key = Some (fold_left (fun acc x => if streqb (fst x) key then split_char 44%N (snd x) else acc) lines []).
Proof.
  intros Hd Hp. unfold option_list. rewrite configured_w0. erewrite (view_last key _ lines Hd Hp w0 []); [reflexivity|exact w0_reach|reflexivity|cbn; lia|].
  clear Hp. apply dget_In in Hd. cbn in Hd. repeat (destruct Hd as [E|Hd]; [try discriminate E; injection E as <- _; vm_compute; reflexivity|]). contradiction.
Qed.
End Configured.

(** The two ways a list comes from its lines. *)
Definition all_words (lines : list line) (key : str) : list str := flat_map (fun x => if streqb (fst x) key then words (snd x) else []) lines.
Definition last_split (lines : list line) (key : str) : list str :=
  fold_left (fun acc x => if streqb (fst x) key then split_char 44%N (snd x) else acc) lines [].

Lemma all_words_in lines key e : In e (all_words lines key) <-> configured_entry lines key e.
Proof.
  unfold all_words, configured_entry. rewrite in_flat_map. split.
  - intros ([k v] & Hi & He). cbn [fst snd] in He. destruct (streqb_spec k key) as [->|]; [eauto|contradiction].
  - intros (v & Hi & He). exists (key, v). split; [exact Hi|]. cbn [fst snd]. rewrite streqb_refl. exact He.
Qed.
Lemma found_listed lines key a : found_in (all_words lines key) a <-> listed lines key a.
Proof. unfold found_in, listed. split; intros (e & H & X); exists e; (split; [apply all_words_in; exact H|exact X]). Qed.

Lemma pieces_split v : pieces v (split_char 44%N v).
Proof.
  split; [apply split_char_nonempty|]. split; [apply (join_split_char 44%N)|]. apply Forall_forall. intros x Hx. eapply split_char_no_sep; exact Hx.
Qed.
Lemma pieces_unique v ps : pieces v ps -> ps = split_char 44%N v.
Proof. intros (H1 & <- & H2). symmetry. apply (split_char_join 44%N); assumption. Qed.

Lemma last_split_spec lines key : last_pieces lines key (last_split lines key).
Proof.
  unfold last_split. induction lines as [|[k v] lines IH] using rev_ind.
  - left. split; [reflexivity|]. intros v [].
  - rewrite fold_left_app. cbn [fold_left fst snd]. destruct (streqb_spec k key) as [->|N].
    + right. exists v. split; [|apply pieces_split]. exists lines, []. split; [reflexivity|]. intros v' [].
    + destruct IH as [[E H]|(u & (l1 & l2 & E & H) & P)].
      * left. split; [exact E|]. intros u X. apply in_app_iff in X as [X|[X|[]]]; [exact (H u X)|congruence].
      * right. exists u. split; [|exact P]. exists l1, (l2 ++ [(k, v)]). split; [rewrite E, <- app_assoc; reflexivity|].
        intros u' X. apply in_app_iff in X as [X|[X|[]]]; [exact (H u' X)|congruence].
Qed.
Lemma last_line_unique lines key v v' : last_line lines key v -> last_line lines key v' -> v = v'.
Proof.
  intros (l1 & l2 & -> & H) (m1 & m2 & E & H'). revert m1 E. induction l1 as [|x l1 IH]; intros [|y m1] E; cbn in E.
  - congruence.
  - injection E as <- E. exfalso. apply (H v'). rewrite E. apply in_or_app. right. left. reflexivity.
  - injection E as -> E. exfalso. apply (H' v). rewrite <- E. apply in_or_app. right. left. reflexivity.
  - injection E as -> E. exact (IH m1 E).
Qed.
Lemma last_split_unique lines key ps : last_pieces lines key ps -> ps = last_split lines key.
Proof.
  intros P. destruct (last_split_spec lines key) as [[E H]|(v & Hv & Q)]; destruct P as [[-> H']|(v' & Hv' & P)].
  - congruence.
  - exfalso. destruct Hv' as (l1 & l2 & -> & _). apply (H v'). apply in_or_app. right. left. reflexivity.
  - exfalso. destruct Hv as (l1 & l2 & -> & _). apply (H' v). apply in_or_app. right. left. reflexivity.
  - rewrite (last_line_unique _ _ _ _ Hv' Hv) in P. rewrite (pieces_unique _ _ P). symmetry. apply pieces_unique, Q.
Qed.

(** check_start *)
Definition ready (escaped : char -> bool) (lines : list line) (hosts : enlisted) : started :=
  mkStarted
    [($"parsed_whitelist_from", parse_list escaped (all_words lines ($"whitelist_from")));
     ($"parsed_whitelist_to", parse_list escaped (all_words lines ($"whitelist_to")));
     ($"parsed_blacklist_from", parse_list escaped (all_words lines ($"blacklist_from")));
     ($"parsed_blacklist_to", parse_list escaped (all_words lines ($"blacklist_to")));
     ($"parsed_all_spam_to", parse_list escaped (all_words lines ($"all_spam_to")));
     ($"parsed_more_spam_to", parse_list escaped (all_words lines ($"more_spam_to")));
     ($"parsed_whitelist_allow_relays", parse_list escaped (all_words lines ($"whitelist_allow_relays")))]
    (mkWl (all_words lines ($"whitelist_from")) (last_split lines ($"whitelist_from_rcvd")) (last_split lines ($"def_whitelist_from_rcvd"))
       (all_words lines ($"whitelist_allow_relays"))) hosts.
Lemma start_ready escaped py_float lines :
  check_start escaped (configured py_float lines) =
  option_map (ready escaped lines)
    (uri_lists (last_split lines ($"enlist_uri_host")) (last_split lines ($"delist_uri_host"))
       (last_split lines ($"whitelist_uri_host")) (last_split lines ($"blacklist_uri_host"))).
Proof.
  unfold check_start.
  do 6 (erewrite append_list by (vm_compute; reflexivity)).
  do 2 (erewrite replace_list by (vm_compute; reflexivity)).
  erewrite append_list by (vm_compute; reflexivity).
  do 4 (erewrite replace_list by (vm_compute; reflexivity)).
  fold (last_split lines ($"enlist_uri_host")) (last_split lines ($"delist_uri_host"))
       (last_split lines ($"whitelist_uri_host")) (last_split lines ($"blacklist_uri_host")).
  destruct (uri_lists _ _ _ _); reflexivity.
Qed.

Lemma delist_some lines : forall d, exists d', parse_delist lines d = Some d'.
Proof.
  induction lines as [|x lines IH]; intros d; cbn [parse_delist]; [eauto|]. destruct (contains ($"(") x) eqn:E; [|apply IH].
  destruct (words x) as [|k uris] eqn:W; [|apply IH]. exfalso.
  apply contains_app in E as (a & b & ->).
  destruct (word_around ($"(") ltac:(discriminate) ltac:(intros c [<-|[]]; reflexivity) a b []) as (w & u & v & Hw & _).
  unfold words in W. rewrite W in Hw. destruct Hw.
Qed.
Lemma enlist_some d lines : forall p, (exists p', parse_enlist d lines p = Some p') <-> Forall (fun x => words x <> []) lines.
Proof.
  induction lines as [|x lines IH]; intros p; cbn [parse_enlist]; [split; [constructor|eauto]|].
  destruct (words x) as [|k uris] eqn:W.
  - split; [intros [p' E]; discriminate|]. intros F. inversion F; congruence.
  - rewrite IH. split; [intros F; constructor; [congruence|exact F]|intros F; inversion F; assumption].
Qed.
Lemma hosts_some en de wu bu : (exists p, uri_lists en de wu bu = Some p) <-> Forall (fun x => words x <> []) en.
Proof.
  unfold uri_lists. destruct (delist_some de []) as [d ->]. rewrite <- (enlist_some d en (mkEn [] [])).
  destruct (parse_enlist d en (mkEn [] [])) as [p|]; cbn; split; intros [q E]; eauto; discriminate.
Qed.

(** The rules *)
Section Rules.
Variable escaped : char -> bool.
Hypothesis Esc : escapes_right escaped.
Variable parse_net6 : str -> option net.
Variable ip_address : str -> option addr.
Variable lim : nat.
Variable strict : bool.
Variable decode : str -> option str.
Variable lines : list line.
Variable hosts : enlisted.
Variable m : letter.
Let st := ready escaped lines hosts.
Let asking := ask escaped parse_net6 ip_address lim strict decode st m.
Let from := senders lim strict decode (le_headers m).
Let to := recipients lim strict decode (le_headers m).

Lemma address_in_exact addresses name : In name address_lists ->
  exists b, address_in addresses ($"parsed_" ++ name) st = Some b /\ (b = true <-> exists a, In a addresses /\ listed lines name a).
Proof.
  intros Hn. assert (E : dget ($"parsed_" ++ name) (st_lists st) = Some (parse_list escaped (all_words lines name))).
  { cbn in Hn. repeat (destruct Hn as [<-|Hn]; [reflexivity|]). contradiction. }
  unfold address_in. rewrite E. destruct (check_in_exact escaped Esc (all_words lines name) addresses) as (b & Eb & Hb).
  exists b. split.
  - destruct addresses; [cbn in Eb; exact Eb|exact Eb].
  - rewrite Hb. split; intros (a & Ha & H); exists a; (split; [exact Ha|apply found_listed; exact H]).
Qed.

(** The marks rules leave are those some whitelist checks leave. *)
Definition visited (k : marks) : Prop :=
  exists cs, run_checks escaped parse_net6 ip_address (st_white st) (le_untrusted m) (le_trusted m) from cs marks0 = Some k.
Lemma run_checks_app c u t l cs : forall cs' k, run_checks escaped parse_net6 ip_address c u t l (cs ++ cs') k =
  match run_checks escaped parse_net6 ip_address c u t l cs k with
  | Some k' => run_checks escaped parse_net6 ip_address c u t l cs' k'
  | None => None
  end.
Proof.
  induction cs as [|x cs IH]; intros cs' k; cbn [run_checks app]; [reflexivity|].
  destruct (run_check _ _ _ _ _ _ _ x k) as [[b k']|]; [apply IH|reflexivity].
Qed.
Lemma ask_step r k : known r -> visited k -> exists b k', asking r k = Some (b, k') /\ visited k'.
Proof.
  intros K V. unfold asking, ask. fold from to.
  assert (A : forall l n, In n address_lists -> exists b k', option_map (fun b => (b, k)) (address_in l ($"parsed_" ++ n) st) = Some (b, k') /\ visited k').
  { intros l n Hn. destruct (address_in_exact l n Hn) as (b & -> & _). exists b, k. auto. }
  destruct r as [n|n| | | | | |c|n| | ].
  - destruct n as [|c n]; [eauto|]. destruct K as [K|K]; [discriminate|]. apply A, K.
  - apply A, K.
  - apply (A from ($"blacklist_from")). vm_compute. tauto.
  - apply (A to ($"whitelist_to")). vm_compute. tauto.
  - apply (A to ($"blacklist_to")). vm_compute. tauto.
  - apply (A to ($"all_spam_to")). vm_compute. tauto.
  - apply (A to ($"more_spam_to")). vm_compute. tauto.
  - destruct V as [cs V]. destruct (no_exception escaped Esc parse_net6 ip_address (st_white st) (le_untrusted m) (le_trusted m) from (cs ++ [c])) as [k' E].
    pose proof E as E'. rewrite run_checks_app, V in E. cbn [run_checks] in E.
    destruct (run_check _ _ _ _ _ _ _ c k) as [[b k'']|] eqn:R; [|discriminate]. injection E as ->. exists b, k'. split; [reflexivity|]. exists (cs ++ [c]). exact E'.
  - eauto.
  - eauto.
  - eauto.
Qed.
Lemma ask_all_ok rs : Forall known rs -> forall k, visited k -> exists k', ask_all escaped parse_net6 ip_address lim strict decode st m rs k = Some k' /\ visited k'.
Proof.
  induction 1 as [|r rs K F IH]; intros k V; cbn [ask_all]; [eauto|]. destruct (ask_step r k K V) as (b & k' & E & V').
  unfold asking in E. rewrite E. apply IH, V'.
Qed.
Lemma visited0 : visited marks0. Proof. exists []. reflexivity. Qed.

Lemma ask_plain rs l n r : Forall known rs -> In n address_lists ->
  (forall k, asking r k = option_map (fun b => (b, k)) (address_in l ($"parsed_" ++ n) st)) ->
  exists k b, ask_all escaped parse_net6 ip_address lim strict decode st m rs marks0 = Some k /\ option_map fst (asking r k) = Some b /\
    (b = true <-> exists a, In a l /\ listed lines n a).
Proof.
  intros F Hn E. destruct (ask_all_ok rs F marks0 visited0) as (k & Ek & V). destruct (address_in_exact l n Hn) as (b & Eb & Hb).
  exists k, b. split; [exact Ek|]. rewrite E, Eb. split; [reflexivity|exact Hb].
Qed.
Lemma ask_white rs c : Forall known rs ->
  exists k, ask_all escaped parse_net6 ip_address lim strict decode st m rs marks0 = Some k /\
    option_map fst (asking (White c) k) =
    option_map fst (run_check escaped parse_net6 ip_address (st_white st) (le_untrusted m) (le_trusted m) from c marks0).
Proof.
  intros F. destruct (ask_all_ok rs F marks0 visited0) as (k & Ek & cs & V). exists k. split; [exact Ek|].
  unfold asking, ask. fold from. exact (history escaped Esc parse_net6 ip_address (st_white st) (le_untrusted m) (le_trusted m) from cs c k V).
Qed.
End Rules.

(** The senders and the recipients *)
Lemma no_member {A} (l : list A) : l = [] <-> forall b, ~ In b l.
Proof. destruct l as [|a l]; split; auto; [discriminate|]. intros H. exfalso. apply (H a). left. reflexivity. Qed.
Lemma senders_are lim strict decode fields history ess : 1 <= lim ->
  (forall h, In h address_headers -> show decode (values_of h fields) (ess h)) ->
  forall a, In a (senders lim strict decode (lookups decode history (fresh_h fields))) <-> is_sender ess a.
Proof.
  intros Hl H a. rewrite (msg_senders lim strict decode fields history ess Hl).
  2:{ intros h Hh. apply H. revert Hh. vm_compute. tauto. }
  unfold is_sender, in_header. destruct (flat_map addresses_in (ess ($"Resent-From"))) as [|x l] eqn:E.
  - rewrite in_flat_map. split.
    + intros (h & Hh & Ha). right. split; [intros b []|]. exists h. split; [|exact Ha].
      unfold from_headers in Hh. cbn [In] in Hh. destruct Hh as [<-|[<-|[<-|[<-|[<-|[]]]]]]; try (vm_compute; tauto). rewrite E in Ha. destruct Ha.
    + intros [[]|(_ & h & Hh & Ha)]. exists h. split; [|exact Ha]. revert Hh. vm_compute. tauto.
  - split; [intros X; left; exact X|]. intros [X|(X & _)]; [exact X|]. exfalso. apply (X x). left. reflexivity.
Qed.
Lemma recipients_are lim strict decode fields history ess : 1 <= lim ->
  (forall h, In h address_headers -> show decode (values_of h fields) (ess h)) ->
  forall a, In a (recipients lim strict decode (lookups decode history (fresh_h fields))) <-> is_recipient ess a.
Proof.
  intros Hl H a. rewrite (msg_recipients lim strict decode fields history ess Hl).
  2:{ intros h Hh. apply H. revert Hh. vm_compute. tauto. }
  unfold is_recipient, in_header.
  destruct (flat_map addresses_in (ess ($"Resent-To")) ++ flat_map addresses_in (ess ($"Resent-Cc"))) as [|x l] eqn:E.
  - apply app_eq_nil in E as [E1 E2]. rewrite E1, E2, in_flat_map. split.
    + intros (h & Hh & Ha). right. right. split; [intros b []|]. split; [intros b []|]. exists h. split; [|exact Ha].
      unfold to_headers in Hh. cbn [In] in Hh. repeat (destruct Hh as [<-|Hh]; [first [rewrite E1 in Ha; destruct Ha|rewrite E2 in Ha; destruct Ha|vm_compute; tauto]|]). contradiction.
    + intros [[]|[[]|(_ & _ & h & Hh & Ha)]]. exists h. split; [|exact Ha]. revert Hh. vm_compute. tauto.
  - rewrite <- E, in_app_iff. split; [intros [X|X]; auto|]. intros [X|[X|(X & Y & _)]]; auto.
    exfalso. apply no_member in X, Y. rewrite X, Y in E. discriminate.
Qed.
