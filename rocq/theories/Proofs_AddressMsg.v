(** Proofs for Props_Address: what the functions of a message take from address headers. *)
From Verif Require Import PyStr PyDict PyAddr Spec_Address Proofs_Address Proofs_AddressStrict Proofs_AddressAll
  Model_Rules Model_Headers Spec_Headers Proofs_Headers Model_Address Model_Wlbl.
Require Import Lia.

Definition nonempty (t : str) : bool := match t with [] => false | _ => true end.

Lemma decoded_fresh : forall decode fields history n,
  fst (get_decoded decode n (lookups decode history (fresh_h fields))) = map decode (values_of n fields).
Proof.
  intros decode fields ks n. destruct (lookups_ok decode ks (fresh_h fields) (fresh_cache_ok decode fields)) as [Hc Hr].
  destruct (get_decoded_ok decode n _ Hc) as [He _]. rewrite He, Hr. cbn [fresh_h h_raw]. now rewrite h_get_raw.
Qed.

Lemma address_nonempty : forall a, nonempty (address_text a) = true.
Proof. intros [w d]. unfold address_text. cbn [local domain]. destruct (word_text w); reflexivity. Qed.
Lemma mailbox_address_nonempty : forall m, nonempty (mailbox_address m) = true.
Proof. intros [a|a r|w ws a]; apply address_nonempty. Qed.

Lemma all_of_filter : forall sel l, all_of sel l = filter nonempty (map sel l).
Proof. reflexivity. Qed.
Lemma first_of_firstn : forall sel l, first_of sel l = firstn 1 (filter nonempty (map sel l)).
Proof.
  intros sel l. unfold first_of. induction l as [|p l IH]; [reflexivity|]. cbn [filter map].
  destruct (sel p) as [|c t] eqn:E; cbn [nonempty]; [exact IH|]. cbn [firstn]. now rewrite E.
Qed.
Lemma pairs_read_sel : forall (sel : str * str -> str) es, sel ([], []) = [] ->
  filter nonempty (map sel (flat_map pairs_read es)) = filter nonempty (map (fun m => sel (pair_of m)) (flat_map mailboxes es)).
Proof.
  intros sel es H. induction es as [|e es IH]; [reflexivity|]. cbn [flat_map]. rewrite !map_app, !filter_app, IH. f_equal.
  unfold pairs_read, read_entry. destruct (mailboxes e) as [|m ms]; cbn [map].
  - cbn [filter]. now rewrite H.
  - now rewrite map_map.
Qed.
Lemma filter_all : forall {A} (f : A -> bool) l, (forall x, In x l -> f x = true) -> filter f l = l.
Proof.
  intros A f l H. induction l as [|x l IH]; [reflexivity|]. cbn [filter]. rewrite (H x) by now left. f_equal. apply IH.
  intros y Hy. apply H. now right.
Qed.
Lemma pairs_addresses : forall es, filter nonempty (map snd (flat_map pairs_read es)) = addresses_in es.
Proof.
  intros es. rewrite pairs_read_sel by reflexivity. cbn [pair_of snd]. unfold addresses_in. apply filter_all.
  intros x Hx. apply in_map_iff in Hx. destruct Hx as (m & <- & _). apply mailbox_address_nonempty.
Qed.
Lemma pairs_names : forall es, filter nonempty (map fst (flat_map pairs_read es)) = names_in es.
Proof. intros es. rewrite pairs_read_sel by reflexivity. reflexivity. Qed.

Lemma collect_shown : forall lim strict decode pick values ess, 1 <= lim -> show decode values ess ->
  collect (getaddresses lim strict) pick (map decode values) = Some (flat_map (fun es => pick (flat_map pairs_read es)) ess).
Proof.
  intros lim strict decode pick values ess Hl [E G]. rewrite E. clear E. induction G as [|es ess [Hne Hes] _ IH]; [reflexivity|].
  cbn [map collect flat_map]. rewrite IH, addresses_read; auto.
  unfold levels. destruct (existsb _ es); lia.
Qed.

Lemma msg_all : forall lim strict decode fields history n ess, 1 <= lim -> show decode (values_of n fields) ess ->
  get_all_addr_header lim strict decode n (lookups decode history (fresh_h fields)) = Some (flat_map addresses_in ess).
Proof.
  intros lim strict decode fields ks n ess Hl Hs. unfold get_all_addr_header. rewrite decoded_fresh.
  rewrite (collect_shown _ _ _ _ _ ess) by auto. f_equal. apply flat_map_ext. intros es. rewrite all_of_filter. apply pairs_addresses.
Qed.
Lemma msg_first : forall lim strict decode fields history n ess, 1 <= lim -> show decode (values_of n fields) ess ->
  get_addr_header lim strict decode n (lookups decode history (fresh_h fields)) = Some (flat_map (fun es => firstn 1 (addresses_in es)) ess).
Proof.
  intros lim strict decode fields ks n ess Hl Hs. unfold get_addr_header, addr_values. rewrite decoded_fresh.
  rewrite (collect_shown _ _ _ _ _ ess) by auto. f_equal. apply flat_map_ext. intros es. rewrite first_of_firstn. now rewrite pairs_addresses.
Qed.
Lemma msg_names : forall lim strict decode fields history n ess, 1 <= lim -> show decode (values_of n fields) ess ->
  get_name_header lim strict decode n (lookups decode history (fresh_h fields)) = Some (flat_map (fun es => firstn 1 (names_in es)) ess).
Proof.
  intros lim strict decode fields ks n ess Hl Hs. unfold get_name_header, addr_values. rewrite decoded_fresh.
  rewrite (collect_shown _ _ _ _ _ ess) by auto. f_equal. apply flat_map_ext. intros es. rewrite first_of_firstn. now rewrite pairs_names.
Qed.

(** ** No exception *)
Lemma collect_total : forall lim strict pick values, 1 <= lim ->
  (forall v, In (Some v) values -> openings v <= lim) -> exists l, collect (getaddresses lim strict) pick values = Some l.
Proof.
  intros lim strict pick values Hl. induction values as [|v values IH]; intros H; [now exists []|]. cbn [collect].
  destruct IH as [l' ->]; [intros x Hx; apply H; now right|].
  destruct (addresses_total lim strict (match v with Some t => t | None => $"None" end)) as [l ->]; [|exact Hl|eauto].
  destruct v as [t|]; [apply H; now left|]. vm_compute. apply Nat.le_0_l.
Qed.
Lemma msg_total : forall lim strict decode fields history n, 1 <= lim ->
  (forall v d, In v (values_of n fields) -> decode v = Some d -> openings d <= lim) ->
  (exists l, get_all_addr_header lim strict decode n (lookups decode history (fresh_h fields)) = Some l) /\
  (exists l, get_addr_header lim strict decode n (lookups decode history (fresh_h fields)) = Some l) /\
  (exists l, get_name_header lim strict decode n (lookups decode history (fresh_h fields)) = Some l).
Proof.
  intros lim strict decode fields ks n Hl H. unfold get_all_addr_header, get_addr_header, get_name_header, addr_values.
  rewrite decoded_fresh.
  assert (G : forall v, In (Some v) (map decode (values_of n fields)) -> openings v <= lim).
  { intros v Hv. apply in_map_iff in Hv. destruct Hv as (x & Hx & Hi). eapply H; eauto. }
  repeat split; now apply collect_total.
Qed.

(** Too many brackets inside one another *)
Definition nested (n : nat) : str := repeat 40%N n ++ repeat 41%N n.
Lemma comment_deep : forall lim k d r, lim < d + k -> comment lim d false (repeat 40%N k ++ r) = None \/ lim < d.
Proof.
  intros lim. induction k as [|k IH]; intros d r H; [right; lia|]. cbn [repeat app comment].
  change (N.eqb 40 41 || N.eqb 40 13) with false. change (N.eqb 40 40) with true. cbv iota.
  destruct (Nat.ltb_spec d lim) as [Hd|Hd]; [|now left]. destruct (IH (S d) r ltac:(lia)) as [E|E]; [now left|lia].
Qed.
Lemma getaddress_deep : forall lim k r, lim < k -> getaddress lim (40%N :: repeat 40%N k ++ r) = None.
Proof.
  intros lim k r H. rewrite getaddress_unfold. unfold gotonext. cbn [length gotonext_loop].
  change (mem_char 40 fws) with false. change (N.eqb 40 40) with true. cbv iota. unfold getcomment.
  destruct (comment_deep lim k 0 r ltac:(lia)) as [E|E]; [now rewrite E|lia].
Qed.
Lemma strip_plain : forall s, Forall (fun c => c <> 34%N /\ c <> 92%N) s -> strip_quoted None false s = s.
Proof.
  intros s H. induction H as [|c s [H1 H2] _ IH]; [reflexivity|]. cbn [strip_quoted]. apply N.eqb_neq in H1, H2.
  rewrite H1, H2. cbn [negb andb]. now rewrite IH.
Qed.
Lemma nested_plain : forall n, Forall (fun c => c <> 34%N /\ c <> 92%N) (nested n).
Proof.
  intros n. unfold nested. apply Forall_app. split; apply Forall_forall; intros c H; apply repeat_spec in H; subst; split; discriminate.
Qed.
Lemma balanced_open : forall k d x, balanced d false (repeat 40%N k ++ x) = balanced (k + d) false x.
Proof.
  induction k as [|k IH]; intros d x; [reflexivity|]. cbn [repeat app balanced].
  change (N.eqb 40 40) with true. cbn. rewrite IH. f_equal. lia.
Qed.
Lemma balanced_close : forall k, balanced k false (repeat 41%N k) = true.
Proof. induction k as [|k IH]; [reflexivity|]. cbn. exact IH. Qed.
Lemma nested_balanced : forall n, check_parenthesis (nested n) = true.
Proof.
  intros n. unfold check_parenthesis, strip_quoted_realnames. rewrite strip_plain by apply nested_plain.
  unfold nested. rewrite balanced_open, Nat.add_0_r. apply balanced_close.
Qed.
Lemma nested_raises : forall lim strict, getaddresses lim strict (nested (S (S lim))) = None.
Proof.
  intros lim strict.
  assert (E : getaddrlist lim (nested (S (S lim))) = None).
  { unfold getaddrlist, nested. change (repeat 40%N (S (S lim))) with (40%N :: repeat 40%N (S lim)).
    set (x := repeat 41%N (S (S lim))). change ((40%N :: repeat 40%N (S lim)) ++ x) with (40%N :: repeat 40%N (S lim) ++ x).
    pose proof (getaddress_deep lim (S lim) x ltac:(lia)) as G. remember (repeat 40%N (S lim) ++ x) as y.
    cbn [length addrlist_loop]. now rewrite G. }
  unfold getaddresses. destruct strict; [|exact E]. unfold pre_validate. rewrite nested_balanced. now rewrite E.
Qed.

(** ** Addresses come from the text *)
Lemma sub_app : forall a b x y, subsequence a x -> subsequence b y -> subsequence (a ++ b) (x ++ y).
Proof.
  intros a b x y H. revert b y. induction H as [s|c a s H IH|c a s H IH]; intros b y Hb.
  - cbn [app]. induction s as [|c s IHs]; [exact Hb|]. now apply sub_skip.
  - cbn [app]. apply sub_take. auto.
  - cbn [app]. apply sub_skip. auto.
Qed.
Lemma without_app : forall a b, without_marks (a ++ b) = without_marks a ++ without_marks b.
Proof. intros a b. apply filter_app. Qed.
Lemma concat_nonempty : forall l : list str, concat (filter nonempty l) = concat l.
Proof. induction l as [|x l IH]; [reflexivity|]. cbn [filter concat]. destruct x; cbn [nonempty concat]; now rewrite IH. Qed.
Lemma msg_from_text : forall lim strict decode fields history n texts l,
  map decode (values_of n fields) = map Some texts ->
  get_all_addr_header lim strict decode n (lookups decode history (fresh_h fields)) = Some l ->
  subsequence (without_marks (concat l)) (concat texts).
Proof.
  intros lim strict decode fields ks n texts l E H. unfold get_all_addr_header in H. rewrite decoded_fresh, E in H. clear E.
  revert l H. induction texts as [|v texts IH]; intros l H; cbn [map collect] in H.
  - injection H as <-. apply sub_nil.
  - destruct (getaddresses lim strict v) as [ps|] eqn:Ep; [|discriminate].
    destruct (collect _ _ (map Some texts)) as [l'|] eqn:El; [|discriminate]. injection H as <-.
    rewrite concat_app, without_app. cbn [concat]. apply sub_app; [|now apply IH].
    rewrite all_of_filter, concat_nonempty. eapply addresses_from_text. exact Ep.
Qed.

(** ** An address where a name belongs *)
Lemma getaddress_route : forall lim a k, good_address a ->
  getaddress lim (60%N :: address_text a ++ 62%N :: k) = after_address lim [([], address_text a)] k.
Proof.
  intros lim a k Ha. rewrite getaddress_unfold. rewrite gotonext_solid by (vm_compute; intuition discriminate).
  change (getphraselist lim [] (60%N :: address_text a ++ 62%N :: k)) with (Some ([] : list str, [] : list str, 60%N :: address_text a ++ 62%N :: k)).
  cbv iota. rewrite gotonext_solid by (vm_compute; intuition discriminate). cbn zeta.
  change (N.eqb 60 46 || N.eqb 60 64) with false. change (N.eqb 60 58) with false. change (N.eqb 60 60) with true. cbv iota.
  rewrite route_spec by exact Ha. reflexivity.
Qed.
Lemma spoof_read : forall lim shown real, good_address shown -> good_address real ->
  getaddrlist lim (spoof shown real) = Some [([], address_text shown); ([], address_text real)].
Proof.
  intros lim a b Ha Hb. unfold getaddrlist.
  assert (Hne : exists c r, spoof a b = c :: r /\ length r >= 2).
  { unfold spoof. destruct (address_text a) as [|c t] eqn:E; [pose proof (address_nonempty a) as Hn; rewrite E in Hn; discriminate|].
    eexists c, _. split; [reflexivity|]. rewrite !app_length. change (length ($" <")) with 2. lia. }
  destruct Hne as (c & r & E & Hlen).
  assert (G1 : getaddress lim (spoof a b) = Some ([([], address_text a)], 60%N :: address_text b ++ $">")).
  { unfold spoof. rewrite (getaddress_bare lim a _ [] (60%N :: address_text b ++ $">")); auto.
    - vm_compute. tauto.
    - intros f' Hf. change ($" <" ++ address_text b ++ $">") with (32%N :: 60%N :: address_text b ++ $">") in *.
      apply domain_space; [exact Hf|]. intros f'' Hf'. apply domain_stop; [exact Hf'|]. vm_compute. intuition discriminate. }
  rewrite E in *. cbn [length addrlist_loop]. rewrite G1.
  destruct (length r) as [|[|f]]; [lia|lia|]. cbn [addrlist_loop].
  change ($">") with [62%N]. rewrite getaddress_route by exact Hb. rewrite after_end by exact Logic.I. cbn [past_comma].
  destruct f; reflexivity.
Qed.
Lemma spoof_strips : forall a b, good_address a -> good_address b -> strips (spoof a b) 0.
Proof.
  intros a b Ha Hb. unfold spoof. change 0 with (0 + (0 + (0 + 0))).
  apply strips_app; [now apply strips_address|]. apply strips_app; [now apply strips_text|].
  apply strips_app; [now apply strips_address|]. now apply strips_text.
Qed.
Lemma spoof_addresses : forall lim strict a b, good_address a -> good_address b ->
  getaddresses lim strict (spoof a b) =
  Some (if strict then [([], [])] else [([], address_text a); ([], address_text b)]).
Proof.
  intros lim strict a b Ha Hb. unfold getaddresses. destruct strict; [|now apply spoof_read].
  destruct (spoof_strips a b Ha Hb) as (s' & S1 & S2 & S3).
  assert (Hsq : strip_quoted_realnames (spoof a b) = s').
  { unfold strip_quoted_realnames. rewrite <- (app_nil_r (spoof a b)), S1. cbn [strip_quoted]. apply app_nil_r. }
  assert (Hcp : check_parenthesis (spoof a b) = true).
  { unfold check_parenthesis. rewrite Hsq, <- (app_nil_r s'), S3. reflexivity. }
  unfold pre_validate. rewrite Hcp, spoof_read by auto. unfold post_validate. cbn [map length]. rewrite ?map_length.
  rewrite Hsq, S2. reflexivity.
Qed.

(** ** Rules on addresses and names *)
Lemma first_split : forall (sel : str * str -> str) (l : list (str * str)) t,
  (exists before p after, l = before ++ p :: after /\ (forall q, In q before -> sel q = []) /\ sel p <> [] /\ sel p = t) <->
  firstn 1 (filter nonempty (map sel l)) = [t].
Proof.
  intros sel l t. split.
  - intros (b & p & a & -> & Hb & Hp & <-). rewrite map_app, filter_app.
    assert (E : filter nonempty (map sel b) = []).
    { clear a. induction b as [|q b IH]; [reflexivity|]. cbn [map filter]. rewrite (Hb q) by now left. cbn [nonempty].
      apply IH. intros x Hx. apply Hb. now right. }
    rewrite E. cbn [app map filter]. destruct (sel p); [contradiction|reflexivity].
  - induction l as [|p l IH]; [discriminate|]. cbn [map filter]. destruct (sel p) as [|c s] eqn:E; cbn [nonempty].
    + intros H. destruct (IH H) as (b & q & a & -> & Hb & Hq). exists (p :: b), q, a. split; [reflexivity|]. split; [|exact Hq].
      intros x [<-|Hx]; auto.
    + intros H. injection H as <-. exists [], p, l. repeat split; auto.
      * intros q [].
      * rewrite E. discriminate.
Qed.
Lemma show_values : forall decode values ess, show decode values ess ->
  (forall v, In v values -> exists es, In es ess /\ well_written es /\ decode v = Some (header_text es)) /\
  (forall es, In es ess -> exists v, In v values /\ well_written es /\ decode v = Some (header_text es)).
Proof.
  intros decode values ess [E G]. revert ess E G. induction values as [|v values IH]; intros [|es ess] E G; try discriminate.
  - split; intros x [].
  - cbn [map] in E. injection E as E1 E2. inversion G as [|? ? G1 G2]; subst. destruct (IH ess E2 G2) as [I1 I2]. split.
    + intros x [<-|Hx]; [exists es; intuition|]. destruct (I1 x Hx) as (e & ?). exists e. intuition.
    + intros e [<-|Hx]; [exists v; intuition|]. destruct (I2 e Hx) as (x & ?). exists x. intuition.
Qed.
Lemma shown_rule : forall re_compile lim strict decode fields history b1 n b2 pat search (md : str) (pick : list entry -> list str) ess,
  (md = $":addr" /\ pick = addresses_in) \/ (md = $":name" /\ pick = names_in) ->
  plain_name n -> blank b1 -> blank b2 -> perl2re re_compile pat = ReOk search ->
  1 <= lim -> show decode (values_of n fields) ess ->
  exists r hit, header_rule re_compile (b1 ++ (n ++ md) ++ b2 ++ $"=~" ++ pat) = HOk r /\
    hrule_match decode (getaddresses lim strict) r (lookups decode history (fresh_h fields)) = Returns (VBool hit) /\
    (hit = true <-> exists es t, In es ess /\ firstn 1 (pick es) = [t] /\ search t = true).
Proof.
  intros rc lim strict decode fields ks b1 n b2 pat search md pick ess Hmd Hn Hb1 Hb2 Hp Hl Hs.
  destruct (show_values _ _ _ Hs) as [V1 V2].
  assert (Hread : forall es, well_written es -> getaddresses lim strict (header_text es) = Some (flat_map pairs_read es)).
  { intros es [W1 W2]. apply addresses_read; auto. unfold levels. destruct (existsb _ es); lia. }
  assert (S : exists sel : str * str -> str, ((md = $":addr" /\ sel = snd) \/ (md = $":name" /\ sel = fst)) /\
                forall es, filter nonempty (map sel (flat_map pairs_read es)) = pick es).
  { destruct Hmd as [[-> ->]|[-> ->]]; [exists snd|exists fst]; (split; [auto|]); [exact pairs_addresses|exact pairs_names]. }
  destruct S as (sel & Hsel & Hpick).
  destruct (c13_addr_name rc decode (getaddresses lim strict) fields ks b1 n b2 pat search md sel Hsel Hn Hb1 Hb2 Hp) as (r & hit & H1 & H2 & H3).
  - intros v Hv. destruct (V1 v Hv) as (es & _ & _ & ->). discriminate.
  - intros v d Hv Hd. destruct (V1 v Hv) as (es & _ & W & E). rewrite E in Hd. injection Hd as <-. rewrite Hread by exact W. discriminate.
  - exists r, hit. split; [exact H1|]. split; [exact H2|]. rewrite H3. split.
    + intros (v & d & b & p & a & Hv & Hd & Ha & Hb & Hne & Hse). destruct (V1 v Hv) as (es & Hes & W & E).
      rewrite E in Hd. injection Hd as <-. rewrite Hread in Ha by exact W. injection Ha as Ha.
      exists es, (sel p). split; [exact Hes|]. split; [|exact Hse]. rewrite <- Hpick. apply first_split. exists b, p, a. auto.
    + intros (es & t & Hes & Hf & Hse). destruct (V2 es Hes) as (v & Hv & W & E). rewrite <- Hpick in Hf. apply first_split in Hf.
      destruct Hf as (b & p & a & E2 & Hb & Hne & <-). exists v, (header_text es), b, p, a. repeat split; auto.
      rewrite Hread by exact W. now rewrite E2.
Qed.

(** ** The senders and recipients of a message *)
Lemma flat_map_ext_in : forall {A B} (f g : A -> list B) l, (forall x, In x l -> f x = g x) -> flat_map f l = flat_map g l.
Proof.
  intros A B f g l H. induction l as [|x l IH]; [reflexivity|]. cbn [flat_map]. rewrite (H x) by now left. f_equal. apply IH.
  intros y Hy. apply H. now right.
Qed.
Lemma msg_from_headers : forall lim strict decode fields history sender (ess : str -> list (list entry)), 1 <= lim ->
  (forall h, In h all_from_headers -> show decode (values_of h fields) (ess h)) ->
  get_all_from_headers_addr lim strict decode sender (lookups decode history (fresh_h fields)) =
  Some (flat_map (fun h => if streqb h ($"EnvelopeFrom") && nonempty sender then [sender] else flat_map addresses_in (ess h)) all_from_headers).
Proof.
  intros lim strict decode fields ks sender ess Hl. unfold get_all_from_headers_addr.
  assert (Hs : negb match sender with [] => true | _ :: _ => false end = nonempty sender) by (destruct sender; reflexivity).
  generalize all_from_headers as hs. induction hs as [|h hs IH]; intros H; [reflexivity|].
  cbn [from_headers_addr flat_map]. rewrite IH by (intros x Hx; apply H; now right). rewrite Hs.
  destruct (streqb h ($"EnvelopeFrom") && nonempty sender); [reflexivity|].
  rewrite (msg_all lim strict decode fields ks h (ess h)); auto. apply H. now left.
Qed.
Lemma concat_flat : forall {A B} (f : A -> list B) l, concat (map f l) = flat_map f l.
Proof. intros A B f l. symmetry. apply flat_map_concat_map. Qed.
Lemma msg_senders : forall lim strict decode fields history (ess : str -> list (list entry)), 1 <= lim ->
  (forall h, In h from_headers -> show decode (values_of h fields) (ess h)) ->
  senders lim strict decode (lookups decode history (fresh_h fields)) =
  match flat_map addresses_in (ess ($"Resent-From")) with
  | [] => flat_map (fun h => flat_map addresses_in (ess h)) from_headers
  | l => l
  end.
Proof.
  intros lim strict decode fields ks ess Hl H. unfold senders, from_addresses.
  rewrite (msg_all lim strict decode fields ks _ (ess ($"Resent-From"))); [|exact Hl|apply H; unfold from_headers; cbn [In]; auto].
  destruct (flat_map addresses_in (ess ($"Resent-From"))) as [|x l]; [|reflexivity].
  rewrite concat_flat. apply flat_map_ext_in. intros h Hh. now rewrite (msg_all lim strict decode fields ks h (ess h)) by auto.
Qed.
Lemma msg_recipients : forall lim strict decode fields history (ess : str -> list (list entry)), 1 <= lim ->
  (forall h, In h to_headers -> show decode (values_of h fields) (ess h)) ->
  recipients lim strict decode (lookups decode history (fresh_h fields)) =
  match flat_map addresses_in (ess ($"Resent-To")) ++ flat_map addresses_in (ess ($"Resent-Cc")) with
  | [] => flat_map (fun h => flat_map addresses_in (ess h)) to_headers
  | l => l
  end.
Proof.
  intros lim strict decode fields ks ess Hl H. unfold recipients, to_addresses.
  rewrite (msg_all lim strict decode fields ks _ (ess ($"Resent-To"))); [|exact Hl|apply H; unfold to_headers; cbn [In]; auto].
  rewrite (msg_all lim strict decode fields ks _ (ess ($"Resent-Cc"))); [|exact Hl|apply H; unfold to_headers; cbn [In]; auto].
  destruct (flat_map addresses_in (ess ($"Resent-To")) ++ flat_map addresses_in (ess ($"Resent-Cc"))) as [|x l]; [|reflexivity].
  rewrite concat_flat. apply flat_map_ext_in. intros h Hh. now rewrite (msg_all lim strict decode fields ks h (ess h)) by auto.
Qed.
Lemma msg_awl : forall lim strict decode fields history ess, 1 <= lim -> show decode (values_of ($"From") fields) ess ->
  awl_from lim strict decode (lookups decode history (fresh_h fields)) = Some (hd [] (flat_map addresses_in ess)).
Proof.
  intros lim strict decode fields ks ess Hl H. unfold awl_from. rewrite (msg_first lim strict decode fields ks _ ess) by auto.
  cbn [option_map]. f_equal. clear H. induction ess as [|es ess IH]; [reflexivity|]. cbn [flat_map].
  destruct (addresses_in es) as [|a l]; [exact IH|reflexivity].
Qed.

Lemma msg_spoof : forall lim strict decode fields history n a b, good_address a -> good_address b ->
  map decode (values_of n fields) = [Some (spoof a b)] ->
  get_all_addr_header lim strict decode n (lookups decode history (fresh_h fields)) =
    Some (if strict then [] else [address_text a; address_text b]) /\
  get_addr_header lim strict decode n (lookups decode history (fresh_h fields)) =
    Some (if strict then [] else [address_text a]).
Proof.
  intros lim strict decode fields ks n a b Ha Hb E. unfold get_all_addr_header, get_addr_header, addr_values. rewrite decoded_fresh, E.
  cbn [collect]. rewrite spoof_addresses by auto. rewrite all_of_filter, first_of_firstn.
  pose proof (address_nonempty a) as Na. pose proof (address_nonempty b) as Nb.
  destruct strict; [split; reflexivity|]. cbn [map snd filter]. rewrite Na, Nb. split; reflexivity.
Qed.
Lemma none_addresses : forall lim strict, getaddresses lim strict ($"None") = Some [([], $"None")].
Proof. intros [|lim] [|]; reflexivity. Qed.
