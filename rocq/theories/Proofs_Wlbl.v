(** Proofs about the address and host lists. *)
From Verif Require Import PyStr PyDict PyRe Proofs_PyRe Model_Net Model_Relays Model_Wlbl Spec_Parser Proofs_Parser Spec_Wlbl.

(** ** Entries as languages *)
Lemma den_app l1 l2 w : den (l1 ++ l2) w <-> exists a b, w = a ++ b /\ den l1 a /\ den l2 b.
Proof.
  revert w. induction l1 as [|i l1 IH]; intros w; cbn [app den].
  - split; [intros H; exists [], w; auto | intros (a & b & -> & -> & H); exact H].
  - split.
    + intros (a & b & -> & Hi & H). apply IH in H as (c & d & -> & Hc & Hd). exists (a ++ c), d. split; [apply app_assoc|]. split; [|exact Hd].
      exists a, c. auto.
    + intros (ab & d & -> & (a & b & -> & Hi & Hb) & Hd). exists a, (b ++ d). split; [symmetry; apply app_assoc|]. split; [exact Hi|].
      apply IH. exists b, d. auto.
Qed.
Lemma den_one i w : den [i] w <-> item_lang i w.
Proof. cbn. split; [intros (a & b & -> & H & ->); rewrite app_nil_r; exact H | intros H; exists w, []; rewrite app_nil_r; auto]. Qed.

Lemma like_den sitems (star : str -> Prop) : (forall a, den sitems a <-> star a) ->
  forall e w, den (concat (map (items1 sitems) e)) w <-> like star at_most_one e w.
Proof.
  intros Hs. induction e as [|c e IH]; intros w; [reflexivity|]. cbn [map concat like]. rewrite den_app. unfold items1 at 1.
  assert (K : forall a, den (if N.eqb c 42 then sitems else if N.eqb c 63 then [(None, QOpt)] else [(Some c, QOne)]) a <->
    (if N.eqb c 42 then star a else if N.eqb c 63 then at_most_one a else a = [c])).
  { intros a. destruct (N.eqb c 42); [apply Hs|]. destruct (N.eqb c 63).
    - rewrite den_one. unfold item_lang, at_most_one, one_line. cbn [snd fst atom_ok]. split.
      + intros [-> | (d & -> & Hd)]; cbn; [split; [lia | tauto]|]. split; [lia|]. intros [-> | []]. discriminate.
      + intros [Hl Hn]. destruct a as [|d [|? ?]]; cbn in Hl; [left; reflexivity | right; exists d; split; [reflexivity|] | lia].
        destruct (N.eqb_spec d 10) as [-> | _]; [exfalso; apply Hn; left; reflexivity | reflexivity].
    - rewrite den_one. unfold item_lang. cbn [snd fst atom_ok]. split.
      + intros (d & -> & Hd). apply N.eqb_eq in Hd. congruence.
      + intros ->. exists c. split; [reflexivity | apply N.eqb_refl]. }
  split; intros (a & b & -> & H1 & H2); exists a, b; (split; [reflexivity|]).
  - split; [apply IH, H2 | apply K, H1].
  - split; [apply K, H2 | apply IH, H1].
Qed.

Lemma star_any a : den [(None, QStar)] a <-> one_line a.
Proof.
  rewrite den_one. unfold item_lang, one_line. cbn [snd fst atom_ok]. split.
  - intros H Hin. specialize (H _ Hin). discriminate.
  - intros H c Hc. destruct (N.eqb_spec c 10) as [-> | _]; [contradiction | reflexivity].
Qed.
Lemma star_some a : den [(None, QOne); (None, QStar)] a <-> some_text a.
Proof.
  change [(None, QOne); (None, QStar)] with ([(None, QOne)] ++ [(@None char, QStar)]). rewrite den_app. unfold some_text, one_line. split.
  - intros (x & y & -> & Hx & Hy). apply den_one in Hx as (c & -> & Hc). apply star_any in Hy. split; [discriminate|].
    cbn [fst atom_ok] in Hc. intros [-> | H]; [discriminate | exact (Hy H)].
  - intros [Hne Hn]. destruct a as [|c a]; [congruence|]. exists [c], a. split; [reflexivity|]. split.
    + apply den_one. exists c. split; [reflexivity|]. cbn. destruct (N.eqb_spec c 10) as [-> | _]; [exfalso; apply Hn; left; reflexivity | reflexivity].
    + apply star_any. intros H. apply Hn. right. exact H.
Qed.

Section Escaped.
Variable escaped : char -> bool.
Hypothesis Hesc : escapes_right escaped.

Lemma escape_addr_pieces e : escape_addr escaped e = concat (map (piece escaped ($".*")) e).
Proof. exact (escape_pieces escaped (proj1 Hesc) e). Qed.

Lemma piece_at star c : ~ In 64%N star -> In 64%N (piece escaped star c) <-> c = 64%N.
Proof.
  intros Hs. unfold piece. destruct (N.eqb_spec c 42) as [-> | H]; [split; [intros X; contradiction | discriminate]|].
  destruct (N.eqb_spec c 63) as [-> | H2]; [split; [vm_compute; intuition discriminate | discriminate]|].
  destruct (escaped c); cbn; intuition (try discriminate; auto).
Qed.
Lemma pieces_at e : In 64%N (concat (map (piece escaped ($".*")) e)) <-> In 64%N e.
Proof.
  rewrite in_concat. split.
  - intros (x & Hx & H). apply in_map_iff in Hx as (c & <- & Hc). apply piece_at in H as ->; [exact Hc | vm_compute; intuition discriminate].
  - intros H. exists (piece escaped ($".*") 64%N). split; [apply in_map, H|]. apply piece_at; [vm_compute; intuition discriminate | reflexivity].
Qed.
Lemma contains_one c s : contains [c] s = mem_char c s.
Proof.
  destruct (mem_char c s) eqn:E.
  - apply mem_char_In in E. apply in_split in E as (a & b & ->). apply contains_app. exists a, b. reflexivity.
  - destruct (contains [c] s) eqn:E2; [|reflexivity]. apply contains_app in E2 as (a & b & ->). apply mem_char_notIn in E. exfalso. apply E.
    apply in_or_app. right. left. reflexivity.
Qed.

Lemma entry_compile e :
  re_compile (if contains ($"@") (escape_addr escaped e) then escape_addr escaped e else $".*@" ++ escape_addr escaped e) =
  Some (concat (map (items1 [(None, QStar)]) (whole e))).
Proof.
  rewrite escape_addr_pieces. change ($"@") with [64%N]. rewrite contains_one. unfold whole.
  destruct (mem_char 64%N e) eqn:E.
  - apply mem_char_In in E. destruct (mem_char 64%N (concat _)) eqn:E2; [apply compile_entry; apply Hesc|]. apply mem_char_notIn in E2. exfalso. apply E2, pieces_at, E.
  - apply mem_char_notIn in E. destruct (mem_char 64%N (concat _)) eqn:E2; [apply mem_char_In in E2; exfalso; exact (E (proj1 (pieces_at e) E2))|].
    pose proof (compile_entry escaped (proj1 Hesc) (proj2 Hesc) e) as C. unfold re_compile in *.
    destruct (re_tokens (concat (map (piece escaped ($".*")) e))) as [l|] eqn:T; [|discriminate].
    rewrite (re_tokens_app ($".*@") (concat (map (piece escaped ($".*")) e)) [TDot; TStar; TLit 64%N] l eq_refl T).
    assert (H : headed l).
    { pose proof (tokens_pieces escaped (proj1 Hesc) (proj2 Hesc) ($".*") [TDot; TStar] e eq_refl) as T2. rewrite T in T2. injection T2 as ->.
      refine (proj1 (items_toks [TDot; TStar] [(None, QStar)] e I _)). intros l m _ H. cbn [app re_items]. rewrite H. reflexivity. }
    change (map (items1 [(None, QStar)]) ($"*@" ++ e)) with ([(@None char, QStar)] :: [(Some 64%N, QOne)] :: map (items1 [(None, QStar)]) e).
    cbn [concat app re_items]. destruct l as [|t l]; [cbn in *; injection C as <-; reflexivity|].
    cbn [re_items] in *. destruct t; try contradiction; cbn [option_map]; rewrite C; reflexivity.
Qed.

Lemma check_input_usable e : check_input e = true <-> usable e.
Proof.
  unfold check_input, usable. rewrite existsb_exists. split.
  - intros (x & Hx & H). destruct Hx as [<- | [<- | [<- | [<- | []]]]].
    + change ($"?") with [63%N] in H. rewrite contains_one in H. apply mem_char_In in H. auto.
    + change ($"@") with [64%N] in H. rewrite contains_one in H. apply mem_char_In in H. auto.
    + change ($".") with [46%N] in H. rewrite contains_one in H. apply mem_char_In in H. auto.
    + apply contains_app in H as (a & b & ->). right. left. apply in_or_app. right. right. left. reflexivity.
  - assert (K : forall c, In c e -> contains [c] e = true) by (intros c Hc; rewrite contains_one; apply mem_char_In, Hc).
    intros [H | [H | H]]; [exists ($"?") | exists ($"@") | exists ($".")]; split; try (cbn; tauto); apply K, H.
Qed.

(** Whether a list finds an address. *)
Lemma any_search_entries entries a : exists b, any_search (parse_list escaped entries) a = Some b /\ (b = true <-> found_in entries a).
Proof.
  unfold parse_list. induction entries as [|e l (b & IH1 & IH2)].
  - exists false. split; [reflexivity|]. split; [discriminate | intros (e & [] & _)].
  - cbn [filter]. destruct (check_input e) eqn:Ec.
    + cbn [map any_search]. unfold re_search. rewrite entry_compile. cbn [option_map].
      destruct (search_items _ a) eqn:Es.
      * exists true. split; [reflexivity|]. split; [|reflexivity]. intros _. exists e. split; [left; reflexivity|]. split; [apply check_input_usable, Ec|].
        apply search_items_den in Es as (x & w & y & -> & D). exists x, w, y. split; [reflexivity|]. apply (like_den _ _ star_any), D.
      * exists b. split; [exact IH1|]. rewrite IH2. split.
        -- intros (e' & H & H2). exists e'. split; [right; exact H | exact H2].
        -- intros (e' & [<- | H] & H2 & H3); [|exists e'; auto]. exfalso. destruct H3 as (x & w & y & -> & D).
           apply (like_den _ _ star_any) in D. rewrite (proj2 (search_items_den _ _)) in Es; [discriminate|]. exists x, w, y. auto.
    + exists b. split; [exact IH1|]. rewrite IH2. split.
      * intros (e' & H & H2). exists e'. split; [right; exact H | exact H2].
      * intros (e' & [<- | H] & H2 & H3); [|exists e'; auto]. apply check_input_usable in H2. congruence.
Qed.
Lemma check_in_exact entries addresses : exists b, check_in escaped entries addresses = Some b /\
  (b = true <-> exists a, In a addresses /\ found_in entries a).
Proof.
  unfold check_in. induction addresses as [|a l (b & IH1 & IH2)].
  - exists false. split; [reflexivity|]. split; [discriminate | intros (a & [] & _)].
  - cbn [check_address_in_list]. destruct (any_search_entries entries a) as (b' & -> & H). destruct b'.
    + exists true. split; [reflexivity|]. split; [|reflexivity]. intros _. exists a. split; [left; reflexivity | apply H; reflexivity].
    + exists b. split; [exact IH1|]. rewrite IH2. split.
      * intros (a' & H1 & H2). exists a'. split; [right; exact H1 | exact H2].
      * intros (a' & [<- | H1] & H2); [|exists a'; auto]. apply H in H2. discriminate.
Qed.

(** ** Lists with relays *)
Lemma first_word line : split_ws_max 1 line = match words line with [] => [] | [w] => [w] | w :: _ => w :: tl (split_ws_max 1 line) end /\
  forall a doms, split_ws_max 1 line = [a; doms] -> words line = a :: words doms.
Proof.
  destruct (split_ws_max 1 line) as [|w r] eqn:Es.
  - apply sws_nil in Es. apply blanks_words in Es. rewrite Es. split; [reflexivity | discriminate].
  - destruct (sws_S 0 line w r Es) as (b & t & -> & Hb & Hne & Hw & Ht & Hr). rewrite words_cons by assumption. split.
    + destruct (words t) as [|w2 ws] eqn:Et; [|reflexivity]. apply blanks_words in Et. rewrite Hr, (proj2 (sws_nil 0 t) Et). reflexivity.
    + intros a doms E. injection E as -> E. f_equal. rewrite E in Hr. symmetry in Hr. destruct (sws_0 _ _ _ Hr) as (_ & b2 & -> & Hb2 & _).
      clear -Hb2. induction b2 as [|x b2 IH]; [reflexivity|]. unfold blanks in Hb2. cbn [forallb] in Hb2. apply andb_true_iff in Hb2 as [Hx Hb2].
      unfold words. cbn [app words_aux]. rewrite Hx. apply IH, Hb2.
Qed.
Lemma first_word_two line a b l : words line = a :: b :: l -> exists doms, split_ws_max 1 line = [a; doms] /\ words doms = b :: l.
Proof.
  intros H. destruct (split_ws_max 1 line) as [|w r] eqn:Es.
  - apply sws_nil in Es. apply blanks_words in Es. congruence.
  - destruct (sws_S 0 line w r Es) as (x & t & -> & Hb & Hne & Hw & Ht & Hr). rewrite words_cons in H by assumption. injection H as -> Hwt.
    destruct (split_ws_max 0 t) as [|d rest] eqn:E0; [apply sws_nil in E0; apply blanks_words in E0; congruence|].
    destruct (sws_0 _ _ _ E0) as (-> & _). exists d. rewrite Hr. split; [reflexivity|].
    pose proof (proj2 (first_word (x ++ a ++ t)) a d) as F. rewrite Es, Hr in F. specialize (F eq_refl). rewrite words_cons in F by assumption.
    injection F as F. congruence.
Qed.

Definition pairs_of (d : dict (list str)) : list (str * str) := concat (map (fun e => map (fun x => (fst e, x)) (snd e)) d).
Lemma pairs_in d k v : NoDup (dkeys d) -> In (k, v) (pairs_of d) <-> exists l, dget k d = Some l /\ In v l.
Proof.
  intros N. unfold pairs_of. rewrite in_concat. split.
  - intros (x & Hx & H). apply in_map_iff in Hx as ([k' l] & <- & Hkl). cbn [fst snd] in H. apply in_map_iff in H as (v' & E & Hv). injection E as -> ->.
    exists l. split; [apply In_dget; assumption | exact Hv].
  - intros (l & Hl & Hv). apply dget_In in Hl. exists (map (fun x => (k, x)) l). split.
    + apply in_map_iff. exists (k, l). auto.
    + apply in_map_iff. exists v. auto.
Qed.
Definition padd (d : dict (list str)) (p : str * str) : dict (list str) :=
  dset (fst p) (match dget (fst p) d with Some l => l | None => [] end ++ [snd p]) d.
Lemma padd_nodup d p : NoDup (dkeys d) -> NoDup (dkeys (padd d p)).
Proof. intros H. apply dset_NoDup, H. Qed.
Lemma padd_in d p k v : NoDup (dkeys d) -> In (k, v) (pairs_of (padd d p)) <-> In (k, v) (pairs_of d) \/ (k, v) = p.
Proof.
  intros N. rewrite (pairs_in _ k v (padd_nodup d p N)), (pairs_in d k v N). destruct p as [k0 v0]. unfold padd. cbn [fst snd]. rewrite dget_dset.
  destruct (streqb_spec k0 k) as [-> | H].
  - split.
    + intros (l & E & Hv). injection E as <-. apply in_app_or in Hv as [Hv | [-> | []]]; [|right; reflexivity].
      destruct (dget k d) as [l|] eqn:Ed; [left; exists l; auto | destruct Hv].
    + intros [(l & -> & Hv) | E].
      * eexists. split; [reflexivity|]. apply in_or_app. left. exact Hv.
      * injection E as ->. eexists. split; [reflexivity|]. apply in_or_app. right. left. reflexivity.
  - split; [intros H2; left; exact H2|]. intros [H2 | E]; [exact H2 | congruence].
Qed.
Lemma padd_all k v ps : forall d, NoDup (dkeys d) ->
  NoDup (dkeys (fold_left padd ps d)) /\ (In (k, v) (pairs_of (fold_left padd ps d)) <-> In (k, v) (pairs_of d) \/ In (k, v) ps).
Proof.
  induction ps as [|p ps IH]; intros d N; cbn [fold_left]; [split; [exact N | cbn; tauto]|].
  destruct (IH (padd d p) (padd_nodup d p N)) as [I1 I2]. split; [exact I1|]. rewrite I2, (padd_in d p k v N). cbn [In]. intuition.
Qed.

Definition line_pairs (line : str) : list (str * str) :=
  match split_ws_max 1 line with
  | [a; doms] => if check_input a then map (fun dom => (escape_addr escaped a, dom)) (words doms) else []
  | _ => []
  end.
Lemma parse_input_fold lines : parse_input escaped lines = fold_left padd (concat (map line_pairs lines)) [].
Proof.
  unfold parse_input. generalize (@nil (str * list str)) as d. induction lines as [|line l IH]; intros d; [reflexivity|].
  cbn [fold_left map concat]. rewrite fold_left_app, <- IH. f_equal. unfold line_pairs.
  destruct (split_ws_max 1 line) as [|a [|doms [|? ?]]]; try reflexivity. destruct (check_input a); [|reflexivity].
  generalize (words doms) as ws. clear. intros ws. revert d. induction ws as [|w ws IH]; intros d; [reflexivity|]. cbn [fold_left map]. rewrite IH. reflexivity.
Qed.
Lemma line_pairs_in line k v : In (k, v) (line_pairs line) <-> exists a, k = escape_addr escaped a /\ entry_of line a v.
Proof.
  unfold line_pairs, entry_of. split.
  - destruct (split_ws_max 1 line) as [|a [|doms [|? ?]]] eqn:E; try (intros []). destruct (check_input a) eqn:Ec; [|intros []].
    intros H. apply in_map_iff in H as (w & Eq & Hw). injection Eq as <- <-. exists a. split; [reflexivity|]. exists (words doms).
    split; [apply (proj2 (first_word line)), E|]. split; [exact Hw | apply check_input_usable, Ec].
  - intros (a & -> & doms & Hw & Hv & Hu). destruct doms as [|d0 doms]; [destruct Hv|].
    destruct (first_word_two line a d0 doms Hw) as (t & Es & Et). rewrite Es. apply check_input_usable in Hu. rewrite Hu, Et.
    apply in_map_iff. exists v. auto.
Qed.
Lemma parse_input_in lines k v : In (k, v) (pairs_of (parse_input escaped lines)) <->
  exists line a, In line lines /\ k = escape_addr escaped a /\ entry_of line a v.
Proof.
  rewrite parse_input_fold. rewrite (proj2 (padd_all k v _ [] (NoDup_nil _))). cbn [pairs_of map concat In].
  rewrite in_concat. split.
  - intros [[] | (x & Hx & H)]. apply in_map_iff in Hx as (line & <- & Hl). apply line_pairs_in in H as (a & Ea & He). exists line, a. auto.
  - intros (line & a & Hl & Ea & He). right. exists (line_pairs line). split; [apply in_map, Hl|]. apply line_pairs_in. exists a. auto.
Qed.

Lemma rcvd_regex a s : exists b, re_search (replace ($"*") ($".*") (escape_addr escaped a)) s = Some b /\ (b = true <-> part_like some_text a s).
Proof.
  unfold re_search. rewrite escape_addr_pieces, (pieces_star_again escaped), (compile_entry_again escaped (proj1 Hesc) (proj2 Hesc)). cbn [option_map].
  eexists. split; [reflexivity|]. rewrite search_items_den. unfold part_like.
  split; intros (x & w & y & -> & D); exists x, w, y; (split; [reflexivity|]); apply (like_den _ _ star_some), D.
Qed.

Section Nets.
Variable parse_net6 : str -> option net.
Variable ip_address : str -> option addr.

Lemma relay_matches_is d r : relay_matches parse_net6 ip_address d r = true <-> relay_is parse_net6 ip_address d r.
Proof.
  unfold relay_matches, relay_is. fold (unbracket d).
  assert (B : streqb (unbracket d) (lower (rl_rdns r)) || endswith ($"." ++ unbracket d) (lower (rl_rdns r)) = true <->
    (lower (rl_rdns r) = unbracket d \/ exists x, lower (rl_rdns r) = x ++ $"." ++ unbracket d)).
  { rewrite orb_true_iff, streqb_eq, endswith_app. split; intros [H | H]; auto. }
  destruct (ip_network parse_net6 (format_network (unbracket d) [])) as [n|].
  - destruct (ip_address (rl_ip r)) as [a|].
    + split; [intros H; left; exists n, a; auto|]. intros [(n' & a' & E1 & E2 & H) | [[H | H] _]]; congruence.
    + rewrite B. split; [intros H; right; auto|]. intros [(n' & a' & _ & E2 & _) | [_ H]]; [discriminate | exact H].
  - rewrite B. split; [intros H; right; auto|]. intros [(n' & a' & E & _) | [_ H]]; [discriminate | exact H].
Qed.
Lemma check_rcvd_is d relays : check_rcvd parse_net6 ip_address d relays = true <-> exists r, In r relays /\ relay_is parse_net6 ip_address d r.
Proof.
  unfold check_rcvd. rewrite existsb_exists. split; intros (r & H1 & H2); exists r; (split; [exact H1|]); apply relay_matches_is, H2.
Qed.

Lemma rcvd_loop_spec relays s : forall entries forged, Forall (fun p => exists a, fst p = escape_addr escaped a) entries ->
  exists b f, rcvd_loop parse_net6 ip_address entries relays s forged = Some (b, f) /\
    (b = true <-> exists a d, In (escape_addr escaped a, d) entries /\ part_like some_text a s /\ exists r, In r relays /\ relay_is parse_net6 ip_address d r) /\
    (b = false -> f = match entries with [] => forged | _ => (-1)%Z end).
Proof.
  induction entries as [|[k d] l IH]; intros forged F.
  - exists false, forged. split; [reflexivity|]. split; [|reflexivity]. split; [discriminate | intros (a & d & [] & _)].
  - inversion F as [|? ? [a Ha] Fl]; subst. cbn [fst] in Ha. subst k. cbn [rcvd_loop].
    destruct (rcvd_regex a s) as (b & -> & Hb). destruct (IH (-1)%Z Fl) as (b' & f & E & H1 & H2).
    destruct (b && check_rcvd parse_net6 ip_address d relays) eqn:Em.
    + apply andb_true_iff in Em as [-> Em]. exists true, forged. split; [reflexivity|]. split; [|discriminate]. split; [|reflexivity].
      intros _. exists a, d. split; [left; reflexivity|]. split; [apply Hb; reflexivity | apply check_rcvd_is, Em].
    + exists b', f. split; [exact E|]. split.
      * rewrite H1. split.
        -- intros (a' & d' & Hin & H). exists a', d'. split; [right; exact Hin | exact H].
        -- intros (a' & d' & [Eq | Hin] & Hp & Hr); [|exists a', d'; auto]. exfalso. injection Eq as Ee Ed. subst d'.
           assert (b = true).
           { destruct (rcvd_regex a s) as (b1 & Q1 & Q2). destruct (rcvd_regex a' s) as (b2 & Q3 & Q4). rewrite <- Ee, Q1 in Q3. injection Q3 as ->.
             apply Hb, Q2, Q4, Hp. }
           subst b. apply check_rcvd_is in Hr. rewrite Hr in Em. discriminate.
      * intros ->. specialize (H2 eq_refl). destruct l; exact H2.
Qed.

Notation rcvd_listed := (rcvd_listed parse_net6 ip_address).
Lemma handed u t r : In r (relays_looked_at u t) <-> handed_over u t r.
Proof. destruct u as [|x u]; cbn; [tauto|]. split; [intros [-> | []]; reflexivity | intros ->; auto]. Qed.

Lemma check_whitelist_rcvd_spec lines allow u t a :
  exists z, check_whitelist_rcvd parse_net6 ip_address (parse_input escaped lines) (parse_list escaped allow) u t a = Some z /\
    (z = 1%Z <-> rcvd_listed lines u t a) /\
    (z = (-1)%Z <-> ~ rcvd_listed lines u t a /\ has_entry lines /\ u ++ t <> [] /\ ~ found_in allow (lower a)) /\
    (z = 1 \/ z = 0 \/ z = -1)%Z.
Proof.
  unfold check_whitelist_rcvd. fold (pairs_of (parse_input escaped lines)).
  assert (G : exists z,
    match rcvd_loop parse_net6 ip_address (pairs_of (parse_input escaped lines)) (relays_looked_at u t) (lower a) 0 with
    | Some (true, _) => Some 1%Z
    | Some (false, forged) =>
        if (forged =? 0)%Z then Some 0%Z
        else match any_search (parse_list escaped allow) (lower a) with Some true => Some 0%Z | Some false => Some forged | None => None end
    | None => None
    end = Some z /\ (z = 1%Z <-> rcvd_listed lines u t a) /\
    (z = (-1)%Z <-> ~ rcvd_listed lines u t a /\ has_entry lines /\ ~ found_in allow (lower a)) /\ (z = 1 \/ z = 0 \/ z = -1)%Z).
  { destruct (rcvd_loop_spec (relays_looked_at u t) (lower a) (pairs_of (parse_input escaped lines)) 0%Z) as (b & f & -> & H1 & H2).
    { apply Forall_forall. intros [k v] Hin. apply parse_input_in in Hin as (line & p & _ & -> & _). exists p. reflexivity. }
    assert (L : b = true <-> rcvd_listed lines u t a).
    { rewrite H1. unfold Spec_Wlbl.rcvd_listed. split.
      - intros (p & d & Hin & Hp & r & Hr & Hi). apply parse_input_in in Hin as (line & p' & Hl & Ee & He). exists line, p', d, r.
        split; [exact Hl|]. split; [exact He|]. split; [|split; [apply handed, Hr | exact Hi]].
        destruct (rcvd_regex p (lower a)) as (b1 & Q1 & Q2). destruct (rcvd_regex p' (lower a)) as (b2 & Q3 & Q4). rewrite Ee, Q3 in Q1. injection Q1 as ->.
        apply Q4, Q2, Hp.
      - intros (line & p & d & r & Hl & He & Hp & Hr & Hi). exists p, d. split; [apply parse_input_in; exists line, p; auto|]. split; [exact Hp|]. exists r. split; [apply handed, Hr | exact Hi]. }
    destruct b.
    - exists 1%Z. split; [reflexivity|]. split; [split; [intros _; apply L; reflexivity | reflexivity]|]. split; [|auto].
      split; [discriminate|]. intros (N & _). exfalso. apply N, L. reflexivity.
    - assert (NL : ~ rcvd_listed lines u t a) by (intros X; apply L in X; discriminate).
      assert (HE : has_entry lines <-> pairs_of (parse_input escaped lines) <> []).
      { unfold has_entry. split.
        - intros (line & p & d & Hl & He) X. assert (In (escape_addr escaped p, d) (pairs_of (parse_input escaped lines))) as Hin by (apply parse_input_in; exists line, p; auto).
          rewrite X in Hin. destruct Hin.
        - intros X. destruct (pairs_of (parse_input escaped lines)) as [|[k v] l] eqn:E; [congruence|].
          assert (In (k, v) (pairs_of (parse_input escaped lines))) as Hin by (rewrite E; left; reflexivity).
          apply parse_input_in in Hin as (line & p & Hl & _ & He). exists line, p, v. auto. }
      rewrite (H2 eq_refl). destruct (pairs_of (parse_input escaped lines)) as [|pr l].
      + exists 0%Z. split; [reflexivity|]. split; [split; [discriminate | intros X; contradiction]|]. split; [|auto].
        split; [discriminate|]. intros (_ & X & _). apply HE in X. congruence.
      + cbn [Z.eqb]. destruct (any_search_entries allow (lower a)) as (b & -> & Hb). destruct b.
        * exists 0%Z. split; [reflexivity|]. split; [split; [discriminate | intros X; contradiction]|]. split; [|auto].
          split; [discriminate|]. intros (_ & _ & X). exfalso. apply X, Hb. reflexivity.
        * exists (-1)%Z. split; [reflexivity|]. split; [split; [discriminate | intros X; contradiction]|]. split; [|auto].
          split; [|reflexivity]. intros _. split; [exact NL|]. split; [apply HE; discriminate|]. intros X. apply Hb in X. discriminate. }
  destruct u as [|u0 u]; [destruct t as [|t0 t]|].
  - exists 0%Z. split; [reflexivity|]. split; [split; [discriminate|]; intros (line & p & d & r & _ & _ & _ & [] & _)|].
    split; [|auto]. split; [discriminate|]. intros (_ & _ & X & _). exfalso. apply X. reflexivity.
  - destruct G as (z & E & G1 & G2 & G3). exists z. split; [exact E|]. split; [exact G1|]. split; [|exact G3]. rewrite G2.
    split; [intros (X & Y & Z); repeat split; try assumption; discriminate | intros (X & Y & _ & Z); auto].
  - destruct G as (z & E & G1 & G2 & G3). exists z. split; [exact E|]. split; [exact G1|]. split; [|exact G3]. rewrite G2.
    split; [intros (X & Y & Z); repeat split; try assumption; discriminate | intros (X & Y & _ & Z); auto].
Qed.

(** ** The marks *)
Section Marks.
Variable c : wlconf.
Variables u t : list relay.
Variable addresses : list str.

Notation unlisted := (fun lines a => not (rcvd_listed lines u t a) /\ has_entry lines /\ u ++ t <> [] /\ not (found_in (allow_relays c) (lower a))).

Lemma check_in_list_spec lines mark addrs : (mark = 0 \/ mark = -1)%Z ->
  exists z, check_in_list (parse_list escaped (whitelist_from c)) (rcvd_of escaped parse_net6 ip_address lines c u t) addrs mark = Some z /\
    (z = 1%Z <-> exists a, In a addrs /\ (found_in (whitelist_from c) a \/ rcvd_listed lines u t a)) /\
    (z = (-1)%Z <-> z <> 1%Z /\ (mark = (-1)%Z \/ exists a, In a addrs /\ unlisted lines a)) /\
    (z = 1 \/ z = 0 \/ z = -1)%Z.
Proof.
  revert mark. induction addrs as [|a l IH]; intros mark Hm.
  - exists mark. split; [reflexivity|]. split; [split; [intros; intuition; lia | intros (a & [] & _)]|]. split; [|intuition].
    split; [intros ->; split; [discriminate | auto] | intros [_ [H | (a & [] & _)]]; exact H].
  - cbn [check_in_list]. destruct (any_search_entries (whitelist_from c) a) as (b & -> & Hb). destruct b.
    + exists 1%Z. split; [reflexivity|]. split; [split; [|reflexivity]; intros _; exists a; split; [left; reflexivity|]; left; apply Hb; reflexivity|].
      split; [|auto]. split; [discriminate | intros [X _]; congruence].
    + unfold rcvd_of at 1. destruct (check_whitelist_rcvd_spec lines (allow_relays c) u t a) as (z & -> & Z1 & Z2 & Z3).
      assert (NW : ~ found_in (whitelist_from c) a) by (intros X; apply Hb in X; discriminate).
      destruct (Z.eqb_spec z 1) as [-> | Hz1].
      * exists 1%Z. split; [reflexivity|]. split; [split; [|reflexivity]; intros _; exists a; split; [left; reflexivity|]; right; apply Z1; reflexivity|].
        split; [|auto]. split; [discriminate | intros [X _]; congruence].
      * assert (NR : ~ rcvd_listed lines u t a) by (intros X; apply Z1 in X; contradiction).
        assert (K : forall m, (m = 0 \/ m = -1)%Z -> (m = (-1)%Z <-> mark = (-1)%Z \/ unlisted lines a) ->
          exists z, check_in_list (parse_list escaped (whitelist_from c)) (rcvd_of escaped parse_net6 ip_address lines c u t) l m = Some z /\
          (z = 1%Z <-> exists a0, In a0 (a :: l) /\ (found_in (whitelist_from c) a0 \/ rcvd_listed lines u t a0)) /\
          (z = (-1)%Z <-> z <> 1%Z /\ (mark = (-1)%Z \/ exists a0, In a0 (a :: l) /\ unlisted lines a0)) /\ (z = 1 \/ z = 0 \/ z = -1)%Z).
        { intros m Hm' Hmm. destruct (IH m Hm') as (z' & E & H1 & H2 & H3). exists z'. split; [exact E|]. split; [|split; [|exact H3]].
          - rewrite H1. split.
            + intros (x & Hx & H). exists x. split; [right; exact Hx | exact H].
            + intros (x & [<- | Hx] & H); [destruct H; contradiction|]. exists x. auto.
          - rewrite H2, Hmm. split; intros [X Y]; (split; [exact X|]).
            + destruct Y as [[Y | Y] | (x & Hx & Y)]; [auto | right; exists a; split; [left; reflexivity | exact Y] | right; exists x; split; [right; exact Hx | exact Y]].
            + destruct Y as [Y | (x & [<- | Hx] & Y)]; [auto | auto | right; exists x; auto]. }
        destruct (Z.eqb_spec z (-1)) as [-> | Hz]; apply K; [right; reflexivity | split; [intros _; right; apply Z2; reflexivity | reflexivity] | exact Hm |].
        split; [auto|]. intros [H | H]; [exact H | apply Z2 in H; contradiction].
Qed.
Lemma check_in_default_spec lines mark addrs : (mark = 0 \/ mark = -1)%Z ->
  exists z, check_in_default (rcvd_of escaped parse_net6 ip_address lines c u t) addrs mark = Some z /\
    (z = 1%Z <-> exists a, In a addrs /\ rcvd_listed lines u t a) /\
    (z = (-1)%Z <-> z <> 1%Z /\ (mark = (-1)%Z \/ exists a, In a addrs /\ unlisted lines a)) /\
    (z = 1 \/ z = 0 \/ z = -1)%Z.
Proof.
  revert mark. induction addrs as [|a l IH]; intros mark Hm.
  - exists mark. split; [reflexivity|]. split; [split; [intros; intuition; lia | intros (a & [] & _)]|]. split; [|intuition].
    split; [intros ->; split; [discriminate | auto] | intros [_ [H | (a & [] & _)]]; exact H].
  - cbn [check_in_default]. unfold rcvd_of at 1. destruct (check_whitelist_rcvd_spec lines (allow_relays c) u t a) as (z & -> & Z1 & Z2 & Z3).
    destruct (Z.eqb_spec z 1) as [-> | Hz1].
    + exists 1%Z. split; [reflexivity|]. split; [split; [|reflexivity]; intros _; exists a; split; [left; reflexivity|]; apply Z1; reflexivity|].
      split; [|auto]. split; [discriminate | intros [X _]; congruence].
    + assert (NR : ~ rcvd_listed lines u t a) by (intros X; apply Z1 in X; contradiction).
      assert (K : forall m, (m = 0 \/ m = -1)%Z -> (m = (-1)%Z <-> mark = (-1)%Z \/ unlisted lines a) ->
        exists z, check_in_default (rcvd_of escaped parse_net6 ip_address lines c u t) l m = Some z /\
        (z = 1%Z <-> exists a0, In a0 (a :: l) /\ rcvd_listed lines u t a0) /\
        (z = (-1)%Z <-> z <> 1%Z /\ (mark = (-1)%Z \/ exists a0, In a0 (a :: l) /\ unlisted lines a0)) /\ (z = 1 \/ z = 0 \/ z = -1)%Z).
      { intros m Hm' Hmm. destruct (IH m Hm') as (z' & E & H1 & H2 & H3). exists z'. split; [exact E|]. split; [|split; [|exact H3]].
        - rewrite H1. split.
          + intros (x & Hx & H). exists x. split; [right; exact Hx | exact H].
          + intros (x & [<- | Hx] & H); [contradiction|]. exists x. auto.
        - rewrite H2, Hmm. split; intros [X Y]; (split; [exact X|]).
          + destruct Y as [[Y | Y] | (x & Hx & Y)]; [auto | right; exists a; split; [left; reflexivity | exact Y] | right; exists x; split; [right; exact Hx | exact Y]].
          + destruct Y as [Y | (x & [<- | Hx] & Y)]; [auto | auto | right; exists x; auto]. }
      destruct (Z.eqb_spec z (-1)) as [-> | Hz]; apply K; [right; reflexivity | split; [intros _; right; apply Z2; reflexivity | reflexivity] | exact Hm |].
      split; [auto|]. intros [H | H]; [exact H | apply Z2 in H; contradiction].
Qed.

(** The values the two marks get. *)
Definition white_value : option Z :=
  check_in_list (parse_list escaped (whitelist_from c)) (rcvd_of escaped parse_net6 ip_address (whitelist_from_rcvd c) c u t) addresses 0.
Definition default_value : option Z :=
  check_in_default (rcvd_of escaped parse_net6 ip_address (def_whitelist_from_rcvd c) c u t) addresses 0.
(** Marks reached by any checks. *)
Definition good (m : marks) : Prop :=
  (in_white m = 0%Z \/ white_value = Some (in_white m)) /\ (in_default m = 0%Z \/ default_value = Some (in_default m)).

Lemma check_white_good m : good m -> exists w, white_value = Some w /\
  check_white escaped parse_net6 ip_address c u t addresses m = Some (Z.ltb 0 w, mkMarks w (in_default m)).
Proof.
  intros [G1 G2]. destruct (check_in_list_spec (whitelist_from_rcvd c) 0 addresses (or_introl eq_refl)) as (w & E & _). exists w. fold white_value in E. split; [exact E|].
  unfold check_white. destruct (Z.eqb_spec (in_white m) 0) as [E0 | N0].
  - rewrite E0. unfold white_value in E. rewrite E. reflexivity.
  - destruct G1 as [G1 | G1]; [contradiction|]. assert (w = in_white m) as -> by congruence. destruct m; reflexivity.
Qed.
Lemma check_default_good m : good m -> exists w, default_value = Some w /\
  check_default escaped parse_net6 ip_address c u t addresses m = Some (Z.ltb 0 w, mkMarks (in_white m) w).
Proof.
  intros [G1 G2]. destruct (check_in_default_spec (def_whitelist_from_rcvd c) 0 addresses (or_introl eq_refl)) as (w & E & _). exists w. fold default_value in E. split; [exact E|].
  unfold check_default. destruct (Z.eqb_spec (in_default m) 0) as [E0 | N0].
  - unfold default_value in E. rewrite E. reflexivity.
  - destruct G2 as [G2 | G2]; [contradiction|]. assert (w = in_default m) as -> by congruence. destruct m; reflexivity.
Qed.
Lemma check_both_good m : good m -> exists w d, white_value = Some w /\ default_value = Some d /\
  check_both escaped parse_net6 ip_address c u t addresses m = Some (mkMarks w d).
Proof.
  intros G. destruct (check_white_good m G) as (w & Ew & E1). unfold check_both. rewrite E1.
  destruct (check_default_good (mkMarks w (in_default m))) as (d & Ed & E2); [split; [right; exact Ew | exact (proj2 G)]|].
  rewrite E2. exists w, d. auto.
Qed.

Lemma run_check_good k m : good m -> exists b m', run_check escaped parse_net6 ip_address c u t addresses k m = Some (b, m') /\ good m' /\
  option_map fst (run_check escaped parse_net6 ip_address c u t addresses k marks0) = Some b.
Proof.
  intros G. assert (G0 : good marks0) by (split; left; reflexivity). destruct k; cbn [run_check].
  - destruct (check_white_good m G) as (w & Ew & E). destruct (check_white_good marks0 G0) as (w0 & Ew0 & E0). assert (w0 = w) as -> by congruence.
    rewrite E, E0. do 2 eexists. split; [reflexivity|]. split; [|reflexivity]. split; [right; exact Ew | exact (proj2 G)].
  - destruct (check_default_good m G) as (w & Ew & E). destruct (check_default_good marks0 G0) as (w0 & Ew0 & E0). assert (w0 = w) as -> by congruence.
    rewrite E, E0. do 2 eexists. split; [reflexivity|]. split; [|reflexivity]. split; [exact (proj1 G) | right; exact Ew].
  - destruct (check_both_good m G) as (w & d & Ew & Ed & E). destruct (check_both_good marks0 G0) as (w0 & d0 & Ew0 & Ed0 & E0).
    assert (w0 = w) as -> by congruence. assert (d0 = d) as -> by congruence. unfold check_forged. rewrite E, E0. do 2 eexists. split; [reflexivity|].
    split; [|reflexivity]. split; right; assumption.
  - destruct (check_both_good m G) as (w & d & Ew & Ed & E). destruct (check_both_good marks0 G0) as (w0 & d0 & Ew0 & Ed0 & E0).
    assert (w0 = w) as -> by congruence. assert (d0 = d) as -> by congruence. unfold check_forged_default. rewrite E, E0. do 2 eexists. split; [reflexivity|].
    split; [|reflexivity]. split; right; assumption.
Qed.
Lemma run_checks_good ks : forall m, good m -> exists m', run_checks escaped parse_net6 ip_address c u t addresses ks m = Some m' /\ good m'.
Proof.
  induction ks as [|k ks IH]; intros m G; [exists m; split; [reflexivity | exact G]|]. cbn [run_checks].
  destruct (run_check_good k m G) as (b & m' & -> & G' & _). exact (IH m' G').
Qed.
Lemma history ks k m : run_checks escaped parse_net6 ip_address c u t addresses ks marks0 = Some m ->
  option_map fst (run_check escaped parse_net6 ip_address c u t addresses k m) = option_map fst (run_check escaped parse_net6 ip_address c u t addresses k marks0).
Proof.
  intros H. assert (G0 : good marks0) by (split; left; reflexivity). destruct (run_checks_good ks marks0 G0) as (m' & E & G). assert (m' = m) as -> by congruence.
  destruct (run_check_good k m G) as (b & m' & E2 & _ & E3). rewrite E2, E3. reflexivity.
Qed.
Lemma no_exception ks : exists m, run_checks escaped parse_net6 ip_address c u t addresses ks marks0 = Some m.
Proof. destruct (run_checks_good ks marks0) as (m & E & _); [split; left; reflexivity|]. exists m. exact E. Qed.

Notation listed_white a := (found_in (whitelist_from c) a \/ rcvd_listed (whitelist_from_rcvd c) u t a).
Notation listed_default a := (rcvd_listed (def_whitelist_from_rcvd c) u t a).
Lemma whitelist_exact : exists m b, check_white escaped parse_net6 ip_address c u t addresses marks0 = Some (b, m) /\
  (b = true <-> exists a, In a addresses /\ listed_white a).
Proof.
  destruct (check_in_list_spec (whitelist_from_rcvd c) 0 addresses (or_introl eq_refl)) as (w & E & H1 & _ & H3).
  unfold check_white. cbn [in_white marks0 Z.eqb]. rewrite E. do 2 eexists. split; [reflexivity|]. rewrite <- H1.
  destruct H3 as [-> | [-> | ->]]; split; intros; try discriminate; reflexivity.
Qed.
Lemma default_exact : exists m b, check_default escaped parse_net6 ip_address c u t addresses marks0 = Some (b, m) /\
  (b = true <-> exists a, In a addresses /\ listed_default a).
Proof.
  destruct (check_in_default_spec (def_whitelist_from_rcvd c) 0 addresses (or_introl eq_refl)) as (w & E & H1 & _ & H3).
  unfold check_default. cbn [in_default marks0 Z.eqb]. rewrite E. do 2 eexists. split; [reflexivity|]. rewrite <- H1.
  destruct H3 as [-> | [-> | ->]]; split; intros; try discriminate; reflexivity.
Qed.
Lemma forged_exact : exists m b, check_forged escaped parse_net6 ip_address c u t addresses marks0 = Some (b, m) /\
  (b = true <-> (~ exists a, In a addresses /\ listed_white a) /\ (exists a, In a addresses /\ unlisted (whitelist_from_rcvd c) a) /\
                (~ exists a, In a addresses /\ listed_default a) /\ (~ exists a, In a addresses /\ unlisted (def_whitelist_from_rcvd c) a)).
Proof.
  destruct (check_in_list_spec (whitelist_from_rcvd c) 0 addresses (or_introl eq_refl)) as (w & E & H1 & H2 & H3).
  destruct (check_in_default_spec (def_whitelist_from_rcvd c) 0 addresses (or_introl eq_refl)) as (d & F & D1 & D2 & D3).
  unfold check_forged, check_both, check_white, check_default. cbn [in_white in_default marks0 Z.eqb]. rewrite E. cbn [in_white in_default Z.eqb]. rewrite F.
  cbn [option_map snd in_white in_default]. do 2 eexists. split; [reflexivity|]. rewrite andb_true_iff, Z.ltb_lt, Z.eqb_eq, <- H1, <- D1. split.
  - intros [W D]. assert (w = -1)%Z as -> by lia. subst d. split; [lia|]. split.
    + apply H2 in E || idtac. destruct (proj1 H2 eq_refl) as [_ [X | X]]; [discriminate | exact X].
    + split; [lia|]. intros X. assert (0 = -1)%Z by (apply D2; split; [lia | right; exact X]). discriminate.
  - intros (W & X & D & Y). split; [assert (w = -1)%Z by (apply H2; split; [exact W | right; exact X]); lia|].
    destruct D3 as [-> | [-> | ->]]; [congruence | reflexivity|]. exfalso. apply Y. destruct (proj1 D2 eq_refl) as [_ [Z | Z]]; [discriminate | exact Z].
Qed.
End Marks.
End Nets.
End Escaped.

(** ** Mail from and relay names *)
Lemma mailfrom_exact tlds local host rest u t : ~ In 64%N local -> ~ In 64%N host -> rest = [] \/ (exists r, rest = 64%N :: r) ->
  exists b, mailfrom_matches_rcvd tlds (local ++ 64%N :: host ++ rest) u t = Some b /\
    (b = true <-> exists r x, handed_over u t r /\ rl_rdns r = x ++ base_domain tlds host).
Proof.
  intros Hl Hh Hr. unfold mailfrom_matches_rcvd.
  assert (S : exists more, split_char 64%N (local ++ 64%N :: host ++ rest) = local :: host :: more).
  { assert (SP : forall w v, ~ In 64%N w -> split_char 64%N (w ++ 64%N :: v) = w :: split_char 64%N v).
    { induction w as [|c w IH]; intros v Hw; [reflexivity|]. cbn [app split_char]. destruct (N.eqb_spec 64 c) as [<- | Hc]; [exfalso; apply Hw; left; reflexivity|].
      rewrite IH by (intros X; apply Hw; right; exact X). destruct (N.eqb_spec c 64); [congruence|]. reflexivity. }
    rewrite SP by exact Hl. destruct Hr as [-> | (r & ->)].
    - rewrite app_nil_r. exists []. f_equal. clear -Hh. induction host as [|c w IH]; [reflexivity|]. cbn [split_char].
      destruct (N.eqb_spec c 64) as [-> | Hc]; [exfalso; apply Hh; left; reflexivity|]. rewrite IH by (intros X; apply Hh; right; exact X). reflexivity.
    - rewrite SP by exact Hh. eexists. reflexivity. }
  destruct S as [more S]. destruct (local ++ 64%N :: host ++ rest) as [|c0 s0] eqn:E0; [destruct local; discriminate|]. rewrite S.
  eexists. split; [reflexivity|]. rewrite existsb_exists. split.
  - intros (r & H1 & H2). apply endswith_app in H2 as [x Hx]. exists r, x. split; [apply handed, H1 | exact Hx].
  - intros (r & x & H1 & H2). exists r. split; [apply handed, H1|]. apply endswith_app. exists x. exact H2.
Qed.

Lemma last_n_suffix {A} n (l : list A) : exists p, l = p ++ last_n n l.
Proof. exists (firstn (length l - n) l). unfold last_n. symmetry. apply firstn_skipn. Qed.
Lemma join_suffix p l : l <> [] -> within (join ($".") l) (join ($".") (p ++ l)).
Proof.
  intros Hl. unfold within. destruct p as [|w p]; [left; reflexivity|]. right. change ($".") with [46%N].
  revert w. induction p as [|v p IH]; intros w.
  - exists w. cbn [app]. rewrite join_cons_sep by exact Hl. reflexivity.
  - destruct (IH v) as [x Hx]. exists (w ++ 46%N :: x). cbn [app] in *. rewrite join_cons_sep by discriminate. rewrite Hx.
    rewrite <- app_assoc. reflexivity.
Qed.
Lemma last_n_nonempty {A} n (l : list A) : 0 < n -> l <> [] -> last_n n l <> [].
Proof. intros Hn Hl H. assert (length (last_n n l) = 0) by (rewrite H; reflexivity). unfold last_n in H0. rewrite skipn_length in H0. destruct l; [congruence|]. cbn [length] in H0. lia. Qed.
Lemma base_domain_within tlds host : forallb isdigit (split_char 46%N host) = false -> within (base_domain tlds host) host.
Proof.
  intros H. unfold base_domain. rewrite H. pose proof (join_split_char 46%N host) as J. change [46%N] with ($".") in J.
  assert (K : forall n, 0 < n -> within (join ($".") (last_n n (split_char 46%N host))) host).
  { intros n Hn. destruct (last_n_suffix n (split_char 46%N host)) as [p Hp]. rewrite <- J at 2. rewrite Hp at 2.
    apply join_suffix, last_n_nonempty; [exact Hn | apply split_char_nonempty]. }
  destruct (length _ <? 3); [left; symmetry; exact J|]. destruct (mem_str _ tlds); [apply K; lia|]. destruct (mem_str _ tlds); apply K; lia.
Qed.

(** ** URI host lists *)
Lemma list_of_append k v d name : list_of name (append_to k v d) = if streqb k name then list_of k d ++ [v] else list_of name d.
Proof. unfold list_of, append_to. rewrite dget_dset. destruct (streqb_spec k name) as [-> | _]; reflexivity. Qed.
Lemma list_of_appends k name item us : forall (f : str -> str) d,
  In item (list_of name (fold_left (fun d u => append_to k (f u) d) us d)) <->
  In item (list_of name d) \/ (k = name /\ exists u, In u us /\ item = f u).
Proof.
  intros f. induction us as [|u us IH]; intros d; cbn [fold_left].
  - split; [auto | intros [H | [_ (u & [] & _)]]; exact H].
  - rewrite IH, list_of_append. destruct (streqb_spec k name) as [-> | Hk].
    + rewrite in_app_iff. cbn [In]. split.
      * intros [[H | [<- | []]] | [_ (x & Hx & E)]]; [auto | right; split; [reflexivity|]; exists u; auto | right; split; [reflexivity|]; exists x; auto].
      * intros [H | [_ (x & [<- | Hx] & E)]]; [auto | auto | right; split; [reflexivity|]; exists x; auto].
    + split; [intros [H | [E _]]; [auto | contradiction] | intros [H | [E _]]; [auto | contradiction]].
Qed.

Definition del1 (line name item : str) : Prop :=
  if mem_char 40%N line
  then exists k items u, words line = k :: items /\ unparen k = name /\ In u items /\ item = strip_chars ($".") u
  else name = $"ALL" /\ exists u, In u (words line) /\ item = strip_chars ($"!") u.
Lemma parse_delist_in name item lines : forall d d', parse_delist lines d = Some d' ->
  In item (list_of name d') <-> In item (list_of name d) \/ exists line, In line lines /\ del1 line name item.
Proof.
  induction lines as [|x l IH]; intros d d' H; cbn [parse_delist] in H.
  - injection H as <-. split; [auto | intros [X | (y & [] & _)]; exact X].
  - change ($"(") with [40%N] in H. rewrite contains_one in H. unfold del1. destruct (mem_char 40%N x) eqn:Em.
    + destruct (words x) as [|k us] eqn:Ew; [discriminate|]. rewrite (IH _ _ H), list_of_appends. split.
      * intros [[X | [E (u & Hu & Ei)]] | (y & Hy & D)]; [auto | right; exists x | right; exists y; split; [right; exact Hy | exact D]].
        split; [left; reflexivity|]. rewrite Em. exists k, us, u. auto.
      * intros [X | (y & [<- | Hy] & D)]; [auto | | right; exists y; auto]. rewrite Em in D. destruct D as (k' & us' & u & E & Ek & Hu & Ei).
        rewrite Ew in E. injection E as <- <-. left. right. split; [exact Ek|]. exists u. auto.
    + rewrite (IH _ _ H), list_of_appends. split.
      * intros [[X | [E (u & Hu & Ei)]] | (y & Hy & D)]; [auto | right; exists x | right; exists y; split; [right; exact Hy | exact D]].
        split; [left; reflexivity|]. rewrite Em. split; [congruence|]. exists u. auto.
      * intros [X | (y & [<- | Hy] & D)]; [auto | | right; exists y; auto]. rewrite Em in D. destruct D as (-> & u & Hu & Ei).
        left. right. split; [reflexivity|]. exists u. auto.
Qed.
Lemma delisted_spec delist d name item : parse_delist delist [] = Some d ->
  mem_str item (list_of name d) || mem_str item (list_of ($"ALL") d) = true <-> taken_off delist name item.
Proof.
  intros H. rewrite orb_true_iff, !mem_str_In, !(fun n => parse_delist_in n item delist [] d H). cbn [list_of dget In]. unfold taken_off, del1. split.
  - intros [[[] | (line & Hl & D)] | [[] | (line & Hl & D)]]; exists line; (split; [exact Hl|]); destruct (mem_char 40%N line).
    + destruct D as (k & us & u & E & Ek & Hu & Ei). exists k, us, u. auto.
    + destruct D as (_ & D). exact D.
    + destruct D as (k & us & u & E & Ek & Hu & Ei). exists k, us, u. auto.
    + destruct D as (_ & D). exact D.
  - intros (line & Hl & D). destruct (mem_char 40%N line) eqn:Em.
    + destruct D as (k & us & u & E & [Ek | Ek] & Hu & Ei); [left | right]; right; exists line; (split; [exact Hl|]); rewrite Em; exists k, us, u; auto.
    + right. right. exists line. split; [exact Hl|]. rewrite Em. auto.
Qed.

Definition off (d : dict (list str)) (key item : str) : bool := mem_str item (list_of key d) || mem_str item (list_of ($"ALL") d).
Lemma add_in_dict_in d key items name n : forall p,
  (In n (list_of name (in_list (add_in_dict d items key p))) <->
   In n (list_of name (in_list p)) \/ (key = name /\ In n items /\ off d key n = false /\ startswith ($"!") n = false)) /\
  (In n (list_of name (not_in_list (add_in_dict d items key p))) <->
   In n (list_of name (not_in_list p)) \/ (key = name /\ exists i, In i items /\ off d key i = false /\ startswith ($"!") i = true /\ n = strip_chars ($"!") i)).
Proof.
  induction items as [|i items IH]; intros p.
  - cbn [add_in_dict fold_left]. split; (split; [auto|]); intros [H | H]; auto; [destruct H as (_ & [] & _) | destruct H as (_ & i & [] & _)].
  - unfold add_in_dict. cbn [fold_left]. fold (add_in_dict d items key).
    fold (off d key i). destruct (off d key i) eqn:Eo.
    + specialize (IH p). destruct IH as [I1 I2]. unfold add_in_dict in I1, I2. rewrite I1, I2. split.
      * split; [intros [H | (A & B & C)]; [auto | right; split; [exact A|]; split; [right; exact B | exact C]]|].
        intros [H | (A & [-> | B] & C & D)]; [auto | congruence | auto].
      * split; [intros [H | (A & j & B & C)]; [auto | right; split; [exact A|]; exists j; split; [right; exact B | exact C]]|].
        intros [H | (A & j & [-> | B] & C & D)]; [auto | congruence | right; split; [exact A|]; exists j; auto].
    + destruct (startswith ($"!") i) eqn:Es.
      * specialize (IH (mkEn (in_list p) (append_to key (strip_chars ($"!") i) (not_in_list p)))). destruct IH as [I1 I2]. unfold add_in_dict in I1, I2. rewrite I1, I2.
        cbn [in_list not_in_list]. rewrite list_of_append. split.
        -- split; [intros [H | (A & B & C)]; [auto | right; split; [exact A|]; split; [right; exact B | exact C]]|].
           intros [H | (A & [-> | B] & C & D)]; [auto | congruence | auto].
        -- destruct (streqb_spec key name) as [-> | Hk].
           ++ rewrite in_app_iff. cbn [In]. split.
              ** intros [[H | [<- | []]] | (A & j & B & C)]; [auto | right; split; [reflexivity|]; exists i; auto | right; split; [exact A|]; exists j; auto].
              ** intros [H | (A & j & [<- | B] & C & D & E)]; [auto | left; right; left; symmetry; exact E | right; split; [exact A|]; exists j; auto].
           ++ split; [intros [H | (A & _)]; [auto | contradiction] | intros [H | (A & _)]; [auto | contradiction]].
      * specialize (IH (mkEn (append_to key i (in_list p)) (not_in_list p))). destruct IH as [I1 I2]. unfold add_in_dict in I1, I2. rewrite I1, I2.
        cbn [in_list not_in_list]. rewrite list_of_append. split.
        -- destruct (streqb_spec key name) as [-> | Hk].
           ++ rewrite in_app_iff. cbn [In]. split.
              ** intros [[H | [<- | []]] | (A & B & C)]; [auto | right; auto | right; auto].
              ** intros [H | (A & [-> | B] & C)]; [auto | left; right; left; reflexivity | right; auto].
           ++ split; [intros [H | (A & _)]; [auto | contradiction] | intros [H | (A & _)]; [auto | contradiction]].
        -- split; [intros [H | (A & j & B & C)]; [auto | right; split; [exact A|]; exists j; split; [right; exact B | exact C]]|].
           intros [H | (A & j & [-> | B] & C & D & E)]; [auto | congruence | right; split; [exact A|]; exists j; auto].
Qed.

(** Items put on a list by the lines alone. *)
Definition by_lines (lines : list str) (name item : str) : Prop :=
  exists line k items, In line lines /\ words line = k :: items /\ unparen k = name /\ In item items.
Lemma parse_enlist_in d name n lines : forall p q, parse_enlist d lines p = Some q ->
  (In n (list_of name (in_list q)) <->
   In n (list_of name (in_list p)) \/ (by_lines lines name n /\ off d name n = false /\ startswith ($"!") n = false)) /\
  (In n (list_of name (not_in_list q)) <->
   In n (list_of name (not_in_list p)) \/ (exists i, by_lines lines name i /\ off d name i = false /\ startswith ($"!") i = true /\ n = strip_chars ($"!") i)).
Proof.
  induction lines as [|x l IH]; intros p q H; cbn [parse_enlist] in H.
  - injection H as <-. split; (split; [auto|]); intros [X | X]; auto.
    + destruct X as ((y & k & us & [] & _) & _).
    + destruct X as (i & (y & k & us & [] & _) & _).
  - destruct (words x) as [|k us] eqn:Ew; [discriminate|]. destruct (IH _ _ H) as [I1 I2].
    destruct (add_in_dict_in d (list_key k) us name n p) as [A1 A2]. rewrite I1, A1, I2, A2. clear I1 I2 A1 A2. split.
    + split.
      * intros [[X | (A & B & C & D)] | ((y & k' & us' & Hy & E & F & G) & C & D)]; [auto | right | right].
        -- split; [exists x, k, us; split; [left; reflexivity|]; auto|]. rewrite A in C. auto.
        -- split; [exists y, k', us'; split; [right; exact Hy|]; auto | auto].
      * intros [X | ((y & k' & us' & [<- | Hy] & E & F & G) & C & D)]; [auto | left; right | right].
        -- rewrite Ew in E. injection E as <- <-. change (list_key k = name) in F. rewrite F. auto.
        -- split; [exists y, k', us'; auto | auto].
    + split.
      * intros [[X | (A & i & B & C & D)] | (i & (y & k' & us' & Hy & E & F & G) & C & D)]; [auto | right | right]; exists i.
        -- split; [exists x, k, us; split; [left; reflexivity|]; auto|]. rewrite A in C. auto.
        -- split; [exists y, k', us'; split; [right; exact Hy|]; auto | auto].
      * intros [X | (i & (y & k' & us' & [<- | Hy] & E & F & G) & C & D)]; [auto | left; right | right].
        -- rewrite Ew in E. injection E as <- <-. change (list_key k = name) in F. rewrite F. split; [reflexivity|]. exists i. auto.
        -- exists i. split; [exists y, k', us'; auto | auto].
Qed.

Lemma in_words_lines lines item : In item (concat (map words lines)) <-> exists line, In line lines /\ In item (words line).
Proof.
  rewrite in_concat. split.
  - intros (x & Hx & H). apply in_map_iff in Hx as (line & <- & Hl). exists line. auto.
  - intros (line & Hl & H). exists (words line). split; [apply in_map, Hl | exact H].
Qed.
Lemma uri_lists_in enlist delist white black p name : uri_lists enlist delist white black = Some p ->
  (forall n, In n (list_of name (in_list p)) <-> on_list enlist delist white black name n /\ startswith ($"!") n = false) /\
  (forall n, In n (list_of name (not_in_list p)) <-> exists i, on_list enlist delist white black name i /\ startswith ($"!") i = true /\ n = strip_chars ($"!") i).
Proof.
  intros H. unfold uri_lists in H. destruct (parse_delist delist []) as [d|] eqn:Ed; [|discriminate].
  destruct (parse_enlist d enlist (mkEn [] [])) as [q|] eqn:Ee; [|discriminate]. injection H as <-.
  assert (O : forall k i, off d k i = false <-> ~ taken_off delist k i).
  { intros k i. rewrite <- (delisted_spec delist d k i Ed). unfold off. destruct (_ || _); split; congruence. }
  split; intros n.
  - rewrite (proj1 (add_in_dict_in d ($"BLACK") (concat (map words black)) name n _)), (proj1 (add_in_dict_in d ($"WHITE") (concat (map words white)) name n _)),
      (proj1 (parse_enlist_in d name n enlist _ _ Ee)), !in_words_lines, !O. cbn [in_list list_of dget In]. unfold on_list, put_on, by_lines. split.
    + intros [[[[] | (A & B & C)] | (<- & A & B & C)] | (<- & A & B & C)]; auto 6.
    + intros (([A | [(-> & A) | (-> & A)]] & B) & C); auto 6.
  - rewrite (proj2 (add_in_dict_in d ($"BLACK") (concat (map words black)) name n _)), (proj2 (add_in_dict_in d ($"WHITE") (concat (map words white)) name n _)),
      (proj2 (parse_enlist_in d name n enlist _ _ Ee)). cbn [not_in_list list_of dget In]. unfold on_list, put_on. split.
    + intros [[[[] | (i & A & B & C)] | (<- & i & A & B & C)] | (<- & i & A & B & C)]; exists i; apply O in B.
      * unfold by_lines in A. auto 6.
      * apply in_words_lines in A. auto 7.
      * apply in_words_lines in A. auto 7.
    + intros (i & ([A | [(-> & A) | (-> & A)]] & B) & C); apply O in B.
      * left. left. right. exists i. unfold by_lines. auto.
      * left. right. split; [reflexivity|]. exists i. split; [apply in_words_lines, A | auto].
      * right. split; [reflexivity|]. exists i. split; [apply in_words_lines, A | auto].
Qed.
Lemma uri_listed_exact enlist delist white black p name uris : uri_lists enlist delist white black = Some p ->
  uri_listed p name uris = true <->
  exists u n x, In u uris /\ on_list enlist delist white black name n /\ startswith ($"!") n = false /\ u = x ++ n /\
    ~ exists i, on_list enlist delist white black name i /\ startswith ($"!") i = true /\ u = strip_chars ($"!") i.
Proof.
  intros H. destruct (uri_lists_in enlist delist white black p name H) as [I1 I2]. unfold uri_listed. rewrite existsb_exists. split.
  - intros (u & Hu & E). apply andb_true_iff in E as [E1 E2]. apply negb_true_iff, mem_str_notIn in E1. apply existsb_exists in E2 as (n & Hn & E).
    apply endswith_app in E as [x E]. apply I1 in Hn as [Hn1 Hn2]. exists u, n, x. split; [exact Hu|]. split; [exact Hn1|]. split; [exact Hn2|]. split; [exact E|].
    intros X. apply E1, I2, X.
  - intros (u & n & x & Hu & Hn1 & Hn2 & E & X). exists u. split; [exact Hu|]. apply andb_true_iff. split.
    + apply negb_true_iff, mem_str_notIn. intros Y. apply X, I2, Y.
    + apply existsb_exists. exists n. split; [apply I1; auto|]. apply endswith_app. exists x. exact E.
Qed.

Lemma last_n_app {A} n (p l : list A) : length l = n -> last_n n (p ++ l) = l.
Proof. intros <-. unfold last_n. rewrite app_length. replace (length p + length l - length l) with (length p) by lia. induction p; [reflexivity | assumption]. Qed.
Lemma last_n_all {A} n (l : list A) : length l <= n -> last_n n l = l.
Proof. intros H. unfold last_n. replace (length l - n) with 0 by lia. reflexivity. Qed.
Lemma snoc3 {A} (l : list A) : 3 <= length l -> exists p a b c, l = p ++ [a; b; c].
Proof.
  intros H. destruct (rev l) as [|c [|b [|a r]]] eqn:E; apply (f_equal (@length A)) in E as L; rewrite rev_length in L; cbn in L; try lia.
  exists (rev r), a, b, c. apply (f_equal (@rev A)) in E. rewrite rev_involutive in E. rewrite E. cbn [rev]. rewrite <- !app_assoc. reflexivity.
Qed.
Lemma base_domain_of tlds labels : labels <> [] -> Forall (fun l => ~ In 46%N l) labels -> forallb isdigit labels = false ->
  exists b, base_of tlds labels b /\ base_domain tlds (join ($".") labels) = join ($".") b.
Proof.
  intros NE F D. unfold base_domain. change ($".") with [46%N]. rewrite split_char_join by (assumption || exact F). rewrite D. change [46%N] with ($".").
  destruct (length labels <? 3) eqn:L; [apply Nat.ltb_lt in L; exists labels; split; [constructor; exact L | reflexivity]|]. apply Nat.ltb_ge in L.
  destruct (snoc3 labels L) as (p & a & b & c & ->).
  rewrite (last_n_app 3 p [a; b; c]) by reflexivity.
  assert (last_n 2 (p ++ [a; b; c]) = [b; c]) as -> by (change [a; b; c] with ([a] ++ [b; c]); rewrite app_assoc; apply last_n_app; reflexivity).
  destruct (mem_str (join ($".") [a; b; c]) tlds) eqn:E3.
  - apply mem_str_In in E3. destruct (rev p) as [|x r] eqn:E.
    + apply (f_equal (@rev str)) in E. rewrite rev_involutive in E. subst p. exists [a; b; c]. split; [constructor; exact E3 | reflexivity].
    + apply (f_equal (@rev str)) in E. rewrite rev_involutive in E. cbn [rev] in E. subst p. rewrite <- app_assoc. cbn [app]. exists [x; a; b; c].
      split; [constructor; exact E3 | rewrite last_n_app by reflexivity; reflexivity].
  - assert (N3 : ~ In (join ($".") [a; b; c]) tlds) by (intros K; apply mem_str_In in K; congruence). destruct (mem_str (join ($".") [b; c]) tlds) eqn:E2.
    + exists [a; b; c]. split; [apply Btwo; [exact N3 | apply mem_str_In, E2] | reflexivity].
    + exists [b; c]. split; [apply Bone; [exact N3 | intros K; apply mem_str_In in K; congruence] | reflexivity].
Qed.
