(** Proofs about the small tools. *)
From Coq Require Import QArith Lia.
From Verif Require Import PyStr PyDict Model_Tools Spec_Tools.
From Verif Require Model_Headers Spec_Headers Proofs_Headers Proofs_PyRe Proofs_Relays.
Open Scope nat_scope.

Lemma mysql_no_colon d n : lower d = of_string n -> ~ In 58%N (of_string n) -> ~ In 58%N d.
Proof.
  intros E H I. apply H. rewrite <- E. unfold lower. apply in_map_iff. exists 58%N. split; [reflexivity | exact I].
Qed.
Lemma split_here c a b : ~ In c a -> split1 c (a ++ [c] ++ b) = Some (a, b).
Proof. intros H. apply split1_Some. split; [reflexivity | exact H]. Qed.
Lemma parts_of scheme d rest : ~ In 58%N scheme -> ~ In 58%N d -> dsn_parts (scheme ++ $":" ++ d ++ $":" ++ rest) = Some (d, rest).
Proof. intros H1 H2. unfold dsn_parts. change ($":") with [58%N]. rewrite split_here by exact H1. apply split_here, H2. Qed.

Lemma read_plain driver host db : split1_sub ($"://") (driver ++ $"://" ++ host ++ $"/" ++ db) = Some (driver, host ++ $"/" ++ db) ->
  ~ In 47%N host -> ~ In 64%N host -> read_url (driver ++ $"://" ++ host ++ $"/" ++ db) = Some (mkTarget driver None host db).
Proof.
  intros E H1 H2. unfold read_url. rewrite E. change ($"/") with [47%N]. rewrite (split_here 47 host db H1).
  rewrite (proj2 (rsplit1_None 64 host) H2). reflexivity.
Qed.
Lemma read_cred driver user pw host db :
  split1_sub ($"://") (driver ++ $"://" ++ user ++ $":" ++ pw ++ $"@" ++ host ++ $"/" ++ db) = Some (driver, user ++ $":" ++ pw ++ $"@" ++ host ++ $"/" ++ db) ->
  ~ In 47%N host -> ~ In 64%N host -> ~ In 58%N user -> ~ In 47%N user -> ~ In 47%N pw ->
  read_url (driver ++ $"://" ++ user ++ $":" ++ pw ++ $"@" ++ host ++ $"/" ++ db) = Some (mkTarget driver (Some (user, pw)) host db).
Proof.
  intros E H1 H2 H3 H4 H5. unfold read_url. rewrite E. change ($"/") with [47%N]. change ($":") with [58%N]. change ($"@") with [64%N].
  assert (E1 : split1 47%N (user ++ [58%N] ++ pw ++ [64%N] ++ host ++ [47%N] ++ db) = Some (user ++ [58%N] ++ pw ++ [64%N] ++ host, db)).
  { apply split1_Some. split; [rewrite <- !app_assoc; reflexivity|]. rewrite !in_app_iff. intros [H|[[H|[]]|[H|[[H|[]]|H]]]]; try tauto; discriminate H. }
  rewrite E1.
  assert (E2 : rsplit1 64%N (user ++ [58%N] ++ pw ++ [64%N] ++ host) = Some (user ++ [58%N] ++ pw, host)).
  { apply rsplit1_Some. split; [rewrite <- !app_assoc; reflexivity | exact H2]. }
  rewrite E2, split_here by exact H3. reflexivity.
Qed.
Lemma url_reads driver user pw host db : (forall r, split1_sub ($"://") (driver ++ $"://" ++ r) = Some (driver, r)) ->
  ~ In 47%N host -> ~ In 64%N host -> ~ In 58%N user -> ~ In 47%N user -> ~ In 47%N pw ->
  read_url (url driver user pw host db) = Some (mkTarget driver (credentials user pw) host db).
Proof.
  intros E H1 H2 H3 H4 H5. unfold url, credentials. destruct user as [|u user]; [apply read_plain; auto|].
  destruct pw as [|p pw]; [apply read_plain; auto|]. cbn [nonempty negb orb]. apply read_cred; auto.
Qed.

Lemma scheme_dbi scheme rest : startswith ($"DBI") (upper scheme) = true -> startswith ($"DBI") (upper (scheme ++ rest)) = true.
Proof. intros H. apply startswith_app in H as [t H]. apply startswith_app. exists (t ++ upper rest). unfold upper in *. rewrite map_app, H, <- app_assoc. reflexivity. Qed.
Lemma scheme_nonempty scheme rest : startswith ($"DBI") (upper scheme) = true -> nonempty (scheme ++ rest) = true.
Proof. destruct scheme; [discriminate | reflexivity]. Qed.
Lemma finish_dbi scheme rest user pw : startswith ($"DBI") (upper scheme) = true ->
  finish_parsing_end true (scheme ++ rest) user pw = option_map Connect (dbi_to_alchemy (scheme ++ rest) user pw).
Proof. intros H. unfold finish_parsing_end. rewrite scheme_nonempty, scheme_dbi by exact H. reflexivity. Qed.

Lemma mysql_setting scheme d db host user pw :
  ~ In 58%N scheme -> startswith ($"DBI") (upper scheme) = true -> lower d = $"mysql" -> ~ In 58%N db ->
  finish_parsing_end true (scheme ++ $":" ++ d ++ $":" ++ db ++ $":" ++ host) user pw = Some (Connect (url ($"mysql+pymysql") user pw host db)).
Proof.
  intros H1 H2 H3 H4. rewrite finish_dbi by exact H2. unfold dbi_to_alchemy. cbv zeta.
  rewrite parts_of by (exact H1 || (apply (mysql_no_colon d "mysql"); [exact H3 | vm_compute; intuition discriminate])).
  rewrite H3. change (streqb ($"mysql") ($"mysql")) with true. cbn iota. change ($":") with [58%N] at 1. rewrite split_here by exact H4. reflexivity.
Qed.
Lemma mysql_direct scheme d db host user pw :
  ~ In 58%N scheme -> startswith ($"DBI") (upper scheme) = true -> lower d = $"mysql" -> ~ In 58%N db ->
  finish_parsing_end false (scheme ++ $":" ++ d ++ $":" ++ db ++ $":" ++ host) user pw = Some (Direct host db (credentials user pw)).
Proof.
  intros H1 H2 H3 H4. unfold finish_parsing_end. rewrite scheme_nonempty, scheme_dbi by exact H2. unfold dbi_to_mysql.
  rewrite parts_of by (exact H1 || (apply (mysql_no_colon d "mysql"); [exact H3 | vm_compute; intuition discriminate])).
  rewrite H3. change (streqb ($"mysql") ($"mysql")) with true. cbn iota. change ($":") with [58%N] at 1. rewrite split_here by exact H4.
  destruct user, pw; reflexivity.
Qed.

(** Lists of key=value pairs *)
Lemma split_pair k v : ~ In 61%N k -> ~ In 61%N v -> split_char 61%N (k ++ [61%N] ++ v) = [k; v].
Proof.
  intros H1 H2. change (k ++ [61%N] ++ v) with (join [61%N] [k; v]). apply split_char_join; [discriminate|]. repeat constructor; assumption.
Qed.
Lemma dict_of_pairs pairs : Forall plain_pair pairs -> forall d,
  exists d', dict_of (map pair_text pairs) d = Some d' /\
    forall k, dget k d' = fold_left (fun acc kv => if streqb k (fst kv) then Some (snd kv) else acc) pairs (dget k d).
Proof.
  induction pairs as [|[k v] pairs IH]; intros F d; [exists d; split; reflexivity|].
  inversion F as [|? ? [P1 [P2 [P3 P4]]] F']; subst. cbn [fst snd] in *. cbn [map dict_of]. unfold pair_text at 1. cbn [fst snd].
  change ($"=") with [61%N]. rewrite split_pair by assumption. destruct (IH F' (dset k v d)) as (d' & E & G).
  exists d'. split; [exact E|]. intros k0. rewrite G, dget_dset. cbn [fold_left fst snd].
  f_equal. destruct (streqb_spec k k0) as [->|N]; [rewrite streqb_refl; reflexivity|].
  destruct (streqb_spec k0 k) as [->|_]; [congruence | reflexivity].
Qed.
Lemma values_pairs pairs : pairs <> [] -> Forall plain_pair pairs ->
  exists d, values (join ($";") (map pair_text pairs)) = Some d /\
    forall k, dget k d = fold_left (fun acc kv => if streqb k (fst kv) then Some (snd kv) else acc) pairs None.
Proof.
  intros H F. unfold values. change ($";") with [59%N]. rewrite split_char_join.
  - destruct (dict_of_pairs pairs F []) as (d & E & G). exists d. split; assumption.
  - intros E. apply H. destruct pairs; [reflexivity | discriminate].
  - apply Forall_forall. intros w I. apply in_map_iff in I as (kv & <- & I). apply Forall_forall with (x := kv) in F; [|exact I].
    destruct F as (P1 & P2 & P3 & P4). unfold pair_text. rewrite !in_app_iff. intros [J|[[J|[]]|J]]; try tauto. discriminate J.
Qed.
Lemma fold_value k pairs : forall acc (def : str),
  match fold_left (fun acc kv => if streqb k (fst kv) then Some (snd kv) else acc) pairs acc with Some v => v | None => def end
  = last_value k pairs (match acc with Some v => v | None => def end).
Proof.
  unfold last_value. induction pairs as [|[k0 v0] pairs IH]; intros acc def; [destruct acc; reflexivity|].
  cbn [fold_left fst snd]. destruct (streqb k k0).
  - rewrite (IH (Some v0) def). reflexivity.
  - apply IH.
Qed.
Lemma get_value k pairs d def :
  (forall k, dget k d = fold_left (fun acc kv => if streqb k (fst kv) then Some (snd kv) else acc) pairs None) ->
  get k d def = last_value k pairs def.
Proof. intros G. unfold get. rewrite G. apply (fold_value k pairs None def). Qed.
Lemma fold_none k pairs : fold_left (fun acc (kv : str * str) => if streqb k (fst kv) then Some (snd kv) else acc) pairs None = None <->
  ~ In k (map fst pairs).
Proof.
  assert (S : forall pairs acc, acc <> None -> fold_left (fun acc (kv : str * str) => if streqb k (fst kv) then Some (snd kv) else acc) pairs acc <> None).
  { clear. induction pairs as [|[a b] l IH]; intros acc H; [exact H|]. cbn [fold_left fst snd]. destruct (streqb k a); apply IH; [discriminate | exact H]. }
  induction pairs as [|[a b] l IH]; [cbn; tauto|]. cbn [fold_left fst snd map In]. destruct (streqb_spec k a) as [->|N].
  - split; [intros E; exfalso; revert E; apply S; discriminate | intros H; exfalso; apply H; left; reflexivity].
  - rewrite IH. split; [intros H [E|I]; [congruence | exact (H I)] | tauto].
Qed.
Lemma pg_setting scheme d pairs user pw :
  ~ In 58%N scheme -> startswith ($"DBI") (upper scheme) = true -> lower d = $"pg" -> pairs <> [] -> Forall plain_pair pairs ->
  finish_parsing_end true (scheme ++ $":" ++ d ++ $":" ++ join ($";") (map pair_text pairs)) user pw =
  Some (Connect (url ($"postgresql") user pw
    (last_value ($"host") pairs ($"localhost") ++ (if mem_str ($"port") (map fst pairs) then $":" ++ last_value ($"port") pairs [] else []))
    (last_value ($"dbname") pairs ($"spamassassin")))).
Proof.
  intros H1 H2 H3 H4 H5. rewrite finish_dbi by exact H2. unfold dbi_to_alchemy. cbv zeta.
  rewrite parts_of by (exact H1 || (apply (mysql_no_colon d "pg"); [exact H3 | vm_compute; intuition discriminate])).
  rewrite H3. change (streqb ($"pg") ($"mysql")) with false. change (streqb ($"pg") ($"pg")) with true. cbn iota.
  destruct (values_pairs pairs H4 H5) as (v & E & G). rewrite E. cbn [option_map]. do 2 f_equal.
  rewrite (get_value ($"dbname") pairs v _ G), (get_value ($"host") pairs v _ G). f_equal.
  pose proof (get_value ($"port") pairs v [] G) as P. unfold get in P. pose proof (fold_none ($"port") pairs) as Q. rewrite <- G in Q.
  destruct (mem_str ($"port") (map fst pairs)) eqn:M.
  - apply mem_str_In in M. destruct (dget ($"port") v) as [p|]; [rewrite P; reflexivity | tauto].
  - apply mem_str_notIn in M. rewrite (proj2 Q M), app_nil_r. reflexivity.
Qed.
Lemma sqlite_setting scheme d pairs user pw :
  ~ In 58%N scheme -> startswith ($"DBI") (upper scheme) = true -> lower d = $"sqlite" -> pairs <> [] -> Forall plain_pair pairs ->
  finish_parsing_end true (scheme ++ $":" ++ d ++ $":" ++ join ($";") (map pair_text pairs)) user pw =
  if mem_str ($"dbname") (map fst pairs) then Some (Connect ($"sqlite:///" ++ last_value ($"dbname") pairs [])) else None.
Proof.
  intros H1 H2 H3 H4 H5. rewrite finish_dbi by exact H2. unfold dbi_to_alchemy. cbv zeta.
  rewrite parts_of by (exact H1 || (apply (mysql_no_colon d "sqlite"); [exact H3 | vm_compute; intuition discriminate])).
  rewrite H3. change (streqb ($"sqlite") ($"mysql")) with false. change (streqb ($"sqlite") ($"pg")) with false.
  change (streqb ($"sqlite") ($"sqlite")) with true. cbn iota.
  destruct (values_pairs pairs H4 H5) as (v & E & G). rewrite E.
  pose proof (get_value ($"dbname") pairs v [] G) as P. unfold get in P. pose proof (fold_none ($"dbname") pairs) as Q. rewrite <- G in Q.
  destruct (mem_str ($"dbname") (map fst pairs)) eqn:M.
  - apply mem_str_In in M. destruct (dget ($"dbname") v) as [p|]; [rewrite P; reflexivity | tauto].
  - apply mem_str_notIn in M. rewrite (proj2 Q M). reflexivity.
Qed.

Lemma unknown_driver scheme d rest user pw :
  ~ In 58%N scheme -> startswith ($"DBI") (upper scheme) = true -> ~ In 58%N d ->
  lower d <> $"mysql" -> lower d <> $"pg" -> lower d <> $"sqlite" ->
  finish_parsing_end true (scheme ++ $":" ++ d ++ $":" ++ rest) user pw = Some (Connect []) /\
  finish_parsing_end false (scheme ++ $":" ++ d ++ $":" ++ rest) user pw = Some NoEngine.
Proof.
  intros H1 H2 H3 N1 N2 N3. rewrite finish_dbi by exact H2. unfold finish_parsing_end. rewrite scheme_nonempty, scheme_dbi by exact H2.
  unfold dbi_to_alchemy, dbi_to_mysql. cbv zeta. rewrite parts_of by assumption.
  destruct (streqb_spec (lower d) ($"mysql")); [contradiction|]. destruct (streqb_spec (lower d) ($"pg")); [contradiction|].
  destruct (streqb_spec (lower d) ($"sqlite")); [contradiction|]. split; reflexivity.
Qed.

Lemma c153_url scheme d db host user pw :
  ~ In 58%N scheme -> startswith ($"DBI") (upper scheme) = true -> lower d = $"mysql" -> ~ In 58%N db ->
  ~ In 47%N host -> ~ In 64%N host -> ~ In 58%N user -> ~ In 47%N user -> ~ In 47%N pw ->
  exists u, finish_parsing_end true (scheme ++ $":" ++ d ++ $":" ++ db ++ $":" ++ host) user pw = Some (Connect u) /\
    read_url u = Some (mkTarget ($"mysql+pymysql") (credentials user pw) host db).
Proof.
  intros H1 H2 H3 H4 H5 H6 H7 H8 H9. exists (url ($"mysql+pymysql") user pw host db). split; [apply mysql_setting; assumption|].
  apply url_reads; try assumption. intros r. reflexivity.
Qed.
Lemma last_value_in k pairs : forall def, last_value k pairs def = def \/ In (k, last_value k pairs def) pairs.
Proof.
  unfold last_value. induction pairs as [|[a b] l IH]; intros def; [left; reflexivity|]. cbn [fold_left fst snd].
  destruct (streqb_spec k a) as [->|N].
  - destruct (IH b) as [E|I]; [right; left; rewrite E; reflexivity | right; right; exact I].
  - destruct (IH def) as [E|I]; [left; exact E | right; right; exact I].
Qed.
Lemma c153_pg scheme d pairs user pw :
  ~ In 58%N scheme -> startswith ($"DBI") (upper scheme) = true -> lower d = $"pg" -> pairs <> [] -> Forall plain_pair pairs ->
  (forall k v, In (k, v) pairs -> k = $"host" \/ k = $"port" -> ~ In 47%N v /\ ~ In 64%N v) ->
  ~ In 58%N user -> ~ In 47%N user -> ~ In 47%N pw ->
  exists u, finish_parsing_end true (scheme ++ $":" ++ d ++ $":" ++ join ($";") (map pair_text pairs)) user pw = Some (Connect u) /\
    read_url u = Some (mkTarget ($"postgresql") (credentials user pw)
      (last_value ($"host") pairs ($"localhost") ++ (if mem_str ($"port") (map fst pairs) then $":" ++ last_value ($"port") pairs [] else []))
      (last_value ($"dbname") pairs ($"spamassassin"))).
Proof.
  intros H1 H2 H3 H4 H5 HP H7 H8 H9. eexists. split; [apply pg_setting; assumption|].
  assert (A : forall c, c = 47%N \/ c = 64%N -> ~ In c (last_value ($"host") pairs ($"localhost") ++
      (if mem_str ($"port") (map fst pairs) then $":" ++ last_value ($"port") pairs [] else []))).
  { intros c Hc. rewrite in_app_iff. intros [I|I].
    - destruct (last_value_in ($"host") pairs ($"localhost")) as [E|J].
      + rewrite E in I. vm_compute in I. destruct Hc; subst c; intuition discriminate.
      + destruct (HP _ _ J (or_introl eq_refl)). destruct Hc; subst c; tauto.
    - destruct (mem_str ($"port") (map fst pairs)); [|destruct I]. apply in_app_iff in I as [I|I].
      + vm_compute in I. destruct Hc; subst c; intuition discriminate.
      + destruct (last_value_in ($"port") pairs []) as [E|J]; [rewrite E in I; destruct I|].
        destruct (HP _ _ J (or_intror eq_refl)). destruct Hc; subst c; tauto. }
  apply url_reads; try assumption; [intros r; reflexivity | apply A; left; reflexivity | apply A; right; reflexivity].
Qed.

(** ** Countries *)
Section Country.
Context {addr : Type}.
Variable ip_address : str -> option addr.
Variables is_private is_v4 : addr -> bool.
Variables db4 db6 : option (addr -> str).
Let country := get_country addr is_private is_v4 db4 db6.

Lemma country_stands a : stands_for is_private is_v4 db4 db6 a (country a).
Proof.
  unfold stands_for, country, get_country. destruct (is_private a); [reflexivity|]. exists (if is_v4 a then db4 else db6). split; [reflexivity|].
  destruct (if is_v4 a then db4 else db6) as [code|]; [|right; split; [left; reflexivity | reflexivity]].
  destruct (code a) as [|c r] eqn:E.
  - right. split; [right; exists code; auto | reflexivity].
  - left. exists code. rewrite E. split; [reflexivity|]. split; [discriminate | reflexivity].
Qed.
Lemma country_word a : (forall db code, db = db4 \/ db = db6 -> db = Some code -> code a <> [] -> one_word (code a)) -> one_word (country a).
Proof.
  intros H. unfold country, get_country. destruct (is_private a); [split; [discriminate | reflexivity]|].
  assert (D : (if is_v4 a then db4 else db6) = db4 \/ (if is_v4 a then db4 else db6) = db6) by (destruct (is_v4 a); auto).
  destruct (if is_v4 a then db4 else db6) as [code|]; [|split; [discriminate | reflexivity]].
  specialize (H (Some code) code D eq_refl). destruct (code a) as [|c r]; [split; [discriminate | reflexivity]|]. apply H. discriminate.
Qed.
Lemma words_aux_word w : forallb (fun c => negb (is_space c)) w = true -> forall s cur, words_aux (w ++ s) cur = words_aux s (rev w ++ cur).
Proof.
  induction w as [|c w IH]; intros H s cur; [reflexivity|]. cbn [forallb] in H. apply andb_true_iff in H as [H1 H2]. apply negb_true_iff in H1.
  cbn [app words_aux rev]. rewrite H1, IH by exact H2. rewrite <- app_assoc. reflexivity.
Qed.
Lemma words_join l : Forall one_word l -> words (join ($" ") l) = l.
Proof.
  unfold words. induction l as [|w l IH]; intros F; [reflexivity|]. inversion F as [|? ? [N W] F']; subst.
  assert (R : forall s, words_aux s (rev w) = match s with [] => [w] | c :: s' => if is_space c then w :: words_aux s' [] else words_aux s' (c :: rev w) end).
  { intros s. assert (rev w <> []) by (intros E; apply N; rewrite <- (rev_involutive w), E; reflexivity).
    destruct s; cbn [words_aux]; destruct (rev w) eqn:E; try congruence; rewrite <- E, rev_involutive; reflexivity. }
  destruct l as [|v l].
  - cbn [join]. rewrite <- (app_nil_r w) at 1. rewrite words_aux_word, app_nil_r by exact W. rewrite R. reflexivity.
  - change (join ($" ") (w :: v :: l)) with (w ++ $" " ++ join ($" ") (v :: l)).
    rewrite words_aux_word, app_nil_r by exact W. rewrite R. change ($" ") with [32%N] at 1. cbn [app].
    change (is_space 32) with true. cbn iota. rewrite IH by exact F'. reflexivity.
Qed.
Lemma header_ips_usable ips : (forall i, In i ips -> exists a, ip_address i = Some a) ->
  exists l, header_ips addr ip_address ips = Some l /\ Forall2 (fun i a => ip_address i = Some a) ips l.
Proof.
  induction ips as [|i ips IH]; intros H; [exists []; split; [reflexivity | constructor]|].
  destruct (H i (or_introl eq_refl)) as [a E]. destruct IH as (l & E2 & F); [intros j J; apply H; right; exact J|].
  exists (a :: l). cbn [header_ips]. rewrite E, E2. split; [reflexivity | constructor; assumption].
Qed.
Lemma header_ips_raises ips i : In i ips -> ip_address i = None -> header_ips addr ip_address ips = None.
Proof.
  induction ips as [|j ips IH]; [intros []|]. intros [->|I] E; cbn [header_ips].
  - rewrite E. reflexivity.
  - rewrite (IH I E). destruct (ip_address j); reflexivity.
Qed.
Lemma c155 ips m : ips <> [] ->
  (forall i, In i ips -> exists a, ip_address i = Some a) ->
  (forall a db code, db = db4 \/ db = db6 -> db = Some code -> code a <> [] -> one_word (code a)) ->
  exists text, country_metadata addr ip_address is_private is_v4 db4 db6 ips m
                 = Some (Model_Headers.plugin_add ($"X-Relay-Countries") text m, Some text) /\
    Forall2 (fun i w => exists a, ip_address i = Some a /\ stands_for is_private is_v4 db4 db6 a w) ips (words text).
Proof.
  intros Hn Hu Hw. destruct (header_ips_usable ips Hu) as (l & E & F). exists (join ($" ") (map country l)). split.
  - unfold country_metadata. rewrite E. destruct l as [|a l]; [inversion F; subst; congruence | reflexivity].
  - rewrite words_join.
    + clear E Hn Hu. induction F as [|i a ips l E F IH]; [constructor|]. constructor; [|exact IH]. exists a. split; [exact E | apply country_stands].
    + apply Forall_forall. intros w I. apply in_map_iff in I as (a & <- & _). apply country_word, Hw.
Qed.
Lemma c155_none m : country_metadata addr ip_address is_private is_v4 db4 db6 [] m = Some (m, None).
Proof. reflexivity. Qed.
Lemma c155_raises ips m i : In i ips -> ip_address i = None -> country_metadata addr ip_address is_private is_v4 db4 db6 ips m = None.
Proof. intros I E. unfold country_metadata. rewrite (header_ips_raises ips i I E). reflexivity. Qed.
End Country.

(** ** Languages *)
Lemma in_langs l results prob : In l (map fst (filter (fun r : str * Q => negb (Qle_bool (snd r) prob)) results)) <->
  exists p, In (l, p) results /\ (prob < p)%Q.
Proof.
  rewrite in_map_iff. split.
  - intros ([l' p] & <- & I). apply filter_In in I as [I H]. exists p. split; [exact I|]. apply negb_true_iff in H. cbn [snd] in H.
    apply Qnot_le_lt. intros C. apply Qle_bool_iff in C. rewrite C in H. discriminate.
  - intros (p & I & H). exists (l, p). split; [reflexivity|]. apply filter_In. split; [exact I|]. apply negb_true_iff. cbn [snd].
    destruct (Qle_bool p prob) eqn:E; [|reflexivity]. apply Qle_bool_iff in E. exfalso. revert H. apply Qle_not_lt, E.
Qed.
Lemma c156 results prob maxl value :
  fst (check_language results prob maxl (set_ok_languages value)) = true <->
  (Z.of_nat (length (filter (fun r : str * Q => negb (Qle_bool (snd r) prob)) results)) <= maxl)%Z /\
  ~ In ($"all") (words value) /\ exists l p, In (l, p) results /\ (prob < p)%Q /\ ~ In l (words value).
Proof.
  unfold check_language. cbv zeta. rewrite map_length. unfold set_ok_languages, in_languages. destruct (Z.ltb_spec maxl (Z.of_nat (length (filter (fun r : str * Q => negb (Qle_bool (snd r) prob)) results)))) as [L|L].
  - cbn [fst]. split; [discriminate | intros (H & _); lia].
  - destruct (mem_str ($"all") (words value)) eqn:A.
    + apply mem_str_In in A. cbn [fst]. split; [discriminate | tauto].
    + apply mem_str_notIn in A. cbn [fst]. rewrite existsb_exists. split.
      * intros (l & I & H). apply negb_true_iff, mem_str_notIn in H. apply in_langs in I as (p & I & Hp). split; [exact L|]. split; [exact A|]. exists l, p. auto.
      * intros (_ & _ & l & p & I & Hp & H). exists l. split; [apply in_langs; exists p; auto|]. apply negb_true_iff, mem_str_notIn, H.
Qed.
Lemma c156_default results prob maxl : fst (check_language results prob maxl Default) = false.
Proof. unfold check_language. cbv zeta. destruct (_ <? _)%Z; [reflexivity|]. reflexivity. Qed.
Lemma c156_tag results prob maxl ok :
  (Z.of_nat (length (filter (fun r : str * Q => negb (Qle_bool (snd r) prob)) results)) <= maxl)%Z ->
  (forall l p, In (l, p) results -> one_word l) ->
  exists text, snd (check_language results prob maxl ok) = Some text /\
    words text = map fst (filter (fun r : str * Q => negb (Qle_bool (snd r) prob)) results).
Proof.
  intros L W. unfold check_language. cbv zeta. rewrite map_length. destruct (Z.ltb_spec maxl (Z.of_nat (length (filter (fun r : str * Q => negb (Qle_bool (snd r) prob)) results)))) as [C|_]; [lia|].
  eexists. split; [destruct (in_languages ($"all") ok); reflexivity|]. apply words_join. apply Forall_forall.
  intros l I. apply in_map_iff in I as ([l' p] & <- & I). apply filter_In in I as [I _]. apply (W l' p I).
Qed.

(** ** Identifiers *)
Lemma id_body_part body : id_body body = id_part body.
Proof.
  unfold id_body, id_part. rewrite !Proofs_PyRe.replace_one.
  set (k := if N.ltb limit (N.of_nat (length body)) then _ else body).
  replace (firstn (N.to_nat (kept (N.of_nat (length body)))) body) with k.
  - induction k as [|c k' IH]; [reflexivity|]. cbn [map concat filter]. destruct (N.eqb_spec c 10) as [->|H]; [exact IH|].
    cbn [app map concat]. destruct (N.eqb_spec c 13) as [->|H2]; cbn [negb andb app]; [exact IH | rewrite IH; reflexivity].
  - subst k. unfold kept, limit, long, keep_long. destruct (N.ltb_spec 64 (N.of_nat (length body))) as [L|L].
    + destruct (N.leb_spec (N.of_nat (length body)) 64) as [C|_]; [lia|].
      destruct (N.ltb_spec 2048 (N.of_nat (length body))), (N.leb_spec (N.of_nat (length body)) 2048); try lia; reflexivity.
    + destruct (N.leb_spec (N.of_nat (length body)) 64) as [_|C]; [|lia]. rewrite Nat2N.id, firstn_all. reflexivity.
Qed.
Lemma split_text head body : no_empty_line head -> split1_sub [10%N; 10%N] (text_with head body) = Some (head, body).
Proof.
  intros H. unfold text_with. apply Proofs_Relays.split1_sub_first. intros x y E.
  destruct (Nat.le_gt_cases (length head) (length x)) as [L|L]; [exact L|]. exfalso.
  assert (P : exists z, head = x ++ [10%N] ++ z).
  { assert (F : firstn (length x + 1) (head ++ [10%N; 10%N] ++ body) = firstn (length x + 1) (x ++ [10%N; 10%N] ++ y)) by (rewrite E; reflexivity).
    rewrite firstn_app in F. replace (length x + 1 - length head) with 0 in F by lia. rewrite firstn_O, app_nil_r in F.
    rewrite (firstn_app (length x + 1) x) in F. replace (length x + 1 - length x) with 1 in F by lia. rewrite (firstn_all2 x) in F by lia.
    exists (skipn (length x + 1) head). rewrite <- (firstn_skipn (length x + 1) head) at 1. rewrite F. rewrite <- app_assoc. reflexivity. }
  destruct P as [z ->]. rewrite <- !app_assoc in E. apply app_inv_head in E. cbn [app] in E. injection E as E.
  destruct z as [|c z].
  - apply (H x []). rewrite <- !app_assoc; reflexivity.
  - cbn [app] in E. injection E as -> _. apply (H x (z ++ [10%N])). rewrite <- !app_assoc. reflexivity.
Qed.
Lemma end_of_line_rest r : (forall a b, r = a ++ [10%N] ++ b -> b = []) -> end_of_line r = true.
Proof.
  unfold end_of_line. induction r as [|c r IH]; intros H; [reflexivity|]. cbn [drop_while].
  destruct (N.eqb_spec c 10) as [->|Hc]; cbn [negb].
  - rewrite (H [] r eq_refl). reflexivity.
  - apply IH. intros a b ->. apply (H (c :: a) b). reflexivity.
Qed.
Lemma empty_id_true b1 b2 x rest : forallb is_space b1 = true -> forallb is_space b2 = true -> (x = [] \/ x = $"@sa_generated") ->
  (forall a b, rest = a ++ [10%N] ++ b -> b = []) ->
  empty_id (b1 ++ [60%N] ++ b2 ++ x ++ [62%N] ++ rest) = true.
Proof.
  intros H1 H2 Hx Hr. unfold empty_id. rewrite drop_while_app_all by exact H1. cbn [app drop_while]. change (is_space 60) with false. cbn iota. change (N.eqb 60 60) with true. cbn [andb].
  rewrite drop_while_app_all by exact H2. destruct Hx as [-> | ->].
  - cbn [app drop_while]. change (is_space 62) with false. cbn iota. change (N.eqb 62 62) with true. cbn iota. apply end_of_line_rest, Hr.
  - cbn [app]. assert (D : drop_while is_space ($"@sa_generated" ++ 62%N :: rest) = 64%N :: ($"sa_generated>" ++ rest)) by reflexivity.
    rewrite D. cbn iota. change (N.eqb 64 62) with false. cbn iota.
    assert (E : startswith ($"@sa_generated>") (64%N :: ($"sa_generated>" ++ rest)) = true) by exact (startswith_self ($"@sa_generated>") rest).
    rewrite E. change (skipn 13 ($"sa_generated>" ++ rest)) with rest. apply end_of_line_rest, Hr.
Qed.
Lemma msgid_generated sha1 message_id date head body : no_id message_id -> no_empty_line head ->
  msgid sha1 message_id date (text_with head body) = Some (sha1 (date_word date ++ [0%N] ++ id_part body) ++ $"@sa_generated").
Proof.
  intros H Hh. unfold msgid. rewrite split_text by exact Hh. cbv zeta. rewrite id_body_part.
  destruct H as [-> | [-> | (b1 & b2 & x & rest & -> & H1 & H2 & Hx & Hr)]]; try reflexivity.
  pose proof (empty_id_true b1 b2 x rest H1 H2 Hx Hr) as E.
  destruct (b1 ++ [60%N] ++ b2 ++ x ++ [62%N] ++ rest); [discriminate E|]. rewrite E. reflexivity.
Qed.
Lemma first_nul a b c d : ~ In 0%N a -> ~ In 0%N c -> a ++ [0%N] ++ b = c ++ [0%N] ++ d -> a = c /\ b = d.
Proof.
  intros Ha Hc E. assert (X : split1 0%N (a ++ [0%N] ++ b) = Some (a, b)) by (apply split_here, Ha).
  rewrite E, split_here in X by exact Hc. injection X as -> ->. auto.
Qed.
Lemma date_word_nul date : (forall d, date = Some d -> ~ In 0%N d) -> ~ In 0%N (date_word date).
Proof.
  intros H. unfold date_word. destruct date as [[|c r]|]; [vm_compute; intuition discriminate | apply (H _ eq_refl) | vm_compute; intuition discriminate].
Qed.
Lemma c157_same sha1 i1 d1 h1 b1 i2 d2 h2 b2 :
  (forall x y, sha1 x = sha1 y -> x = y) -> no_id i1 -> no_id i2 -> no_empty_line h1 -> no_empty_line h2 ->
  (forall d, d1 = Some d -> ~ In 0%N d) -> (forall d, d2 = Some d -> ~ In 0%N d) ->
  (msgid sha1 i1 d1 (text_with h1 b1) = msgid sha1 i2 d2 (text_with h2 b2) <->
   date_word d1 = date_word d2 /\ id_part b1 = id_part b2).
Proof.
  intros Hs N1 N2 E1 E2 D1 D2. rewrite !msgid_generated by assumption. split.
  - intros E. injection E as E. apply app_inv_tail in E. apply Hs in E. apply first_nul in E; [exact E | apply date_word_nul, D1 | apply date_word_nul, D2].
  - intros [-> ->]. reflexivity.
Qed.
Lemma strip_p_no p s : (forall c, In c s -> p c = false) -> strip_p p s = s.
Proof.
  intros H. unfold strip_p, rstrip_p, lstrip_p.
  assert (D : forall t, (forall c, In c t -> p c = false) -> drop_while p t = t).
  { intros [|c t] Ht; [reflexivity|]. cbn [drop_while]. rewrite (Ht c (or_introl eq_refl)). reflexivity. }
  rewrite (D s H), D; [apply rev_involutive|]. intros c I. apply H. apply in_rev, I.
Qed.
Lemma strip_ends p b1 b2 x : forallb p b1 = true -> forallb p b2 = true ->
  (forall c r, x = c :: r -> p c = false) -> (forall c r, x = r ++ [c] -> p c = false) -> x <> [] -> strip_p p (b1 ++ x ++ b2) = x.
Proof.
  intros H1 H2 Hf Hl Hne. unfold strip_p, rstrip_p, lstrip_p. rewrite drop_while_app_all by exact H1.
  assert (D1 : drop_while p (x ++ b2) = x ++ b2) by (destruct x as [|c r]; [congruence|]; cbn [app drop_while]; rewrite (Hf c r eq_refl); reflexivity).
  rewrite D1, rev_app_distr, drop_while_app_all.
  - destruct (rev x) as [|c r] eqn:E; [apply (f_equal (@rev char)) in E; rewrite rev_involutive in E; subst; reflexivity|].
    apply (f_equal (@rev char)) in E. rewrite rev_involutive in E. cbn [rev] in E. cbn [drop_while].
    rewrite (Hl c (rev r) E). cbn [rev]. symmetry. exact E.
  - apply forallb_forall. intros c I. rewrite <- in_rev in I. revert c I. apply forallb_forall, H2.
Qed.
Lemma c157_bare sha1 date text b1 b2 x :
  forallb is_space b1 = true -> forallb is_space b2 = true -> x <> [] ->
  (forall c r, x = c :: r \/ x = r ++ [c] -> is_space c = false /\ c <> 60%N /\ c <> 62%N) ->
  msgid sha1 (Some (b1 ++ x ++ b2)) date text = Some x.
Proof.
  intros H1 H2 Hne Hc. destruct x as [|c x]; [congruence|]. destruct (Hc c x (or_introl eq_refl)) as (S & N60 & _).
  assert (E : empty_id (b1 ++ (c :: x) ++ b2) = false).
  { unfold empty_id. rewrite drop_while_app_all by exact H1. cbn [app drop_while]. rewrite S.
    destruct (N.eqb_spec c 60) as [F|_]; [congruence|]. reflexivity. }
  unfold msgid. destruct (b1 ++ (c :: x) ++ b2) as [|c0 r0] eqn:E0; [destruct b1; discriminate E0|]. rewrite E. f_equal.
  unfold strip. rewrite <- E0, strip_ends; auto; [|intros d r F; apply (Hc d r); auto|intros d r F; apply (Hc d r); auto].
  assert (Z : forall k, (k = 60%N \/ k = 62%N) -> strip_chars [k] (c :: x) = c :: x).
  { intros k Hk. unfold strip_chars. replace (c :: x) with ([] ++ (c :: x) ++ []) at 1 by (rewrite app_nil_r; reflexivity).
    apply strip_ends; auto.
    - intros d r F. apply mem_char_notIn. intros [I|[]]. destruct (Hc d r (or_introl F)) as (_ & A & B). destruct Hk; congruence.
    - intros d r F. apply mem_char_notIn. intros [I|[]]. destruct (Hc d r (or_intror F)) as (_ & A & B). destruct Hk; congruence. }
  rewrite !Z by auto. reflexivity.
Qed.
Lemma c157_own sha1 date text b1 b2 x :
  forallb is_space b1 = true -> forallb is_space b2 = true ->
  x <> [] -> x <> $"@sa_generated" -> (forall c, In c x -> is_space c = false /\ c <> 60%N /\ c <> 62%N) ->
  msgid sha1 (Some (b1 ++ $"<" ++ x ++ $">" ++ b2)) date text = Some x.
Proof.
  intros H1 H2 Hx Hg Hc. change ($"<") with [60%N]. change ($">") with [62%N]. unfold msgid.
  assert (E : empty_id (b1 ++ [60%N] ++ x ++ [62%N] ++ b2) = false).
  { unfold empty_id. rewrite drop_while_app_all by exact H1. cbn [app drop_while]. change (is_space 60) with false. cbn iota. change (N.eqb 60 60) with true. cbn [andb].
    destruct x as [|c x]; [congruence|]. cbn [app drop_while]. destruct (Hc c (or_introl eq_refl)) as (S & _ & N62). rewrite S.
    assert (SW : startswith ($"@sa_generated>") (c :: x ++ 62%N :: b2) = false).
    { destruct (startswith ($"@sa_generated>") (c :: x ++ 62%N :: b2)) eqn:W; [|reflexivity]. exfalso. apply startswith_app in W as [t W].
      assert (S1 : split1 62%N ((c :: x) ++ [62%N] ++ b2) = Some (c :: x, b2)).
      { apply split_here. intros I. destruct (Hc 62%N I) as (_ & _ & N). congruence. }
      cbn [app] in S1. rewrite W in S1. change ($"@sa_generated>" ++ t) with ($"@sa_generated" ++ [62%N] ++ t) in S1.
      rewrite split_here in S1 by (vm_compute; intuition discriminate). apply (f_equal (fun o : option (str * str) => match o with Some (a, _) => a | None => [] end)) in S1. cbn iota beta in S1. apply Hg. symmetry. exact S1. }
    destruct (N.eqb_spec c 62) as [E|_]; [congruence|]. cbn [app] in SW. rewrite SW. reflexivity. }
  assert (ST : strip (b1 ++ [60%N] ++ x ++ [62%N] ++ b2) = [60%N] ++ x ++ [62%N]).
  { unfold strip, strip_p, rstrip_p, lstrip_p. rewrite drop_while_app_all by exact H1. cbn [app drop_while]. change (is_space 60) with false. cbn iota.
    change (60%N :: x ++ 62%N :: b2) with ([60%N] ++ x ++ [62%N] ++ b2). replace ([60%N] ++ x ++ [62%N] ++ b2) with (([60%N] ++ x ++ [62%N]) ++ b2) by (rewrite <- !app_assoc; reflexivity).
    rewrite rev_app_distr, drop_while_app_all.
    - rewrite !rev_app_distr. cbn [rev app drop_while]. change (is_space 62) with false. cbn iota. cbn [rev]. rewrite rev_app_distr, rev_involutive. reflexivity.
    - apply forallb_forall. intros c I. rewrite <- in_rev in I. revert c I. apply forallb_forall, H2. }
  destruct (b1 ++ [60%N] ++ x ++ [62%N] ++ b2) as [|c0 r0] eqn:E0; [destruct b1; discriminate E0|]. rewrite E, ST.
  unfold strip_chars. f_equal.
  assert (A : strip_p (fun c => mem_char c [60%N]) ([60%N] ++ x ++ [62%N]) = x ++ [62%N]).
  { unfold strip_p, rstrip_p, lstrip_p. cbn [app drop_while]. change (mem_char 60 [60%N]) with true. cbn iota.
    destruct x as [|c x]; [congruence|]. cbn [app drop_while]. destruct (Hc c (or_introl eq_refl)) as (_ & N60 & _).
    rewrite (proj2 (mem_char_notIn c [60%N])) by (intros [I|[]]; congruence). change (c :: x ++ [62%N]) with ((c :: x) ++ [62%N]).
    rewrite rev_app_distr. cbn [rev app drop_while]. change (mem_char 62 [60%N]) with false. cbn iota. cbn [rev].
    rewrite rev_app_distr, rev_involutive. reflexivity. }
  rewrite A. unfold strip_p, rstrip_p, lstrip_p. destruct x as [|c x]; [congruence|]. cbn [app drop_while].
  destruct (Hc c (or_introl eq_refl)) as (_ & _ & N62). rewrite (proj2 (mem_char_notIn c [62%N])) by (intros [I|[]]; congruence).
  change (c :: x ++ [62%N]) with ((c :: x) ++ [62%N]). rewrite rev_app_distr. cbn [rev app drop_while]. change (mem_char 62 [62%N]) with true. cbn iota.
  assert (D : forall t, (forall d, In d t -> In d (c :: x)) -> drop_while (fun c0 => mem_char c0 [62%N]) t = t).
  { intros [|d t] Ht; [reflexivity|]. cbn [drop_while]. destruct (Hc d (Ht d (or_introl eq_refl))) as (_ & _ & Nd).
    rewrite (proj2 (mem_char_notIn d [62%N])) by (intros [I|[]]; congruence). reflexivity. }
  rewrite D; [rewrite rev_app_distr, rev_involutive; reflexivity|]. intros d I. apply in_app_iff in I as [I|[<-|[]]]; [right; apply in_rev, I | left; reflexivity].
Qed.
Lemma c157_breaks sha1 parse l1 l2 tail : Forall (fun p => Spec_Headers.clean_line (fst p)) l1 -> Forall (fun p => Spec_Headers.clean_line (fst p)) l2 ->
  Spec_Headers.clean_line tail -> Spec_Headers.unambiguous l1 -> Spec_Headers.unambiguous l2 -> map fst l1 = map fst l2 ->
  message_msgid sha1 parse (Spec_Headers.text_of l1 tail) = message_msgid sha1 parse (Spec_Headers.text_of l2 tail).
Proof.
  intros F1 F2 T U1 U2 E. unfold message_msgid. rewrite !Proofs_Headers.tlb_lines by assumption.
  replace (Spec_Headers.with_lf l2) with (Spec_Headers.with_lf l1); [reflexivity|].
  unfold Spec_Headers.with_lf. rewrite <- (map_map fst (fun x => (x, Spec_Headers.LF)) l1), E, map_map. reflexivity.
Qed.

(** ** Dates *)
Lemma c158_first parse now before h a ts after : (forall x, In x before -> ~ In 59%N x) -> h = a ++ $";" ++ ts -> ~ In 59%N ts ->
  receive_date parse now (before ++ h :: after) = parse ts.
Proof.
  intros H -> Ht. induction before as [|x l IH]; cbn [app receive_date].
  - rewrite (proj2 (rsplit1_Some 59 (a ++ $";" ++ ts) a ts)); [reflexivity | split; [reflexivity | exact Ht]].
  - rewrite (proj2 (rsplit1_None 59 x)) by (apply H; left; reflexivity). apply IH. intros y I. apply H. right. exact I.
Qed.
Lemma c158_none parse now l : (forall x, In x l -> ~ In 59%N x) -> receive_date parse now l = Some now.
Proof.
  intros H. induction l as [|x l IH]; [reflexivity|]. cbn [receive_date].
  rewrite (proj2 (rsplit1_None 59 x)) by (apply H; left; reflexivity). apply IH. intros y I. apply H. right. exact I.
Qed.

(** ** The loop over messages *)
Lemma run_all o args : run o args = flat_map (handle o) (concat args) ++ match o with Revoke | Report => [PrintCount (length args)] | _ => [] end.
Proof.
  unfold run. f_equal. induction args as [|ms args IH]; [reflexivity|]. cbn [map concat]. rewrite IH, flat_map_app, <- flat_map_concat_map. reflexivity.
Qed.

Lemma flat_single {A B} (f : A -> B) l : flat_map (fun x => [f x]) l = map f l.
Proof. induction l as [|x l IH]; [reflexivity|]. cbn. rewrite IH. reflexivity. Qed.
Lemma c159 revoke report report_only test_mode args :
  run (mode_of revoke report report_only test_mode) args =
  if revoke then map Revoked (concat args) ++ [PrintCount (length args)]
  else if report then map Reported (concat args) ++ [PrintCount (length args)]
  else if report_only then flat_map (fun m => [Matched m; PrintReport m]) (concat args)
  else if test_mode then flat_map (fun m => [Matched m; PrintMessage m; PrintReport m]) (concat args)
  else flat_map (fun m => [Matched m; PrintMessage m]) (concat args).
Proof.
  rewrite run_all. unfold mode_of. destruct revoke; [rewrite <- flat_single; reflexivity|]. destruct report; [rewrite <- flat_single; reflexivity|].
  destruct report_only; [apply app_nil_r|]. destruct test_mode; apply app_nil_r.
Qed.
Lemma c159_count revoke report report_only test_mode args n : Forall (fun ms => length ms = 1) args ->
  In (PrintCount n) (run (mode_of revoke report report_only test_mode) args) -> n = length (concat args).
Proof.
  intros F. rewrite c159. assert (L : length args = length (concat args)).
  { induction F as [|ms l E F IH]; [reflexivity|]. cbn [concat length]. rewrite app_length, E, <- IH. reflexivity. }
  assert (M : forall f : str -> event, (forall m k, f m <> PrintCount k) -> In (PrintCount n) (map f (concat args) ++ [PrintCount (length args)]) -> n = length (concat args)).
  { intros f Hf I. apply in_app_iff in I as [I|[I|[]]]; [apply in_map_iff in I as (m & E & _); exfalso; exact (Hf m n E) | injection I as <-; exact L]. }
  destruct revoke; [apply M; discriminate|]. destruct report; [apply M; discriminate|].
  destruct report_only; [|destruct test_mode]; intros I; apply in_flat_map in I as (m & _ & I); cbn [In] in I; intuition discriminate.
Qed.
