(** Lemmas about the server model. *)
From Verif Require Import PyStr PyDict PyUtf8 Model_Rules Model_Net Model_Server Spec_Server.

(** ** Lines *)
Lemma readline_nl l r : ~ In 10%N l -> readline (l ++ 10%N :: r) = (l ++ [10%N], r).
Proof.
  induction l as [|c l IH]; intros H; cbn [app readline]; [reflexivity|].
  destruct (N.eqb_spec c 10) as [->|Hc]; [exfalso; apply H; left; reflexivity|].
  rewrite IH by (intros Hi; apply H; right; exact Hi). reflexivity.
Qed.
Lemma readline_app s : let (l, t) := readline s in s = l ++ t.
Proof.
  induction s as [|c s IH]; cbn [readline]; [reflexivity|]. destruct (N.eqb c 10); [reflexivity|].
  destruct (readline s) as [l t]. cbn. rewrite IH. reflexivity.
Qed.
Lemma readline_len s : s <> [] -> let (l, t) := readline s in length t < length s.
Proof.
  intros Hs. pose proof (readline_app s) as H. destruct (readline s) as [l t] eqn:E. rewrite H, app_length.
  destruct l as [|c l]; [|cbn; lia]. destruct s as [|x s]; [contradiction|]. cbn [readline] in E.
  destruct (N.eqb x 10); [discriminate|]. destruct (readline s); discriminate.
Qed.

Lemma drop_while_app {X} (p : X -> bool) t x : p x = true ->
  drop_while p (t ++ [x]) = match drop_while p t with [] => [] | d => d ++ [x] end.
Proof.
  intros Hx. induction t as [|c t IH]; cbn [app drop_while]; [rewrite Hx; reflexivity|].
  destruct (p c); [exact IH|reflexivity].
Qed.
Lemma strip_nl t : strip (t ++ [10%N]) = strip t.
Proof.
  unfold strip, strip_p, rstrip_p, lstrip_p. rewrite drop_while_app by reflexivity.
  destruct (drop_while is_space t) as [|c d]; [reflexivity|]. rewrite rev_app_distr. cbn [rev app drop_while].
  change (is_space 10) with true. cbn iota. reflexivity.
Qed.
Lemma decode_nl l t : encode t = Some l -> decode (l ++ [10%N]) = Some (t ++ [10%N]).
Proof. intros H. apply decode_encode in H. rewrite (decode_app _ _ _ H). reflexivity. Qed.
Lemma read_line l t r : line_of l t -> read_text_line (l ++ 10%N :: r) = (Ok (strip t), r).
Proof.
  intros [Hn He]. unfold read_text_line. rewrite readline_nl by exact Hn. rewrite (decode_nl _ _ He), strip_nl. reflexivity.
Qed.

(** ** Options *)
Definition opt_fold (texts : list str) (o : dict str) : dict str :=
  fold_left (fun o t => match split1 58 (strip t) with Some (n, v) => dset (lower n) (strip v) o | None => o end) texts o.

Lemma get_options_ok lines texts bl b rest : Forall2 line_of lines texts ->
  Forall (fun t => strip t <> []) texts -> line_of bl b -> strip b = [] -> Forall (fun t => In 58%N (strip t)) texts ->
  forall fuel o, length (with_ends lines ++ bl ++ 10%N :: rest) < fuel ->
  get_options fuel (with_ends lines ++ bl ++ 10%N :: rest) o = Ok (opt_fold texts o, rest).
Proof.
  intros HF Hne Hbl Hb Hc. induction HF as [|l t lines texts Hl HF IH]; intros fuel o Hf.
  - cbn [with_ends map concat app] in *. destruct fuel as [|fuel]; [lia|]. cbn [get_options].
    rewrite (read_line bl b rest Hbl), Hb. reflexivity.
  - unfold with_ends in *. cbn [map concat] in *. rewrite <- !app_assoc in *. cbn [app] in *.
    destruct fuel as [|fuel]; [lia|]. cbn [get_options]. rewrite (read_line l t _ Hl).
    inversion Hne as [|? ? Hn Hne']; subst. inversion Hc as [|? ? Hc1 Hc']; subst.
    destruct (strip t) as [|c tx] eqn:Et; [contradiction|].
    destruct (split1 58 (c :: tx)) as [[n v]|] eqn:Es; [|apply split1_None in Es; contradiction].
    rewrite IH; [|assumption|assumption|rewrite app_length in Hf; cbn [length] in Hf; lia].
    cbn [opt_fold fold_left]. rewrite Et, Es. reflexivity.
Qed.
Lemma get_options_bad lines texts bl b rest : Forall2 line_of lines texts ->
  Forall (fun t => strip t <> []) texts -> line_of bl b -> (exists t, In t texts /\ ~ In 58%N (strip t)) ->
  forall fuel o, length (with_ends lines ++ bl ++ 10%N :: rest) < fuel ->
  get_options fuel (with_ends lines ++ bl ++ 10%N :: rest) o = Err (EInvalid bad_option).
Proof.
  intros HF Hne Hbl Hc. induction HF as [|l t lines texts Hl HF IH]; intros fuel o Hf.
  - destruct Hc as (t & [] & _).
  - unfold with_ends in *. cbn [map concat] in *. rewrite <- !app_assoc in *. cbn [app] in *.
    destruct fuel as [|fuel]; [lia|]. cbn [get_options]. rewrite (read_line l t _ Hl).
    inversion Hne as [|? ? Hn Hne']; subst.
    destruct (strip t) as [|c tx] eqn:Et; [contradiction|].
    destruct (split1 58 (c :: tx)) as [[n v]|] eqn:Es; [|reflexivity].
    apply IH; [assumption| |rewrite app_length in Hf; cbn [length] in Hf; lia].
    destruct Hc as (t' & [<-|Hi] & Hn'); [|exists t'; auto].
    exfalso. apply Hn'. rewrite Et. apply split1_Some in Es. destruct Es as [-> _]. apply in_or_app. right. left. reflexivity.
Qed.

Lemma option_line_split t name value : option_line t name value <-> split1 58 (strip t) = Some (name, value).
Proof. unfold option_line. rewrite split1_Some. reflexivity. Qed.

Lemma opt_fold_last texts o k : (forall t, In t texts -> In 58%N (strip t)) ->
  (exists v, last_option texts k v /\ dget k (opt_fold texts o) = Some v) \/
  ((forall t name value, In t texts -> option_line t name value -> lower name <> k) /\ dget k (opt_fold texts o) = dget k o).
Proof.
  intros Hc. induction texts as [|t texts IH] using rev_ind; [right; split; [intros t ? ? []|reflexivity]|].
  unfold opt_fold in *. rewrite fold_left_app. cbn [fold_left].
  destruct (split1 58 (strip t)) as [[n v]|] eqn:Es.
  2:{ exfalso. apply split1_None in Es. apply Es, Hc, in_or_app. right. left. reflexivity. }
  rewrite dget_dset. destruct (streqb_spec (lower n) k) as [Hk|Hk].
  - left. exists (strip v). split; [|reflexivity]. exists texts, t, [], n, v. split; [reflexivity|].
    split; [apply option_line_split; exact Es|]. split; [exact Hk|]. split; [reflexivity|]. intros ? ? ? [].
  - assert (Ho : forall name value, option_line t name value -> lower name <> k).
    { intros name value Ho. apply option_line_split in Ho. rewrite Es in Ho. injection Ho as <- <-. exact Hk. }
    destruct IH as [(v' & (before & t' & after & n' & v2 & -> & H1 & H2 & H3 & H4) & H5)|[H1 H2]].
    + intros x Hx. apply Hc, in_or_app. left. exact Hx.
    + left. exists v'. split; [|exact H5]. exists before, t', (after ++ [t]), n', v2.
      split; [rewrite <- app_assoc; reflexivity|]. split; [exact H1|]. split; [exact H2|]. split; [exact H3|].
      intros x nx vx Hx. apply in_app_or in Hx. destruct Hx as [Hx|[<-|[]]]; [apply H4; exact Hx|apply Ho].
    + right. split; [|exact H2]. intros x nx vx Hx. apply in_app_or in Hx.
      destruct Hx as [Hx|[<-|[]]]; [apply H1; exact Hx|apply Ho].
Qed.

Lemma last_option_unique texts k v v' : last_option texts k v -> last_option texts k v' -> v = v'.
Proof.
  revert v v'. induction texts as [|t texts IH] using rev_ind; intros v v' H H'.
  { destruct H as (b & ? & ? & ? & ? & H & _). destruct b; discriminate. }
  assert (Hcase : forall w, last_option (texts ++ [t]) k w ->
    (exists n x, option_line t n x /\ lower n = k /\ strip x = w) \/
    ((forall n x, option_line t n x -> lower n <> k) /\ last_option texts k w)).
  { intros w (b & t0 & a & n & x & H1 & H2 & H3 & H4 & H5). destruct a as [|a0 a _] using rev_ind.
    - apply app_inj_tail in H1. destruct H1 as [-> ->]. left. eauto.
    - rewrite app_comm_cons, app_assoc in H1. apply app_inj_tail in H1. destruct H1 as [-> ->]. right. split.
      + intros n' x' Ho. apply (H5 a0 n' x'); [apply in_or_app; right; left; reflexivity|exact Ho].
      + exists b, t0, a, n, x. split; [reflexivity|]. split; [exact H2|]. split; [exact H3|]. split; [exact H4|].
        intros t' n' x' Hi. apply (H5 t' n' x'). apply in_or_app. left. exact Hi. }
  destruct (Hcase _ H) as [(n & x & H1 & H2 & H3)|[H1 H2]], (Hcase _ H') as [(n' & x' & H1' & H2' & H3')|[H1' H2']].
  - apply option_line_split in H1, H1'. rewrite H1 in H1'. injection H1' as -> ->. congruence.
  - exfalso. exact (H1' n x H1 H2).
  - exfalso. exact (H1 n' x' H1' H2').
  - exact (IH _ _ H2 H2').
Qed.

Lemma options_exact lines texts bl b rest : Forall2 line_of lines texts ->
  Forall (fun t => strip t <> []) texts -> line_of bl b -> strip b = [] ->
  let s := with_ends lines ++ bl ++ 10%N :: rest in
  ((forall t, In t texts -> In 58%N (strip t)) -> exists o, get_options (S (length s)) s [] = Ok (o, rest) /\
     forall k v, dget k o = Some v <-> last_option texts k v) /\
  ((exists t, In t texts /\ ~ In 58%N (strip t)) -> get_options (S (length s)) s [] = Err (EInvalid bad_option)).
Proof.
  intros HF Hne Hbl Hb s. split.
  - intros Hc. exists (opt_fold texts []). split.
    + apply (get_options_ok lines texts bl b rest HF Hne Hbl Hb); [apply Forall_forall; exact Hc|]. subst s. lia.
    + intros k v. destruct (opt_fold_last texts [] k Hc) as [(v' & H1 & H2)|[H1 H2]]; rewrite H2.
      * split; [intros [= <-]; exact H1|]. intros H. f_equal. exact (last_option_unique _ _ _ _ H1 H).
      * cbn [dget]. split; [discriminate|]. intros (bf & t & af & n & x & -> & Ho & Hl & _). exfalso.
        apply (H1 t n x); [apply in_or_app; right; left; reflexivity|exact Ho|exact Hl].
  - intros Hc. apply (get_options_bad lines texts bl b rest HF Hne Hbl Hc). subst s. lia.
Qed.

Lemma get_options_decided : forall fuel s o, length s < fuel ->
  (exists o' head t, get_options fuel s o = Ok (o', t) /\ s = head ++ t) \/
  get_options fuel s o = Err (EInvalid bad_option) \/ get_options fuel s o = Err EUnicode.
Proof.
  induction fuel as [|fuel IH]; intros s o Hf; [lia|]. cbn [get_options]. unfold read_text_line.
  pose proof (readline_app s) as Ha. pose proof (readline_len s) as Hl. destruct (readline s) as [l t].
  destruct (decode l) as [x|] eqn:Ed; [|auto].
  destruct (strip x) as [|c tx] eqn:Ex; [left; exists o, l, t; auto|].
  destruct (split1 58 (c :: tx)) as [[n v]|]; [|auto].
  assert (Hs : s <> []). { intros ->. destruct l; [|discriminate]. injection Ed as <-. discriminate. }
  destruct (IH t (dset (lower n) (strip v) o)) as [(o' & hd & t' & H1 & H2)|H]; [specialize (Hl Hs); lia| |auto].
  left. exists o', (l ++ hd), t'. split; [exact H1|]. rewrite Ha, H2, app_assoc. reflexivity.
Qed.

(** ** Messages *)
Lemma skipn_len {X} k (s : list X) : firstn k s <> [] -> length (skipn k s) < length s.
Proof.
  intros H. rewrite skipn_length. destruct k, s; cbn in *; try contradiction. lia.
Qed.

Lemma concat_snoc {X} (l : list (list X)) t : concat (l ++ [t]) = concat l ++ t.
Proof. rewrite concat_app. cbn. rewrite app_nil_r. reflexivity. Qed.

Lemma read_loop_sound give : transport give -> forall fuel want s chunks cs,
  read_loop give fuel want s chunks = Ok cs ->
  exists t, concat cs = concat chunks ++ t /\ encode t = Some (message_bytes want s).
Proof.
  intros Hg. induction fuel as [|fuel IH]; intros want s chunks cs H; [discriminate|]. cbn [read_loop] in H.
  assert (Hstop : want = Some 0%N \/ s = [] -> Ok chunks = Ok cs ->
    exists t, concat cs = concat chunks ++ t /\ encode t = Some (message_bytes want s)).
  { intros Hw [= <-]. exists []. rewrite app_nil_r. split; [reflexivity|].
    destruct Hw as [-> | ->]; [reflexivity|]. unfold message_bytes. destruct want; [rewrite firstn_nil|]; reflexivity. }
  assert (Hgen : forall n w', (0 < n)%N ->
    (forall k, (N.of_nat k <= n)%N -> k <= length s -> firstn k s ++ message_bytes (w' k) (skipn k s) = message_bytes want s) ->
    (match firstn (N.to_nat (give n s)) s with
     | [] => Ok chunks
     | chunk => match decode chunk with
                | None => Err EUnicode
                | Some t => read_loop give fuel (w' (length chunk)) (skipn (N.to_nat (give n s)) s) (chunks ++ [t])
                end
     end = Ok cs) -> exists t, concat cs = concat chunks ++ t /\ encode t = Some (message_bytes want s)).
  { intros n w' Hn Hw H'. destruct s as [|c s']; [rewrite firstn_nil in H'; apply Hstop; auto|].
    assert (Hk := Hg n (c :: s') Hn ltac:(discriminate)).
    remember (N.to_nat (give n (c :: s'))) as k. assert (Hk1 : 1 <= k <= length (c :: s')) by lia.
    assert (Hlen : length (firstn k (c :: s')) = k) by (apply firstn_length_le; lia).
    destruct (firstn k (c :: s')) as [|d ds] eqn:Ef; [cbn in Hlen; lia|].
    cbv zeta in H'. destruct (decode (d :: ds)) as [t|] eqn:Ed; [|discriminate]. apply IH in H'.
    destruct H' as (t' & H1 & H2). exists (t ++ t'). rewrite H1, concat_snoc, <- app_assoc. split; [reflexivity|].
    apply encode_app. exists (d :: ds). eexists. split; [apply encode_decode; exact Ed|]. split; [exact H2|].
    rewrite Hlen. symmetry. rewrite <- Ef. apply Hw; lia. }
  destruct want as [w|].
  - destruct w as [|w]; [apply Hstop; auto|].
    apply (Hgen (N.min (N.pos w) chunk_size) (fun k => Some (N.pos w - N.of_nat k)%N)); [unfold chunk_size; lia| |].
    + intros k Hk Hl. cbn [message_bytes]. replace (N.to_nat (N.pos w)) with (k + N.to_nat (N.pos w - N.of_nat k)) by lia.
      rewrite <- (firstn_skipn k s) at 3. rewrite firstn_app. rewrite firstn_length_le by lia.
      rewrite (firstn_all2 (firstn k s)) by (rewrite firstn_length_le; lia). f_equal. f_equal. lia.
    + exact H.
  - apply (Hgen chunk_size (fun _ => None)); [unfold chunk_size; lia| |exact H].
    intros k Hk Hl. cbn [message_bytes]. apply firstn_skipn.
Qed.

Lemma message_sound give options s t announced : transport give ->
  content_length options = Ok announced -> get_message give options s = Ok t ->
  encode t = Some (message_bytes announced s).
Proof.
  intros Hg Hc H. unfold get_message in H. rewrite Hc in H.
  destruct (read_loop give (S (length s)) announced s []) as [cs|] eqn:E; [|discriminate].
  apply (read_loop_sound give Hg) in E. destruct E as (t' & H1 & H2). cbn in H1.
  destruct (dget ($"compress") options) as [v|]; [destruct (streqb v ($"zlib")); [discriminate|]|]; injection H as <-;
    rewrite H1; exact H2.
Qed.

Lemma read_loop_ascii give : forall fuel want s chunks, length s < fuel ->
  Forall (fun c => (c < 128)%N) (message_bytes want s) -> transport give ->
  exists cs, read_loop give fuel want s chunks = Ok cs.
Proof.
  induction fuel as [|fuel IH]; intros want s chunks Hf Ha Hg; [lia|]. cbn [read_loop].
  assert (Hgen : forall n w', (0 < n)%N ->
    (forall k, (N.of_nat k <= n)%N -> k <= length s -> firstn k s ++ message_bytes (w' k) (skipn k s) = message_bytes want s) ->
    exists cs, match firstn (N.to_nat (give n s)) s with
     | [] => Ok chunks
     | chunk => match decode chunk with
                | None => Err EUnicode
                | Some t => read_loop give fuel (w' (length chunk)) (skipn (N.to_nat (give n s)) s) (chunks ++ [t])
                end
     end = Ok cs).
  { intros n w' Hn Hw. destruct s as [|c s']; [rewrite firstn_nil; eauto|].
    assert (Hk := Hg n (c :: s') Hn ltac:(discriminate)).
    remember (N.to_nat (give n (c :: s'))) as k. assert (Hk1 : 1 <= k <= length (c :: s')) by lia.
    assert (Hlen : length (firstn k (c :: s')) = k) by (apply firstn_length_le; lia).
    specialize (Hw k ltac:(lia) ltac:(lia)). rewrite <- Hw in Ha. apply Forall_app in Ha. destruct Ha as [Ha1 Ha2].
    destruct (firstn k (c :: s')) as [|d ds] eqn:Ef; [cbn in Hlen; lia|].
    cbv zeta. rewrite (decode_ascii _ Ha1), Hlen. apply IH; [|exact Ha2|exact Hg].
    pose proof (skipn_len k (c :: s')) as Hs. rewrite Ef in Hs. specialize (Hs ltac:(discriminate)). lia. }
  destruct want as [[|w]|]; [eauto| |].
  - apply (Hgen (N.min (N.pos w) chunk_size) (fun k => Some (N.pos w - N.of_nat k)%N)); [unfold chunk_size; lia|].
    intros k Hk Hl. cbn [message_bytes]. replace (N.to_nat (N.pos w)) with (k + N.to_nat (N.pos w - N.of_nat k)) by lia.
    rewrite <- (firstn_skipn k s) at 3. rewrite firstn_app. rewrite firstn_length_le by lia.
    rewrite (firstn_all2 (firstn k s)) by (rewrite firstn_length_le; lia). f_equal. f_equal. lia.
  - apply (Hgen chunk_size (fun _ => None)); [unfold chunk_size; lia|].
    intros k Hk Hl. cbn [message_bytes]. apply firstn_skipn.
Qed.

Lemma message_ascii give options s announced : transport give ->
  content_length options = Ok announced -> dget ($"compress") options <> Some ($"zlib") ->
  Forall (fun c => (c < 128)%N) (message_bytes announced s) -> get_message give options s = Ok (message_bytes announced s).
Proof.
  intros Hg Hc Hz Ha.
  assert (Hex : exists t, get_message give options s = Ok t).
  { unfold get_message. rewrite Hc. destruct (read_loop_ascii give (S (length s)) announced s [] ltac:(lia) Ha Hg) as [cs ->].
    destruct (dget ($"compress") options) as [v|]; [|eauto]. destruct (streqb_spec v ($"zlib")) as [->|]; [contradiction|eauto]. }
  destruct Hex as [t Ht]. rewrite Ht. f_equal. pose proof (message_sound _ _ _ _ _ Hg Hc Ht) as He.
  apply decode_encode in He. rewrite (decode_ascii _ Ha) in He. congruence.
Qed.

(** A message that fits in one read. *)
Lemma message_small options s n t : 
  content_length options = Ok (Some n) -> dget ($"compress") options <> Some ($"zlib") ->
  (n <= chunk_size)%N -> N.to_nat n <= length s -> encode t = Some (firstn (N.to_nat n) s) ->
  get_message buffered options s = Ok t.
Proof.
  intros Hc Hz Hn Hl He. unfold get_message. rewrite Hc.
  assert (Hr : read_loop buffered (S (length s)) (Some n) s [] = Ok (match n with 0%N => [] | _ => [t] end)).
  { cbn [read_loop]. destruct n as [|n]; [reflexivity|]. unfold buffered.
    replace (N.to_nat (N.min (N.min (N.pos n) chunk_size) (N.of_nat (length s)))) with (N.to_nat (N.pos n)) by lia.
    destruct (firstn (N.to_nat (N.pos n)) s) as [|c r] eqn:Ef.
    - exfalso. assert (Hx : length (firstn (N.to_nat (N.pos n)) s) = N.to_nat (N.pos n)) by (apply firstn_length_le; exact Hl).
      rewrite Ef in Hx. cbn [length] in Hx. lia.
    - rewrite <- Ef in *. rewrite (decode_encode _ _ He). rewrite firstn_length_le by lia.
      replace (N.pos n - N.of_nat (N.to_nat (N.pos n)))%N with 0%N by lia.
      destruct (length s) eqn:El; [lia|]. cbn [read_loop app]. reflexivity. }
  rewrite Hr. assert (Ht : concat (match n with 0%N => [] | _ => [t] end) = t).
  { destruct n as [|n]; cbn; [|rewrite app_nil_r; reflexivity]. cbn in He. symmetry.
    apply decode_encode in He. cbn in He. congruence. }
  destruct (dget ($"compress") options) as [v|]; [|rewrite Ht; reflexivity].
  destruct (streqb_spec v ($"zlib")) as [->|]; [contradiction|rewrite Ht; reflexivity].
Qed.

(** ** Decimal numbers *)
Lemma uint_str_inj d d' : uint_str d = uint_str d' -> d = d'.
Proof. revert d'. induction d; intros d'; destruct d'; cbn [uint_str]; try discriminate; try reflexivity; intros [= H]; f_equal; auto. Qed.
Lemma dec_inj n m : dec n = dec m -> n = m.
Proof. intros H. apply uint_str_inj, DecimalN.Unsigned.to_uint_inj in H. exact H. Qed.

(** ** Letter case *)
Lemma upper_lower c c' : lower_char c = lower_char c' -> upper_char c = upper_char c'.
Proof.
  unfold lower_char, upper_char.
  destruct (N.leb_spec 65 c), (N.leb_spec c 90), (N.leb_spec 65 c'), (N.leb_spec c' 90), (N.leb_spec 97 c), (N.leb_spec c 122),
    (N.leb_spec 97 c'), (N.leb_spec c' 122); cbn [andb]; lia.
Qed.
Lemma upper_of_lower s t : lower s = lower t -> upper s = upper t.
Proof.
  revert t. induction s as [|c s IH]; intros [|d t]; cbn [lower upper map]; try discriminate; [reflexivity|].
  intros H. unfold lower in H. cbn [map] in H. apply cons_inj in H. destruct H as [H1 H2]. unfold upper. cbn [map]. f_equal; [apply upper_lower; exact H1|apply IH; exact H2].
Qed.

Section Server.
Context {R M A P F : Type}.
Variable E : engine R M A P F.

(** ** Dispatch *)
Lemma handle_line give prefs l t rest sv cmd version :
  line_of l t -> words (strip t) = [cmd; version] ->
  handle E give prefs (l ++ 10%N :: rest) sv =
  match dget (upper cmd) commands with
  | None => (sv, say (error_line E (strip t)) silent)
  | Some c => let (sv', r) := get_and_handle E give prefs c rest sv in
              match rp_end r with
              | Err EKey => (sv', mkReply (rp_text r ++ [error_line E (strip t)]) (rp_events r) (Ok tt))
              | _ => (sv', r)
              end
  end.
Proof. intros Hl Hw. unfold handle. rewrite (read_line _ _ _ Hl), Hw. reflexivity. Qed.

Lemma commands_keys : dkeys commands = known_commands.
Proof. reflexivity. Qed.
Lemma unknown_command give prefs l t rest sv cmd version :
  line_of l t -> words (strip t) = [cmd; version] -> ~ In (upper cmd) known_commands ->
  handle E give prefs (l ++ 10%N :: rest) sv =
  (sv, mkReply [$"SPAMD/" ++ e_version E ++ $" 76 Bad header line: " ++ strip t ++ crlf] [] (Ok tt)).
Proof.
  intros Hl Hw Hn. rewrite (handle_line _ _ _ _ _ _ _ _ Hl Hw).
  destruct (dget (upper cmd) commands) as [c|] eqn:Ed; [|reflexivity].
  exfalso. apply Hn. rewrite <- commands_keys. apply dget_In in Ed. apply in_map_iff. exists (upper cmd, c). auto.
Qed.
Lemma letter_case give prefs l1 t1 c1 v1 l2 t2 c2 v2 rest sv :
  line_of l1 t1 -> words (strip t1) = [c1; v1] -> line_of l2 t2 -> words (strip t2) = [c2; v2] ->
  lower c1 = lower c2 -> In (upper c1) known_commands ->
  let r1 := handle E give prefs (l1 ++ 10%N :: rest) sv in
  let r2 := handle E give prefs (l2 ++ 10%N :: rest) sv in
  fst r1 = fst r2 /\ rp_events (snd r1) = rp_events (snd r2) /\ rp_end (snd r1) = rp_end (snd r2) /\
  (rp_text (snd r1) = rp_text (snd r2) \/
   exists said, rp_text (snd r1) = said ++ [error_line E (strip t1)] /\ rp_text (snd r2) = said ++ [error_line E (strip t2)]).
Proof.
  intros H1 W1 H2 W2 Hc Hk. cbv zeta. rewrite (handle_line _ _ _ _ _ _ _ _ H1 W1), (handle_line _ _ _ _ _ _ _ _ H2 W2).
  rewrite <- (upper_of_lower _ _ Hc). destruct (dget (upper c1) commands) as [c|] eqn:Ed.
  - destruct (get_and_handle E give prefs c rest sv) as [sv' r]. destruct (rp_end r) as [u|[]] eqn:Ee; cbn; rewrite ?Ee; auto.
    split; [reflexivity|]. split; [reflexivity|]. split; [reflexivity|]. right. exists (rp_text r). auto.
  - exfalso. apply (dget_None (upper c1) commands) in Ed. apply Ed. rewrite commands_keys. exact Hk.
Qed.
Lemma malformed_line give prefs l t rest sv :
  line_of l t -> (forall a b, words (strip t) <> [a; b]) ->
  handle E give prefs (l ++ 10%N :: rest) sv = (sv, mkReply [] [] (Err EValue)).
Proof.
  intros Hl Hw. unfold handle. rewrite (read_line _ _ _ Hl). destruct (words (strip t)) as [|a [|b [|c w]]] eqn:Ew; try reflexivity.
  exfalso. exact (Hw a b eq_refl).
Qed.

(** ** User rule sets *)
Definition fresh_user (r : R) (p : P) (f : option F) (u : str) : res R :=
  if e_allow E r then match f with Some f => e_build_user E r p u f | None => Ok r end else Ok r.

(** What every request keeps: the site rule set; a cached rule set of [u] is the
    one built from its preference file. *)
Definition cache_ok (r : R) (p : P) (f : option F) (u : str) (sv : server) : Prop :=
  sv_ruleset sv = r /\ sv_results sv = p /\
  (forall x, dget u (sv_users sv) = Some x -> e_allow E r = true -> fresh_user r p f u = Ok x).
Lemma get_user_cache r p f u prefs v sv : cache_ok r p f u sv -> prefs u = f ->
  cache_ok r p f u (fst (get_user_ruleset E prefs v sv)).
Proof.
  intros (H1 & H2 & H3) Hp. unfold get_user_ruleset. destruct v as [v|]; [|repeat split; assumption].
  destruct (e_allow E (sv_ruleset sv)) eqn:Ea; [|repeat split; assumption].
  destruct (dget v (sv_users sv)) as [x|] eqn:Ed; [repeat split; assumption|].
  destruct (prefs v) as [fv|] eqn:Ef; [|repeat split; assumption].
  destruct (e_build_user E (sv_ruleset sv) (sv_results sv) v fv) as [x|e] eqn:Eb; [|repeat split; assumption].
  cbn [fst]. split; [exact H1|]. split; [exact H2|]. intros y. cbn [sv_users]. rewrite dget_dset.
  destruct (streqb_spec v u) as [->|Hn]; [|apply H3].
  intros [= <-] Ha. unfold fresh_user. rewrite Ha. rewrite Hp in Ef. rewrite Ef. rewrite H1, H2 in Eb. exact Eb.
Qed.
Lemma handle_cache r p f u give prefs s sv : cache_ok r p f u sv -> prefs u = f ->
  cache_ok r p f u (fst (handle E give prefs s sv)).
Proof.
  intros H Hp. unfold handle. destruct (read_text_line s) as [[line|e] t]; [|exact H].
  destruct (words line) as [|a [|b [|c w]]]; try exact H. destruct (dget (upper a) commands) as [c|]; [|exact H].
  assert (Hg : cache_ok r p f u (fst (get_and_handle E give prefs c t sv))).
  { unfold get_and_handle.
    assert (Hr : cache_ok r p f u (fst (receive E give prefs c t sv))).
    { unfold receive. destruct (if has_options c then get_options (S (length t)) t [] else Ok ([], t)) as [[o t']|e]; [|exact H].
      pose proof (get_user_cache r p f u prefs (dget ($"user") o) sv H Hp) as Hu.
      destruct (get_user_ruleset E prefs (dget ($"user") o) sv) as [sv' [x|e]]; [|exact Hu]. cbn [fst] in Hu.
      destruct (has_message c); [|exact Hu]. destruct (get_message give o t') as [m|e]; [|exact Hu].
      destruct (e_load E x m); exact Hu. }
    destruct (receive E give prefs c t sv) as [sv' [[[x m] o]|e]]; cbn [fst] in Hr.
    - destruct c; cbn [fst]; try exact Hr. exact H.
    - destruct c, e; cbn [fst]; try exact Hr; exact H. }
  destruct (get_and_handle E give prefs c t sv) as [sv' rp]. cbn [fst] in Hg.
  destruct (rp_end rp) as [?|[]]; exact Hg.
Qed.

Lemma user_isolated r p history requests prefs u sv0 :
  (forall e, In e requests -> exists give prefs' s, e = Request give prefs' s /\ prefs' u = prefs u) ->
  let sv := sv_run E (history ++ Reload r p :: requests) sv0 in
  snd (get_user_ruleset E prefs (Some u) sv) =
    (if e_allow E r then match prefs u with Some f => e_build_user E r p u f | None => Ok r end else Ok r) /\
  snd (get_user_ruleset E prefs None sv) = Ok r.
Proof.
  intros Hr. cbv zeta. unfold sv_run. rewrite fold_left_app. cbn [fold_left sv_step].
  set (sv1 := load_config r p (fold_left (sv_step E) history sv0)).
  assert (H1 : cache_ok r p (prefs u) u sv1).
  { split; [reflexivity|]. split; [reflexivity|]. intros x H. discriminate H. }
  assert (H2 : forall reqs sv, (forall e, In e reqs -> exists give prefs' s, e = Request give prefs' s /\ prefs' u = prefs u) ->
    cache_ok r p (prefs u) u sv -> cache_ok r p (prefs u) u (fold_left (sv_step E) reqs sv)).
  { induction reqs as [|e reqs IH]; intros sv He Hc; [exact Hc|]. cbn [fold_left]. apply IH; [intros x Hx; apply He; right; exact Hx|].
    destruct (He e (or_introl eq_refl)) as (give & prefs' & s & -> & Hp). apply handle_cache; assumption. }
  specialize (H2 requests sv1 Hr H1). destruct H2 as (H3 & H4 & H5). unfold get_user_ruleset. rewrite H3, H4.
  split; [|reflexivity]. destruct (e_allow E r) eqn:Ea; [|reflexivity].
  destruct (dget u (sv_users (fold_left (sv_step E) requests sv1))) as [x|] eqn:Ed.
  - specialize (H5 x eq_refl eq_refl). unfold fresh_user in H5. rewrite Ea in H5. symmetry. exact H5.
  - destruct (prefs u) as [f|]; [|reflexivity]. destruct (e_build_user E r p u f); reflexivity.
Qed.

(** A preference file that is changed is not read again before the reload. *)
Lemma user_cached prefs prefs' u sv x :
  snd (get_user_ruleset E prefs (Some u) sv) = Ok x -> prefs u <> None -> e_allow E (sv_ruleset sv) = true ->
  snd (get_user_ruleset E prefs' (Some u) (fst (get_user_ruleset E prefs (Some u) sv))) = Ok x.
Proof.
  intros H Hp Ha. unfold get_user_ruleset in *. rewrite Ha in *.
  destruct (dget u (sv_users sv)) as [y|] eqn:Ed; [cbn [fst]; rewrite Ha, Ed; exact H|].
  destruct (prefs u) as [f|]; [|contradiction]. destruct (e_build_user E (sv_ruleset sv) (sv_results sv) u f) as [y|e]; [|discriminate].
  cbn [fst sv_ruleset sv_users]. rewrite Ha, dget_dset_same. exact H.
Qed.

(** ** Checking commands, end to end *)
Lemma check_request give prefs sv l t cmd version c lines texts bl b body tail r sv' m a details :
  line_of l t -> words (strip t) = [cmd; version] -> dget (upper cmd) commands = Some c ->
  c <> CTell -> c <> CPing -> c <> CSkip ->
  Forall2 line_of lines texts -> Forall (fun t => strip t <> [] /\ In 58%N (strip t)) texts ->
  line_of bl b -> strip b = [] ->
  (exists v, last_option texts ($"content-length") v /\ py_int v = Some (Z.of_nat (length body))) \/
    ((forall v, ~ last_option texts ($"content-length") v) /\ tail = []) ->
  (forall v, last_option texts ($"compress") v -> v <> $"zlib") ->
  transport give -> Forall (fun x => (x < 128)%N) body ->
  (exists user, (forall v, user = Some v <-> last_option texts ($"user") v) /\
     get_user_ruleset E prefs user sv = (sv', Ok r)) ->
  e_load E r body = Ok m -> e_match E r m = Ok a -> extra_details E c r a = Ok details ->
  handle E give prefs (l ++ 10%N :: with_ends lines ++ bl ++ 10%N :: body ++ tail) sv =
  (sv', mkReply [ok_line E c; spam_line E r a; $"Content-length: " ++ dec (N.of_nat (length details)) ++ crlf ++ crlf; details]
          [Matched r m] (Ok tt)).
Proof.
  intros Hl Hw Hc N1 N2 N3 HF Hne Hbl Hb Hcl Hz Hg Ha (user & Hu & Hr) Hload Hmatch Hd.
  rewrite (handle_line _ _ _ _ _ _ _ _ Hl Hw), Hc.
  assert (Hne1 : Forall (fun t => strip t <> []) texts) by (eapply Forall_impl; [|exact Hne]; cbn; tauto).
  assert (Hne2 : forall t, In t texts -> In 58%N (strip t)) by (rewrite Forall_forall in Hne; intros x Hx; apply Hne; exact Hx).
  destruct (options_exact lines texts bl b (body ++ tail) HF Hne1 Hbl Hb) as [Ho _]. destruct (Ho Hne2) as (o & Ho1 & Ho2). clear Ho.
  assert (Husr : dget ($"user") o = user).
  { destruct user as [v|].
    - apply Ho2, Hu. reflexivity.
    - destruct (dget ($"user") o) as [v|] eqn:Ed; [|reflexivity]. apply Ho2, Hu in Ed. discriminate. }
  assert (Hmsg : get_message give o (body ++ tail) = Ok body).
  { destruct Hcl as [(v & Hv & Hi)|[Hv ->]].
    - assert (Hcl : content_length o = Ok (Some (N.of_nat (length body)))).
      { unfold content_length. apply Ho2 in Hv. rewrite Hv, Hi. destruct (Z.ltb_spec (Z.of_nat (length body)) 0); [lia|].
        f_equal. f_equal. lia. }
      assert (Hb' : message_bytes (Some (N.of_nat (length body))) (body ++ tail) = body).
      { cbn [message_bytes]. rewrite Nnat.Nat2N.id, firstn_app, firstn_all, Nat.sub_diag. cbn. apply app_nil_r. }
      rewrite <- Hb' at 2. apply message_ascii; [exact Hg|exact Hcl| |rewrite Hb'; exact Ha].
      intros Hzl. apply Ho2 in Hzl. exact (Hz _ Hzl eq_refl).
    - rewrite app_nil_r in *. assert (Hcl : content_length o = Ok None).
      { unfold content_length. destruct (dget ($"content-length") o) as [v|] eqn:Ed; [|reflexivity]. apply Ho2 in Ed. exfalso. exact (Hv v Ed). }
      change body with (message_bytes None body) at 2. apply message_ascii; [exact Hg|exact Hcl| |exact Ha].
      intros Hzl. apply Ho2 in Hzl. exact (Hz _ Hzl eq_refl). }
  assert (Hrec : receive E give prefs c (with_ends lines ++ bl ++ 10%N :: body ++ tail) sv = (sv', Ok (r, Some m, o))).
  { unfold receive. assert (Hopt : has_options c = true) by (destruct c; try reflexivity; contradiction).
    assert (Hm : has_message c = true) by (destruct c; try reflexivity; contradiction).
    rewrite Hopt, Ho1, Husr, Hr, Hm, Hmsg, Hload. reflexivity. }
  unfold get_and_handle. rewrite Hrec. unfold check_handle. rewrite Hmatch.
  destruct c; try contradiction; rewrite Hd; reflexivity.
Qed.
End Server.

(** ** Framing *)
Lemma framing_ascii {R M A P F} (E : engine R M A P F) c r m a body b :
  e_match E r m = Ok a -> extra_details E c r a = Ok body -> encode body = Some b ->
  exists announced,
    rp_text (check_handle E c r m) = [spam_line E r a; $"Content-length: " ++ dec announced ++ crlf ++ crlf; body] /\
    (announced = N.of_nat (length b) <-> Forall (fun x => (x < 128)%N) body).
Proof.
  intros Hm Hd He. exists (N.of_nat (length body)). unfold check_handle. rewrite Hm, Hd. split; [reflexivity|]. split.
  - intros H. apply (encode_length_eq _ _ He). lia.
  - intros H. rewrite (encode_ascii _ H) in He. injection He as <-. reflexivity.
Qed.

(** ** TELL *)
Lemma tell_actions {R M A P F} (E : engine R M A P F) options r m :
  (forall r m a b c, e_hook_report E r m a b c = Ok tt) -> (forall r m a b c, e_hook_revoke E r m a b c = Ok tt) ->
  let spam := match dget ($"message-class") options with Some c => streqb (lower c) ($"spam") | None => true end in
  let rp := tell_handle E options r m in
  rp_end rp = Ok tt /\
  rp_events rp =
    (match dget ($"set") options with
     | Some v => [Reported r m spam (mem_str ($"local") (split_char 44 v)) (mem_str ($"remote") (split_char 44 v))] | None => [] end) ++
    (match dget ($"remove") options with
     | Some v => [Revoked r m spam (mem_str ($"local") (split_char 44 v)) (mem_str ($"remote") (split_char 44 v))] | None => [] end) /\
  rp_text rp =
    (match dget ($"set") options with Some v => [$"DidSet: " ++ v ++ crlf] | None => [] end) ++
    (match dget ($"remove") options with Some v => [$"DidRemove: " ++ v ++ crlf] | None => [] end).
Proof.
  intros H1 H2. cbv zeta. unfold tell_handle, targets.
  assert (Hs : streqb (lower (match dget ($"message-class") options with Some c => c | None => $"spam" end)) ($"spam") =
    match dget ($"message-class") options with Some c => streqb (lower c) ($"spam") | None => true end)
    by (destruct (dget ($"message-class") options); [reflexivity|vm_compute; reflexivity]).
  rewrite Hs. destruct (dget ($"set") options) as [v|], (dget ($"remove") options) as [w|]; rewrite ?H1, ?H2; repeat split.
Qed.
Lemma split_char_nocomma v : ~ In 44%N v -> split_char 44 v = [v].
Proof.
  induction v as [|c v IH]; intros H; [reflexivity|]. cbn [split_char]. destruct (N.eqb_spec c 44) as [->|Hc]; [exfalso; apply H; left; reflexivity|].
  rewrite IH by (intros Hi; apply H; right; exact Hi). reflexivity.
Qed.
