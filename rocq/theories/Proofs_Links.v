(** Proofs about the links of a text. *)
From Coq Require Import Lia Arith.
From Verif Require Import PyStr PyDict Model_Headers Model_Load PyHtml Model_Uri Spec_Uri Proofs_Uri Model_Links Spec_Html Proofs_Html Proofs_HtmlDoc Spec_Links.

Lemma read_all_app {A B} (f : A -> option B) a b : read_all f (a ++ b) = match read_all f a, read_all f b with Some x, Some y => Some (x ++ y) | _, _ => None end.
Proof.
  induction a as [|x a IH]; cbn [app read_all]; [destruct (read_all f b); reflexivity|]. rewrite IH. destruct (f x); [|reflexivity]. destruct (read_all f a); [|reflexivity]. destruct (read_all f b); reflexivity.
Qed.
Lemma read_all_none {A B} (f : A -> option B) x l : In x l -> f x = None -> read_all f l = None.
Proof. intros I H. induction l as [|y l IH]; [destruct I|]. cbn [read_all]. destruct I as [I|I]; [subst y; rewrite H; reflexivity|]. rewrite (IH I). destruct (f y); reflexivity. Qed.
Lemma read_all_Forall2 {A B} (f : A -> option B) l : forall l', read_all f l = Some l' -> Forall2 (fun x y => f x = Some y) l l'.
Proof.
  induction l as [|x l IH]; intros l' H; cbn [read_all] in H; [injection H as <-; constructor|]. destruct (f x) eqn:E; [|discriminate]. destruct (read_all f l); [|discriminate]. injection H as <-. constructor; auto.
Qed.

Section Links.
Variables (urlparse : str -> option (str * str)) (unquote unescape : str -> str).
Notation PL := (parse_link urlparse unquote).
Notation read_attr := (read_attr urlparse unescape).
Notation read_event := (read_event urlparse unescape).
Notation on_event := (on_event PL).
Notation run_events := (run_events PL).
Notation add_attr := (add_attr PL).
Notation addresses := (addresses unescape).
Notation leads := (leads unescape).
Notation link_at := (link_at unescape).
Notation in_link := (in_link unescape).
Notation linked := (linked unescape).
Notation links_of := (links_of urlparse unquote unescape).

Definition entry (links : dict (dict item)) (k u : str) : option item := match dget u links with Some e => dget k e | None => None end.
Definition texts_so_far (k u : str) (done : list ((str * str) * str)) : list str := map snd (filter (is_link k u) done).
(** The links are those of the tags read so far, with the texts so far. *)
Definition inv (tags : list (str * str)) (done : list ((str * str) * str)) (links : dict (dict item)) : Prop :=
  (forall k u, In (k, u) tags -> entry links k u = Some (with_text (texts_so_far k u done) (PL u))) /\
  (forall k u, ~ In (k, u) tags -> entry links k u = None) /\
  (forall u e, dget u links = Some e -> exists k, In (k, u) tags) /\
  Forall (fun x => In (fst x) tags) done.
Definition now (tags : list (str * str)) (o : option (str * str)) (st : pstate) : Prop :=
  match o with Some (k, u) => p_tag st = Some k /\ p_current st = Some u /\ k <> [] /\ In (k, u) tags | None => p_current st = None end.

Lemma pair_dec (x : str * str) (l : list (str * str)) : In x l \/ ~ In x l.
Proof.
  destruct (in_dec (fun a b : str * str => ltac:(decide equality; apply str_eq_dec)) x l); auto.
Qed.
Lemma texts_app_far k u a b : texts_so_far k u (a ++ b) = texts_so_far k u a ++ texts_so_far k u b.
Proof. unfold texts_so_far. rewrite filter_app, map_app. reflexivity. Qed.
Lemma texts_none k u done tags : Forall (fun x => In (fst x) tags) done -> ~ In (k, u) tags -> texts_so_far k u done = [].
Proof.
  intros F N. unfold texts_so_far. induction F as [|[[k' u'] t] l H F IH]; [reflexivity|]. cbn [filter]. unfold is_link at 1. cbn [fst snd] in *.
  destruct (streqb_spec k' k) as [->|]; [|exact IH]. destruct (streqb_spec u' u) as [->|]; [contradiction|exact IH].
Qed.
Lemma entry_set links k u i k' u' : entry (dset u (dset k i (match dget u links with Some e => e | None => [] end)) links) k' u' = if streqb u u' && streqb k k' then Some i else entry links k' u'.
Proof.
  unfold entry. rewrite dget_dset. destruct (streqb_spec u u') as [<-|]; [|reflexivity]. rewrite dget_dset. cbn [andb]. destruct (streqb_spec k k') as [<-|]; [reflexivity|]. destruct (dget u links); reflexivity.
Qed.

(** ** The order of the links *)
Definition grows (a b : dict (dict item)) : Prop := (exists ks, dkeys b = dkeys a ++ ks) /\ (NoDup (dkeys a) -> NoDup (dkeys b)).
Lemma grows_refl a : grows a a.
Proof. split; [exists []; rewrite app_nil_r; reflexivity|auto]. Qed.
Lemma grows_trans a b c : grows a b -> grows b c -> grows a c.
Proof. intros [[x X] N] [[y Y] M]. split; [exists (x ++ y); rewrite Y, X, app_assoc; reflexivity|auto]. Qed.
Lemma grows_set u e a : grows a (dset u e a).
Proof. split; [|apply dset_NoDup]. rewrite dkeys_dset. destruct (dhas u a); [exists []; rewrite app_nil_r; reflexivity|eexists; reflexivity]. Qed.
Lemma attrs_grow tag attrs : forall st, grows (p_links st) (p_links (fold_left (add_attr tag) attrs st)).
Proof.
  induction attrs as [|[h u] attrs IH]; intros st; [apply grows_refl|]. cbn [fold_left]. eapply grows_trans; [|apply IH]. unfold Model_Uri.add_attr. destruct (mem_str h _); [apply grows_set|apply grows_refl].
Qed.
(** A link tag *)
Lemma add_link tags done st k u h : In h holders -> k <> [] -> p_tag st = Some k -> inv tags done (p_links st) ->
  inv ((k, u) :: tags) done (p_links (add_attr k st (h, u))) /\ now ((k, u) :: tags) (Some (k, u)) (add_attr k st (h, u)).
Proof.
  intros H K T (I1 & I2 & I3 & I4). unfold Model_Uri.add_attr. assert (M : mem_str h [$"href"; $"src"] = true) by (apply mem_str_In; exact H). rewrite M. cbn [p_links p_tag p_current now]. cbv zeta.
  assert (TX : match dget k (match dget u (p_links st) with Some e => e | None => [] end) with Some i => match i_text i with Some t => t | None => [] end | None => [] end = texts_so_far k u done).
  { destruct (pair_dec (k, u) tags) as [J|J].
    - specialize (I1 k u J). unfold entry in I1. destruct (dget u (p_links st)); [|discriminate]. rewrite I1. reflexivity.
    - rewrite (texts_none k u done tags I4 J). specialize (I2 k u J). unfold entry in I2. destruct (dget u (p_links st)); [rewrite I2; reflexivity|reflexivity]. }
  rewrite TX. split.
  - split; [|split; [|split]].
    + intros k' u' J. rewrite entry_set. destruct (streqb_spec u u') as [<-|NU]; cbn [andb]; [destruct (streqb_spec k k') as [<-|NK]; [reflexivity|]|]; (destruct J as [J|J]; [congruence|apply I1, J]).
    + intros k' u' J. rewrite entry_set. destruct (streqb_spec u u') as [<-|NU]; cbn [andb]; [destruct (streqb_spec k k') as [<-|NK]; [exfalso; apply J; left; reflexivity|]|]; (apply I2; intros X; apply J; right; exact X).
    + intros u' e. rewrite dget_dset. destruct (streqb_spec u u') as [<-|_]; [exists k; left; reflexivity|]. intros G. destruct (I3 _ _ G) as [k' X]. exists k'. right. exact X.
    + eapply Forall_impl; [|exact I4]. intros x X. right. exact X.
  - split; [exact T|]. repeat split; auto. left. reflexivity.
Qed.
Lemma given_cons x a : given (x :: a) = (lower (fst x), value_of (snd x)) :: given a.
Proof. reflexivity. Qed.
Lemma inv_ext tags tags' done links : (forall l, In l tags <-> In l tags') -> inv tags done links -> inv tags' done links.
Proof.
  intros H (I1 & I2 & I3 & I4). split; [|split; [|split]].
  - intros k u J. apply I1, H, J.
  - intros k u J. apply I2. intros X. apply J, H, X.
  - intros u e D. destruct (I3 u e D) as [k K]. exists k. apply H, K.
  - eapply Forall_impl; [|exact I4]. intros x. apply H.
Qed.
Definition good_attrs (a : list (str * value)) : Prop :=
  forall h v, In (h, v) a -> In (lower h) holders -> exists q w, v = Quoted q w /\ urlparse (value_of_text unescape w) <> None.
Definition last_of {A} (l : list A) (d : option A) : option A := match rev l with x :: _ => Some x | [] => d end.
Lemma last_cons {A} (x : A) l d : last_of (x :: l) d = last_of l (Some x).
Proof. unfold last_of. cbn [rev]. destruct (rev l); reflexivity. Qed.
Lemma attrs_step k a : k <> [] -> good_attrs a -> exists l, read_all read_attr (given a) = Some l /\
  forall st tags done, p_tag st = Some k -> inv tags done (p_links st) ->
    p_tag (fold_left (add_attr k) l st) = Some k /\ inv (map (pair k) (addresses a) ++ tags) done (p_links (fold_left (add_attr k) l st)) /\
    p_current (fold_left (add_attr k) l st) = last_of (addresses a) (p_current st) /\
    (p_links st = [] -> match addresses a with u :: _ => exists ks, dkeys (p_links (fold_left (add_attr k) l st)) = u :: ks | [] => True end).
Proof.
  intros K. induction a as [|[n v] a IH]; intros G; [exists []; split; [reflexivity|]; intros st tags done T J; split; [exact T|]; split; [exact J|]; split; [reflexivity|intros _; exact I]|].
  destruct IH as (l & R & F); [intros h w J; apply G; right; exact J|]. rewrite given_cons. cbn [read_all fst snd]. unfold Model_Links.read_attr at 1. cbn [fst snd]. change [$"href"; $"src"] with holders. unfold Spec_Links.addresses. cbn [flat_map fst snd]. fold (addresses a).
  destruct (mem_str (lower n) holders) eqn:M.
  - assert (MI := proj1 (mem_str_In _ _) M). destruct (G n v (or_introl eq_refl) MI) as (q & w & -> & U). cbn [value_of]. change (plain unescape w) with (value_of_text unescape w). destruct (urlparse (value_of_text unescape w)) eqn:UP; [|congruence]. rewrite R.
    eexists. split; [reflexivity|]. intros st tags done T I. cbn [fold_left app map]. set (u := value_of_text unescape w) in *.
    destruct (add_link tags done st k u (lower n) MI K T I) as [I1 N1]. cbn [now] in N1. destruct N1 as (T1 & C1 & _).
    destruct (F _ _ _ T1 I1) as (T2 & I2 & C2 & D2). split; [exact T2|]. split; [|split].
    + eapply inv_ext; [|exact I2]. intros x. rewrite in_app_iff. cbn [In]. rewrite in_app_iff. tauto.
    + rewrite C2, C1, last_cons. reflexivity.
    + intros E. assert (K1 : dkeys (p_links (add_attr k st (lower n, u))) = [u]). { unfold Model_Uri.add_attr. change [$"href"; $"src"] with holders. rewrite M. cbn [p_links]. rewrite E. reflexivity. }
      destruct (attrs_grow k l (add_attr k st (lower n, u))) as [[ks KS] _]. exists ks. rewrite KS, K1. reflexivity.
  - rewrite R. eexists. split; [reflexivity|]. intros st tags done T I. cbn [fold_left].
    assert (E : add_attr k st (lower n, []) = st). { unfold Model_Uri.add_attr. change [$"href"; $"src"] with holders. rewrite M. reflexivity. }
    rewrite E. destruct v; exact (F st tags done T I).
Qed.

(** A text *)
Definition own (o : option (str * str)) (ts : list str) : list ((str * str) * str) := match o with Some (_, []) | None => [] | Some l => map (pair l) ts end.
Lemma data_step tags done st o t : inv tags done (p_links st) -> now tags o st ->
  exists st', run_events (match t with [] => [] | _ => [Data t] end) st = Some st' /\
    inv tags (done ++ own o (some_text t)) (p_links st') /\ now tags o st'.
Proof.
  intros I N. destruct t as [|c t]; [exists st; split; [reflexivity|]; split; [destruct o as [[? [|? ?]]|]; rewrite app_nil_r; exact I|exact N]|].
  cbn [Model_Uri.run_events some_text map]. destruct o as [[k u]|]; cbn [now] in N.
  - destruct N as (T & C & K & J). cbn [Model_Uri.on_event]. rewrite T, C. destruct k as [|kc k]; [congruence|]. destruct u as [|uc u]; [exists st; split; [reflexivity|]; cbn [own]; rewrite app_nil_r; split; [exact I|repeat split; auto]|]. cbn [own map]. cbv zeta. set (k' := kc :: k) in *. set (u' := uc :: u) in *.
    destruct I as (I1 & I2 & I3 & I4). assert (E := I1 k' u' J). unfold entry in E. destruct (dget u' (p_links st)) as [e|] eqn:D; [|discriminate]. rewrite E. cbn [with_text i_text].
    eexists. split; [reflexivity|]. cbn [p_links p_tag p_current now]. split; [|rewrite ?T, ?C; repeat split; auto; discriminate].
    assert (ES := fun i => entry_set (p_links st) k' u' i). rewrite D in ES. cbv beta iota in ES.
    split; [|split; [|split]].
    + intros k0 u0 J0. rewrite ES, texts_app_far, (I1 k0 u0 J0).
      assert (ONE : texts_so_far k0 u0 [(k', u', c :: t)] = if streqb u' u0 && streqb k' k0 then [c :: t] else []). { unfold texts_so_far. cbn [filter]. unfold is_link. cbn [fst snd]. rewrite andb_comm. destruct (streqb u' u0 && streqb k' k0); reflexivity. }
      rewrite ONE. destruct (streqb_spec u' u0) as [<-|]; [|cbn [andb]; rewrite app_nil_r; reflexivity]. destruct (streqb_spec k' k0) as [<-|]; [reflexivity|cbn [andb]; rewrite app_nil_r; reflexivity].
    + intros k0 u0 J0. rewrite ES. destruct (streqb_spec u' u0) as [<-|]; [|apply I2, J0]. destruct (streqb_spec k' k0) as [<-|]; [contradiction|apply I2, J0].
    + intros u0 e0. rewrite dget_dset. destruct (streqb_spec u' u0) as [<-|]; [intros _; exists k'; exact J|apply I3].
    + apply Forall_app. split; [exact I4|]. constructor; [exact J|constructor].
  - exists st. cbn [Model_Uri.on_event]. rewrite N. destruct (p_tag st) as [[|? ?]|]; (split; [reflexivity|]; split; [rewrite app_nil_r; exact I|exact N]).
Qed.
Definition data_events (t : str) : list html_event := match t with [] => [] | _ => [Data t] end.
Lemma read_data t : read_all read_event (some_data t) = Some (data_events t).
Proof. destruct t; reflexivity. Qed.
Notation seen_in := leads.
(** Link tags can be read where they stand. *)
Definition fine (before : list markup) (m : markup) : Prop := ~ broken_link unescape urlparse m /\ ~ stray unescape before m.
Lemma fine_attrs before n a c : fine before (Tag n a c) -> In (lower n) kinds -> good_attrs a.
Proof.
  intros [F _] K h v I H. destruct v as [|q w].
  - exfalso. apply F. exists n, a, c, h, NoValue. auto.
  - exists q, w. split; [reflexivity|]. intros U. apply F. exists n, a, c, h, (Quoted q w). auto.
Qed.
Lemma kinds_not_nil k : In k kinds -> k <> [].
Proof. intros [K|[K|[]]]; subst k; discriminate. Qed.
Lemma end_step tags done st tag : inv tags done (p_links st) -> exists st', on_event st (Model_Uri.EndTag tag) = Some st' /\ inv tags done (p_links st') /\ now tags None st'.
Proof. intros I. eexists. split; [reflexivity|]. split; [exact I|reflexivity]. Qed.
Lemma start_step tags done st before n a c : fine before (Tag n a c) -> inv tags done (p_links st) -> now tags (link_at before) st ->
  exists e st', read_event (OnStart (lower n) (given a)) = Some e /\ on_event st e = Some st' /\ inv (leads (Tag n a c) ++ tags) done (p_links st') /\
    now (leads (Tag n a c) ++ tags) (last_of (leads (Tag n a c)) (link_at before)) st'.
Proof.
  intros F I N. cbn [Model_Links.read_event]. change [$"a"; $"link"] with kinds. assert (LD : leads (Tag n a c) = if mem_str (lower n) kinds then map (pair (lower n)) (addresses a) else []) by reflexivity. destruct (mem_str (lower n) kinds) eqn:M.
  - apply mem_str_In in M. assert (KN := kinds_not_nil _ M). destruct (attrs_step (lower n) a KN (fine_attrs _ _ _ _ F M)) as (l & R & FL). rewrite R. cbn [option_map].
    do 2 eexists. split; [reflexivity|]. cbn [Model_Uri.on_event]. change [$"a"; $"link"] with kinds. assert (M' := proj2 (mem_str_In _ _) M). rewrite M'. split; [reflexivity|].
    destruct (FL (mkP (p_links st) (Some (lower n)) (p_current st)) tags done eq_refl I) as (T & I' & C & _). rewrite LD. split; [exact I'|].
    cbn [p_current] in C. unfold last_of in *. rewrite <- map_rev. destruct (rev (addresses a)) as [|u us] eqn:RA; cbn [map].
    + assert (A : addresses a = []) by (rewrite <- (rev_involutive (addresses a)), RA; reflexivity). rewrite A. cbn [map app]. destruct (link_at before) as [[k u]|] eqn:LA; cbn [now] in N |- *.
      * destruct N as (T0 & C0 & K0 & J0). assert (E : k = lower n). { destruct (str_eq_dec k (lower n)) as [E|E]; [exact E|]. exfalso. apply (proj2 F). exists n, a, c, k, u. rewrite LD, A. auto. }
        subst k. split; [exact T|]. split; [rewrite C; exact C0|]. split; [exact K0|exact J0].
      * rewrite C. exact N.
    + cbn [now]. split; [exact T|]. split; [exact C|]. split; [exact KN|]. apply in_or_app. left. apply in_map, in_rev. rewrite RA. left. reflexivity.
  - do 2 eexists. split; [reflexivity|]. cbn [Model_Uri.on_event]. change [$"a"; $"link"] with kinds. rewrite M, LD. split; [reflexivity|]. split; [exact I|exact N].
Qed.
Lemma programs_no_kind n : In (lower n) programs -> mem_str (lower n) kinds = false.
Proof. intros [H|[H|[]]]; rewrite <- H; reflexivity. Qed.
Lemma part_run tags done st before p : proper_part p -> fine before (snd p) -> inv tags done (p_links st) -> now tags (link_at before) st ->
  exists evs st', read_all read_event (part_events p) = Some evs /\ run_events evs st = Some st' /\
    inv (seen_in (snd p) ++ tags) (done ++ in_link before (some_text (fst p) ++ code_of (snd p))) (p_links st') /\ now (seen_in (snd p) ++ tags) (link_at (snd p :: before)) st'.
Proof.
  destruct p as [t m]. intros [_ P] F I N. cbn [fst snd] in *. unfold part_events. cbn [fst snd]. rewrite read_all_app, read_data.
  destruct (data_step tags done st (link_at before) t I N) as (st1 & R1 & I1 & N1).
  assert (IL : forall c, in_link before (some_text t ++ c) = own (link_at before) (some_text t) ++ own (link_at before) c).
  { intros c. unfold Spec_Links.in_link, own. destruct (link_at before) as [[k [|u0 u]]|]; [reflexivity|apply map_app|reflexivity]. }
  assert (O0 : own (link_at before) [] = []) by (unfold own; destruct (link_at before) as [[k [|u0 u]]|]; reflexivity).
  assert (SKIP : seen_in m = [] -> code_of m = [] -> markup_events m = [] -> link_at (m :: before) = link_at before ->
    exists evs st', match read_all read_event (markup_events m) with Some y => Some (data_events t ++ y) | None => None end = Some evs /\ run_events evs st = Some st' /\
      inv (seen_in m ++ tags) (done ++ in_link before (some_text t ++ code_of m)) (p_links st') /\ now (seen_in m ++ tags) (link_at (m :: before)) st').
  { intros E1 E2 E3 E4. rewrite E1, E2, E3, E4, IL, O0. cbn [read_all app]. rewrite !app_nil_r. exists (data_events t), st1. split; [reflexivity|]. split; [exact R1|]. split; [exact I1|exact N1]. }
  destruct m as [n a c|n|c|n|d|x d|n a code last]; try (apply SKIP; reflexivity); clear SKIP.
  - destruct (start_step tags _ st1 before n a c F I1 N1) as (e & st2 & RE & OE & I2 & N2). cbn [markup_events read_all]. rewrite RE.
    assert (ID : done ++ in_link before (some_text t ++ code_of (Tag n a c)) = done ++ own (link_at before) (some_text t)). { cbn [code_of]. rewrite IL, O0, app_nil_r. reflexivity. }
    rewrite ID. cbn [Spec_Links.link_at ends]. destruct (streqb c ($">")) eqn:C; cbn [negb read_all].
    + exists (data_events t ++ [e]), st2. split; [reflexivity|]. split; [|split; [exact I2|exact N2]]. rewrite run_app. fold (data_events t) in R1. rewrite R1. cbn [Model_Uri.run_events]. rewrite OE. reflexivity.
    + destruct (end_step _ _ st2 (lower n) I2) as (st3 & OE3 & I3 & N3). exists (data_events t ++ [e; Model_Uri.EndTag (lower n)]), st3. split; [reflexivity|]. split; [|split; [exact I3|exact N3]].
      rewrite run_app. fold (data_events t) in R1. rewrite R1. cbn [Model_Uri.run_events]. rewrite OE. cbn [Model_Uri.on_event] in OE3 |- *. exact OE3.
  - destruct (end_step _ _ st1 (lower n) I1) as (st2 & OE & I2 & N2). exists (data_events t ++ [Model_Uri.EndTag (lower n)]), st2. cbn [markup_events read_all Model_Links.read_event]. split; [reflexivity|]. split.
    { rewrite run_app. fold (data_events t) in R1. rewrite R1. exact OE. }
    cbn [Spec_Links.leads app code_of Spec_Links.link_at ends]. rewrite IL, O0, app_nil_r. split; [exact I2|exact N2].
  - destruct P as (_ & PN & _). cbn [markup_events]. cbn [read_all Model_Links.read_event]. change [$"a"; $"link"] with kinds. rewrite (programs_no_kind n PN), read_all_app, read_data. cbn [read_all Model_Links.read_event].
    destruct (data_step tags _ st1 (link_at before) code I1 N1) as (st2 & R2 & I2 & N2). destruct (end_step _ _ st2 (lower n) I2) as (st3 & OE & I3 & N3).
    exists (data_events t ++ StartTag (lower n) [] :: data_events code ++ [Model_Uri.EndTag (lower n)]), st3. split; [reflexivity|]. split.
    { rewrite run_app. fold (data_events t) in R1. rewrite R1. cbn [Model_Uri.run_events Model_Uri.on_event]. change [$"a"; $"link"] with kinds. rewrite (programs_no_kind n PN), run_app. fold (data_events code) in R2. rewrite R2. exact OE. }
    cbn [Spec_Links.leads app code_of Spec_Links.link_at ends]. rewrite IL, app_assoc. split; [exact I3|exact N3].
Qed.
Definition seen_all (parts : list (str * markup)) : list (str * str) := flat_map (fun p => seen_in (snd p)) parts.
Lemma parts_run parts : forall tags done st before last, Forall proper_part parts -> (forall x p y, parts = x ++ p :: y -> fine (rev (map snd x) ++ before) (snd p)) -> inv tags done (p_links st) -> now tags (link_at before) st ->
  exists evs st' tags', read_all read_event (flat_map part_events parts ++ some_data last) = Some evs /\ run_events evs st = Some st' /\
    inv tags' (done ++ linked before parts last) (p_links st') /\ (forall l, In l tags' <-> In l tags \/ In l (seen_all parts)).
Proof.
  induction parts as [|p parts IH]; intros tags done st before last P F I N.
  - cbn [flat_map app Spec_Links.linked]. destruct (data_step tags done st (link_at before) last I N) as (st1 & R1 & I1 & N1). exists (data_events last), st1, tags.
    split; [apply read_data|]. split; [exact R1|]. split; [exact I1|]. intros l. cbn. tauto.
  - inversion P as [|? ? P1 P2]; subst. assert (F1 : fine before (snd p)) by exact (F [] p parts eq_refl). assert (F2 : forall x q y, parts = x ++ q :: y -> fine (rev (map snd x) ++ snd p :: before) (snd q)). { intros x q y E. assert (X := F (p :: x) q y). rewrite E in X. specialize (X eq_refl). cbn [map rev] in X. rewrite <- app_assoc in X. exact X. }
    destruct (part_run tags done st before p P1 F1 I N) as (ev1 & st1 & R1 & S1 & I1 & N1).
    destruct (IH _ _ st1 (snd p :: before) last P2 F2 I1 N1) as (ev2 & st2 & tags' & R2 & S2 & I2 & T2). exists (ev1 ++ ev2), st2, tags'. split.
    { cbn [flat_map]. rewrite <- app_assoc, read_all_app, R1, R2. reflexivity. }
    split; [rewrite run_app, S1; exact S2|]. split.
    { destruct p as [t m]. cbn [Spec_Links.linked fst snd] in *. rewrite <- app_assoc in I2. exact I2. }
    intros l. rewrite T2. cbn [seen_all flat_map]. rewrite !in_app_iff. fold (seen_all parts). tauto.
Qed.
Lemma seen_has k u d : In (k, u) (seen_all (fst d)) <-> has_link unescape k u d.
Proof. unfold seen_all, has_link. rewrite in_flat_map. reflexivity. Qed.
Lemma page_fine d : a_page unescape urlparse d -> forall x p y, fst d = x ++ p :: y -> fine (rev (map snd x) ++ []) (snd p).
Proof. intros [_ H] x p y E. rewrite app_nil_r. exact (H x p y E). Qed.
Theorem page_links d : a_page unescape urlparse d -> exists links, links_of (written d) = Some links /\
  forall k u, (has_link unescape k u d -> entry links k u = Some (with_text (texts_in unescape k u d) (PL u))) /\ (~ has_link unescape k u d -> entry links k u = None) /\
    (dget u links <> None -> exists k, has_link unescape k u d).
Proof.
  intros P. destruct (parts_run (fst d) [] [] (mkP [] None None) [] (snd d)) as (evs & st & tags & R & S & (I1 & I2 & I3 & _) & T).
  - exact (proj1 (proj1 P)).
  - apply page_fine, P.
  - repeat split; intros; try contradiction; try discriminate; constructor.
  - reflexivity.
  - exists (p_links st). unfold Model_Links.links_of. rewrite (document_events d (proj1 P)), R. unfold collect. rewrite S. split; [reflexivity|]. intros k u.
    assert (TT : forall k u, In (k, u) tags <-> has_link unescape k u d). { intros k0 u0. rewrite T, seen_has. cbn. tauto. }
    split; [|split].
    + intros H. apply TT in H. exact (I1 k u H).
    + intros H. apply I2. rewrite TT. exact H.
    + intros H. destruct (dget u (p_links st)) as [e|] eqn:E; [|congruence]. destruct (I3 _ _ E) as [k' K]. exists k'. apply TT, K.
Qed.

(** ** Any text *)
Inductive sublist {A} : list A -> list A -> Prop :=
| sub_nil l : sublist [] l
| sub_skip x a b : sublist a b -> sublist a (x :: b)
| sub_take x a b : sublist a b -> sublist (x :: a) (x :: b).
Lemma sublist_snoc {A} (a b : list A) x : sublist a b -> sublist (a ++ [x]) (b ++ [x]).
Proof.
  intros H. induction H as [l|y a b H IH|y a b H IH]; cbn [app]; [|apply sub_skip, IH|apply sub_take, IH]. induction l as [|y l IH]; cbn [app]; [apply sub_take, sub_nil|apply sub_skip, IH].
Qed.
Lemma sublist_more {A} (a b c : list A) : sublist a b -> sublist a (b ++ c).
Proof. intros H. induction H; cbn [app]; constructor; assumption. Qed.
Lemma in_order_sub a b : sublist a b -> forall s, in_order b s -> in_order a s.
Proof.
  intros H. induction H as [l|x a b H IH|x a b H IH]; intros s O; [constructor| |].
  - inversion O as [|y c l r O']; subst. rewrite app_assoc. apply in_order_after. exact (IH _ O').
  - inversion O as [|y c l r O']; subst. constructor. exact (IH _ O').
Qed.
Definition data_of (e : html_event) : list str := match e with Data t => [t] | _ => [] end.
Definition okay (raw : str) (done : list str) (links : dict (dict item)) : Prop :=
  forall u e k i, dget u links = Some e -> dget k e = Some i ->
    In k kinds /\ i_raw i = u /\ (exists scheme domain, urlparse u = Some (scheme, domain) /\ i_scheme i = scheme /\ i_domain i = domain) /\ i_cleaned i = unquote u /\
    (exists v x y, raw = x ++ v ++ y /\ (u = plain unescape v)) /\ exists ts, i_text i = Some ts /\ sublist ts done.
Definition good_event (raw : str) (e : html_event) : Prop :=
  match e with StartTag tag attrs => In tag kinds -> forall h u, In (h, u) attrs -> In h holders -> urlparse u <> None /\ exists v x y, raw = x ++ v ++ y /\ u = plain unescape v | _ => True end.
Lemma attrs_okay raw done tag attrs : In tag kinds -> (forall h u, In (h, u) attrs -> In h holders -> urlparse u <> None /\ exists v x y, raw = x ++ v ++ y /\ u = plain unescape v) ->
  forall st, okay raw done (p_links st) -> okay raw done (p_links (fold_left (add_attr tag) attrs st)).
Proof.
  intros K. induction attrs as [|[h u] attrs IH]; intros H st O; [exact O|]. cbn [fold_left]. apply IH; [intros h' u' I; apply H; right; exact I|].
  unfold Model_Uri.add_attr. change [$"href"; $"src"] with holders. destruct (mem_str h holders) eqn:M; [|exact O]. apply mem_str_In in M. destruct (H h u (or_introl eq_refl) M) as [U V]. cbn [p_links]. cbv zeta.
  intros u' e k i D E. rewrite dget_dset in D. destruct (streqb_spec u u') as [<-|]; [|exact (O u' e k i D E)]. injection D as <-. rewrite dget_dset in E. destruct (streqb_spec tag k) as [<-|].
  - injection E as <-. split; [exact K|]. unfold parse_link. destruct (urlparse u) as [[scheme domain]|] eqn:UP; [|congruence]. cbn [with_text i_raw i_scheme i_cleaned i_domain i_text].
    split; [reflexivity|]. split; [exists scheme, domain; auto|]. split; [reflexivity|]. split; [exact V|]. eexists. split; [reflexivity|].
    destruct (dget u (p_links st)) as [e0|] eqn:D0; [|constructor]. destruct (dget tag e0) as [i0|] eqn:E0; [|constructor]. destruct (O u e0 tag i0 D0 E0) as (_ & _ & _ & _ & _ & ts & T & S). rewrite T. exact S.
  - destruct (dget u (p_links st)) as [e0|] eqn:D0; [exact (O u e0 k i D0 E)|discriminate].
Qed.
Lemma event_okay raw done e st st' : good_event raw e -> okay raw done (p_links st) -> on_event st e = Some st' -> okay raw (done ++ data_of e) (p_links st').
Proof.
  intros G O H. destruct e as [tag attrs|tag|t]; cbn [Model_Uri.on_event data_of] in H |- *; rewrite ?app_nil_r.
  - change [$"a"; $"link"] with kinds in H. destruct (mem_str tag kinds) eqn:M; injection H as <-; [|exact O]. apply mem_str_In in M. apply attrs_okay; [exact M|exact (G M)|exact O].
  - injection H as <-. exact O.
  - assert (W : okay raw (done ++ [t]) (p_links st)). { intros u e k i D E. destruct (O u e k i D E) as (A & B & C & C' & D' & ts & T & S). repeat (split; [assumption|]). exists ts. split; [exact T|apply sublist_more, S]. }
    destruct t as [|c t]; [injection H as <-; exact W|]. destruct (p_tag st) as [[|k0 k]|]; try (injection H as <-; exact W). destruct (p_current st) as [[|u0 u]|]; try (injection H as <-; exact W).
    cbv zeta in H. destruct (dget (u0 :: u) (p_links st)) as [e|] eqn:D; [|discriminate]. destruct (dget (k0 :: k) e) as [i|] eqn:E; [|discriminate]. injection H as <-. cbn [p_links].
    intros u' e' k' i' D' E'. rewrite dget_dset in D'. destruct (streqb_spec (u0 :: u) u') as [EU|]; [|exact (W _ _ _ _ D' E')]. subst u'. injection D' as <-. rewrite dget_dset in E'. destruct (streqb_spec (k0 :: k) k') as [EK|]; [|exact (W _ _ _ _ D E')].
    subst k'. injection E' as <-. cbn [with_text i_raw i_scheme i_cleaned i_domain i_text]. destruct (O _ _ _ _ D E) as (A & B & C & C' & D'' & ts & T & S). repeat (split; [assumption|]). rewrite T. eexists. split; [reflexivity|]. apply sublist_snoc, S.
Qed.
Lemma events_okay raw evs : forall done st st', Forall (good_event raw) evs -> okay raw done (p_links st) -> run_events evs st = Some st' -> okay raw (done ++ flat_map data_of evs) (p_links st').
Proof.
  induction evs as [|e evs IH]; intros done st st' G O H; cbn [Model_Uri.run_events] in H; [injection H as <-; cbn [flat_map]; rewrite app_nil_r; exact O|].
  inversion G; subst. destruct (on_event st e) as [st1|] eqn:E; [|discriminate]. cbn [flat_map]. rewrite app_assoc. eapply IH; eauto. eapply event_okay; eauto.
Qed.
Lemma read_good raw e e' : placed raw e -> read_event e = Some e' -> good_event raw e' /\ data_of e' = texts [e].
Proof.
  destruct e as [tag attrs|tag|t]; cbn [Model_Links.read_event placed]; intros P H; [|injection H as <-; split; [exact I|reflexivity]..].
  change [$"a"; $"link"] with kinds in H. destruct (mem_str tag kinds) eqn:M.
  - destruct (read_all read_attr attrs) as [l|] eqn:R; [|discriminate]. injection H as <-. split; [|reflexivity]. intros _ h u I J. apply read_all_Forall2 in R.
    induction R as [|[n v] y attrs l RA R IH]; [destruct I|]. destruct I as [I|I]; [|apply IH; [intros n' v' X; exact (P n' v' (or_intror X))|exact I]]. subst y.
    unfold Model_Links.read_attr in RA. cbn [fst snd] in RA. change [$"href"; $"src"] with holders in RA. destruct (mem_str n holders) eqn:MN.
    + destruct v as [v|]; [|discriminate]. destruct (urlparse (plain unescape v)) eqn:U; [|discriminate]. injection RA as <- <-. split; [congruence|]. destruct (P n v (or_introl eq_refl)) as (x & y & E). exists v, x, y. auto.
    + injection RA as <- <-. apply mem_str_In in J. congruence.
  - injection H as <-. split; [|reflexivity]. intros K. apply mem_str_In in K. congruence.
Qed.
Lemma read_good_all raw l : forall l', Forall (placed raw) l -> read_all read_event l = Some l' -> Forall (good_event raw) l' /\ flat_map data_of l' = texts l.
Proof.
  induction l as [|e l IH]; intros l' P R; cbn [read_all] in R; [injection R as <-; split; [constructor|reflexivity]|].
  inversion P; subst. destruct (read_event e) as [e'|] eqn:E; [|discriminate]. destruct (read_all read_event l) as [l0|]; [|discriminate]. injection R as <-. destruct (IH l0) as [A B]; auto. destruct (read_good raw e e') as [C D]; auto.
  split; [constructor; assumption|]. cbn [flat_map]. rewrite D, B. change (e :: l) with ([e] ++ l). rewrite texts_app. reflexivity.
Qed.
Theorem links_placed raw links : links_of raw = Some links -> exists done, in_order done raw /\ okay raw done links.
Proof.
  unfold Model_Links.links_of. intros H. assert (P := events_placed raw). assert (F := feed_good raw). unfold html_feed in F. destruct (html_events raw) as [evs raised]. cbn [fst] in P. destruct raised; [discriminate|].
  destruct (read_all read_event evs) as [l|] eqn:R; [|discriminate]. destruct (read_good_all raw evs l P R) as [G D]. unfold collect in H. destruct (run_events l (mkP [] None None)) as [st|] eqn:E; [|discriminate]. injection H as <-.
  exists (texts evs). split; [exact (proj1 F)|]. rewrite <- D. apply (events_okay raw l [] (mkP [] None None) st G); [|exact E]. intros u e k i X. discriminate.
Qed.

(** ** Texts without links *)
Lemma broken_part p : broken_link unescape urlparse (snd p) -> read_all read_event (part_events p) = None.
Proof.
  intros (n & a & c & h & v & E & K & I & H & V). unfold part_events. rewrite E. rewrite read_all_app, read_data. cbn [markup_events read_all].
  assert (R : read_event (OnStart (lower n) (given a)) = None); [|rewrite R; reflexivity]. cbn [Model_Links.read_event]. change [$"a"; $"link"] with kinds. apply mem_str_In in K. rewrite K.
  rewrite (read_all_none read_attr (lower h, value_of v)); [reflexivity| |].
  - apply (in_map (fun x => (lower (fst x), value_of (snd x)))) in I. exact I.
  - unfold Model_Links.read_attr. cbn [fst snd]. change [$"href"; $"src"] with holders. apply mem_str_In in H. rewrite H. destruct v as [|q v]; [reflexivity|]. cbn [value_of]. change (plain unescape v) with (value_of_text unescape v). rewrite V. reflexivity.
Qed.
Theorem broken_links d p : proper d -> In p (fst d) -> broken_link unescape urlparse (snd p) -> links_of (written d) = None.
Proof.
  intros P I B. unfold Model_Links.links_of. rewrite (document_events d P), read_all_app. assert (E : read_all read_event (flat_map part_events (fst d)) = None); [|rewrite E; reflexivity].
  clear P. induction (fst d) as [|q l IH]; [destruct I|]. cbn [flat_map]. rewrite read_all_app. destruct I as [I|I]; [subst q; rewrite (broken_part p B); reflexivity|]. rewrite (IH I). destruct (read_all read_event (part_events q)); reflexivity.
Qed.
Theorem section_links l t x : Forall proper_part l -> plain_text t -> bad_section x -> links_of (flat_map written_part l ++ t ++ x) = None.
Proof. intros A B C. unfold Model_Links.links_of. rewrite (section_events l t x A B C). reflexivity. Qed.

Theorem unfinished_links l t x : Forall proper_part l -> plain_text t -> unfinished x -> links_of (flat_map written_part l ++ t ++ x) = links_of (written (l, t)).
Proof.
  intros A B C. unfold Model_Links.links_of. rewrite (document_events (l, t) (conj A B)). cbn [fst snd]. destruct (unfinished_events l t x A B C) as (ev & E & K). rewrite E, app_assoc, read_all_app.
  assert (R : exists e, read_all read_event ev = Some e /\ forall st, run_events e st = Some st).
  { destruct K as [K|(n & a & N & K)]; subst ev; [exists []; split; reflexivity|]. exists [StartTag n []]. assert (M : mem_str n kinds = false) by (destruct N as [N|[N|[]]]; subst n; reflexivity). split; [|intros st]; cbn [read_all Model_Links.read_event Model_Uri.run_events Model_Uri.on_event]; change [$"a"; $"link"] with kinds; rewrite M; reflexivity. }
  destruct R as (e & R & S). rewrite R. destruct (read_all read_event (flat_map part_events l ++ some_data t)) as [evs|]; [|reflexivity]. unfold collect. rewrite run_app. destruct (run_events evs (mkP [] None None)) as [st|]; [rewrite S; reflexivity|reflexivity].
Qed.

(** ** The other addresses of the message *)
Lemma fold_uris uris : forall links u, dget u (fold_left (fun links u => if dhas u links then links else dset u (parsed_entry PL u) links) uris links) =
  match dget u links with Some e => Some e | None => if mem_str u uris then Some [($"parsed", PL u)] else None end.
Proof.
  induction uris as [|v uris IH]; intros links u; cbn [fold_left].
  - change (mem_str u []) with false. destruct (dget u links); reflexivity.
  - rewrite IH. assert (E : mem_str u (v :: uris) = streqb u v || mem_str u uris) by reflexivity. rewrite E. unfold dhas. destruct (dget v links) as [e|] eqn:D.
    + clear E. destruct (streqb_spec u v) as [E|_]; [rewrite E, D; reflexivity|reflexivity].
    + clear E. rewrite dget_dset. destruct (streqb_spec v u) as [E|NE].
      * rewrite <- E, D. destruct (streqb_spec v v); [reflexivity|congruence].
      * destruct (streqb_spec u v) as [E2|_]; [congruence|]. reflexivity.
Qed.
Lemma metadata_spec raw uris links0 : links_of raw = Some links0 ->
  match parsed_metadata urlparse unquote unescape raw uris with
  | Some links => forall u, dget u links = match dget u links0 with Some e => Some e | None => if mem_str u uris then Some [($"parsed", PL u)] else None end
  | None => exists u, In u uris /\ dget u links0 = None /\ urlparse u = None
  end.
Proof.
  intros L. unfold parsed_metadata. rewrite L. destruct (forallb _ uris) eqn:F; [intros u; apply fold_uris|].
  assert (X : exists u, In u uris /\ dhas u links0 || match urlparse u with Some _ => true | None => false end = false).
  { clear L. induction uris as [|v uris IH]; [discriminate|]. cbn [forallb] in F. destruct (dhas v links0 || _) eqn:E; [|exists v; split; [left; reflexivity|exact E]]. destruct (IH F) as (u & I & U). exists u. split; [right; exact I|exact U]. }
  destruct X as (u & I & U). exists u. apply orb_false_iff in U as [U1 U2]. split; [exact I|]. unfold dhas in U1. destruct (dget u links0); [discriminate|]. destruct (urlparse u); [discriminate|]. auto.
Qed.
Lemma metadata_parses raw uris links0 links : links_of raw = Some links0 -> parsed_metadata urlparse unquote unescape raw uris = Some links -> forall u, In u uris -> dget u links0 = None -> urlparse u <> None.
Proof.
  intros L. unfold parsed_metadata. rewrite L. destruct (forallb _ uris) eqn:F; [|discriminate]. intros _ u I D U. rewrite forallb_forall in F. specialize (F u I). unfold dhas in F. rewrite D, U in F. discriminate.
Qed.
Lemma metadata_none raw uris : links_of raw = None -> parsed_metadata urlparse unquote unescape raw uris = None.
Proof. intros L. unfold parsed_metadata. rewrite L. reflexivity. Qed.

Lemma event_grows e st st' : on_event st e = Some st' -> grows (p_links st) (p_links st').
Proof.
  intros H. destruct e as [tag attrs|tag|t]; cbn [Model_Uri.on_event] in H.
  - destruct (mem_str tag _); injection H as <-; [apply (attrs_grow tag attrs (mkP (p_links st) (Some tag) (p_current st)))|apply grows_refl].
  - injection H as <-. apply grows_refl.
  - destruct t as [|c t]; [injection H as <-; apply grows_refl|]. destruct (p_tag st) as [[|k0 k]|]; try (injection H as <-; apply grows_refl). destruct (p_current st) as [[|u0 u]|]; try (injection H as <-; apply grows_refl).
    cbv zeta in H. destruct (dget (u0 :: u) (p_links st)) as [e|]; [|discriminate]. destruct (dget (k0 :: k) e); [|discriminate]. injection H as <-. apply grows_set.
Qed.
Lemma run_grows evs : forall st st', run_events evs st = Some st' -> grows (p_links st) (p_links st').
Proof.
  induction evs as [|e evs IH]; intros st st' H; cbn [Model_Uri.run_events] in H; [injection H as <-; apply grows_refl|]. destruct (on_event st e) as [st1|] eqn:E; [|discriminate]. eapply grows_trans; [exact (event_grows _ _ _ E)|exact (IH _ _ H)].
Qed.
Lemma fold_grows uris : forall links, grows links (fold_left (fun links u => if dhas u links then links else dset u (parsed_entry PL u) links) uris links).
Proof. induction uris as [|v uris IH]; intros links; [apply grows_refl|]. cbn [fold_left]. eapply grows_trans; [|apply IH]. destruct (dhas v links); [apply grows_refl|apply grows_set]. Qed.
Lemma links_nodup raw links : links_of raw = Some links -> NoDup (dkeys links).
Proof.
  unfold Model_Links.links_of. destruct (html_events raw) as [evs [|]]; [discriminate|]. destruct (read_all read_event evs) as [l|]; [|discriminate]. unfold collect. destruct (run_events l (mkP [] None None)) as [st|] eqn:E; [|discriminate]. intros [= <-].
  apply (run_grows _ _ _ E). constructor.
Qed.
Lemma metadata_grows raw uris links0 links : links_of raw = Some links0 -> parsed_metadata urlparse unquote unescape raw uris = Some links -> grows links0 links.
Proof. intros L H. unfold parsed_metadata in H. rewrite L in H. destruct (forallb _ uris); [|discriminate]. injection H as <-. apply fold_grows. Qed.
Lemma none_nil {V} (d : dict V) : (forall u, dget u d = None) -> d = [].
Proof. destruct d as [|[k v] d]; [reflexivity|]. intros H. specialize (H k). cbn [dget] in H. destruct (streqb_spec k k); [discriminate|congruence]. Qed.
(** The first link tag gives the first link. *)
Theorem first_link d l1 p l2 k u more links : a_page unescape urlparse d -> fst d = l1 ++ p :: l2 -> (forall q, In q l1 -> leads (snd q) = []) -> leads (snd p) = (k, u) :: more ->
  links_of (written d) = Some links -> exists ks, dkeys links = u :: ks.
Proof.
  intros P E N1 L H. assert (FP := proj1 (proj1 P)). assert (FF := page_fine d P). unfold Model_Links.links_of in H. rewrite (document_events d (proj1 P)), E in H. rewrite E in FP. apply Forall_app in FP as [FP1 FP2].
  assert (FF1 : forall x q y, l1 = x ++ q :: y -> fine (rev (map snd x) ++ []) (snd q)). { intros x q y X. apply (FF x q (y ++ p :: l2)). rewrite E, X, <- app_assoc. reflexivity. }
  assert (FFp := FF l1 p l2 E). destruct (parts_run l1 [] [] (mkP [] None None) [] [] FP1 FF1) as (ev1 & st1 & tags1 & R1 & S1 & I1 & T1).
  { repeat split; intros; try contradiction; try discriminate; constructor. }
  { reflexivity. }
  cbn [some_data] in R1. rewrite app_nil_r in R1.
  assert (T : forall t, ~ In t tags1). { intros t K. destruct (proj1 (T1 t) K) as [[]|K']. unfold seen_all in K'. apply in_flat_map in K' as (q & Q & S). rewrite (N1 q Q) in S. destruct S. }
  assert (NIL : p_links st1 = []). { apply none_nil. intros v. destruct (dget v (p_links st1)) as [e|] eqn:D; [|reflexivity]. exfalso. destruct I1 as (_ & _ & I3 & _). destruct (I3 _ _ D) as [k' K]. exact (T _ K). }
  rewrite flat_map_app, <- app_assoc, read_all_app, R1 in H. cbn [flat_map] in H. rewrite <- app_assoc, read_all_app in H.
  destruct (read_all read_event (part_events p)) as [ev2|] eqn:R2; [|discriminate]. destruct (read_all read_event (flat_map part_events l2 ++ some_data (snd d))) as [ev3|]; [|discriminate].
  unfold collect in H. rewrite run_app, S1, run_app in H. destruct (run_events ev2 st1) as [st2|] eqn:S2; [|discriminate]. destruct (run_events ev3 st2) as [st3|] eqn:S3; [|discriminate]. injection H as <-.
  destruct (run_grows _ _ _ S3) as [[ks K] _]. rewrite K. clear K S3 st3.
  assert (G : exists ks, dkeys (p_links st2) = u :: ks); [|destruct G as [ks' ->]; eexists; reflexivity].
  unfold part_events in R2. rewrite read_all_app, read_data in R2. destruct (read_all read_event (markup_events (snd p))) as [evm|] eqn:RM; [|discriminate]. injection R2 as <-. rewrite run_app in S2.
  destruct (run_events (data_events (fst p)) st1) as [st1'|] eqn:S4; [|discriminate].
  assert (NIL' : p_links st1' = []).
  { destruct (fst p) as [|c t]; cbn [data_events Model_Uri.run_events Model_Uri.on_event] in S4; [injection S4 as <-; exact NIL|]. rewrite NIL in S4. destruct (p_tag st1) as [[|? ?]|]; [injection S4 as <-; exact NIL| |injection S4 as <-; exact NIL]. destruct (p_current st1) as [[|? ?]|]; [injection S4 as <-; exact NIL|discriminate|injection S4 as <-; exact NIL]. }
  destruct p as [t m]. cbn [snd] in *. destruct m as [n a c| | | | | |]; try discriminate. cbn [Spec_Links.leads] in L. cbn [markup_events read_all] in RM. cbn [Model_Links.read_event] in RM. change [$"a"; $"link"] with kinds in RM.
  destruct (mem_str (lower n) kinds) eqn:M; [|discriminate]. assert (MI := proj1 (mem_str_In _ _) M).
  destruct (attrs_step (lower n) a (kinds_not_nil _ MI) (fine_attrs _ _ _ _ FFp MI)) as (l & R & FL). rewrite R in RM. cbn [option_map] in RM.
  assert (X : exists rest, evm = StartTag (lower n) l :: rest). { destruct (streqb c ($">")); cbn [read_all Model_Links.read_event] in RM; injection RM as <-; eexists; reflexivity. }
  destruct X as [rest ->]. cbn [Model_Uri.run_events Model_Uri.on_event] in S2. change [$"a"; $"link"] with kinds in S2. rewrite M in S2.
  assert (I0 : inv [] [] (p_links st1')). { rewrite NIL'. repeat split; intros; try contradiction; try discriminate; constructor. }
  destruct (FL (mkP (p_links st1') (Some (lower n)) (p_current st1')) [] [] eq_refl I0) as (_ & _ & _ & D2). cbn [p_links] in D2. specialize (D2 NIL'). destruct (addresses a) as [|u0 us]; [discriminate|]. cbn [map] in L. injection L as _ -> _. destruct D2 as [ks2 K2].
  destruct (run_grows _ _ _ S2) as [[ks' K3] _]. rewrite K3, K2. eexists. reflexivity.
Qed.

(** ** Disguised addresses *)
Variable is_ip : str -> bool.
Notation url_netloc := (url_netloc urlparse).
Notation check := (check_https_ip_mismatch is_ip url_netloc).
Notation texts_of_item i := (match i_text i with Some t => t | None => [] end).
Lemma check_spec links : (forall u e i, In (u, e) links -> dget ($"a") e = Some i -> is_ip (i_domain i) = true /\ forall w, In w (extract_url_from_text (texts_of_item i)) -> url_netloc w <> None) ->
  (check links = Hit \/ check links = NoHit) /\ (check links = Hit <-> exists u e i, In (u, e) links /\ dget ($"a") e = Some i /\ shows_host is_ip url_netloc (texts_of_item i)).
Proof.
  induction links as [|[u e] links IH]; intros H.
  - split; [right; reflexivity|]. split; [discriminate|]. intros (u & e & i & [] & _).
  - destruct IH as [IH1 IH2]. { intros v x i I. apply (H v x i). right. exact I. }
    cbn [check_https_ip_mismatch]. destruct (dget ($"a") e) as [i|] eqn:E.
    + destruct (H u e i (or_introl eq_refl) E) as [A B]. rewrite A. destruct (shows_names is_ip url_netloc (texts_of_item i) B) as [S1 S2]. destruct S2 as [S2|S2]; rewrite S2 in *.
      * split; [left; reflexivity|]. split; [|reflexivity]. intros _. exists u, e, i. split; [left; reflexivity|]. split; [exact E|]. apply S1. reflexivity.
      * split; [exact IH1|]. rewrite IH2. split; intros (v & x & j & I & D & T); exists v, x, j; [split; [right; exact I|auto]|]. split; [|auto]. destruct I as [I|I]; [|exact I]. injection I as <- <-. rewrite E in D. injection D as <-. apply S1 in T. discriminate.
    + split; [exact IH1|]. rewrite IH2. split; intros (v & x & j & I & D & T); exists v, x, j; [split; [right; exact I|auto]|]. split; [|auto]. destruct I as [I|I]; [injection I as <- <-; congruence|exact I].
Qed.
Lemma item_is u scheme domain ts : urlparse u = Some (scheme, domain) -> with_text ts (PL u) = mkItem u scheme (unquote u) domain (Some ts).
Proof. intros E. unfold parse_link. rewrite E. reflexivity. Qed.
(** What is listed for a message whose text is a page *)
Lemma link_kind k u d : has_link unescape k u d -> In k kinds.
Proof.
  intros (p & _ & X). unfold Spec_Links.leads in X. destruct (snd p) as [n a c| | | | | |]; try destruct X. destruct (mem_str (lower n) kinds) eqn:M; [|destruct X]. apply in_map_iff in X as (x & E & _). injection E as <- _. apply mem_str_In, M.
Qed.
Lemma link_parses d k u : a_page unescape urlparse d -> has_link unescape k u d -> exists s h, urlparse u = Some (s, h).
Proof.
  intros P. intros (p & I & X). apply in_split in I as (x & y & E). assert (F := page_fine d P x p y E). destruct p as [t m]. cbn [snd] in *. unfold Spec_Links.leads in X. destruct m as [n a c| | | | | |]; try destruct X. destruct (mem_str (lower n) kinds) eqn:MM; [|destruct X]. apply mem_str_In in MM.
    apply in_map_iff in X as (v & EV & X). injection EV as EK EV. subst v. assert (G := fine_attrs _ _ _ _ F MM). unfold Spec_Links.addresses in X. apply in_flat_map in X as ([h v] & I & X). cbn [fst snd] in X. destruct v as [|q w]; [destruct X|]. destruct (mem_str (lower h) holders) eqn:MH; [|destruct X]. destruct X as [X|[]]. subst u.
    apply mem_str_In in MH. destruct (G h _ I MH) as (q' & w' & [= <- <-] & U). destruct (urlparse (value_of_text unescape w)) as [[s0 h0]|]; [eauto|congruence].
Qed.
Lemma page_metadata d uris links : a_page unescape urlparse d -> parsed_metadata urlparse unquote unescape (written d) uris = Some links -> forall u,
  (forall k, has_link unescape k u d -> entry links k u = Some (with_text (texts_in unescape k u d) (PL u))) /\
  (forall k, In k kinds -> ~ has_link unescape k u d -> entry links k u = None) /\
  (forall k e, has_link unescape k u d -> dget u links = Some e -> incl (dkeys e) kinds) /\
  ((forall k, ~ has_link unescape k u d) -> dget u links = if mem_str u uris then Some [($"parsed", PL u)] else None).
Proof.
  intros P M u. destruct (page_links d P) as (links0 & L & H). assert (S := metadata_spec (written d) uris links0 L). rewrite M in S. specialize (S u).
  assert (D0 : forall k, has_link unescape k u d -> dget u links = dget u links0 /\ dget u links0 <> None). { intros k' X. destruct (H k' u) as [H1 _]. specialize (H1 X). unfold entry in H1. rewrite S. destruct (dget u links0); [split; [reflexivity|discriminate]|discriminate]. }
  split; [|split; [|split]].
  - intros k X. destruct (D0 k X) as [D _]. unfold entry. rewrite D. exact (proj1 (H k u) X).
  - intros k K X. destruct (H k u) as (_ & H2 & _). specialize (H2 X). unfold entry in H2 |- *. rewrite S. destruct (dget u links0); [exact H2|]. destruct (mem_str u uris); [|reflexivity]. destruct K as [K|[K|[]]]; subst k; reflexivity.
  - intros k e X E k' K. destruct (D0 k X) as [D _]. rewrite D in E. destruct (H k' u) as (_ & H2 & _). unfold entry in H2. rewrite E in H2.
    destruct (in_dec str_eq_dec k' kinds) as [J|J]; [exact J|]. exfalso. apply (proj1 (dget_None k' e)); [|exact K]. apply H2. intros Y. exact (J (link_kind _ _ _ Y)).
  - intros X. rewrite S. destruct (dget u links0) as [e|] eqn:D; [|reflexivity]. destruct (H [] u) as (_ & _ & H3). rewrite D in H3. destruct H3 as [k K]; [discriminate|]. destruct (X k K).
Qed.
Theorem page_mismatch d uris links : a_page unescape urlparse d -> parsed_metadata urlparse unquote unescape (written d) uris = Some links ->
  (forall u s h, has_link unescape ($"a") u d -> urlparse u = Some (s, h) -> is_ip h = true) -> words_parse unescape urlparse d ->
  (check links = Hit <-> exists u, has_link unescape ($"a") u d /\ shows_host is_ip url_netloc (texts_in unescape ($"a") u d)) /\ (check links = Hit \/ check links = NoHit).
Proof.
  intros P M IP W. destruct (page_links d P) as (links0 & L & _). assert (ND : NoDup (dkeys links)) by (apply (metadata_grows _ _ _ _ L M), (links_nodup _ _ L)).
  assert (A : forall u e i, In (u, e) links -> dget ($"a") e = Some i -> has_link unescape ($"a") u d /\ i = with_text (texts_in unescape ($"a") u d) (PL u)).
  { intros u e i I D. apply (In_dget _ _ _ ND) in I. destruct (page_metadata d uris links P M u) as (H1 & H2 & _). unfold entry in H1, H2. rewrite I in H1, H2.
    assert (X : has_link unescape ($"a") u d \/ ~ has_link unescape ($"a") u d). { rewrite <- seen_has. apply pair_dec. }
    destruct X as [X|X]; [split; [exact X|]; rewrite (H1 _ X) in D; injection D as <-; reflexivity|]. rewrite (H2 _ (or_introl eq_refl) X) in D. discriminate. }
  assert (PAR : forall u, has_link unescape ($"a") u d -> exists s h, urlparse u = Some (s, h)) by (intros u; apply link_parses, P).
  destruct (check_spec links) as [C1 C2].
  { intros u e i I D. destruct (A u e i I D) as [X ->]. destruct (PAR u X) as (s & h & U). rewrite (item_is _ _ _ _ U). cbn [i_domain i_text]. split; [exact (IP u s h X U)|]. intros w J. apply extract_In in J as [J1 (t & J2 & J3)]. unfold Model_Links.url_netloc. specialize (W u t w J2 J3 J1). destruct (urlparse w); [discriminate|congruence]. }
  split; [|exact C1]. rewrite C2. split.
  - intros (u & e & i & I & D & T). destruct (A u e i I D) as [X ->]. exists u. split; [exact X|exact T].
  - intros (u & X & T). destruct (page_metadata d uris links P M u) as (H1 & _). specialize (H1 _ X). unfold entry in H1. destruct (dget u links) as [e|] eqn:D; [|discriminate]. exists u, e. eexists. split; [apply dget_In, D|]. split; [exact H1|exact T].
Qed.
Theorem first_mismatch d l1 p l2 u more s h uris links : a_page unescape urlparse d -> fst d = l1 ++ p :: l2 -> (forall q, In q l1 -> leads (snd q) = []) -> leads (snd p) = ($"a", u) :: more ->
  urlparse u = Some (s, h) -> is_ip h = false -> parsed_metadata urlparse unquote unescape (written d) uris = Some links -> check links = NoHit.
Proof.
  intros P E N L U IP M. destruct (page_links d P) as (links0 & L0 & _). destruct (first_link d l1 p l2 _ u more links0 P E N L L0) as [ks K]. destruct (metadata_grows _ _ _ _ L0 M) as [[ks' K'] _]. rewrite K in K'.
  assert (X : has_link unescape ($"a") u d). { exists p. split; [rewrite E; apply in_elt|rewrite L; left; reflexivity]. }
  destruct (page_metadata d uris links P M u) as (H1 & _). specialize (H1 _ X). unfold entry in H1. destruct links as [|[u' e] links]; [discriminate|]. cbn [dkeys map fst app] in K'. injection K' as -> _. cbn [dget] in H1. destruct (streqb_spec u u); [|congruence].
  cbn [check_https_ip_mismatch]. rewrite H1, (item_is _ _ _ _ U). cbn [i_domain]. rewrite IP. reflexivity.
Qed.
Theorem page_truncated d uris links : a_page unescape urlparse d -> parsed_metadata urlparse unquote unescape (written d) uris = Some links ->
  check_uri_truncated links = true <-> exists k u, has_link unescape k u d /\ (8192 < N.of_nat (length u))%N.
Proof.
  intros P M. destruct (page_links d P) as (links0 & L & _). assert (ND : NoDup (dkeys links)) by (apply (metadata_grows _ _ _ _ L M), (links_nodup _ _ L)). rewrite truncated_spec. split.
  - intros (u & e & k & I & K & KK & N). exists k, u. split; [|exact N]. apply (In_dget _ _ _ ND) in I. destruct (page_metadata d uris links P M u) as (H1 & H2 & _). unfold entry in H2. rewrite I in H2.
    destruct (pair_dec (k, u) (seen_all (fst d))) as [X|X]; [apply seen_has, X|]. exfalso. rewrite seen_has in X. specialize (H2 k). apply (proj1 (dget_None k e)); [|exact K]. apply H2; [|exact X]. destruct KK as [KK|KK]; subst k; cbn; auto.
  - intros (k & u & X & N). destruct (page_metadata d uris links P M u) as (H1 & _). specialize (H1 _ X). unfold entry in H1. destruct (dget u links) as [e|] eqn:D; [|discriminate]. exists u, e, k. split; [apply dget_In, D|]. split.
    + destruct (in_dec str_eq_dec k (dkeys e)) as [J|J]; [exact J|]. apply dget_None in J. congruence.
    + split; [|exact N]. apply link_kind in X. destruct X as [X|[X|[]]]; auto.
Qed.
End Links.
