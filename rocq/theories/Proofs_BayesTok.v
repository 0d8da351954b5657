(** Proofs about the tokeniser. *)
From Coq Require Import Lia Permutation.
From Verif Require Import PyStr PyDict Proofs_Headers Proofs_Parser Model_BayesTok Spec_BayesTok.
Open Scope nat_scope.

(** ** Trimming *)
Lemma drop_while_split {A} (p : A -> bool) s : exists a, s = a ++ drop_while p s /\ forallb p a = true.
Proof.
  induction s as [|x s (a & E & F)]; [exists []; auto|]. cbn [drop_while]. destruct (p x) eqn:P; [|exists []; auto].
  exists (x :: a). cbn [app forallb]. rewrite <- E, P. auto.
Qed.
Lemma drop_while_head {A} (p : A -> bool) s c r : drop_while p s = c :: r -> p c = false.
Proof. induction s as [|x s IH]; [discriminate|]. cbn [drop_while]. destruct (p x) eqn:E; [exact IH|]. intros H. injection H as -> _. exact E. Qed.
Lemma forallb_rev {A} (p : A -> bool) l : forallb p (rev l) = forallb p l.
Proof. induction l as [|x l IH]; [reflexivity|]. cbn [rev forallb]. rewrite forallb_app, IH. cbn. rewrite andb_true_r. apply andb_comm. Qed.
Definition punct (c : char) : bool := mem_char c punctuation.
Lemma punct_Forall a : forallb punct a = true <-> Forall (fun c => In c punctuation) a.
Proof. rewrite forallb_forall, Forall_forall. split; intros H c Hc; [apply mem_char_In, H, Hc | apply mem_char_In, H, Hc]. Qed.
Lemma rstrip_core (p : char -> bool) s : exists b, s = rstrip_p p s ++ b /\ forallb p b = true /\ forall c r, rstrip_p p s = r ++ [c] -> p c = false.
Proof.
  unfold rstrip_p. destruct (drop_while_split p (rev s)) as (a & E & F). exists (rev a). split; [|split].
  - rewrite <- rev_app_distr, <- E, rev_involutive. reflexivity.
  - rewrite forallb_rev. exact F.
  - intros c r H. apply (f_equal (@rev char)) in H. rewrite rev_involutive, rev_app_distr in H. cbn in H. exact (drop_while_head _ _ _ _ H).
Qed.
Lemma trim_core w : core w (trim w).
Proof.
  unfold core, trim, lstrip_chars, rstrip_chars, lstrip_p. fold punct. change (fun c => mem_char c punctuation) with punct.
  destruct (drop_while_split punct w) as (a & E & F). destruct (rstrip_core punct (drop_while punct w)) as (b & E2 & F2 & L).
  exists a, b. rewrite <- E2. split; [exact E|]. rewrite <- !punct_Forall. split; [exact F|]. split; [exact F2|]. split.
  - intros c r H K. apply mem_char_In in K. change (punct c = true) in K. rewrite H in E2. cbn [app] in E2. apply drop_while_head in E2. congruence.
  - intros c r H K. apply mem_char_In in K. change (punct c = true) in K. rewrite (L c r H) in K. discriminate.
Qed.
Lemma drop_core (p : char -> bool) a s : forallb p a = true -> (forall c r, s = c :: r -> p c = false) -> drop_while p (a ++ s) = s.
Proof. intros F H. rewrite drop_while_all by exact F. apply drop_while_none, H. Qed.
Lemma core_trim w t : t <> [] -> core w t -> trim w = t.
Proof.
  intros NE (a & b & -> & Fa & Fb & Ha & Hb). unfold trim, lstrip_chars, rstrip_chars, lstrip_p, rstrip_p.
  change (fun c => mem_char c punctuation) with punct. apply punct_Forall in Fa, Fb.
  assert (P : forall c, ~ In c punctuation -> punct c = false) by (intros c H; destruct (punct c) eqn:E; [|reflexivity]; apply mem_char_In in E; contradiction).
  rewrite drop_core; [|exact Fa|].
  - rewrite rev_app_distr, drop_core; [apply rev_involutive | rewrite forallb_rev; exact Fb|]. intros c r H. apply P. apply (Hb c (rev r)).
    rewrite <- (rev_involutive t), H. reflexivity.
  - intros c r H. apply P. destruct t as [|x t]; [contradiction|]. injection H as <- _. apply (Ha x t). reflexivity.
Qed.
Lemma core_iff w t : t <> [] -> (core w t <-> trim w = t).
Proof. intros NE. split; [apply core_trim, NE | intros <-; apply trim_core]. Qed.
Lemma trim_head w c r : trim w = c :: r -> ~ In c punctuation.
Proof. intros E. destruct (trim_core w) as (a & b & _ & _ & _ & H & _). exact (H c r E). Qed.

(** ** Words that do not end *)
Lemma chew_one fuel : chew_uri fuel [1%N] = None.
Proof. induction fuel as [|f IH]; [reflexivity|]. cbn [chew_uri]. change (chew [1%N]) with [1%N]. cbn iota. rewrite IH. reflexivity. Qed.
Lemma chew_dotted fuel c l r : c <> 46%N -> chew_uri fuel (c :: 46%N :: l :: r) = None.
Proof.
  intros N. destruct fuel as [|f]; [reflexivity|]. cbn [chew_uri]. unfold chew. cbn [split1]. apply N.eqb_neq in N. rewrite N.
  rewrite N.eqb_refl. cbn iota. rewrite chew_one. reflexivity.
Qed.
Lemma dotted_iff w : dotted w <-> uri_like (trim w) = true.
Proof.
  split.
  - intros (t & c & l & r & C & -> & L). apply core_trim in C; [|discriminate]. rewrite C. cbn. exact L.
  - intros H. destruct (trim w) as [|c [|d [|l r]]] eqn:E; try discriminate. cbn in H. apply andb_true_iff in H as [H1 H2]. apply N.eqb_eq in H1. subst d.
    exists (c :: 46%N :: l :: r), c, l, r. repeat split; [|exact H2]. apply core_iff; [discriminate | exact E].
Qed.
Lemma address_iff w : one_letter_address w <-> mail_like (trim w) = true.
Proof.
  split.
  - intros (t & c & d & r & C & ->). apply core_trim in C; [|discriminate]. rewrite C. reflexivity.
  - intros H. destruct (trim w) as [|c [|a [|d r]]] eqn:E; try discriminate. cbn in H. apply N.eqb_eq in H. subst a.
    exists (c :: 64%N :: d :: r), c, d, r. split; [|reflexivity]. apply core_iff; [discriminate | exact E].
Qed.
Lemma stop_plain t : mem_str t stop_words = true -> uri_like t = false /\ mail_like t = false.
Proof.
  intros H. apply mem_str_In in H. unfold stop_words in H.
  repeat (destruct H as [<- | H]; [split; reflexivity|]). destruct H.
Qed.
Lemma short_plain t : (length t <? 3) = true -> uri_like t = false /\ mail_like t = false.
Proof. intros H. apply Nat.ltb_lt in H. destruct t as [|a [|b [|c t]]]; cbn in *; try (split; reflexivity). lia. Qed.
Lemma mail_not_uri t : mail_like t = true -> uri_like t = false.
Proof. destruct t as [|a [|b [|c t]]]; try discriminate. cbn. intros H. apply N.eqb_eq in H. subst b. reflexivity. Qed.
Lemma word_runs fuel r p w : word_tokens fuel r p w = None <-> r <> Header /\ dotted w.
Proof.
  rewrite dotted_iff. unfold word_tokens. split.
  - destruct (length (trim w) <? 3); [discriminate|]. destruct (mem_str (trim w) stop_words); [discriminate|].
    destruct (in_body r && mail_like (trim w)); [discriminate|]. destruct (in_body r && uri_like (trim w)) eqn:U; [|discriminate].
    intros _. apply andb_true_iff in U as [U1 U2]. split; [intros -> ; discriminate | exact U2].
  - intros [NH U]. destruct (length (trim w) <? 3) eqn:L; [apply short_plain in L as [L _]; congruence|].
    destruct (mem_str (trim w) stop_words) eqn:S; [apply stop_plain in S as [S _]; congruence|].
    destruct (mail_like (trim w)) eqn:M; [apply mail_not_uri in M; congruence|]. rewrite andb_false_r.
    assert (in_body r = true) as -> by (destruct r; [contradiction | reflexivity | reflexivity]). rewrite U. cbn [andb].
    pose proof (trim_head w) as TH. destruct (trim w) as [|c [|d [|l t]]] eqn:E; try discriminate. cbn in U. apply andb_true_iff in U as [U _]. apply N.eqb_eq in U. subst d.
    rewrite chew_dotted; [reflexivity|]. intros ->. apply (TH 46%N (46%N :: l :: t) eq_refl). right; right; right; left. reflexivity.
Qed.
Lemma word_fuel f1 f2 r p w : word_tokens f1 r p w = word_tokens f2 r p w.
Proof.
  destruct (word_tokens f1 r p w) as [l|] eqn:E.
  - assert (N : ~ (r <> Header /\ dotted w)) by (intros H; apply (word_runs f1 r p w) in H; congruence).
    unfold word_tokens in *. destruct (length (trim w) <? 3); [congruence|]. destruct (mem_str (trim w) stop_words); [congruence|].
    destruct (in_body r && mail_like (trim w)); [congruence|]. destruct (in_body r && uri_like (trim w)) eqn:U; [|congruence].
    destruct N. apply andb_true_iff in U as [U1 U2]. split; [intros ->; discriminate | apply dotted_iff, U2].
  - apply word_runs in E. symmetry. apply word_runs, E.
Qed.

(** ** Gathering *)
Lemma gather_none {A B} (f : A -> option (list B)) l : gather f l = None <-> exists x, In x l /\ f x = None.
Proof.
  induction l as [|x l IH]; cbn [gather]; [split; [discriminate | intros (x & [] & _)]|].
  destruct (f x) as [a|] eqn:E.
  - destruct (gather f l) as [b|] eqn:G.
    + split; [discriminate|]. intros (y & [<- | Hy] & H); [congruence|]. assert (K : Some b = None) by (apply IH; exists y; auto). discriminate.
    + split; [|reflexivity]. intros _. destruct (proj1 IH eq_refl) as (y & Hy & H). exists y. split; [right; exact Hy | exact H].
  - split; [|reflexivity]. intros _. exists x. split; [left; reflexivity | exact E].
Qed.
Lemma gather_some {A B} (f : A -> option (list B)) l r : gather f l = Some r -> forall y, In y r <-> exists x a, In x l /\ f x = Some a /\ In y a.
Proof.
  revert r. induction l as [|x l IH]; intros r; cbn [gather].
  - intros H. injection H as <-. intros y. split; [intros [] | intros (x & a & [] & _)].
  - destruct (f x) as [a|] eqn:E; [|discriminate]. destruct (gather f l) as [b|] eqn:G; [|discriminate]. intros H. injection H as <-. intros y. rewrite in_app_iff, (IH b eq_refl). split.
    + intros [H | (z & c & Hz & Hc & H)]; [exists x, a | exists z, c]; split; auto; [left; reflexivity | right; exact Hz].
    + intros (z & c & [<- | Hz] & Hc & H); [left; congruence | right; exists z, c; auto].
Qed.
Lemma gather_ext {A B} (f g : A -> option (list B)) l : (forall x, In x l -> f x = g x) -> gather f l = gather g l.
Proof.
  induction l as [|x l IH]; intros H; [reflexivity|]. cbn [gather]. rewrite (H x (or_introl eq_refl)), IH; [reflexivity|]. intros y Hy. apply H. right. exact Hy.
Qed.
Lemma line_runs fuel p r line : tokenise_line fuel p r line = None <-> r <> Header /\ exists w, In w (line_words line) /\ dotted w.
Proof.
  unfold tokenise_line. rewrite gather_none. setoid_rewrite word_runs. split; [intros (w & H1 & H2 & H3); split; [exact H2 | exists w; auto] | intros (H2 & w & H1 & H3); exists w; auto].
Qed.
Lemma line_fuel f1 f2 p r line : tokenise_line f1 p r line = tokenise_line f2 p r line.
Proof. apply gather_ext. intros w _. apply word_fuel. Qed.
Lemma lines_run fuel p r lines : r <> Header -> (gather (tokenise_line fuel p r) lines = None <-> some_word dotted lines).
Proof.
  intros NH. rewrite gather_none. setoid_rewrite line_runs. unfold some_word. split.
  - intros (l & Hl & _ & w & Hw & H). exists l, w. auto.
  - intros (l & w & Hl & Hw & H). exists l. split; [exact Hl|]. split; [exact NH|]. exists w. auto.
Qed.

(** ** The tokens of a word *)
Lemma high_iff c : high c = true <-> (160 <= c <= 255)%N.
Proof. unfold high, between. rewrite andb_true_iff, !N.leb_le. tauto. Qed.
Lemma two_high_iff t : two_high t = true <-> foreign t.
Proof.
  split.
  - destruct t as [|a [|b r]]; try discriminate. cbn. intros H. apply andb_true_iff in H as [H1 H2]. exists a, b, r. rewrite <- !high_iff. auto.
  - intros (a & b & r & -> & Ha & Hb). cbn. apply high_iff in Ha, Hb. rewrite Ha, Hb. reflexivity.
Qed.
Lemma long_iff t : Nat.ltb MAX_TOKEN_LENGTH (length t) && negb (mem_char 42%N t) = true <-> long t.
Proof.
  unfold long, MAX_TOKEN_LENGTH. rewrite andb_true_iff, Nat.ltb_lt, negb_true_iff. rewrite <- mem_char_In. split; intros [H K]; (split; [exact H|]); destruct (mem_char 42%N t); congruence.
Qed.
Lemma tuples_iff t : forall x, In x (tuples t) <-> exists p s n, x = Text (($"8:") ++ s) /\ t = p ++ s /\ length p = 2 * n /\ 0 < n /\ s <> [].
Proof.
  assert (G : forall k t, length t <= k -> forall x, In x (tuples t) <-> exists p s n, x = Text (($"8:") ++ s) /\ t = p ++ s /\ length p = 2 * n /\ 0 < n /\ s <> []).
  2:{ exact (G (length t) t (le_n _)). }
  induction k as [|k IH]; intros u L x.
  { destruct u; [|cbn in L; lia]. split; [intros [] | intros (p & s & n & _ & E & _ & _ & NE)]. destruct p; [cbn in E; congruence | discriminate]. }
  destruct u as [|a [|b [|c r]]].
  - split; [intros [] | intros (p & s & n & _ & E & _ & _ & NE)]. destruct p; [cbn in E; congruence | discriminate].
  - split; [intros [] | intros (p & s & n & _ & E & Lp & Ln & NE)]. destruct p as [|? [|? p]]; cbn in Lp; try lia. discriminate.
  - split; [intros [] | intros (p & s & n & _ & E & Lp & Ln & NE)]. destruct p as [|? [|? p]]; cbn in Lp; try lia. injection E as _ _ E. symmetry in E. apply app_eq_nil in E as [_ E]. contradiction.
  - change (tuples (a :: b :: c :: r)) with (Text (($"8:") ++ c :: r) :: tuples (c :: r)). cbn [In]. rewrite IH by (cbn [length] in *; lia). split.
    + intros [<- | (p & s & n & -> & E & Lp & Ln & NE)].
      * exists [a; b], (c :: r), 1. repeat split; [lia | discriminate].
      * exists (a :: b :: p), s, (S n). rewrite E. cbn [length]. repeat split; [lia | lia | exact NE].
    + intros (p & s & n & -> & E & Lp & Ln & NE). destruct p as [|? [|? p]]; cbn [length] in Lp; try lia. injection E as <- <- E.
      destruct p as [|y p]; [left; cbn in E; rewrite E; reflexivity|]. right. exists (y :: p), s, (n - 1). cbn [length] in *. repeat split; [exact E | lia | lia | exact NE].
Qed.
Lemma variants_iff r p t x : In x (variants r p t) <->
  x = Text (p ++ t) \/ (r <> Header /\ (x = Text (p ++ lower_text t) \/ x = Text (p ++ letters_only t) \/ x = Text (p ++ lower_text (letters_only t)))).
Proof.
  unfold variants. fold (letters_only t). rewrite in_app_iff. cbn [In]. destruct r; cbn [in_body In].
  - split; [intros [[] | [<- | []]]; auto | intros [-> | [K _]]; [auto | congruence]].
  - split; [intros [[<- | [<- | [<- | []]]] | [<- | []]] | intros [-> | [_ [-> | [-> | ->]]]]]; auto 10; right; (split; [discriminate | auto]).
  - split; [intros [[<- | [<- | [<- | []]]] | [<- | []]] | intros [-> | [_ [-> | [-> | ->]]]]]; auto 10; right; (split; [discriminate | auto]).
Qed.
Lemma kept_fun r t k : kept r t k -> ~ (long t /\ foreign t) /\ k = (if Nat.ltb MAX_TOKEN_LENGTH (length t) && negb (mem_char 42%N t) then match r with Uris => t | _ => ($"sk:") ++ firstn 7 t end else t).
Proof.
  intros [H N | L NF NU].
  - split; [exact N|]. destruct (Nat.ltb MAX_TOKEN_LENGTH (length t) && negb (mem_char 42%N t)) eqn:E; [|reflexivity]. apply long_iff in E. destruct H as [H | ->]; [contradiction | reflexivity].
  - split; [tauto|]. apply long_iff in L. rewrite L. destruct r; [reflexivity | reflexivity | contradiction].
Qed.
Lemma kept_long r t : ~ (long t /\ foreign t) -> kept r t (if Nat.ltb MAX_TOKEN_LENGTH (length t) && negb (mem_char 42%N t) then match r with Uris => t | _ => ($"sk:") ++ firstn 7 t end else t).
Proof.
  intros N. destruct (Nat.ltb MAX_TOKEN_LENGTH (length t) && negb (mem_char 42%N t)) eqn:E.
  - apply long_iff in E. destruct r; [apply Kskip | apply Kskip | apply Kwhole]; auto; try discriminate.
  - apply Kwhole; [left; intros L; apply long_iff in L; congruence | exact N].
Qed.
Lemma finish_iff r p t x : In x (finish r p t) <-> exists s, x = Text s /\ derived r p t s.
Proof.
  unfold finish. destruct (Nat.ltb MAX_TOKEN_LENGTH (length t) && negb (mem_char 42%N t)) eqn:E; [destruct (two_high t) eqn:F|].
  - apply long_iff in E. apply two_high_iff in F. rewrite tuples_iff. split.
    + intros (q & s & n & -> & Et & L & Ln & NE). eexists. split; [reflexivity|]. eapply Dtail; eauto.
    + intros (s & -> & [k K | k K NH | k K NH | k K NH | q s' n L _ Et Lq Ln NE]); try (apply kept_fun in K as [K _]; destruct K; auto). exists q, s', n. auto.
  - assert (N : ~ (long t /\ foreign t)) by (intros [_ K]; apply two_high_iff in K; congruence). pose proof (kept_long r t N) as KL. rewrite E in KL.
    set (k0 := match r with Uris => t | _ => ($"sk:") ++ firstn 7 t end) in *. rewrite variants_iff. split.
    + intros [-> | [NH [-> | [-> | ->]]]]; eexists; (split; [reflexivity|]); [apply Ditself | apply Dlower | apply Dletters | apply Dboth]; auto.
    + intros (s & -> & [k K | k K NH | k K NH | k K NH | q s' n L F' _ _ _ _]); try (apply kept_fun in K as [_ K]; rewrite E in K; fold k0 in K; subst k; auto 10). destruct N; auto.
  - assert (N : ~ (long t /\ foreign t)) by (intros [K _]; apply long_iff in K; congruence). pose proof (kept_long r t N) as KL. rewrite E in KL. rewrite variants_iff. split.
    + intros [-> | [NH [-> | [-> | ->]]]]; eexists; (split; [reflexivity|]); [apply Ditself | apply Dlower | apply Dletters | apply Dboth]; auto.
    + intros (s & -> & [k K | k K NH | k K NH | k K NH | q s' n L F' _ _ _ _]); try (apply kept_fun in K as [_ K]; rewrite E in K; subst k; auto 10). destruct N; auto.
Qed.
Lemma used_trim w t : used w t <-> t = trim w /\ (length t <? 3) = false /\ mem_str t stop_words = false.
Proof.
  unfold used. rewrite Nat.ltb_ge. split.
  - intros (C & L & S). split; [symmetry; apply core_trim; [destruct t; [cbn in L; lia | discriminate] | exact C]|]. split; [exact L|].
    destruct (mem_str t stop_words) eqn:E; [|reflexivity]. apply mem_str_In in E. contradiction.
  - intros (-> & L & S). split; [apply trim_core|]. split; [exact L|]. change unused_words with stop_words. rewrite <- mem_str_In, S. discriminate.
Qed.
Lemma word_exact fuel r p w l : word_tokens fuel r p w = Some l ->
  (forall s, In (Text s) l <-> exists t, used w t /\ derived r p t s) /\ (In Generator l <-> r <> Header /\ one_letter_address w).
Proof.
  intros H. assert (D : ~ (r <> Header /\ dotted w)) by (intros D; apply (word_runs fuel r p w) in D; congruence).
  rewrite address_iff. revert H. unfold word_tokens. setoid_rewrite used_trim.
  destruct (length (trim w) <? 3) eqn:L.
  { intros H. injection H as <-. split; [intros s; split; [intros [] | intros (t & (-> & K & _) & _); congruence]|]. split; [intros [] | intros [_ K]; apply short_plain in L as [_ L]; congruence]. }
  destruct (mem_str (trim w) stop_words) eqn:S.
  { intros H. injection H as <-. split; [intros s; split; [intros [] | intros (t & (-> & _ & K) & _); congruence]|]. split; [intros [] | intros [_ K]; apply stop_plain in S as [_ S]; congruence]. }
  assert (F : forall s, In (Text s) (finish r p (trim w)) <-> exists t, (t = trim w /\ (length t <? 3) = false /\ mem_str t stop_words = false) /\ derived r p t s).
  { intros s. rewrite finish_iff. split; [intros (s' & E & K); injection E as <-; exists (trim w); auto | intros (t & (-> & _) & K); exists s; auto]. }
  assert (NG : ~ In Generator (finish r p (trim w))) by (rewrite finish_iff; intros (s & K & _); discriminate).
  destruct (in_body r && mail_like (trim w)) eqn:M.
  { intros H. injection H as <-. apply andb_true_iff in M as [M1 M2]. split.
    - intros s. cbn [In]. rewrite F. split; [intros [K | K]; [discriminate | exact K] | auto].
    - split; [intros _; split; [intros ->; discriminate | exact M2] | intros _; left; reflexivity]. }
  destruct (in_body r && uri_like (trim w)) eqn:U.
  { destruct D. apply andb_true_iff in U as [U1 U2]. split; [intros ->; discriminate | apply dotted_iff, U2]. }
  intros H. injection H as <-. split; [exact F|]. split; [contradiction|]. intros [NH K]. rewrite K, andb_true_r in M. destruct r; [contradiction | discriminate | discriminate].
Qed.
Lemma line_exact fuel r p line l : tokenise_line fuel p r line = Some l ->
  (forall s, In (Text s) l <-> exists w t, In w (line_words line) /\ used w t /\ derived r p t s) /\
  (In Generator l <-> r <> Header /\ exists w, In w (line_words line) /\ one_letter_address w).
Proof.
  intros H. pose proof (gather_some _ _ _ H) as G. assert (T : forall w, In w (line_words line) -> exists a, word_tokens fuel r p w = Some a).
  { intros w Hw. destruct (word_tokens fuel r p w) as [a|] eqn:E; [exists a; reflexivity|]. assert (K : tokenise_line fuel p r line = None) by (apply gather_none; exists w; auto). congruence. }
  split.
  - intros s. rewrite G. split.
    + intros (w & a & Hw & E & I). apply (proj1 (word_exact fuel r p w a E)) in I as (t & Ht). exists w, t. tauto.
    + intros (w & t & Hw & Ht). destruct (T w Hw) as (a & E). exists w, a. split; [exact Hw|]. split; [exact E|]. apply (proj1 (word_exact fuel r p w a E)). exists t. exact Ht.
  - rewrite G. split.
    + intros (w & a & Hw & E & I). apply (proj2 (word_exact fuel r p w a E)) in I as [I1 I2]. split; [exact I1|]. exists w. auto.
    + intros (NH & w & Hw & I). destruct (T w Hw) as (a & E). exists w, a. split; [exact Hw|]. split; [exact E|]. apply (proj2 (word_exact fuel r p w a E)). auto.
Qed.
Lemma lines_exact {A} (fuel : nat) r (p f : A -> str) lines l : gather (fun e => tokenise_line fuel (p e) r (f e)) lines = Some l ->
  (forall s, In (Text s) l <-> exists e w t, In e lines /\ In w (line_words (f e)) /\ used w t /\ derived r (p e) t s) /\
  (In Generator l <-> r <> Header /\ exists e w, In e lines /\ In w (line_words (f e)) /\ one_letter_address w).
Proof.
  intros H. pose proof (gather_some _ _ _ H) as G. assert (T : forall e, In e lines -> exists a, tokenise_line fuel (p e) r (f e) = Some a).
  { intros e He. destruct (tokenise_line fuel (p e) r (f e)) as [a|] eqn:E; [exists a; reflexivity|].
    assert (K : gather (fun e => tokenise_line fuel (p e) r (f e)) lines = None) by (apply gather_none; exists e; auto). congruence. }
  split.
  - intros s. rewrite G. split.
    + intros (e & a & He & E & I). apply (proj1 (line_exact _ _ _ _ _ E)) in I as (w & t & I). exists e, w, t. tauto.
    + intros (e & w & t & He & I). destruct (T e He) as (a & E). exists e, a. split; [exact He|]. split; [exact E|]. apply (proj1 (line_exact _ _ _ _ _ E)). exists w, t. exact I.
  - rewrite G. split.
    + intros (e & a & He & E & I). apply (proj2 (line_exact _ _ _ _ _ E)) in I as (I1 & w & I). split; [exact I1|]. exists e, w. tauto.
    + intros (NH & e & w & He & I). destruct (T e He) as (a & E). exists e, a. split; [exact He|]. split; [exact E|]. apply (proj2 (line_exact _ _ _ _ _ E)). split; [exact NH|]. exists w. exact I.
Qed.

(** ** A message *)
Section Message.
Variables chew_id chew_received chew_content_type : str -> str.
Variable find_addr : str -> option str.
Variable user_ignore : list str.
Notation parse_headers := (parse_headers chew_id chew_received chew_content_type find_addr user_ignore).
Notation tokenise := (tokenise chew_id chew_received chew_content_type find_addr user_ignore).
Lemma headers_end fuel parsed : exists d, gather (fun e : str * str => tokenise_line fuel (($"H") ++ fst e ++ ($":")) Header (snd e)) parsed = Some d.
Proof.
  destruct (gather _ parsed) as [d|] eqn:E; [exists d; reflexivity|]. apply gather_none in E as (e & _ & E). apply line_runs in E as [K _]. congruence.
Qed.
Lemma tokenise_runs fuel order body inviz uris hdrs : tokenise fuel order body inviz uris hdrs = Runs <-> some_word dotted (body ++ inviz ++ uris).
Proof.
  assert (S : some_word dotted (body ++ inviz ++ uris) <-> some_word dotted body \/ some_word dotted uris \/ some_word dotted inviz).
  { unfold some_word. setoid_rewrite in_app_iff. setoid_rewrite in_app_iff. split.
    - intros (l & w & [H | [H | H]] & K); [left | right; right | right; left]; exists l, w; auto.
    - intros [(l & w & H & K) | [(l & w & H & K) | (l & w & H & K)]]; exists l, w; auto. }
  rewrite S. unfold Model_BayesTok.tokenise. destruct (headers_end fuel (parse_headers order hdrs)) as (d & ->).
  assert (B : Body <> Header) by discriminate. assert (U : Uris <> Header) by discriminate.
  pose proof (lines_run fuel [] Body body B) as H1. pose proof (lines_run fuel [] Uris uris U) as H2. pose proof (lines_run fuel ($"I*:") Body inviz B) as H3.
  destruct (gather (tokenise_line fuel [] Body) body) as [a|]; [|split; [intros _; left; apply H1; reflexivity | reflexivity]].
  destruct (gather (tokenise_line fuel [] Uris) uris) as [b|]; [|split; [intros _; right; left; apply H2; reflexivity | reflexivity]].
  destruct (gather (tokenise_line fuel ($"I*:") Body) inviz) as [c|]; [|split; [intros _; right; right; apply H3; reflexivity | reflexivity]].
  split.
  - destruct (forallb is_text (a ++ b ++ c ++ d)); discriminate.
  - intros [K | [K | K]]; [apply H1 in K | apply H2 in K | apply H3 in K]; discriminate.
Qed.
Lemma tokenise_fuel f1 f2 order body inviz uris hdrs : tokenise f1 order body inviz uris hdrs = tokenise f2 order body inviz uris hdrs.
Proof.
  unfold Model_BayesTok.tokenise.
  assert (G : forall p r lines, gather (tokenise_line f1 p r) lines = gather (tokenise_line f2 p r) lines) by (intros; apply gather_ext; intros; apply line_fuel).
  rewrite !G. erewrite (gather_ext (fun e => tokenise_line f1 _ Header (snd e))); [reflexivity|]. intros x _. apply line_fuel.
Qed.
Lemma texts_In l s : In s (texts l) <-> In (Text s) l.
Proof.
  unfold texts. rewrite in_flat_map. split.
  - intros ([s'|] & H & K); cbn in K; [destruct K as [<- | []]; exact H | destruct K].
  - intros H. exists (Text s). split; [exact H | left; reflexivity].
Qed.
Lemma all_text l : forallb is_text l = true <-> ~ In Generator l.
Proof.
  rewrite forallb_forall. split; [intros H K; specialize (H _ K); discriminate|]. intros H [s|] K; [reflexivity | contradiction].
Qed.
Lemma parts_exact fuel order body inviz uris hdrs a b c d :
  gather (tokenise_line fuel [] Body) body = Some a -> gather (tokenise_line fuel [] Uris) uris = Some b ->
  gather (tokenise_line fuel ($"I*:") Body) inviz = Some c ->
  gather (fun e : str * str => tokenise_line fuel (($"H") ++ fst e ++ ($":")) Header (snd e)) (parse_headers order hdrs) = Some d ->
  (forall s, In (Text s) (a ++ b ++ c ++ d) <-> exists r p line w t, line_of body inviz uris (parse_headers order hdrs) r p line /\ In w (line_words line) /\ used w t /\ derived r p t s) /\
  (In Generator (a ++ b ++ c ++ d) <-> some_word one_letter_address (body ++ inviz ++ uris)).
Proof.
  intros Ha Hb Hc Hd. apply (lines_exact fuel Body (fun _ => []) (fun l => l)) in Ha as [Ha1 Ha2]. apply (lines_exact fuel Uris (fun _ => []) (fun l => l)) in Hb as [Hb1 Hb2].
  apply (lines_exact fuel Body (fun _ => $"I*:") (fun l => l)) in Hc as [Hc1 Hc2].
  apply (lines_exact fuel Header (fun e => ($"H") ++ fst e ++ ($":")) snd) in Hd as [Hd1 Hd2]. split.
  - intros s. rewrite !in_app_iff, Ha1, Hb1, Hc1, Hd1. split.
    + intros [(e & w & t & He & K) | [(e & w & t & He & K) | [(e & w & t & He & K) | ((k & e) & w & t & He & K)]]].
      * exists Body, [], e, w, t. split; [apply Lbody, He | exact K].
      * exists Uris, [], e, w, t. split; [apply Luris, He | exact K].
      * exists Body, ($"I*:"), e, w, t. split; [apply Linviz, He | exact K].
      * exists Header, (($"H") ++ k ++ ($":")), e, w, t. split; [apply Lheader, He | exact K].
    + intros (r & p & line & w & t & [e He | e He | e He | k e He] & K).
      * left. exists e, w, t. auto.
      * right; left. exists e, w, t. auto.
      * right; right; left. exists e, w, t. auto.
      * right; right; right. exists (k, e), w, t. auto.
  - rewrite !in_app_iff, Ha2, Hb2, Hc2, Hd2. unfold some_word. setoid_rewrite in_app_iff. setoid_rewrite in_app_iff. split.
    + intros [(_ & e & w & He & K) | [(_ & e & w & He & K) | [(_ & e & w & He & K) | [K _]]]]; try (exists e, w; auto). contradiction.
    + intros (e & w & [He | [He | He]] & K); [left | right; right; left | right; left]; (split; [discriminate | exists e, w; auto]).
Qed.
Lemma tokenise_raises fuel order body inviz uris hdrs : tokenise fuel order body inviz uris hdrs = Raises <->
  ~ some_word dotted (body ++ inviz ++ uris) /\ some_word one_letter_address (body ++ inviz ++ uris).
Proof.
  rewrite <- (tokenise_runs fuel order body inviz uris hdrs). unfold Model_BayesTok.tokenise. pose proof (parts_exact fuel order body inviz uris hdrs) as P.
  destruct (gather (tokenise_line fuel [] Body) body) as [a|]; [|split; [discriminate | intros [K _]; congruence]].
  destruct (gather (tokenise_line fuel [] Uris) uris) as [b|]; [|split; [discriminate | intros [K _]; congruence]].
  destruct (gather (tokenise_line fuel ($"I*:") Body) inviz) as [c|]; [|split; [discriminate | intros [K _]; congruence]].
  destruct (gather _ (parse_headers order hdrs)) as [d|]; [|split; [discriminate | intros [K _]; congruence]].
  destruct (P a b c d eq_refl eq_refl eq_refl eq_refl) as [_ PG]. rewrite <- PG. pose proof (all_text (a ++ b ++ c ++ d)) as T.
  destruct (forallb is_text (a ++ b ++ c ++ d)).
  - split; [discriminate|]. intros [_ K]. exfalso. exact (proj1 T eq_refl K).
  - split; [|reflexivity]. intros _. split; [discriminate|]. destruct (in_dec (fun x y : token => ltac:(decide equality; apply (list_eq_dec N.eq_dec))) Generator (a ++ b ++ c ++ d)) as [I | NI]; [exact I|]. apply T in NI. discriminate.
Qed.
Lemma tokenise_tokens fuel order body inviz uris hdrs l : tokenise fuel order body inviz uris hdrs = Tokens l ->
  NoDup l /\ forall s, In s l <-> s <> [] /\ exists r p line w t, line_of body inviz uris (parse_headers order hdrs) r p line /\ In w (line_words line) /\ used w t /\ derived r p t s.
Proof.
  unfold Model_BayesTok.tokenise. pose proof (parts_exact fuel order body inviz uris hdrs) as P.
  destruct (gather (tokenise_line fuel [] Body) body) as [a|]; [|discriminate].
  destruct (gather (tokenise_line fuel [] Uris) uris) as [b|]; [|discriminate].
  destruct (gather (tokenise_line fuel ($"I*:") Body) inviz) as [c|]; [|discriminate].
  destruct (gather _ (parse_headers order hdrs)) as [d|]; [|discriminate].
  destruct (P a b c d eq_refl eq_refl eq_refl eq_refl) as [PT _]. destruct (forallb is_text (a ++ b ++ c ++ d)); [|discriminate].
  intros H. injection H as <-. split; [apply NoDup_filter, NoDup_nodup|]. intros s. rewrite filter_In, nodup_In, texts_In, PT, negb_true_iff.
  destruct (streqb_spec s []) as [-> | NE]; split; intros [H1 H2]; try congruence; auto.
Qed.
End Message.

(** ** The characters of words *)
Definition ok (c : char) : Prop := plain c = true \/ (128 <= c <= 255)%N.
Lemma ok_colon : ~ ok 58%N.
Proof. intros [H | H]; [vm_compute in H; discriminate | lia]. Qed.
Lemma filter_full {A} (p : A -> bool) l n : length (filter p (firstn n l)) = n -> n <= length l /\ Forall (fun x => p x = true) (firstn n l).
Proof.
  revert l. induction n as [|n IH]; intros l H; [split; [lia | constructor]|]. destruct l as [|x l]; [discriminate|]. cbn [firstn filter] in *.
  assert (B : length (filter p (firstn n l)) <= n).
  { transitivity (length (firstn n l)); [|rewrite firstn_length; lia]. clear. induction (firstn n l) as [|y m IH]; [reflexivity|]. cbn. destruct (p y); cbn; lia. }
  destruct (p x) eqn:E; cbn [length] in H; [|lia]. destruct (IH l) as [H1 H2]; [lia|]. split; [cbn [length]; lia | constructor; assumption].
Qed.
Lemma seq_len_spec x s : match seq_len x s with 0 => True | S k => (128 <= x <= 255)%N /\ k <= length s /\ Forall (fun c => cont c = true) (firstn k s) end.
Proof.
  unfold seq_len, between.
  destruct (N.leb 192 x && N.leb x 223 && (length (filter cont (firstn 1 s)) =? 1)) eqn:E1.
  { apply andb_true_iff in E1 as [E E2]. apply andb_true_iff in E as [E E']. apply N.leb_le in E, E'. apply Nat.eqb_eq in E2. split; [lia | exact (filter_full _ _ _ E2)]. }
  destruct (N.leb 224 x && N.leb x 239 && (length (filter cont (firstn 2 s)) =? 2)) eqn:E3.
  { apply andb_true_iff in E3 as [E E2]. apply andb_true_iff in E as [E E']. apply N.leb_le in E, E'. apply Nat.eqb_eq in E2. split; [lia | exact (filter_full _ _ _ E2)]. }
  destruct (N.leb 240 x && N.leb x 244 && (length (filter cont (firstn 3 s)) =? 3)) eqn:E4.
  { apply andb_true_iff in E4 as [E E2]. apply andb_true_iff in E as [E E']. apply N.leb_le in E, E'. apply Nat.eqb_eq in E2. split; [lia | exact (filter_full _ _ _ E2)]. }
  destruct (N.leb 161 x && N.leb x 255) eqn:E5; [|exact I]. apply andb_true_iff in E5 as [E E']. apply N.leb_le in E, E'. split; [lia|]. split; [lia | constructor].
Qed.
Lemma Forall_rev' {A} (P : A -> Prop) l : Forall P l -> Forall P (rev l).
Proof. apply Forall_rev. Qed.
Lemma flush_ok cur : Forall ok cur -> Forall (Forall ok) (flush cur).
Proof. intros H. destruct cur as [|x cur]; [constructor|]. cbn [flush]. constructor; [apply Forall_rev, H | constructor]. Qed.
Lemma pieces_ok s : forall cur k, Forall ok cur -> k <= length s -> Forall (fun c => cont c = true) (firstn k s) -> Forall (Forall ok) (pieces s cur k).
Proof.
  induction s as [|x s IH]; intros cur k C L F; [apply flush_ok, C|]. cbn [pieces].
  assert (CO : forall c, cont c = true -> ok c) by (unfold cont, between; intros c H; apply andb_true_iff in H as [H H']; apply N.leb_le in H, H'; right; lia).
  destruct k as [|[|k]].
  - destruct (plain x) eqn:P; [apply IH; [constructor; [left; exact P | exact C] | lia | constructor]|].
    apply Forall_app. split; [apply flush_ok, C|]. pose proof (seq_len_spec x s) as S. destruct (seq_len x s) as [|[|n]].
    + apply IH; [constructor | lia | constructor].
    + destruct S as (S & _). constructor; [constructor; [right; exact S | constructor] | apply IH; [constructor | lia | constructor]].
    + destruct S as (S1 & S2 & S3). apply IH; [constructor; [right; exact S1 | constructor] | exact S2 | exact S3].
  - cbn [firstn] in F. inversion F; subst. constructor; [apply Forall_rev; constructor; [apply CO; assumption | exact C] | apply IH; [constructor | lia | constructor]].
  - cbn [firstn length] in *. inversion F; subst. apply IH; [constructor; [apply CO; assumption | exact C] | lia | assumption].
Qed.
Lemma join_ok l : Forall (Forall ok) l -> Forall ok (join ($" ") l).
Proof.
  induction l as [|w l IH]; intros H; [constructor|]. inversion H; subst. destruct l as [|v l]; [assumption|]. cbn [join]. apply Forall_app. split; [assumption|]. apply Forall_app. split; [|apply IH; assumption].
  constructor; [left; reflexivity | constructor].
Qed.
Lemma separate_ok c lo s : forall free n, ok c -> Forall ok s -> Forall ok (separate c lo s free n).
Proof.
  induction s as [|x s IH]; intros free n C F; cbn [separate].
  - apply Forall_forall. intros y H. apply repeat_spec in H. subst y. exact C.
  - inversion F; subst. assert (R : Forall ok (repeat c n)) by (apply Forall_forall; intros y H; apply repeat_spec in H; subst y; exact C).
    destruct (N.eqb x c); [apply IH; assumption|]. destruct (free && _ && _ && _).
    + apply Forall_app. split; [constructor; [left; reflexivity | constructor]|]. apply Forall_app. split; [exact R|]. apply Forall_app. split; [constructor; [left; reflexivity | constructor]|]. constructor; [assumption | apply IH; assumption].
    + apply Forall_app. split; [exact R|]. constructor; [assumption | apply IH; assumption].
Qed.
Lemma words_aux_ok (P : char -> Prop) s : forall cur, Forall P s -> Forall P cur -> Forall (Forall P) (words_aux s cur).
Proof.
  induction s as [|x s IH]; intros cur F C; cbn [words_aux].
  - destruct cur; [constructor|]. constructor; [apply Forall_rev, C | constructor].
  - inversion F; subst. destruct (is_space x).
    + destruct cur; [apply IH; [assumption | constructor]|]. constructor; [apply Forall_rev, C | apply IH; [assumption | constructor]].
    + apply IH; [assumption | constructor; assumption].
Qed.
Lemma word_ok line w : In w (line_words line) -> Forall ok w.
Proof.
  intros H. unfold line_words, words in H. assert (F : Forall (Forall ok) (words_aux (separate 45 2 (separate 46 3 (join ($" ") (pieces line [] 0)) false 0) false 0) [])).
  { apply words_aux_ok; [|constructor]. apply separate_ok; [left; reflexivity|]. apply separate_ok; [left; reflexivity|]. apply join_ok, pieces_ok; [constructor | lia | constructor]. }
  rewrite Forall_forall in F. apply F, H.
Qed.
Lemma core_ok w t : Forall ok w -> core w t -> Forall ok t.
Proof. intros F (a & b & -> & _). apply Forall_app in F as [_ F]. apply Forall_app in F as [F _]. exact F. Qed.
Lemma lower1_colon c : lower1 c = 58%N -> c = 58%N.
Proof.
  unfold lower1. destruct ((N.leb 65 c && N.leb c 90) || (N.leb 192 c && N.leb c 222 && negb (N.eqb c 215))) eqn:E; [|auto]. intros H. exfalso.
  apply orb_true_iff in E as [E | E]; [|apply andb_true_iff in E as [E _]]; apply andb_true_iff in E as [E1 E2]; apply N.leb_le in E1, E2; lia.
Qed.
Lemma lower_colon s : ~ In 58%N s -> ~ In 58%N (lower_text s).
Proof. intros H K. apply in_map_iff in K as (c & E & K). apply lower1_colon in E. subst c. contradiction. Qed.
Lemma letters_colon s : ~ In 58%N s -> ~ In 58%N (letters_only s).
Proof. intros H K. apply filter_In in K as [K _]. contradiction. Qed.

(** ** Words with characters outside the ordinary ones are short *)
Definition small (w : str) : Prop := Forall (fun c => plain c = true) w \/ length w <= 4.
Definition infix (w s : str) : Prop := exists p q, s = p ++ w ++ q.
Lemma small_infix w s : infix w s -> small s -> small w.
Proof.
  intros (p & q & ->) [F | L]; [left | right].
  - apply Forall_app in F as [_ F]. apply Forall_app in F as [F _]. exact F.
  - rewrite !app_length in L. lia.
Qed.
Lemma seq_len_4 x s : seq_len x s <= 4.
Proof. unfold seq_len. repeat match goal with |- context [if ?b then _ else _] => destruct b end; lia. Qed.
Lemma flush_small cur : small (rev cur) -> Forall small (flush cur).
Proof. intros H. destruct cur; [constructor|]. cbn [flush]. constructor; [exact H | constructor]. Qed.
Lemma pieces_small s : forall cur k, (k = 0 /\ Forall (fun c => plain c = true) cur) \/ (0 < k /\ length cur + k <= 4) -> Forall small (pieces s cur k).
Proof.
  induction s as [|x s IH]; intros cur k H; cbn [pieces].
  - apply flush_small. destruct H as [[_ H] | [_ H]]; [left; apply Forall_rev, H | right; rewrite rev_length; lia].
  - destruct k as [|[|k]].
    + destruct H as [[_ H] | [H _]]; [|lia]. destruct (plain x) eqn:P; [apply IH; left; split; [reflexivity | constructor; assumption]|].
      apply Forall_app. split; [apply flush_small; left; apply Forall_rev, H|]. pose proof (seq_len_4 x s) as L. destruct (seq_len x s) as [|[|n]].
      * apply IH. left. auto.
      * constructor; [right; cbn; lia | apply IH; left; auto].
      * apply IH. right. cbn [length]. lia.
    + destruct H as [[H _] | [_ H]]; [lia|]. constructor; [right; rewrite rev_length; cbn [length]; lia | apply IH; left; auto].
    + destruct H as [[H _] | [_ H]]; [lia|]. apply IH. right. cbn [length]. lia.
Qed.
(** Text with more blanks *)
Inductive spaced : str -> str -> Prop :=
| Snil : spaced [] []
| Skeep c s o : spaced s o -> spaced (c :: s) (c :: o)
| Sins s o : spaced s o -> spaced s (32%N :: o).
Lemma spaced_refl s : spaced s s.
Proof. induction s; constructor; assumption. Qed.
Lemma spaced_app a b c d : spaced a b -> spaced c d -> spaced (a ++ c) (b ++ d).
Proof. intros H K. induction H; cbn [app]; [exact K | constructor; assumption | constructor; assumption]. Qed.
Lemma spaced_prefix s o : spaced s o -> forall w q, o = w ++ q -> ~ In 32%N w -> exists q', s = w ++ q'.
Proof.
  intros H. induction H as [|c s o H IH|s o H IH]; intros [|x w] q E N; try (eexists; reflexivity); try discriminate; cbn [app] in E; injection E as E1 E2.
  - subst x. destruct (IH w q E2) as (q' & ->); [intros K; apply N; right; exact K|]. exists q'. reflexivity.
  - subst x. destruct N. left. reflexivity.
Qed.
Lemma spaced_infix s o : spaced s o -> forall w, infix w o -> ~ In 32%N w -> infix w s.
Proof.
  intros H. induction H as [|c s o H IH|s o H IH]; intros w (p & q & E) N.
  - exists p, q. exact E.
  - destruct p as [|x p].
    + destruct (spaced_prefix _ _ (Skeep c s o H) w q E N) as (q' & E'). exists [], q'. exact E'.
    + cbn [app] in E. injection E as <- E. destruct (IH w) as (p' & q' & ->); [exists p, q; exact E | exact N|]. exists (c :: p'), q'. reflexivity.
  - destruct p as [|x p].
    + destruct (spaced_prefix _ _ (Sins s o H) w q E N) as (q' & E'). exists [], q'. exact E'.
    + cbn [app] in E. injection E as <- E. apply IH; [exists p, q; exact E | exact N].
Qed.
Lemma separate_spaced c lo s : forall free n, spaced (repeat c n ++ s) (separate c lo s free n).
Proof.
  induction s as [|x s IH]; intros free n; cbn [separate].
  - rewrite app_nil_r. apply spaced_refl.
  - destruct (N.eqb_spec x c) as [-> | NE].
    + assert (repeat c n ++ c :: s = repeat c (S n) ++ s) as ->.
      { change (c :: s) with ([c] ++ s). rewrite app_assoc. f_equal. symmetry. apply (repeat_cons n c). }
      apply IH.
    + destruct (free && _ && _ && _).
      * apply (Sins _ (repeat c n ++ ($" ") ++ x :: _)). apply spaced_app; [apply spaced_refl|]. apply (Sins _ (x :: _)). constructor. apply (IH _ 0).
      * apply spaced_app; [apply spaced_refl|]. constructor. apply (IH _ 0).
Qed.
Lemma join_infix w l : infix w (join ($" ") l) -> ~ In 32%N w -> w = [] \/ exists x, In x l /\ infix w x.
Proof.
  intros (p & q & E) N. revert p E. induction l as [|x l IH]; intros p E.
  - left. cbn [join] in E. destruct p, w; cbn in E; try discriminate; reflexivity.
  - destruct l as [|y l]; [right; exists x; split; [left; reflexivity | exists p, q; exact E]|].
    assert (J : join ($" ") (x :: y :: l) = x ++ 32%N :: join ($" ") (y :: l)) by reflexivity. rewrite J in E. clear J.
    generalize dependent (join ($" ") (y :: l)). intros rest IH E.
    assert (G : forall u v t, x ++ 32%N :: rest = u ++ v ++ t -> ~ In 32%N v -> (exists t', x = u ++ v ++ t') \/ v = [] \/ (exists u', rest = u' ++ v ++ t)).
    { clear. induction x as [|c x IHx]; intros u v t E N.
      - destruct u as [|d u]; [|injection E as <- E; right; right; exists u; exact E]. destruct v as [|d v]; [auto|]. cbn in E. injection E as <- _. destruct N. left. reflexivity.
      - destruct u as [|d u].
        + destruct v as [|d v]; [auto|]. cbn [app] in E. injection E as <- E. destruct (IHx [] v t E) as [(t' & ->) | [-> | (u' & ->)]].
          * intros K; apply N; right; exact K.
          * left. exists t'. reflexivity.
          * left. exists x. reflexivity.
          * left. clear IHx. revert E. generalize (u' ++ v ++ t). intros z E. revert x E. induction v as [|e v IHv]; intros x E; [exists x; reflexivity|].
            destruct x as [|f x]; cbn [app] in E; injection E as E1 E2; [subst e; destruct N; right; left; reflexivity|]. subst f.
            destruct (IHv) with (x := x) as (t' & K); [intros [K | K]; apply N; [left; exact K | right; right; exact K] | exact E2|]. cbn [app] in K. injection K as ->. exists t'. reflexivity.
        + cbn [app] in E. injection E as <- E. destruct (IHx u v t E N) as [(t' & ->) | [-> | (u' & K)]]; [left; exists t'; reflexivity | auto | right; right; exists u'; exact K]. }
    destruct (G p w q E N) as [(t' & K) | [-> | (u' & K)]].
    + right. exists x. split; [left; reflexivity | exists p, t'; exact K].
    + left. reflexivity.
    + destruct (IH u' K) as [-> | (z & Hz & Iz)]; [left; reflexivity|]. right. exists z. split; [right; exact Hz | exact Iz].
Qed.
Lemma words_aux_infix s : forall cur w, (forall c, In c cur -> is_space c = false) -> In w (words_aux s cur) -> infix w (rev cur ++ s) /\ forall c, In c w -> is_space c = false.
Proof.
  induction s as [|x s IH]; intros cur w C H; cbn [words_aux] in H.
  - destruct cur as [|y cur]; [destruct H|]. destruct H as [<- | []]. split; [exists [], []; cbn [app]; reflexivity | intros c Hc; apply C, in_rev; exact Hc].
  - destruct (is_space x) eqn:E.
    + assert (K : forall v, In v (words_aux s []) -> infix v (rev cur ++ x :: s) /\ forall c, In c v -> is_space c = false).
      { intros v Hv. destruct (IH [] v) as [(p & q & E') K]; [intros c [] | exact Hv|]. split; [|exact K]. cbn [rev app] in E'. exists (rev cur ++ x :: p), q. rewrite E', <- app_assoc. reflexivity. }
      destruct cur as [|y cur]; [apply K, H|]. destruct H as [<- | H]; [|apply K, H]. split; [exists [], (x :: s); reflexivity | intros c Hc; apply C, in_rev; exact Hc].
    + destruct (IH (x :: cur) w) as [I K]; [intros c [<- | Hc]; [exact E | apply C, Hc] | exact H|]. split; [|exact K]. cbn [rev] in I. rewrite <- app_assoc in I. exact I.
Qed.
Lemma word_small line w : In w (line_words line) -> small w /\ forall c, In c w -> is_space c = false.
Proof.
  intros H. unfold line_words, words in H. destruct (words_aux_infix _ [] w (fun c K => match K with end) H) as [I S]. cbn [rev app] in I. split; [|exact S].
  assert (N : ~ In 32%N w) by (intros K; specialize (S _ K); discriminate S).
  apply (spaced_infix _ _ (separate_spaced 45 2 _ false 0)) in I; [|exact N]. cbn [repeat app] in I.
  apply (spaced_infix _ _ (separate_spaced 46 3 _ false 0)) in I; [|exact N]. cbn [repeat app] in I.
  apply join_infix in I; [|exact N]. destruct I as [-> | (x & Hx & I)]; [left; constructor|]. apply (small_infix w x I).
  pose proof (pieces_small line [] 0 (or_introl (conj eq_refl (Forall_nil _)))) as F. rewrite Forall_forall in F. apply F, Hx.
Qed.
Lemma never_foreign line w t : In w (line_words line) -> core w t -> ~ (long t /\ foreign t).
Proof.
  intros H (a & b & E & _) [[L _] (x & y & r & E' & Hx & _)]. destruct (small_infix t w (ex_intro _ a (ex_intro _ b E)) (proj1 (word_small line w H))) as [F | L']; [|lia].
  assert (SP : is_space x = false) by (apply (proj2 (word_small line w H)); subst w t; apply in_or_app; right; left; reflexivity).
  subst t. inversion F as [|? ? P _]; subst. revert P. unfold plain. rewrite SP. unfold alnum, letter, between, mem_char.
  assert (K2 : forall n, (n < 160)%N -> N.leb x n = false) by (intros n Hn; apply N.leb_gt; lia).
  rewrite (K2 90%N), (K2 122%N), (K2 57%N) by lia. rewrite !andb_false_r. cbn [orb]. rewrite orb_false_r. intros P. apply existsb_exists in P as (n & Hn & P). apply N.eqb_eq in P. subst n.
  vm_compute in Hn. repeat (destruct Hn as [Hn | Hn]; [lia|]). exact Hn.
Qed.
(** A body token: without prefix either no colon or an "s" or "8" in front *)
Lemma body_form r t s line w : In w (line_words line) -> used w t -> derived r [] t s -> ~ In 58%N s \/ exists u, s = 115%N :: u \/ s = 56%N :: u.
Proof.
  intros Hw (C & _ & _) D. assert (NC : ~ In 58%N t).
  { intros K. pose proof (core_ok w t (word_ok line w Hw) C) as F. rewrite Forall_forall in F. exact (ok_colon (F _ K)). }
  assert (K : forall k, kept r t k -> k = t \/ k = ($"sk:") ++ firstn 7 t) by (intros k [|]; auto).
  destruct D as [k H | k H NH | k H NH | k H NH | p s n _ _ _ _ _ _]; try (destruct (K k H) as [-> | ->]).
  - left. exact NC.
  - right. eexists. left. reflexivity.
  - left. apply lower_colon, NC.
  - right. eexists. left. reflexivity.
  - left. apply letters_colon, NC.
  - right. eexists. left. reflexivity.
  - left. apply lower_colon, letters_colon, NC.
  - right. eexists. left. reflexivity.
  - right. eexists. right. reflexivity.
Qed.
Lemma invisible_form t s : derived Body ($"I*:") t s -> exists u, s = 73%N :: u \/ s = 56%N :: u.
Proof. intros [k H | k H NH | k H NH | k H NH | p s' n _ _ _ _ _ _]; eexists; [left | left | left | left | right]; reflexivity. Qed.
Lemma header_form k t s : derived Header (($"H") ++ k ++ ($":")) t s -> ~ (long t /\ foreign t) -> exists u, s = 72%N :: u /\ In 58%N s.
Proof.
  intros [x H | x H NH | x H NH | x H NH | p s' n L F _ _ _ _] N; try congruence; [|destruct N; auto].
  eexists. split; [reflexivity|]. apply in_or_app. left. apply in_or_app. right. apply in_or_app. right. left. reflexivity.
Qed.
Lemma apart body inviz uris parsed r p line w t s k line' w' t' s' :
  line_of body inviz uris parsed r p line -> r <> Header -> In w (line_words line) -> used w t -> derived r p t s ->
  line_of body inviz uris parsed Header k line' -> In w' (line_words line') -> used w' t' -> derived Header k t' s' -> s <> s'.
Proof.
  intros L NH Hw U D L' Hw' U' D' E. subst s'. pose proof (never_foreign _ _ _ Hw' (proj1 U')) as N. inversion L' as [| | |n l' Hl]; subst. destruct (header_form _ _ _ D' N) as (u & -> & I).
  inversion L; subst; try congruence.
  - destruct (body_form _ _ _ _ _ Hw U D) as [K | (v & [K | K])]; [contradiction | discriminate | discriminate].
  - destruct (body_form _ _ _ _ _ Hw U D) as [K | (v & [K | K])]; [contradiction | discriminate | discriminate].
  - destruct (invisible_form _ _ D) as (v & [K | K]); discriminate.
Qed.
Lemma header_form_in v w k t s : In w (line_words v) -> used w t -> derived Header (($"H") ++ k ++ ($":")) t s -> exists u, s = 72%N :: u /\ In 58%N s.
Proof. intros Hw U D. apply (header_form k t s D). apply (never_foreign v w t Hw (proj1 U)). Qed.

(** ** Ordinary lines *)
Lemma pieces_plain s : forall cur, Forall (fun c => plain c = true) s -> pieces s cur 0 = flush (rev s ++ cur).
Proof.
  induction s as [|x s IH]; intros cur F; [reflexivity|]. inversion F; subst. cbn [pieces]. rewrite H1, IH by assumption. cbn [rev]. rewrite <- app_assoc. reflexivity.
Qed.
Lemma separate_id c lo s : forall free n, ~ (exists a b, repeat c n ++ s = a ++ repeat c lo ++ b) -> separate c lo s free n = repeat c n ++ s.
Proof.
  induction s as [|x s IH]; intros free n H; cbn [separate]; [rewrite app_nil_r; reflexivity|].
  destruct (N.eqb_spec x c) as [-> | NE].
  - assert (E : repeat c n ++ c :: s = repeat c (S n) ++ s).
    { change (c :: s) with ([c] ++ s). rewrite app_assoc. f_equal. symmetry. apply (repeat_cons n c). }
    rewrite E in *. apply IH, H.
  - assert (LT : Nat.leb lo n = false).
    { apply Nat.leb_gt. destruct (Nat.lt_ge_cases n lo) as [L | L]; [exact L|]. exfalso. apply H. exists (repeat c (n - lo)), (x :: s).
      rewrite app_assoc, <- repeat_app. repeat f_equal. lia. }
    rewrite LT, andb_false_r. cbn [andb]. rewrite IH; [reflexivity|]. intros (a & b & E). apply H. exists (repeat c n ++ x :: a), b. cbn [repeat app] in E. rewrite E, <- app_assoc. reflexivity.
Qed.
Lemma ordinary_words line : ordinary line -> line_words line = words line.
Proof.
  intros (P & D & S). unfold line_words. rewrite pieces_plain by exact P. rewrite app_nil_r.
  assert (join ($" ") (flush (rev line)) = line) as ->.
  { unfold flush. destruct (rev line) as [|x l] eqn:E; [apply (f_equal (@rev char)) in E; rewrite rev_involutive in E; cbn in E; subst; reflexivity|]. cbn [join]. rewrite <- E. apply rev_involutive. }
  rewrite (separate_id 46 3 line false 0) by exact D. cbn [repeat app]. rewrite (separate_id 45 2 line false 0) by exact S. reflexivity.
Qed.

(** ** Headers in any order *)
Section Order.
Variables chew_id chew_received chew_content_type : str -> str.
Variable find_addr : str -> option str.
Variable user_ignore : list str.
Notation special := (special chew_id chew_received chew_content_type find_addr).
Notation parse_header := (parse_header chew_id chew_received chew_content_type find_addr).
Notation header_values := (header_values chew_id chew_received chew_content_type find_addr user_ignore).
Notation one_header := (one_header chew_id chew_received chew_content_type find_addr user_ignore).
Notation parse_headers := (parse_headers chew_id chew_received chew_content_type find_addr user_ignore).
Notation tokenise := (tokenise chew_id chew_received chew_content_type find_addr user_ignore).

(** The effect on one key *)
Definition at_key (k h l v : str) (o : option str) : option str :=
  let o := if mem_str k (groups l) then Some (special l v) else o in
  if streqb (compress h) k then Some (match o with Some old => old ++ ($" ") ++ special l v | None => special l v end) else o.
Fixpoint at_key_all (k h : str) (vals : list str) (o : option str) : option str :=
  match vals with
  | [] => o
  | v :: r => if mem_str (lower h) user_ignore then at_key_all k h r o
              else at_key_all k (compress h) r (at_key k h (lower h) (rstrip_p is_space v) o)
  end.
Definition vals_of (hdrs : list (str * str)) (n : str) : list str :=
  let vals := get_all hdrs n in if streqb (lower n) ($"received") then last_two vals else vals.
Lemma groups_get k l v : forall gs p, dget k (fold_left (fun p g => dset g (special l v) p) gs p) = if mem_str k gs then Some (special l v) else dget k p.
Proof.
  induction gs as [|g gs IH]; intros p; [reflexivity|]. cbn [fold_left]. rewrite IH, dget_dset. change (mem_str k (g :: gs)) with (streqb k g || mem_str k gs).
  destruct (mem_str k gs); [rewrite orb_true_r; reflexivity|]. rewrite orb_false_r. destruct (streqb_spec g k), (streqb_spec k g); congruence.
Qed.
Lemma parse_get k h l v p : fst (parse_header h l v p) = compress h /\ dget k (snd (parse_header h l v p)) = at_key k h l v (dget k p).
Proof.
  unfold Model_BayesTok.parse_header, at_key. cbn [fst snd]. split; [reflexivity|]. rewrite dget_dset. destruct (streqb_spec (compress h) k) as [E | _]; [rewrite E|]; rewrite groups_get; reflexivity.
Qed.
Lemma values_get k vals : forall h p, dget k (header_values h vals p) = at_key_all k h vals (dget k p).
Proof.
  induction vals as [|v vals IH]; intros h p; [reflexivity|]. cbn [Model_BayesTok.header_values at_key_all]. destruct (mem_str (lower h) user_ignore); [apply IH|].
  destruct (parse_get k h (lower h) (rstrip_p is_space v) p) as [E1 E2]. destruct (parse_header h (lower h) (rstrip_p is_space v) p) as [h1 p1]. cbn [fst snd] in *. subst h1. rewrite IH, E2. reflexivity.
Qed.
Lemma headers_get k hdrs order : forall p, dget k (fold_left (one_header hdrs) order p) = fold_left (fun o n => at_key_all k n (vals_of hdrs n) o) order (dget k p).
Proof.
  induction order as [|n order IH]; intros p; [reflexivity|]. cbn [fold_left]. rewrite IH. unfold Model_BayesTok.one_header. rewrite values_get. reflexivity.
Qed.
Lemma fold_perm {A B} (f : B -> A -> B) l l' : Permutation l l' -> (forall x y o, In x l -> In y l -> f (f o x) y = f (f o y) x) -> forall o, fold_left f l o = fold_left f l' o.
Proof.
  intros P. induction P as [| x l l' P IH | x y l | l1 l2 l3 P1 IH1 P2 IH2]; intros C o; cbn [fold_left].
  - reflexivity.
  - apply IH. intros a b c Ha Hb. apply C; right; assumption.
  - rewrite (C y x); [reflexivity | left; reflexivity | right; left; reflexivity].
  - rewrite IH1 by exact C. apply IH2. intros a b c Ha Hb. apply C; apply (Permutation_in _ (Permutation_sym P1)); assumption.
Qed.
(** Names are lower case; then a compressed name stays. *)
Lemma compress_fix n : compress (compress n) = compress n.
Proof.
  unfold compress at 2 3. destruct (dget n compression) as [c|] eqn:E.
  - apply dget_In in E. unfold compression in E. repeat (destruct E as [E | E]; [injection E as _ <-; reflexivity|]). destruct E.
  - unfold compress. rewrite E. reflexivity.
Qed.
Lemma compress_cases n : lower n = n -> compress n = n \/ (n = $"x-spam-relays-trusted" /\ compress n = $"*RT") \/ (n = $"x-spam-relays-untrusted" /\ compress n = $"*RU").
Proof.
  intros L. unfold compress. destruct (dget n compression) as [c|] eqn:E; [|left; reflexivity]. apply dget_In in E. unfold compression in E.
  repeat (destruct E as [E | E]; [assert (K : n = fst (n, c)) by reflexivity; rewrite <- E in K; cbn [fst] in K; rewrite K in L; first [vm_compute in L; discriminate L | right; assert (K2 : c = snd (n, c)) by reflexivity; rewrite <- E in K2; cbn [snd] in K2; subst; auto]|]). destruct E.
Qed.
Lemma compress_lower n : lower n = n -> lower (compress n) = n \/ groups (lower (compress n)) = [].
Proof. intros L. destruct (compress_cases n L) as [-> | [[_ ->] | [_ ->]]]; [left; exact L | right; reflexivity | right; reflexivity]. Qed.
Lemma untouched k vals : forall h o, compress h = h -> streqb h k = false -> mem_str k (groups (lower h)) = false -> at_key_all k h vals o = o.
Proof.
  induction vals as [|v vals IH]; intros h o C N G; [reflexivity|]. cbn [at_key_all]. destruct (mem_str (lower h) user_ignore); [apply IH; assumption|].
  unfold at_key. rewrite C, N, G. apply IH; assumption.
Qed.
Lemma untouched_name k n vals o : lower n = n -> compress n <> k -> ~ In k (groups n) -> at_key_all k n vals o = o.
Proof.
  intros L N G. assert (N' : streqb (compress n) k = false) by (destruct (streqb_spec (compress n) k); [contradiction | reflexivity]).
  assert (G' : mem_str k (groups n) = false) by (destruct (mem_str k (groups n)) eqn:E; [apply mem_str_In in E; contradiction | reflexivity]).
  revert o. induction vals as [|v vals IH]; intros o; [reflexivity|]. cbn [at_key_all]. rewrite L. destruct (mem_str n user_ignore); [apply IH|].
  unfold at_key. rewrite N', G'. apply untouched; [apply compress_fix | exact N'|]. destruct (compress_lower n L) as [-> | ->]; [exact G' | reflexivity].
Qed.
Lemma groups_In k n : In k (groups n) <->
  (k = $"*MI" /\ In n [$"in-reply-to"; $"references"; $"message-id"]) \/ (k = $"*Ad" /\ In n [$"from"; $"to"; $"cc"]) \/ (k = $"*UA" /\ In n [$"x-mailer"; $"user-agent"]).
Proof.
  unfold groups. rewrite !in_app_iff. assert (G : forall g names, In k (if mem_str n names then [g] else []) <-> k = g /\ In n names).
  { intros g names. destruct (mem_str n names) eqn:E.
    - apply mem_str_In in E. split; [intros [<- | []]; auto | intros [-> _]; left; reflexivity].
    - split; [intros [] | intros [_ K]; apply mem_str_In in K; congruence]. }
  rewrite !G. tauto.
Qed.
(** Address headers give blanks *)
Hypothesis GROUP : address_group find_addr.
Lemma chew_addr_nil v : chew_addr find_addr v = [].
Proof.
  unfold chew_addr. destruct (find_addr v) as [g|] eqn:E; [|reflexivity]. destruct (GROUP _ _ E) as (c & r & -> & N). cbn iota. unfold mail_parts. cbn [rsplit1]. apply N.eqb_neq in N. rewrite N. reflexivity.
Qed.
Lemma special_addr l v : In l addr_headers -> special l v = [].
Proof.
  intros H. unfold Model_BayesTok.special. assert (mem_str l [$"message-id"; $"x-message-id"; $"resent-message-id"] = false) as ->.
  { destruct (mem_str l _) eqn:E; [|reflexivity]. apply mem_str_In in E. exfalso. destruct E as [<- | [<- | [<- | []]]]; vm_compute in H; repeat (destruct H as [H | H]; [discriminate H|]); exact H. }
  apply mem_str_In in H. rewrite H. apply chew_addr_nil.
Qed.
Lemma ad_all n vals : In n [$"from"; $"to"; $"cc"] -> forall o, at_key_all ($"*Ad") n vals o = o \/ at_key_all ($"*Ad") n vals o = Some [].
Proof.
  intros H. assert (F : lower n = n /\ compress n = n /\ mem_str ($"*Ad") (groups n) = true /\ streqb n ($"*Ad") = false /\ In n addr_headers) by (destruct H as [<- | [<- | [<- | []]]]; repeat split; try reflexivity; vm_compute; tauto).
  destruct F as (L & C & G & S & A). induction vals as [|v vals IH]; intros o; [left; reflexivity|]. cbn [at_key_all]. rewrite L, C. destruct (mem_str n user_ignore); [apply IH|].
  unfold at_key. rewrite G, C, S, (special_addr n _ A). destruct (IH (Some [])) as [K | K]; right; exact K.
Qed.
Lemma ad_const n vals o : In n [$"from"; $"to"; $"cc"] -> (forall o', at_key_all ($"*Ad") n vals o' = o') \/ at_key_all ($"*Ad") n vals o = Some [].
Proof.
  intros H. assert (F : lower n = n /\ compress n = n /\ mem_str ($"*Ad") (groups n) = true /\ streqb n ($"*Ad") = false /\ In n addr_headers) by (destruct H as [<- | [<- | [<- | []]]]; repeat split; try reflexivity; vm_compute; tauto).
  destruct F as (L & C & G & S & A). destruct (mem_str n user_ignore) eqn:U.
  - left. induction vals as [|v vals IH]; intros o'; [reflexivity|]. cbn [at_key_all]. rewrite L, U. apply IH.
  - destruct vals as [|v vals]; [left; reflexivity|]. right. cbn [at_key_all]. rewrite L, C, U. unfold at_key. rewrite G, C, S, (special_addr n _ A). destruct (ad_all n vals H (Some [])) as [K | K]; exact K.
Qed.
Lemma compress_inj n m : lower n = n -> lower m = m -> compress n = compress m -> n = m.
Proof.
  intros Ln Lm E. destruct (compress_cases n Ln) as [En | [[-> En] | [-> En]]], (compress_cases m Lm) as [Em | [[-> Em] | [-> Em]]]; rewrite En in E; try rewrite Em in E; try congruence.
  all: first [vm_compute in E; discriminate E | rewrite E in Ln; vm_compute in Ln; discriminate Ln | rewrite <- E in Lm; vm_compute in Lm; discriminate Lm | subst m; vm_compute in Lm; discriminate Lm].
Qed.
Lemma own_group n m k : lower n = n -> compress n = k -> In k (groups m) -> False.
Proof.
  intros L E G. assert (K : k = $"*MI" \/ k = $"*Ad" \/ k = $"*UA") by (apply groups_In in G; tauto).
  destruct (compress_cases n L) as [E' | [[_ E'] | [_ E']]]; rewrite E' in E; subst k; destruct K as [K | [K | K]]; try discriminate K; subst n; vm_compute in L; discriminate.
Qed.
Definition calm (names : list str) : Prop :=
  at_most_one [$"in-reply-to"; $"references"; $"message-id"] names /\ at_most_one [$"x-mailer"; $"user-agent"] names.
Lemma commute names hdrs k x y o : calm names -> (forall n, In n names -> lower n = n) -> In x names -> In y names ->
  at_key_all k y (vals_of hdrs y) (at_key_all k x (vals_of hdrs x) o) = at_key_all k x (vals_of hdrs x) (at_key_all k y (vals_of hdrs y) o).
Proof.
  intros [MI UA] LO Hx Hy. pose proof (LO x Hx) as Lx. pose proof (LO y Hy) as Ly. destruct (list_eq_dec N.eq_dec x y) as [-> | NE]; [reflexivity|].
  assert (T : forall n, In n names -> (compress n = k \/ In k (groups n)) \/ forall o, at_key_all k n (vals_of hdrs n) o = o).
  { intros n Hn. destruct (list_eq_dec N.eq_dec (compress n) k) as [E | N1]; [auto|]. destruct (in_dec (list_eq_dec N.eq_dec) k (groups n)) as [G | N2]; [auto|]. right. intros o'. apply untouched_name; auto. }
  destruct (T x Hx) as [Tx | Tx]; [|rewrite !Tx; reflexivity]. destruct (T y Hy) as [Ty | Ty]; [|rewrite !Ty; reflexivity].
  destruct Tx as [Ex | Gx], Ty as [Ey | Gy].
  - destruct NE. apply compress_inj; congruence.
  - destruct (own_group x y k Lx Ex Gy).
  - destruct (own_group y x k Ly Ey Gx).
  - apply groups_In in Gx, Gy. destruct Gx as [[-> Gx] | [[-> Gx] | [-> Gx]]], Gy as [[K Gy] | [[K Gy] | [K Gy]]]; try discriminate K.
    + destruct NE. apply MI; assumption.
    + destruct (ad_const x (vals_of hdrs x) o Gx) as [Ax | Ax]; [rewrite !Ax; reflexivity|]. destruct (ad_const y (vals_of hdrs y) o Gy) as [Ay | Ay]; [rewrite !Ay; reflexivity|].
      rewrite Ax, Ay. destruct (ad_all y (vals_of hdrs y) Gy (Some [])) as [-> | ->], (ad_all x (vals_of hdrs x) Gx (Some [])) as [-> | ->]; reflexivity.
    + destruct NE. apply UA; assumption.
Qed.
Lemma headers_perm names order hdrs : calm names -> (forall n, In n names -> lower n = n) -> Permutation names order ->
  forall k, dget k (parse_headers names hdrs) = dget k (parse_headers order hdrs).
Proof.
  intros C L P k. unfold Model_BayesTok.parse_headers. rewrite !headers_get. apply fold_perm; [exact P|]. intros x y o Hx Hy. apply (commute names); assumption.
Qed.
Lemma parsed_NoDup order hdrs : NoDup (dkeys (parse_headers order hdrs)).
Proof.
  unfold Model_BayesTok.parse_headers. assert (G : forall p, NoDup (dkeys p) -> NoDup (dkeys (fold_left (one_header hdrs) order p))); [|apply G; constructor].
  induction order as [|n order IH]; intros p N; [exact N|]. cbn [fold_left]. apply IH. unfold Model_BayesTok.one_header.
  generalize (if streqb (lower n) ($"received") then last_two (get_all hdrs n) else get_all hdrs n). intros vals. revert n p N.
  induction vals as [|v vals IHv]; intros n p N; [exact N|]. cbn [Model_BayesTok.header_values]. destruct (mem_str (lower n) user_ignore); [apply IHv, N|].
  unfold Model_BayesTok.parse_header. cbn iota. apply IHv. apply dset_NoDup. revert p N. generalize (special (lower n) (rstrip_p is_space v)). intros u. induction (groups (lower n)) as [|g gs IHg]; intros p N; [exact N|].
  cbn [fold_left]. apply IHg, dset_NoDup, N.
Qed.
Lemma header_names_lower hdrs n : In n (header_names hdrs) -> lower n = n.
Proof.
  intros H. unfold header_names in H. apply filter_In in H as [H _]. apply nodup_In in H. apply in_map_iff in H as (e & <- & _). apply lower_idem.
Qed.
Lemma tokens_equal parsed parsed' fuel body inviz uris hdrs order order' : parsed = parse_headers order hdrs -> parsed' = parse_headers order' hdrs ->
  (forall k, dget k parsed = dget k parsed') -> same_elements (tokenise fuel order body inviz uris hdrs) (tokenise fuel order' body inviz uris hdrs).
Proof.
  intros -> -> E. assert (I : forall k v, In (k, v) (parse_headers order hdrs) <-> In (k, v) (parse_headers order' hdrs)).
  { intros k v. split; intros H; apply In_dget in H; try apply parsed_NoDup; apply dget_In; congruence. }
  unfold same_elements. destruct (tokenise fuel order body inviz uris hdrs) as [| |l] eqn:T1, (tokenise fuel order' body inviz uris hdrs) as [| |m] eqn:T2; try exact I; try exact Logic.I.
  - apply tokenise_runs in T1. assert (K : tokenise fuel order' body inviz uris hdrs = Runs) by (apply tokenise_runs, T1). congruence.
  - apply tokenise_runs in T1. assert (K : tokenise fuel order' body inviz uris hdrs = Runs) by (apply tokenise_runs, T1). congruence.
  - apply tokenise_runs in T2. assert (K : tokenise fuel order body inviz uris hdrs = Runs) by (apply tokenise_runs, T2). congruence.
  - apply tokenise_raises in T1. assert (K : tokenise fuel order' body inviz uris hdrs = Raises) by (apply tokenise_raises, T1). congruence.
  - apply tokenise_runs in T2. assert (K : tokenise fuel order body inviz uris hdrs = Runs) by (apply tokenise_runs, T2). congruence.
  - apply tokenise_raises in T2. assert (K : tokenise fuel order body inviz uris hdrs = Raises) by (apply tokenise_raises, T2). congruence.
  - apply tokenise_tokens in T1 as [N1 T1]. apply tokenise_tokens in T2 as [N2 T2]. apply NoDup_Permutation; [exact N1 | exact N2|]. intros s. rewrite T1, T2.
    assert (LO : forall r p line, line_of body inviz uris (parse_headers order hdrs) r p line <-> line_of body inviz uris (parse_headers order' hdrs) r p line).
    { intros r p line. split; intros [x H | x H | x H | k x H]; constructor; try assumption; apply I, H. }
    setoid_rewrite LO. reflexivity.
Qed.
Lemma order_free fuel order body inviz uris hdrs : calm (header_names hdrs) -> Permutation (header_names hdrs) order ->
  same_elements (tokenise fuel (header_names hdrs) body inviz uris hdrs) (tokenise fuel order body inviz uris hdrs).
Proof. intros C P. eapply tokens_equal; [reflexivity | reflexivity|]. apply headers_perm; [exact C | apply header_names_lower | exact P]. Qed.

(** ** Address headers *)
Lemma addr_compress l : In l addr_headers -> compress l = l /\ lower l = l /\ streqb l ($"received") = false.
Proof. intros H. unfold addr_headers in H. repeat (destruct H as [<- | H]; [repeat split; reflexivity|]). destruct H. Qed.
Lemma addr_values n : In n addr_headers -> forall vals vals' p, length vals = length vals' -> header_values n vals p = header_values n vals' p.
Proof.
  intros A. destruct (addr_compress n A) as (C & L & _). induction vals as [|v vals IH]; intros [|v' vals'] p H; try discriminate; [reflexivity|].
  injection H as H. cbn [Model_BayesTok.header_values]. rewrite L. destruct (mem_str n user_ignore); [apply IH, H|]. unfold Model_BayesTok.parse_header. rewrite !special_addr by exact A. rewrite C. apply IH, H.
Qed.
Lemma addr_one hdrs hdrs' n p : lower n = n -> same_but_addresses hdrs hdrs' -> one_header hdrs p n = one_header hdrs' p n.
Proof.
  intros L S. unfold Model_BayesTok.one_header. rewrite L.
  assert (G : length (get_all hdrs n) = length (get_all hdrs' n) /\ (In n addr_headers \/ get_all hdrs n = get_all hdrs' n)).
  { unfold get_all. rewrite L. induction S as [|e e' hdrs hdrs' (E & V) S (IH1 & IH2)]; [auto|]. cbn [filter]. rewrite <- E.
    destruct (streqb_spec (lower (fst e)) n) as [K | _]; [|auto]. cbn [map length]. split; [congruence|]. destruct IH2 as [IH2 | IH2]; [auto|]. rewrite K in V. destruct V as [-> | V]; [right; congruence | auto]. }
  destruct G as [GL [A | ->]]; [|reflexivity]. destruct (addr_compress n A) as (_ & _ & ->). apply addr_values; assumption.
Qed.
Lemma addr_free fuel order body inviz uris hdrs hdrs' : (forall n, In n order -> lower n = n) -> same_but_addresses hdrs hdrs' ->
  tokenise fuel order body inviz uris hdrs = tokenise fuel order body inviz uris hdrs'.
Proof.
  intros L S. unfold Model_BayesTok.tokenise. assert (parse_headers order hdrs = parse_headers order hdrs') as ->; [|reflexivity].
  unfold Model_BayesTok.parse_headers. generalize (@nil (str * str)). induction order as [|n order IH]; intros p; [reflexivity|]. cbn [fold_left].
  rewrite (addr_one hdrs hdrs' n p (L n (or_introl eq_refl)) S). apply IH. intros m Hm. apply L. right. exact Hm.
Qed.

(** ** What is read of each header *)
Lemma special_shown n v : shown chew_id chew_received chew_content_type n v (special n v).
Proof.
  unfold Model_BayesTok.special. change [$"message-id"; $"x-message-id"; $"resent-message-id"] with id_headers.
  destruct (mem_str n id_headers) eqn:E1; [apply mem_str_In in E1; constructor; exact E1|].
  destruct (mem_str n addr_headers) eqn:E2; [apply mem_str_In in E2; rewrite chew_addr_nil; constructor; exact E2|].
  destruct (streqb_spec n ($"received")) as [-> | N1]; [constructor|]. destruct (streqb_spec n ($"content-type")) as [-> | N2]; [constructor|].
  destruct (streqb_spec n ($"mime-version")) as [-> | N3]; [constructor|].
  destruct (mem_str n presence_headers) eqn:E3; [apply mem_str_In in E3; constructor; exact E3|].
  apply Sother; try assumption. change address_fields with addr_headers. change presence_fields with presence_headers. rewrite !in_app_iff. intros [K | [K | K]]; apply mem_str_In in K; congruence.
Qed.
Lemma vals_used hdrs n : lower n = n -> values_used hdrs n (vals_of hdrs n).
Proof.
  intros L. unfold values_used, vals_of. assert (get_all hdrs n = all_values hdrs n) as -> by (unfold get_all, all_values; rewrite L; reflexivity). rewrite L.
  destruct (streqb_spec n ($"received")) as [E | E]; [|left; auto]. right. generalize (all_values hdrs n). intros l. unfold last_two.
  destruct (Nat.le_gt_cases (length l) 2) as [H | H]; [left; replace (length l - 2) with 0 by lia; auto|]. right. split; [exact E|].
  destruct (rev l) as [|b [|a r]] eqn:R; apply (f_equal (@length str)) in R as LR; rewrite rev_length in LR; cbn in LR; try lia.
  apply (f_equal (@rev str)) in R. rewrite rev_involutive in R. cbn [rev] in R. rewrite <- app_assoc in R. cbn [app] in R. subst l. exists (rev r), a, b. split; [reflexivity|].
  rewrite app_length. cbn [length]. replace (length (rev r) + 2 - 2) with (length (rev r)) by lia. clear; induction (rev r) as [|x l IH]; [reflexivity | exact IH].
Qed.
Lemma own_values n vals : compress n = n -> lower n = n -> ~ In n (groups n) -> mem_str n user_ignore = false -> forall o,
  at_key_all n n vals o = match o, vals with
                          | _, [] => o
                          | None, _ => Some (join ($" ") (map (fun v => special n (rstrip_p is_space v)) vals))
                          | Some x, _ => Some (x ++ ($" ") ++ join ($" ") (map (fun v => special n (rstrip_p is_space v)) vals))
                          end.
Proof.
  intros C L G U. assert (G' : mem_str n (groups n) = false) by (destruct (mem_str n (groups n)) eqn:E; [apply mem_str_In in E; contradiction | reflexivity]).
  induction vals as [|v vals IH]; intros o; [destruct o; reflexivity|]. cbn [at_key_all]. rewrite L, U, C. unfold at_key. rewrite G', C, streqb_refl, IH.
  destruct o as [x|], vals as [|w vals]; try reflexivity. cbn [map]. change (join ($" ") (?a :: ?b :: ?l)) with (a ++ ($" ") ++ join ($" ") (b :: l)). rewrite <- !app_assoc. reflexivity.
Qed.
Lemma fold_others n hdrs l : compress n = n -> lower n = n -> ~ In n l -> (forall m, In m l -> lower m = m) -> forall o,
  fold_left (fun o m => at_key_all n m (vals_of hdrs m) o) l o = o.
Proof.
  intros C L. induction l as [|m l IH]; intros NI LO o; [reflexivity|]. cbn [fold_left]. rewrite untouched_name.
  - apply IH; [intros K; apply NI; right; exact K | intros x Hx; apply LO; right; exact Hx].
  - apply LO. left. reflexivity.
  - intros E. apply NI. left. apply compress_inj; [apply LO; left; reflexivity | exact L | congruence].
  - intros G. exact (own_group n m n L C G).
Qed.
Lemma header_read order hdrs n : NoDup order -> (forall m, In m order -> lower m = m) -> In n order -> compress n = n -> ~ In n user_ignore ->
  exists vals us, values_used hdrs n vals /\ Forall2 (fun v u => shown chew_id chew_received chew_content_type n (rstrip_p is_space v) u) vals us /\
    dget n (parse_headers order hdrs) = match vals with [] => None | _ => Some (join ($" ") us) end.
Proof.
  intros ND LO I C U. pose proof (LO n I) as L. exists (vals_of hdrs n), (map (fun v => special n (rstrip_p is_space v)) (vals_of hdrs n)).
  split; [apply vals_used, L|]. split; [induction (vals_of hdrs n); cbn [map]; constructor; [apply special_shown | assumption]|].
  unfold Model_BayesTok.parse_headers. rewrite headers_get. apply in_split in I as (l1 & l2 & ->). rewrite fold_left_app. cbn [fold_left].
  apply NoDup_remove_2 in ND. rewrite in_app_iff in ND.
  rewrite (fold_others n hdrs l1 C L); [|tauto | intros m Hm; apply LO, in_or_app; left; exact Hm].
  rewrite (fold_others n hdrs l2 C L); [|tauto | intros m Hm; apply LO, in_or_app; right; right; exact Hm].
  rewrite own_values; [| exact C | exact L | intros G; exact (own_group n n n L C G) | destruct (mem_str n user_ignore) eqn:E; [apply mem_str_In in E; contradiction | reflexivity]].
  destruct (vals_of hdrs n); reflexivity.
Qed.
Lemma header_ignored order hdrs n : (forall m, In m order -> lower m = m) -> compress n = n -> lower n = n -> In n user_ignore \/ ~ In n order ->
  dget n (parse_headers order hdrs) = None.
Proof.
  intros LO C L H. unfold Model_BayesTok.parse_headers. rewrite headers_get. change (dget n []) with (@None str). generalize (@None str). intros o. revert o.
  induction order as [|m order IH]; intros o; [reflexivity|]. cbn [fold_left].
  assert (R : at_key_all n m (vals_of hdrs m) o = o).
  { destruct (list_eq_dec N.eq_dec m n) as [-> | NE].
    - destruct H as [H | H]; [|destruct H; left; reflexivity]. apply mem_str_In in H. induction (vals_of hdrs n) as [|v vals IHv]; [reflexivity|]. cbn [at_key_all]. rewrite L, H. exact IHv.
    - apply untouched_name; [apply LO; left; reflexivity | intros E; apply NE, compress_inj; [apply LO; left; reflexivity | exact L | congruence] | intros G; exact (own_group n m n L C G)]. }
  rewrite R. apply IH; [intros x Hx; apply LO; right; exact Hx | destruct H as [H | H]; [left; exact H | right; intros K; apply H; right; exact K]].
Qed.
Lemma header_names_In hdrs n : In n (header_names hdrs) <-> (exists e, In e hdrs /\ lower (fst e) = n) /\ ~ In n ignored_headers.
Proof.
  unfold header_names. rewrite filter_In, nodup_In, in_map_iff, negb_true_iff. split.
  - intros [(e & E & I) K]. split; [exists e; auto|]. intros J. apply mem_str_In in J. congruence.
  - intros [(e & E & I) K]. split; [exists e; auto|]. destruct (mem_str n ignored_headers) eqn:J; [apply mem_str_In in J; contradiction | reflexivity].
Qed.
(** Groups *)
Lemma group_values g n vals : lower n = n -> compress n = n -> n <> g -> In g (groups n) -> mem_str n user_ignore = false -> forall o,
  at_key_all g n vals o = match rev vals with [] => o | v :: _ => Some (special n (rstrip_p is_space v)) end.
Proof.
  intros L C NE G U. apply mem_str_In in G. induction vals as [|v vals IH]; intros o; [reflexivity|]. cbn [at_key_all]. rewrite L, U, C. unfold at_key. rewrite G, C. destruct (streqb_spec n g); [contradiction|].
  rewrite IH. cbn [rev]. destruct (rev vals); reflexivity.
Qed.
Lemma group_read g n order hdrs : g = $"*MI" \/ g = $"*UA" -> In g (groups n) -> In n order -> NoDup order -> (forall m, In m order -> lower m = m) -> calm order -> ~ In n user_ignore ->
  dget g (parse_headers order hdrs) = match rev (vals_of hdrs n) with [] => None | v :: _ => Some (special n (rstrip_p is_space v)) end.
Proof.
  intros Gg G I ND LO [MI UA] U. assert (F : lower n = n /\ compress n = n /\ n <> g).
  { apply groups_In in G. destruct G as [[-> G] | [[-> G] | [-> G]]]; repeat (destruct G as [<- | G]; [repeat split; try reflexivity; intros K; vm_compute in K; discriminate K|]); destruct G. }
  destruct F as (L & C & NE). unfold Model_BayesTok.parse_headers. rewrite headers_get. change (dget g []) with (@None str).
  assert (O : forall l, (forall m, In m l -> In m order /\ m <> n) -> forall o, fold_left (fun o m => at_key_all g m (vals_of hdrs m) o) l o = o).
  { induction l as [|m l IH]; intros H o; [reflexivity|]. cbn [fold_left]. destruct (H m (or_introl eq_refl)) as [Hm Nm]. rewrite untouched_name.
    - apply IH. intros x Hx. apply H. right. exact Hx.
    - apply LO, Hm.
    - intros E. exact (own_group m n g (LO m Hm) E G).
    - intros Gm. apply Nm. apply groups_In in G, Gm. destruct G as [[E1 G] | [[E1 G] | [E1 G]]], Gm as [[E2 Gm] | [[E2 Gm] | [E2 Gm]]]; try (rewrite E1 in E2; vm_compute in E2; discriminate E2).
      + apply MI; assumption.
      + destruct Gg as [Gg | Gg]; rewrite E1 in Gg; vm_compute in Gg; discriminate Gg.
      + apply UA; assumption. }
  apply in_split in I as (l1 & l2 & ->). rewrite fold_left_app. cbn [fold_left]. apply NoDup_remove_2 in ND. rewrite in_app_iff in ND.
  rewrite (O l1); [|intros m Hm; split; [apply in_or_app; auto | intros ->; tauto]].
  rewrite (O l2); [|intros m Hm; split; [apply in_or_app; right; right; exact Hm | intros ->; tauto]].
  rewrite group_values; [reflexivity | exact L | exact C | exact NE | exact G | destruct (mem_str n user_ignore) eqn:E; [apply mem_str_In in E; contradiction | reflexivity]].
Qed.
End Order.

Lemma words_solid w : w <> [] -> Forall (fun c => is_space c = false) w -> words w = [w].
Proof.
  intros N F. unfold words. assert (G : forall cur, cur ++ w <> [] -> words_aux w (rev cur) = [cur ++ w]); [|apply (G []), N].
  clear N. induction F as [|c w C _ IH]; intros cur N; cbn [words_aux].
  - rewrite app_nil_r in *. destruct (rev cur) as [|y l] eqn:E; [apply (f_equal (@rev _)) in E; rewrite rev_involutive in E; contradiction|]. rewrite <- E, rev_involutive. reflexivity.
  - rewrite C. specialize (IH (cur ++ [c])). rewrite rev_app_distr in IH. cbn [rev app] in IH. rewrite <- app_assoc in IH. apply IH. destruct cur; discriminate.
Qed.
Lemma utf8_word b : utf8_bytes b -> line_words b = [b].
Proof.
  intros (x & r & -> & F & H). assert (X : (192 <= x <= 244)%N) by lia.
  assert (HI : forall c, (128 <= c)%N -> plain c = is_space c).
  { intros c L. unfold plain, alnum, mem_char. repeat match goal with |- context [N.leb c ?k] => rewrite (proj2 (N.leb_gt c k)) by lia end. rewrite !andb_false_r. cbn [orb].
    replace (existsb _ _) with false; [reflexivity|]. symmetry. apply not_true_is_false. intros K. apply existsb_exists in K as (y & K & E). apply N.eqb_eq in E. subst y. vm_compute in K. repeat (destruct K as [K|K]; [lia|]). destruct K. }
  assert (XS : is_space x = false).
  { unfold is_space. repeat match goal with |- context [N.eqb x ?k] => rewrite (proj2 (N.eqb_neq x k)) by lia end.
    repeat match goal with |- context [N.leb x ?k] => rewrite (proj2 (N.leb_gt x k)) by lia end. rewrite (proj2 (N.leb_gt 8192 x)) by lia. rewrite !andb_false_r. reflexivity. }
  assert (CO : forall c, (128 <= c <= 191)%N -> cont c = true) by (intros c C; unfold cont, between; apply andb_true_iff; split; apply N.leb_le; lia).
  assert (B : forall lo hi, (lo <= x <= hi)%N -> between lo hi x = true) by (intros lo hi C; unfold between; apply andb_true_iff; split; apply N.leb_le; lia).
  assert (NB : forall lo hi, (x < lo \/ hi < x)%N -> between lo hi x = false) by (intros lo hi C; unfold between; apply andb_false_iff; destruct C; [left|right]; apply N.leb_gt; lia).
  assert (P : pieces (x :: r) [] 0 = [x :: r]).
  { cbn [pieces]. rewrite HI by lia. rewrite XS. cbn [flush app]. unfold seq_len.
    destruct H as [[X1 L]|[[X1 L]|[X1 L]]]; (repeat (destruct r as [|? r]; [discriminate L|]; try (destruct r; [|discriminate L]))); repeat (apply Forall_cons_iff in F as [[? ?] F]); cbn [firstn filter]; rewrite !CO by assumption; cbn [length Nat.eqb].
    - rewrite (B 192 223)%N by exact X1. reflexivity.
    - rewrite (NB 192 223)%N by lia. rewrite (B 224 239)%N by exact X1. reflexivity.
    - rewrite (NB 192 223)%N by lia. rewrite (NB 224 239)%N by lia. rewrite (B 240 244)%N by exact X1. reflexivity. }
  unfold line_words. rewrite P. cbn [join].
  assert (SF : forall c lo s free n, (c < 128)%N -> n < lo -> Forall (fun y => (128 <= y)%N) s -> separate c lo s free n = repeat c n ++ s).
  { intros c lo s. induction s as [|y s IH]; intros free n C L G; [cbn [separate]; rewrite app_nil_r; reflexivity|]. apply Forall_cons_iff in G as [G1 G2]. cbn [separate].
    destruct (N.eqb_spec y c); [lia|]. replace (lo <=? n)%nat with false by (symmetry; apply Nat.leb_gt; lia). rewrite andb_false_r. cbn [andb]. rewrite IH by (auto; lia). reflexivity. }
  assert (HG : Forall (fun y => (128 <= y)%N) (x :: r)) by (constructor; [lia|]; eapply Forall_impl; [|exact F]; intros y [Y _]; lia).
  rewrite (SF 46%N 3) by (auto; lia). cbn [repeat app]. rewrite (SF 45%N 2) by (auto; lia). cbn [repeat app].
  apply words_solid; [discriminate|]. constructor; [exact XS|]. eapply Forall_impl; [|exact F]. intros y [_ Y]. exact Y.
Qed.
(** ** Every word of an ordinary line is kept *)
Lemma whole_kept r p w : Forall (fun c => letter c = true) w -> 3 <= length w <= 15 -> ~ In w stop_words -> r <> Uris -> used w w /\ derived r p w (p ++ w).
Proof.
  intros F L S NU. assert (NP : forall c, In c w -> ~ In c punctuation).
  { intros c Hc. rewrite Forall_forall in F. specialize (F c Hc). intros K. unfold punctuation in K. vm_compute in K. repeat (destruct K as [<- | K]; [vm_compute in F; discriminate|]). exact K. }
  split.
  - split; [|split; [lia | exact S]]. exists [], []. rewrite app_nil_r. split; [reflexivity|]. split; [constructor|]. split; [constructor|]. split.
    + intros c r' ->. apply NP. left. reflexivity.
    + intros c r' ->. apply NP. apply in_or_app. right. left. reflexivity.
  - constructor. constructor; [left; intros [K _]; lia | intros [[K _] _]; lia].
Qed.
Lemma load_filter lines_of s ps h : load lines_of {| m_subject := s; m_parts := ps; m_headers := h |} =
  load lines_of {| m_subject := s; m_parts := filter (fun p => match p with Plain _ => true | Other _ => false end) ps; m_headers := [] |}.
Proof.
  unfold load, rendered. cbn [m_subject m_parts]. f_equal. f_equal. f_equal. f_equal. induction ps as [|[t|t] ps IH]; [reflexivity| |exact IH]. cbn [filter flat_map]. rewrite IH. reflexivity.
Qed.
Lemma told_apart i rc ct fa ign fuel order body inviz uris hdrs l s : tokenise i rc ct fa ign fuel order body inviz uris hdrs = Tokens l -> In s l ->
  (exists u, s = 72%N :: u /\ In 58%N s) <->
  exists k v w t, In (k, v) (parse_headers i rc ct fa ign order hdrs) /\ In w (line_words v) /\ used w t /\ derived Header (($"H") ++ k ++ ($":")) t s.
Proof.
  intros T H. apply tokenise_tokens in T as [_ T]. apply T in H as (NE & r & p & line & w & t & L & Hw & U & D). split.
  - intros (u & -> & I). inversion L; subst.
    + destruct (body_form _ _ _ _ _ Hw U D) as [K | (v & [K | K])]; [contradiction | discriminate | discriminate].
    + destruct (body_form _ _ _ _ _ Hw U D) as [K | (v & [K | K])]; [contradiction | discriminate | discriminate].
    + destruct (invisible_form _ _ D) as (v & [K | K]); discriminate.
    + eauto 10.
  - intros (k & v & w' & t' & _ & Hw' & U' & D'). apply (header_form_in v w' k t' s Hw' U' D').
Qed.
Lemma own_words i rc ct fa ign lines_of fuel loaded m order l line w t :
  tokenise_after lines_of i rc ct fa ign fuel loaded m order = Tokens l -> In line (lines_of (join [10%N] (rendered loaded))) ->
  In w (line_words line) -> used w t -> (length t <= 15) -> In t l.
Proof.
  intros T Hl Hw U L. unfold tokenise_after, load in T. cbn [s_body s_inviz s_uris] in T. apply tokenise_tokens in T as [_ T]. apply T.
  split; [destruct U as (_ & U & _); intros ->; cbn in U; lia|]. exists Body, [], line, w, t. split; [constructor; exact Hl|]. split; [exact Hw|]. split; [exact U|].
  apply (Ditself Body [] t t). constructor; [left; intros [K _]; lia | intros [[K _] _]; lia].
Qed.
Lemma groups_read i rc ct fa ign order hdrs n g : address_group fa -> NoDup order -> (forall m, In m order -> lower m = m) ->
  at_most_one [$"in-reply-to"; $"references"; $"message-id"] order -> at_most_one [$"x-mailer"; $"user-agent"] order ->
  (g = $"*MI" /\ In n [$"in-reply-to"; $"references"; $"message-id"]) \/ (g = $"*UA" /\ In n [$"x-mailer"; $"user-agent"]) ->
  In n order -> ~ In n ign ->
  exists vals us, vals = all_values hdrs n /\ Forall2 (fun v u => shown i rc ct n (rstrip_p is_space v) u) vals us /\
    dget g (parse_headers i rc ct fa ign order hdrs) = match rev us with [] => None | u :: _ => Some u end.
Proof.
  intros GR ND LO MI UA H I U. exists (all_values hdrs n), (map (fun v => special i rc ct fa n (rstrip_p is_space v)) (all_values hdrs n)). split; [reflexivity|].
  split; [induction (all_values hdrs n); cbn [map]; constructor; [apply special_shown; assumption | assumption]|].
  assert (V : vals_of hdrs n = all_values hdrs n).
  { unfold vals_of, get_all, all_values. rewrite (LO n I). destruct (streqb_spec n ($"received")) as [E | _]; [|reflexivity].
    exfalso. subst n. destruct H as [[_ H] | [_ H]]; vm_compute in H; repeat (destruct H as [H | H]; [discriminate H|]); exact H. }
  assert (G : In g (groups n)) by (apply (proj2 (groups_In i rc ct fa g n)); tauto). assert (G' : g = $"*MI" \/ g = $"*UA") by (destruct H as [[E _] | [E _]]; auto).
  rewrite <- V, <- map_rev. rewrite (group_read i rc ct fa ign g n order hdrs G' G I ND LO (conj MI UA) U). destruct (rev (vals_of hdrs n)); reflexivity.
Qed.
