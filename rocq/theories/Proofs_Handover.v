(** Proofs about the headers of a hand-over. *)
From Verif Require Import PyStr Regexp Proofs_Regexp Proofs_RegexpFail Model_Received Spec_Received Proofs_Received Proofs_ReceivedIp.
From Verif Require Model_Relays Spec_Relays Proofs_Relays.

(** ** Unfolded headers *)
Lemma tidy_tail c h : tidy (c :: h) -> tidy h.
Proof.
  intros [H1 H2]. split; [intros x Hx; apply H1; right; exact Hx|]. intros x d e y ->. exact (H2 (c :: x) d e y eq_refl).
Qed.
Lemma collapse_tidy h : forall b, tidy h -> (b = true -> match h with c :: _ => is_space c = false | [] => True end) -> collapse b h = h.
Proof.
  induction h as [|c h IH]; intros b Ht Hb; [reflexivity|]. cbn [collapse]. destruct (is_space c) eqn:E.
  - destruct b; [specialize (Hb eq_refl); congruence|]. destruct Ht as [H1 H2] eqn:Et. rewrite (H1 c (or_introl eq_refl) E). f_equal.
    apply IH; [eapply tidy_tail; split; eassumption|]. intros _. destruct h as [|d h]; [exact I|]. exact (H2 [] c d h eq_refl E).
  - f_equal. apply IH; [eapply tidy_tail, Ht|]. discriminate.
Qed.
Lemma collapse_app_tidy h : forall b t, tidy h -> (b = true -> match h with c :: _ => is_space c = false | [] => False end) ->
  exists b', collapse b (h ++ t) = h ++ collapse b' t.
Proof.
  induction h as [|c h IH]; intros b t Ht Hb.
  - destruct b; [destruct (Hb eq_refl)|]. exists false. reflexivity.
  - cbn [collapse app]. destruct (is_space c) eqn:E.
    + destruct b; [specialize (Hb eq_refl); congruence|]. destruct Ht as [H1 H2] eqn:Et. rewrite (H1 c (or_introl eq_refl) E).
      destruct h as [|d h].
      * exists true. reflexivity.
      * destruct (IH true t) as [b' Eb]; [eapply tidy_tail; split; eassumption| |].
        -- intros _. exact (H2 [] c d h eq_refl E).
        -- exists b'. rewrite Eb. reflexivity.
    + destruct (IH false t) as [b' Eb]; [eapply tidy_tail, Ht|discriminate|]. exists b'. rewrite Eb. reflexivity.
Qed.
Lemma before_semicolon_none h : ~ In 59%N h -> before_semicolon h = h.
Proof.
  intros H. unfold before_semicolon. destruct (split1 59 h) as [[a b]|] eqn:E; [|reflexivity]. apply split1_Some in E as [-> _].
  exfalso. apply H, in_or_app. right. left. reflexivity.
Qed.
Lemma before_semicolon_some h d : ~ In 59%N h -> before_semicolon (h ++ 59%N :: d) = h.
Proof.
  intros H. unfold before_semicolon. destruct (split1 59 (h ++ 59%N :: d)) as [[a b]|] eqn:E.
  - apply split1_Some in E as [E Hn]. apply split_first in E; [symmetry; tauto|exact H|exact Hn].
  - exfalso. assert (K : split1 59 (h ++ 59%N :: d) = Some (h, d)) by (apply split1_Some; split; [reflexivity|exact H]). congruence.
Qed.
Lemma prepare_received h date : tidy h -> ~ In 59%N h -> match h with c :: _ => is_space c = false | [] => False end -> is_date date ->
  prepare (received_header h date) = Some h.
Proof.
  intros Ht Hs Hh Hd. unfold received_header. change ($"from ") with ($"from" ++ [32%N]). rewrite <- app_assoc. cbn [app].
  erewrite prepare_from; [|reflexivity|reflexivity]. f_equal.
  destruct Hd as [->|[d ->]].
  - rewrite app_nil_r, collapse_tidy; [apply before_semicolon_none, Hs|exact Ht|]. intros _. destruct h; [exact I|exact Hh].
  - destruct (collapse_app_tidy h true ($";" ++ d) Ht) as [b' Eb]; [intros _; exact Hh|]. rewrite Eb.
    change ($";") with [59%N]. cbn [app collapse]. change (is_space 59) with false. cbn. apply before_semicolon_some, Hs.
Qed.

(** ** The fixed texts in a pattern *)
Definition norm (ci : bool) (s : str) : str := if ci then lower s else s.
Lemma norm_app ci a b : norm ci (a ++ b) = norm ci a ++ norm ci b.
Proof. destruct ci; [apply map_app|reflexivity]. Qed.
Fixpoint literal (ci : bool) (r : re) : option (list str) :=
  match r with
  | Eps => Some [[]]
  | Chr ci0 false [IChar c] => if ci0 && negb ci then None else Some [norm ci [c]]
  | Cat a b => match literal ci a, literal ci b with Some x, Some y => Some (flat_map (fun u => map (app u) y) x) | _, _ => None end
  | Alt a b => match literal ci a, literal ci b with Some x, Some y => Some (x ++ y) | _, _ => None end
  | Grp _ a => literal ci a
  | Rep _ 0 (Some 1) a => option_map (cons []) (literal ci a)
  | _ => None
  end.
(** The fixed texts at the start *)
Fixpoint lead (ci : bool) (r : re) : list str :=
  match r with
  | Cat a b => match literal ci a with Some x => flat_map (fun u => map (app u) (lead ci b)) x | None => [[]] end
  | _ => match literal ci r with Some x => x | None => [[]] end
  end.
Section Literal.
Variable udigit uword : char -> bool.
Notation ways := (ways udigit uword).
Lemma swap_lower d c : swapcase d = c -> lower_char d = lower_char c.
Proof.
  intros <-. unfold swapcase, lower_char.
  destruct (N.leb_spec 65 d), (N.leb_spec d 90); cbn [andb]; try (destruct (N.leb_spec 97 d), (N.leb_spec d 122); cbn [andb]);
  repeat match goal with |- context [N.leb ?a ?b] => destruct (N.leb_spec a b) end; cbn [andb]; lia.
Qed.
Lemma literal_ok ci r : forall ls, literal ci r = Some ls -> forall st st' w, In st' (ways r st) -> ext st st' w -> In (norm ci w) ls.
Proof.
  induction r as [|ci0 neg l| |a IHa b IHb|a IHa b IHb|g lo hi r IH|n r IH| | |neg|neg r IH|neg r IH];
    intros ls Hl st st' w H He; cbn [literal Regexp.ways] in *; try discriminate.
  - injection Hl as <-. destruct H as [<-|[]]. rewrite (ext_det _ _ _ _ He (ext_refl st)). destruct ci; left; reflexivity.
  - destruct neg; [discriminate|]. destruct l as [|[c| | | | | | |] [|]]; try discriminate.
    apply step_In in H as (d & Hd & Hx & _). rewrite (ext_det _ _ _ _ He Hx). unfold class_in in Hd. cbn [existsb item_in xorb] in Hd.
    rewrite !orb_false_r in Hd. destruct (ci0 && negb ci) eqn:Ec; [discriminate|]. injection Hl as <-. left.
    destruct (N.eqb d c) eqn:E0; [apply N.eqb_eq in E0; subst d; reflexivity|]. cbn [orb] in Hd. destruct ci0; [|discriminate]. destruct ci; [|discriminate].
    destruct (N.eqb (swapcase d) c) eqn:E; [apply N.eqb_eq in E|discriminate]. cbn. rewrite (swap_lower d c E). reflexivity.
  - destruct (literal ci a) as [x|]; [|discriminate]. destruct (literal ci b) as [y|]; [|discriminate]. injection Hl as <-.
    apply in_flat_map in H as (s1 & H1 & H2). destruct (ways_ext _ _ _ _ _ H1) as [u Hu]. destruct (ways_ext _ _ _ _ _ H2) as [v Hv].
    rewrite (ext_det _ _ _ _ He (ext_trans _ _ _ _ _ Hu Hv)), norm_app. apply in_flat_map. exists (norm ci u).
    split; [eapply IHa; eauto|]. apply in_map. eapply IHb; eauto.
  - destruct (literal ci a) as [x|]; [|discriminate]. destruct (literal ci b) as [y|]; [|discriminate]. injection Hl as <-.
    apply in_app_or in H as [H|H]; apply in_or_app; [left; eapply IHa|right; eapply IHb]; eauto.
  - destruct lo as [|lo]; [|discriminate]. destruct hi as [[|[|hi]]|]; try discriminate. destruct (literal ci r) as [x|]; [|discriminate]. injection Hl as <-.
    assert (K : st' = st \/ In st' (ways r st)).
    { revert H. cbn [Nat.add]. destruct (length (s_after st)) as [|n]; cbn [repeats]; [intros [<-|[]]; left; reflexivity|].
      assert (T : In st' (flat_map (repeats (ways r) g n 0 (Some 0)) (filter (progress st) (ways r st))) -> In st' (ways r st)).
      { intros H. apply in_flat_map in H as (s1 & H1 & H2). apply filter_In in H1 as [H1 _].
        assert (E : st' = s1) by (destruct n; destruct H2 as [H2|[]]; auto). subst s1. exact H1. }
      destruct g; intros H.
      - apply in_app_or in H as [H|[<-|[]]]; [right; apply T, H|left; reflexivity].
      - destruct H as [<-|H]; [left; reflexivity|right; apply T, H]. }
    destruct K as [->|K]; [left; rewrite (ext_det _ _ _ _ He (ext_refl st)); destruct ci; reflexivity|right; eapply IH; eauto].
  - apply in_map_iff in H as (x & <- & Hx). eapply IH; [exact Hl|exact Hx|exact He].
Qed.
Lemma lead_ok ci r : forall st st' w, In st' (ways r st) -> ext st st' w -> exists p t, w = p ++ t /\ In (norm ci p) (lead ci r).
Proof.
  assert (Whole : forall r st st' w, In st' (ways r st) -> ext st st' w ->
    exists p t, w = p ++ t /\ In (norm ci p) (match literal ci r with Some x => x | None => [[]] end)).
  { intros r0 st st' w H He. destruct (literal ci r0) as [ls|] eqn:E.
    - exists w, []. rewrite app_nil_r. split; [reflexivity|]. eapply literal_ok; eauto.
    - exists [], w. split; [reflexivity|]. destruct ci; left; reflexivity. }
  induction r as [| | |a _ b IHb| | | | | | | |]; intros st st' w H He; try (eapply Whole; eassumption). cbn [lead].
  cbn [Regexp.ways] in H. apply in_flat_map in H as (s1 & H1 & H2).
  destruct (ways_ext _ _ _ _ _ H1) as [u Hu]. destruct (ways_ext _ _ _ _ _ H2) as [v Hv].
  pose proof (ext_det _ _ _ _ He (ext_trans _ _ _ _ _ Hu Hv)) as ->.
  destruct (literal ci a) as [x|] eqn:E.
  - destruct (IHb _ _ _ H2 Hv) as (p & t & -> & Hp). exists (u ++ p), t. rewrite app_assoc. split; [reflexivity|]. rewrite norm_app.
    apply in_flat_map. exists (norm ci u). split; [eapply literal_ok; eauto|]. apply in_map, Hp.
  - exists [], (u ++ v). split; [reflexivity|]. destruct ci; left; reflexivity.
Qed.
(** A match that gets to the rest [r] of the pattern shows one of its texts *)
Lemma lead_piece r b s st k : lead true r = k -> In st (ways r (mkS b s [])) -> exists m x y, In m k /\ lower s = x ++ m ++ y.
Proof.
  intros <- H. destruct (ways_ext _ _ _ _ _ H) as [w Hw]. destruct (lead_ok true r _ _ _ H Hw) as (p & t & -> & Hp).
  destruct Hw as [E _]. cbn in E. exists (lower p), [], (lower (t ++ s_after st)). split; [exact Hp|].
  rewrite E. unfold lower. rewrite <- app_assoc, map_app. reflexivity.
Qed.
Lemma lead_deep r st st' : In st' (ways r st) -> exists m y, In m (lead true r) /\ lower (s_after st) = m ++ y.
Proof.
  intros H. destruct (ways_ext _ _ _ _ _ H) as [w Hw]. destruct (lead_ok true r _ _ _ H Hw) as (p & t & -> & Hp).
  destruct Hw as [E _]. exists (lower p), (lower (t ++ s_after st')). split; [exact Hp|].
  rewrite E. unfold lower. rewrite <- app_assoc, map_app. reflexivity.
Qed.
Lemma after_piece st st' w h x : ext st st' w -> h = x ++ s_after st -> exists x', h = x' ++ s_after st'.
Proof. intros [E _] ->. exists (x ++ w). rewrite <- app_assoc, <- E. reflexivity. Qed.
Lemma without_lead marks r st st' h x : without marks h -> h = x ++ s_after st -> incl (lead true r) marks -> ~ In st' (ways r st).
Proof.
  intros Hq -> Hi H. destruct (lead_deep r st st' H) as (m & y & Hm & E). apply (Hq m (lower x) y (Hi m Hm)).
  unfold lower in *. rewrite map_app, E. reflexivity.
Qed.
(** [.*] and then a pattern that begins with one of the texts *)
Lemma no_dots_match g marks k h : without marks h -> incl (lead true k) marks ->
  re_match udigit uword (Cat (Rep g 0 None Dot) k) h = None.
Proof.
  intros Hq Hi. apply match_None. destruct (ways (Cat (Rep g 0 None Dot) k) (mkS [] h [])) as [|st l] eqn:E; [reflexivity|]. exfalso.
  assert (H : In st (ways (Cat (Rep g 0 None Dot) k) (mkS [] h []))) by (rewrite E; left; reflexivity).
  cbn [Regexp.ways] in H. apply in_flat_map in H as (s1 & H1 & H2).
  assert (K : exists w, ext (mkS [] h []) s1 w).
  { apply (ways_ext udigit uword (Rep g 0 None Dot)). exact H1. }
  destruct K as [w Hw]. destruct (after_piece _ _ _ h [] Hw eq_refl) as [x Hx]. exact (without_lead marks k s1 st h x Hq Hx Hi H2).
Qed.
End Literal.

(** ** Shapes *)
Definition Lt (s : str) : list sym := map L s.
Lemma den_Lt w l s : den l s -> den (Lt w ++ l) (w ++ s).
Proof. intros H. induction w as [|c w IH]; [exact H|]. cbn. constructor. exact IH. Qed.
Definition exn : list char := $"()[]@<>;:,/= ".
Definition byte_shape : sym := W (46%N :: exn).
Definition quad_shape : list sym := [byte_shape; L 46; byte_shape; L 46; byte_shape; L 46; byte_shape].
Lemma plain_nil w : no_blank w -> plain [] w.
Proof. intros H c Hc. split; [apply H, Hc|intros []]. Qed.
Lemma host_plain w : host_name w -> plain exn w.
Proof.
  intros [_ H] c Hc. specialize (H c Hc). unfold host_char in H. split.
  - destruct (is_space c) eqn:E; [|reflexivity]. exfalso. unfold is_space in E. rewrite ?orb_true_iff, ?andb_true_iff, ?N.leb_le, ?N.eqb_eq in E. lia.
  - intros I. unfold exn in I. vm_compute in I. repeat (destruct I as [I|I]; [subst c; lia|]). destruct I.
Qed.
Lemma host_no_blank w : host_name w -> no_blank w.
Proof. intros H c Hc. apply (host_plain w H c Hc). Qed.
Lemma byte_plain n : (n < 256)%N -> plain (46%N :: exn) (byte_text n).
Proof.
  intros Hn c Hc. pose proof (byte_digits n Hn) as D. rewrite Forall_forall in D. specialize (D c Hc). unfold adig in D. split.
  - destruct (is_space c) eqn:E; [|reflexivity]. exfalso. unfold is_space in E. rewrite ?orb_true_iff, ?andb_true_iff, ?N.leb_le, ?N.eqb_eq in E. lia.
  - intros I. unfold exn in I. vm_compute in I. repeat (destruct I as [I|I]; [subst c; lia|]). destruct I.
Qed.
Lemma quad_no_blank a b c d : bytes a b c d -> no_blank (quad a b c d).
Proof.
  intros Hb x Hx. destruct (quad_chars _ _ _ _ _ Hb Hx) as [D| ->]; [|reflexivity]. unfold adig in D.
  destruct (is_space x) eqn:E; [|reflexivity]. exfalso. unfold is_space in E. rewrite ?orb_true_iff, ?andb_true_iff, ?N.leb_le, ?N.eqb_eq in E. lia.
Qed.
Lemma den_quad a b c d l s : bytes a b c d -> den l s -> den (quad_shape ++ l) (quad a b c d ++ s).
Proof.
  intros (Ha & Hb & Hc & Hd) H. unfold quad, quad_shape, byte_shape. change ($".") with [46%N]. cbn [app].
  rewrite <- !app_assoc. cbn [app]. rewrite <- !app_assoc. cbn [app]. rewrite <- !app_assoc. cbn [app].
  repeat (first [apply den_W; [apply byte_nonempty|apply byte_plain; assumption|] | apply den_L]). exact H.
Qed.

(** ** " by " *)
Lemma skip_word w : no_blank w -> forall t x y, w ++ t = x ++ $" by " ++ y -> exists x', x = w ++ x' /\ t = x' ++ $" by " ++ y.
Proof.
  induction w as [|c w IH]; intros Hw t x y E; [exists x; auto|]. destruct x as [|d x].
  - exfalso. change ($" by ") with [32; 98; 121; 32]%N in E. cbn [app] in E. injection E as -> _. specialize (Hw 32%N (or_introl eq_refl)). discriminate.
  - cbn [app] in E. injection E as -> E. destruct (IH (fun z Hz => Hw z (or_intror Hz)) _ _ _ E) as (x' & -> & ->). exists x'. auto.
Qed.
Lemma skip_blank c t x y : c <> 98%N -> 32%N :: c :: t = x ++ $" by " ++ y -> exists x', x = 32%N :: x' /\ c :: t = x' ++ $" by " ++ y.
Proof.
  intros Hc E. destruct x as [|d x].
  - exfalso. change ($" by ") with [32; 98; 121; 32]%N in E. cbn [app] in E. injection E as -> _. congruence.
  - cbn [app] in E. injection E as <- E. exists x. auto.
Qed.

Section Handover.
Variable udigit uword : char -> bool.
Notation ways := (ways udigit uword).

Lemma ns_word w : no_blank w -> Forall (fun c => class_in udigit uword false false [INotSpace] c = true) w.
Proof. intros H. apply Forall_forall. intros c Hc. unfold class_in. cbn. rewrite (H c Hc). reflexivity. Qed.
Lemma ns_blank : class_in udigit uword false false [INotSpace] 32 = false.
Proof. reflexivity. Qed.
(** [(\S+)] takes a word *)
Lemma word_first n w b t k : word w -> first udigit uword (Grp n (Rep true 1 None (Chr false false [INotSpace])))
  (mkS b (w ++ 32%N :: t) k) (mkS (rev w ++ b) (32%N :: t) ((n, w) :: k)).
Proof.
  intros [Hne Hw].
  pose proof (plus_first udigit uword false false [INotSpace] w b [32%N] t k Hne (ns_word w Hw) ns_blank) as H. cbn [app] in H.
  pose proof (first_grp udigit uword n _ _ _ w H) as K. apply K. split; reflexivity.
Qed.
Lemma lit_first ci c b t k : first udigit uword (Chr ci false [IChar c]) (mkS b (c :: t) k) (mkS (c :: b) t k).
Proof. apply first_chr. unfold class_in. cbn. rewrite N.eqb_refl. reflexivity. Qed.

Lemma by_first front server rest : word server -> ~ In 10%N front ->
  (forall x y, front ++ $" by " ++ server ++ $" " ++ rest = x ++ $" by " ++ y -> length front <= length x) ->
  option_map (g_ 1) (m_ udigit uword BY_RE (front ++ $" by " ++ server ++ $" " ++ rest)) = Some server.
Proof.
  intros Hs Hn Hmin. set (h := front ++ _) in *.
  assert (D : In (mkS (32%N :: rev server ++ [32; 121; 98; 32]%N ++ rev front ++ []) rest [(1, server)])
                 (ways (Rep true 0 None Dot) (mkS (32%N :: rev server ++ [32; 121; 98; 32]%N ++ rev front ++ []) rest [(1, server)]))).
  { apply (dots_in udigit uword []). intros []. }
  destruct (first_tail udigit uword (Rep true 0 None Dot) _ _ eq_refl D) as (st & F & C).
  unfold m_. rewrite (match_first udigit uword BY_RE h st).
  - cbn [option_map]. unfold g_. rewrite C. reflexivity.
  - change BY_RE with (Cat (Rep false 0 None Dot) (match BY_RE with Cat _ k => k | r => r end)). unfold h. apply lazy_first; [exact Hn| |].
    + intros u c v E. set (K := match BY_RE with Cat _ k => k | r => r end).
      destruct (ways K _) as [|st' l] eqn:W; [reflexivity|]. exfalso.
      match type of W with ways K ?s0 = _ => set (s := s0) in W end.
      assert (I : In st' (ways K s)) by (rewrite W; left; reflexivity).
      destruct (ways_ext _ _ _ _ _ I) as [w Hw]. destruct (lead_ok udigit uword false K _ _ _ I Hw) as (p & z & -> & Hp).
      destruct Hw as [Hw _]. unfold s in Hw. cbn [s_after] in Hw. destruct Hp as [Hp|[]]. cbn [norm] in Hp. subst p.
      assert (L : length front <= length u).
      { apply (Hmin u (z ++ s_after st')). change ($" by ") with ([32; 98; 121; 32]%N). change ($" by ") with ([32; 98; 121; 32]%N) in Hw.
        unfold h. change ($" by ") with ([32; 98; 121; 32]%N). rewrite E, <- app_assoc. cbn [app] in *. f_equal. rewrite Hw. rewrite <- ?app_assoc. reflexivity. }
      rewrite E, app_length in L. cbn [length] in L. lia.
    + change ($" by ") with ([32; 98; 121; 32]%N). change ($" ") with [32%N]. cbn [app].
      eapply first_cat; [apply lit_first|]. eapply first_cat; [apply lit_first|]. eapply first_cat; [apply lit_first|].
      eapply first_cat; [apply lit_first|]. eapply first_cat; [apply word_first, Hs|]. eapply first_cat; [apply lit_first|]. exact F.
Qed.

Lemma m_none r t s : places r (true, t) = [] -> den t s -> m_ udigit uword r s = None.
Proof. intros H Hd. apply match_None. eapply no_match; eauto. Qed.
Lemma s_none r t s : r = Cat Bos (match r with Cat _ k => k | x => x end) -> places r (true, t) = [] -> den t s -> s_ udigit uword r s = false.
Proof. intros E H Hd. unfold s_. rewrite E in *. eapply no_search; eauto. Qed.
Lemma no_dots2_match g1 g2 marks p k h : without marks h -> incl (lead true k) marks ->
  re_match udigit uword (Cat (Rep g1 0 None Dot) (Cat p (Cat (Rep g2 0 None Dot) k))) h = None.
Proof.
  intros Hq Hi. apply match_None. destruct (ways (Cat (Rep g1 0 None Dot) (Cat p (Cat (Rep g2 0 None Dot) k))) (mkS [] h [])) as [|st l] eqn:E; [reflexivity|]. exfalso.
  assert (H : In st (ways (Cat (Rep g1 0 None Dot) (Cat p (Cat (Rep g2 0 None Dot) k))) (mkS [] h []))) by (rewrite E; left; reflexivity).
  remember (Rep g1 0 None Dot) as d1. remember (Rep g2 0 None Dot) as d2.
  cbn [Regexp.ways] in H. apply in_flat_map in H as (s1 & H1 & H2). apply in_flat_map in H2 as (s2 & H2 & H3). apply in_flat_map in H3 as (s3 & H3 & H4).
  destruct (ways_ext _ _ _ _ _ H1) as [w1 W1]. destruct (ways_ext _ _ _ _ _ H2) as [w2 W2]. destruct (ways_ext _ _ _ _ _ H3) as [w3 W3].
  destruct (after_piece _ _ _ h [] W1 eq_refl) as [x1 X1]. destruct (after_piece _ _ _ h _ W2 X1) as [x2 X2]. destruct (after_piece _ _ _ h _ W3 X2) as [x3 X3].
  exact (without_lead udigit uword marks k s3 st h x3 Hq X3 Hi H4).
Qed.
Lemma not_contains m marks h : without marks h -> In m marks -> lower m = m -> contains m h = false.
Proof.
  intros Hq Hm Hl. destruct (contains m h) eqn:E; [|reflexivity]. exfalso. apply contains_app in E as (x & y & ->).
  apply (Hq m (lower x) (lower y) Hm). unfold lower in *. rewrite !map_app, Hl. reflexivity.
Qed.
Lemma with_local_none marks h : without marks h -> In ($"with local") marks -> s_ udigit uword WITH_LOCAL_RE h = false.
Proof.
  intros Hq Hm. unfold s_. destruct (matched _) eqn:E; [|reflexivity]. exfalso. apply search_iff in E as (u & v & st & E & H).
  change WITH_LOCAL_RE with (Cat (Wordb false) (match WITH_LOCAL_RE with Cat _ k => k | r => r end)) in H.
  remember (match WITH_LOCAL_RE with Cat _ k => k | r => r end) as k eqn:Ek. cbn [Regexp.ways] in H.
  apply in_flat_map in H as (s1 & H1 & H2). apply guard_In in H1 as [_ ->].
  refine (without_lead udigit uword marks k (mkS (rev u) v []) st h u Hq E _ H2). subst k. intros m Hin. vm_compute in Hin. destruct Hin as [<-|[]]. exact Hm.
Qed.

(** ** HELO (NAME [ADDRESS]) by SERVER *)
Definition shape1 : list sym :=
  [W []] ++ Lt ($" (") ++ [W exn] ++ Lt ($" [") ++ quad_shape ++ Lt ($"]) by ") ++ [W []] ++ Lt ($" ") ++ [Any].
Lemma den1 helo name a b c d server rest : word helo -> host_name name -> bytes a b c d -> word server ->
  den shape1 (handover helo name (quad a b c d) server rest).
Proof.
  intros [H1 H2] Hn Hb [S1 S2]. unfold shape1, handover. apply den_W; [exact H1|apply plain_nil, H2|]. apply den_Lt.
  apply den_W; [apply Hn|apply host_plain, Hn|]. apply den_Lt. apply den_quad; [exact Hb|]. apply den_Lt.
  apply den_W; [exact S1|apply plain_nil, S2|]. apply den_Lt. constructor.
Qed.
Definition no_match1 : list re :=
  [HELO_RE4; HELO_RE5; HELO_RE6; HELO_RE8; HELO_RE9; RDNS_RE4; RDNS_RE3; UNKNOWN_RE_RDNS].
Definition no_skip1 : list re :=
  [BSMTP_RE; CONTENT_TECH_RE; LOCALHOST_RE; AVG_SMTP_RE; QMAIL_RE; FROM_RE; AUTH_SKIP_RE; LOCAL_SKIP_RE; AMAZON_RE; NOVELL_RE; NO_NAME_RE; SMTPSVC_RE].
Lemma fails1 : forall r, In r (no_match1 ++ no_skip1) -> places r (true, shape1) = [].
Proof.
  assert (K : forallb (fun r => match places r (true, shape1) with [] => true | _ => false end) (no_match1 ++ no_skip1) = true) by (vm_compute; reflexivity).
  rewrite forallb_forall in K. intros r Hr. specialize (K r Hr). destruct (places r (true, shape1)); [reflexivity|discriminate].
Qed.
Lemma unknown_none helo t : no_blank helo -> helo <> $"Unknown/Local" -> s_ udigit uword UNKNOWN_RE (helo ++ $" (" ++ t) = false.
Proof.
  intros Hh Hne. unfold s_. destruct (matched _) eqn:E; [|reflexivity]. exfalso. apply search_iff in E as (u & v & st & E & H).
  change UNKNOWN_RE with (Cat Bos (match UNKNOWN_RE with Cat _ k => k | r => r end)) in H.
  remember (match UNKNOWN_RE with Cat _ k => k | r => r end) as k eqn:Ek. cbn [Regexp.ways] in H.
  apply in_flat_map in H as (s1 & H1 & H2). apply guard_In in H1 as [B ->]. cbn [s_before] in B.
  destruct (rev u) eqn:Eu; [|discriminate]. apply (f_equal (@rev char)) in Eu. rewrite rev_involutive in Eu. cbn in Eu. subst u. cbn [app] in E.
  destruct (ways_ext _ _ _ _ _ H2) as [w Hw]. destruct (lead_ok udigit uword false k _ _ _ H2 Hw) as (p & z & -> & Hp).
  destruct Hw as [Hw _]. cbn [s_after] in Hw. subst k. vm_compute in Hp. destruct Hp as [<-|[]]. rewrite <- E in Hw.
  change ($" (") with [32; 40]%N in Hw. cbn [app] in Hw.
  change (helo ++ 32%N :: 40%N :: t = ($"Unknown/Local") ++ 32%N :: ((40%N :: z) ++ s_after st)) in Hw.
  apply split_first in Hw as [Hw _]; [contradiction| |].
  - intros I. specialize (Hh _ I). discriminate.
  - intros I. vm_compute in I. repeat (destruct I as [I|I]; [discriminate I|]). destruct I.
Qed.
Lemma skip1 helo name a b c d server rest : word helo -> host_name name -> bytes a b c d -> word server ->
  helo <> $"Unknown/Local" -> without skip_marks (handover helo name (quad a b c d) server rest) ->
  check_for_skip udigit uword (handover helo name (quad a b c d) server rest) = false.
Proof.
  intros Hh Hn Hb Hs Hu Hq. pose proof (den1 helo name a b c d server rest Hh Hn Hb Hs) as D.
  assert (F : forall r, In r no_skip1 -> r = Cat Bos (match r with Cat _ k => k | x => x end) -> s_ udigit uword r (handover helo name (quad a b c d) server rest) = false).
  { intros r Hr E. apply (s_none r shape1); [exact E|apply fails1, in_or_app; right; exact Hr|exact D]. }
  unfold check_for_skip. rewrite (with_local_none _ _ Hq); [|left; reflexivity].
  rewrite (not_contains ($"fetchmail") _ _ Hq); [|right; left; reflexivity|reflexivity].
  rewrite (F BSMTP_RE), (F CONTENT_TECH_RE), (F LOCALHOST_RE), (F AVG_SMTP_RE), (F QMAIL_RE), (F FROM_RE), (F AUTH_SKIP_RE), (F LOCAL_SKIP_RE),
    (F AMAZON_RE), (F NOVELL_RE), (F NO_NAME_RE), (F SMTPSVC_RE) by (first [reflexivity | unfold no_skip1; cbn [In]; tauto]).
  assert (U : s_ udigit uword UNKNOWN_RE (handover helo name (quad a b c d) server rest) = false) by (apply unknown_none; [apply Hh|exact Hu]).
  rewrite U. rewrite !andb_false_r. reflexivity.
Qed.
Lemma ip_in a b c d p t k : bytes a b c d ->
  In (mkS (rev (quad a b c d) ++ 91%N :: p) (93%N :: t) k) (ways IP_ADDRESS (mkS (91%N :: p) (quad a b c d ++ 93%N :: t) k)).
Proof. intros Hb. destruct (ip_ways udigit uword (mkS (91%N :: p) (quad a b c d ++ 93%N :: t) k)) as [m ->]. apply in_or_app. left. apply ip4_in, Hb. Qed.
Lemma bos_first t k : first udigit uword Bos (mkS [] t k) (mkS [] t k).
Proof. exists []. reflexivity. Qed.
Lemma sp_first b t k : first udigit uword (Chr false false [ISpace]) (mkS b (32%N :: t) k) (mkS (32%N :: b) t k).
Proof. apply first_chr. reflexivity. Qed.
Lemma helo7_first helo name a b c d server rest : word helo -> host_name name -> bytes a b c d ->
  exists st, m_ udigit uword HELO_RE7 (handover helo name (quad a b c d) server rest) = Some st /\ g_ 1 st = helo /\ g_ 2 st = name.
Proof.
  intros Hh Hn Hb. unfold m_, handover.
  change ($" (") with [32; 40]%N. change ($" [") with [32; 91]%N. change ($"]) by ") with (93 :: 41 :: $" by ")%N. cbn [app].
  set (t := $" by " ++ server ++ $" " ++ rest).
  set (T := Cat (Rep true 0 (Some 1) (Chr false false [ISpace])) (Cat (Chr false false [IChar 91])
        (Cat IP_ADDRESS (Cat (Chr false false [IChar 93]) (Cat (Rep true 0 None Dot) (Chr false false [IChar 41])))))).
  set (p := rev name ++ 40%N :: 32%N :: rev helo ++ []).
  assert (I : In (mkS (41%N :: 93%N :: rev (quad a b c d) ++ 91%N :: 32%N :: p) t [(2, name); (1, helo)])
                 (ways T (mkS p (32%N :: 91%N :: quad a b c d ++ 93%N :: 41%N :: t) [(2, name); (1, helo)]))).
  { unfold T. eapply in_cat; [apply first_in, opt_first; reflexivity|]. eapply in_cat; [apply in_chr; reflexivity|].
    eapply in_cat; [apply ip_in, Hb|]. eapply in_cat; [apply in_chr; reflexivity|].
    eapply in_cat; [apply (dots_in udigit uword []); intros []|]. apply in_chr. reflexivity. }
  destruct (first_tail udigit uword T _ _ eq_refl I) as (st & F & C). exists st. split.
  - apply match_first. change HELO_RE7 with
      (Cat Bos (Cat (Grp 1 (Rep true 1 None (Chr false false [INotSpace]))) (Cat (Chr false false [ISpace]) (Cat (Chr false false [IChar 40])
        (Cat (Grp 2 (Rep true 1 None (Chr false false [INotSpace]))) T))))).
    eapply first_cat; [apply bos_first|]. eapply first_cat; [apply word_first, Hh|]. eapply first_cat; [apply sp_first|].
    eapply first_cat; [apply lit_first|]. eapply first_cat; [apply word_first; split; [apply Hn|apply host_no_blank, Hn]|]. exact F.
  - unfold g_. rewrite C. split; reflexivity.
Qed.
Lemma helo1 helo name a b c d server rest : word helo -> host_name name -> bytes a b c d -> word server ->
  without ($"helo=" :: helo_marks) (handover helo name (quad a b c d) server rest) ->
  get_helo udigit uword (handover helo name (quad a b c d) server rest) = helo.
Proof.
  intros Hh Hn Hb Hs Hq. pose proof (den1 helo name a b c d server rest Hh Hn Hb Hs) as D.
  destruct (helo7_first helo name a b c d server rest Hh Hn Hb) as (st & E7 & G1 & _).
  assert (F : forall r, In r no_match1 -> m_ udigit uword r (handover helo name (quad a b c d) server rest) = None).
  { intros r Hr. apply (m_none r shape1); [apply fails1, in_or_app; left; exact Hr|exact D]. }
  assert (M : forall l, incl l ($"helo=" :: helo_marks) -> incl l ($"helo=" :: helo_marks)) by auto.
  unfold get_helo. rewrite E7.
  assert (E0 : m_ udigit uword HELO_RE (handover helo name (quad a b c d) server rest) = None).
  { eapply (no_dots_match udigit uword false _ (match HELO_RE with Cat _ k => k | r => r end)); [exact Hq|].
    intros m Hm. vm_compute in Hm. destruct Hm as [<-|[<-|[]]]; [right; left; reflexivity|right; right; left; reflexivity]. }
  assert (E3 : m_ udigit uword HELO_RE3 (handover helo name (quad a b c d) server rest) = None).
  { eapply (no_dots_match udigit uword false _ (match HELO_RE3 with Cat _ k => k | r => r end)); [exact Hq|].
    intros m Hm. vm_compute in Hm. destruct Hm as [<-|[]]. left. reflexivity. }
  assert (E10 : m_ udigit uword HELO_RE10 (handover helo name (quad a b c d) server rest) = None).
  { eapply (no_dots2_match true true _ (Chr true false [IChar 40]) (match HELO_RE10 with Cat _ (Cat _ (Cat _ k)) => k | r => r end)); [exact Hq|].
    intros m Hm. vm_compute in Hm. destruct Hm as [<-|[<-|[]]]; [do 3 right; left; reflexivity|do 4 right; left; reflexivity]. }
  rewrite E0, E3, E10, (F HELO_RE4), (F HELO_RE5), (F HELO_RE6), (F HELO_RE8), (F HELO_RE9), (F RDNS_RE4) by (unfold no_match1; cbn [In]; tauto).
  exact G1.
Qed.
Lemma strip_p_none p s : (forall c, In c s -> p c = false) -> strip_p p s = s.
Proof.
  intros H. unfold strip_p, rstrip_p, lstrip_p.
  assert (D : forall t, (forall c, In c t -> p c = false) -> drop_while p t = t).
  { intros [|c t] Ht; [reflexivity|]. cbn [drop_while]. rewrite (Ht c (or_introl eq_refl)). reflexivity. }
  rewrite (D s H), D; [apply rev_involutive|]. intros c I. apply H. apply in_rev, I.
Qed.
Lemma strip_brackets name : host_name name -> strip_chars ($"[]") name = name.
Proof.
  intros Hn. apply strip_p_none. intros x Hx. destruct (mem_char x ($"[]")) eqn:E; [|reflexivity]. exfalso. apply mem_char_In in E.
  destruct (host_plain name Hn x Hx) as [_ N]. apply N. unfold exn. vm_compute in E. destruct E as [<-|[<-|[]]]; vm_compute; tauto.
Qed.
Lemma rdns1 helo name a b c d server rest : word helo -> host_name name -> bytes a b c d -> word server ->
  contains ($"unknown") name = false -> name <> $"softdnserr" -> name <> $"UnknownHost" ->
  get_rdns udigit uword (handover helo name (quad a b c d) server rest) = name.
Proof.
  intros Hh Hn Hb Hs N1 N2 N3. pose proof (den1 helo name a b c d server rest Hh Hn Hb Hs) as D.
  destruct (helo7_first helo name a b c d server rest Hh Hn Hb) as (st & E7 & _ & G2).
  assert (F : forall r, In r no_match1 -> m_ udigit uword r (handover helo name (quad a b c d) server rest) = None).
  { intros r Hr. apply (m_none r shape1); [apply fails1, in_or_app; left; exact Hr|exact D]. }
  unfold get_rdns. replace (rdns_raw udigit uword (handover helo name (quad a b c d) server rest)) with name.
  - cbv zeta. assert (At : contains ($"@") name = false).
    { destruct (contains ($"@") name) eqn:E; [|reflexivity]. exfalso. apply contains_app in E as (x & y & ->).
      destruct (host_plain _ Hn 64%N) as [_ N]; [apply in_or_app; right; left; reflexivity|]. apply N. vm_compute. tauto. }
    rewrite At, (F UNKNOWN_RE_RDNS) by (unfold no_match1; cbn [In]; tauto).
    generalize (contains ($"(Postfix)") (handover helo name (quad a b c d) server rest)) as pf. intros pf.
    assert (Pf : (if pf then name else name) = name) by (destruct pf; reflexivity). rewrite Pf.
    rewrite (m_none RDNS_IP_RE [W exn] name); [|vm_compute; reflexivity|].
    + cbn [matched]. rewrite N1. rewrite (proj2 (streqb_neq _ _) N3). apply strip_brackets, Hn.
    + pose proof (den_W exn [] name [] (proj1 Hn) (host_plain name Hn) den_nil) as K. rewrite app_nil_r in K. exact K.
  - unfold rdns_raw. rewrite E7. cbv zeta. rewrite G2. rewrite (proj2 (streqb_neq _ _) N2). reflexivity.
Qed.
Lemma front1 helo name a b c d R x y : no_blank helo -> host_name name -> bytes a b c d ->
  helo ++ $" (" ++ name ++ $" [" ++ quad a b c d ++ $"])" ++ $" by " ++ R = x ++ $" by " ++ y ->
  length (helo ++ $" (" ++ name ++ $" [" ++ quad a b c d ++ $"])") <= length x.
Proof.
  intros Hh Hn Hb E. apply skip_word in E as (x1 & -> & E); [|exact Hh].
  change ($" (") with [32; 40]%N in *. change ($" [") with [32; 91]%N in *. change ($"])") with [93; 41]%N in *. cbn [app] in E.
  apply skip_blank in E as (x2 & -> & E); [|discriminate]. change (40%N :: name ++ 32%N :: 91%N :: quad a b c d ++ 93%N :: 41%N :: $" by " ++ R) with ((40%N :: name) ++ 32%N :: 91%N :: quad a b c d ++ 93%N :: 41%N :: $" by " ++ R) in E.
  apply skip_word in E as (x3 & -> & E); [|intros z [<-|Hz]; [reflexivity|apply (host_no_blank name Hn z Hz)]].
  apply skip_blank in E as (x4 & -> & E); [|discriminate].
  change (91%N :: quad a b c d ++ 93%N :: 41%N :: $" by " ++ R) with ((91%N :: quad a b c d) ++ 93%N :: 41%N :: $" by " ++ R) in E.
  apply skip_word in E as (x5 & -> & E); [|intros z [<-|Hz]; [reflexivity|apply (quad_no_blank _ _ _ _ Hb z Hz)]].
  change (93%N :: 41%N :: $" by " ++ R) with ([93; 41]%N ++ $" by " ++ R) in E.
  apply skip_word in E as (x6 & -> & E); [|intros z [<-|[<-|[]]]; reflexivity].
  repeat rewrite app_length. cbn [length app]. repeat rewrite app_length. cbn [length app]. repeat rewrite app_length. cbn [length]. lia.
Qed.
Lemma handover_front helo name q server rest :
  handover helo name q server rest = (helo ++ $" (" ++ name ++ $" [" ++ q ++ $"])") ++ $" by " ++ server ++ $" " ++ rest.
Proof. unfold handover. change ($"]) by ") with ($"])" ++ $" by "). rewrite <- !app_assoc. reflexivity. Qed.
Lemma no_newline w : no_blank w -> ~ In 10%N w.
Proof. intros H I. specialize (H _ I). discriminate. Qed.
Lemma by1 helo name a b c d server rest : word helo -> host_name name -> bytes a b c d -> word server ->
  get_by udigit uword (handover helo name (quad a b c d) server rest) = server.
Proof.
  intros Hh Hn Hb Hs. pose proof (den1 helo name a b c d server rest Hh Hn Hb Hs) as D. unfold get_by.
  rewrite (m_none RDNS_RE3 shape1 _ (fails1 RDNS_RE3 ltac:(apply in_or_app; left; unfold no_match1; cbn [In]; tauto)) D).
  rewrite handover_front.
  assert (K : option_map (g_ 1) (m_ udigit uword BY_RE ((helo ++ $" (" ++ name ++ $" [" ++ quad a b c d ++ $"])") ++ $" by " ++ server ++ $" " ++ rest)) = Some server).
  { apply by_first; [exact Hs| |].
    - rewrite !in_app_iff. intros [I|[I|[I|[I|[I|I]]]]].
      + exact (no_newline _ (proj2 Hh) I).
      + vm_compute in I. intuition discriminate.
      + exact (no_newline _ (host_no_blank name Hn) I).
      + vm_compute in I. intuition discriminate.
      + exact (no_newline _ (quad_no_blank _ _ _ _ Hb) I).
      + vm_compute in I. intuition discriminate.
    - intros x y E. rewrite <- !app_assoc in E. exact (front1 helo name a b c d (server ++ $" " ++ rest) x y (proj2 Hh) Hn Hb E). }
  destruct (m_ udigit uword BY_RE _); [injection K as K; exact K|discriminate].
Qed.
Lemma before1 helo name a b c d server rest : word helo -> host_name name -> bytes a b c d ->
  Spec_Relays.before_by (handover helo name (quad a b c d) server rest) ((helo ++ $" (" ++ name ++ $" ") ++ $"[" ++ quad a b c d ++ $"]" ++ $")").
Proof.
  intros Hh Hn Hb. right. exists (server ++ $" " ++ rest).
  assert (E : (helo ++ $" (" ++ name ++ $" ") ++ $"[" ++ quad a b c d ++ $"]" ++ $")" = helo ++ $" (" ++ name ++ $" [" ++ quad a b c d ++ $"])").
  { change ($" [") with ($" " ++ $"["). rewrite <- !app_assoc. reflexivity. }
  rewrite E. split; [apply handover_front|]. intros x y K. rewrite handover_front in K. rewrite <- !app_assoc in K.
  exact (front1 helo name a b c d (server ++ $" " ++ rest) x y (proj2 Hh) Hn Hb K).
Qed.
Lemma origin_word w t : no_blank w -> (forall z, w <> $"X-ORIGINATING-IP" ++ z) -> startswith ($"X-ORIGINATING-IP") (w ++ 32%N :: t) = false.
Proof.
  intros Hw Hx. destruct (startswith ($"X-ORIGINATING-IP") (w ++ 32%N :: t)) eqn:E; [|reflexivity]. exfalso. apply startswith_app in E as [z E].
  assert (NB : no_blank ($"X-ORIGINATING-IP")) by (intros c Hc; vm_compute in Hc; repeat (destruct Hc as [<-|Hc]; [reflexivity|]); destruct Hc).
  revert Hw Hx E NB. generalize ($"X-ORIGINATING-IP") as o. intros o. revert w. induction o as [|c o IH]; intros w Hw Hx E NB; [exact (Hx w eq_refl)|].
  destruct w as [|d w]; cbn [app] in E.
  - injection E as <- _. specialize (NB 32%N (or_introl eq_refl)). discriminate.
  - injection E as -> E. apply (IH w).
    + intros y Hy. apply Hw. right. exact Hy.
    + intros y ->. exact (Hx y eq_refl).
    + exact E.
    + intros y Hy. apply NB. right. exact Hy.
Qed.
Lemma c162 helo name a b c d server rest date :
  let h := handover helo name (quad a b c d) server rest in
  word helo -> host_name name -> bytes a b c d -> word server -> is_date date -> tidy h -> ~ In 59%N h ->
  helo <> $"Unknown/Local" -> (forall z, helo <> $"X-ORIGINATING-IP" ++ z) -> without skip_marks h ->
  exists r, parse_received udigit uword [received_header h date] = [r] /\
    Model_Relays.rl_by r = server /\
    (without ($"helo=" :: helo_marks) h -> Model_Relays.rl_helo r = helo) /\
    (contains ($"unknown") name = false -> name <> $"softdnserr" -> name <> $"UnknownHost" -> Model_Relays.rl_rdns r = name) /\
    (~ taken_private a b -> Model_Relays.rl_ip r = quad a b c d) /\
    ((forall x, In x (helo ++ name) -> x <> 58%N /\ is_d udigit x = false) -> Model_Relays.rl_ip r = quad a b c d).
Proof.
  intros h Hh Hn Hb Hs Hd Ht H59 Hu Hx Hq. cbn [parse_received].
  assert (Hp : prepare (received_header h date) = Some h).
  { apply prepare_received; auto. unfold h, handover. destruct Hh as [Hne Hb']. destruct helo as [|x helo']; [congruence|]. cbn [app]. apply Hb'. left. reflexivity. }
  rewrite Hp. unfold parse_one. unfold h at 1. rewrite (skip1 helo name a b c d server rest Hh Hn Hb Hs Hu Hq).
  assert (X : startswith ($"X-ORIGINATING-IP") h = false).
  { unfold h, handover. change ($" (") with [32; 40]%N. cbn [app]. apply origin_word; [apply Hh|exact Hx]. }
  rewrite X. eexists. split; [reflexivity|]. cbn [Model_Relays.rl_by Model_Relays.rl_helo Model_Relays.rl_rdns Model_Relays.rl_ip].
  split; [apply by1; assumption|]. split; [intros; apply helo1; assumption|]. split; [intros; apply rdns1; assumption|]. split.
  - intros Hpriv. eapply (address_last udigit uword h (helo ++ $" (" ++ name ++ $" ") ($")")); [exact Hb| |apply before1; assumption|exact Hpriv].
    apply quiet_marks; intros I; vm_compute in I; intuition discriminate.
  - intros Hdig. eapply (address_alone udigit uword h (helo ++ $" (" ++ name ++ $" ") ($")")); [exact Hb| | |apply before1; assumption].
    + intros x Hx'. rewrite !in_app_iff in Hx'. destruct Hx' as [I|[I|[I|I]]].
      * apply Hdig, in_or_app. left. exact I.
      * vm_compute in I. destruct I as [<-|[<-|[]]]; split; (discriminate || reflexivity).
      * apply Hdig, in_or_app. right. exact I.
      * vm_compute in I. destruct I as [<-|[]]; split; (discriminate || reflexivity).
    + apply quiet_marks; intros I; vm_compute in I; intuition discriminate.
Qed.

(** ** NAME ([ADDRESS] helo=HELO) by SERVER *)
Definition shape2 : list sym :=
  [W exn] ++ Lt ($" ([") ++ quad_shape ++ Lt ($"] helo=") ++ [W exn] ++ Lt ($") by ") ++ [W []] ++ Lt ($" ") ++ [Any].
Lemma den2 helo name a b c d server rest : host_name helo -> host_name name -> bytes a b c d -> word server ->
  den shape2 (handover_exim helo name (quad a b c d) server rest).
Proof.
  intros Hh Hn Hb [S1 S2]. unfold shape2, handover_exim.
  apply den_W; [apply Hn|apply host_plain, Hn|]. apply den_Lt. apply den_quad; [exact Hb|]. apply den_Lt.
  apply den_W; [apply Hh|apply host_plain, Hh|]. apply den_Lt.
  apply den_W; [exact S1|apply plain_nil, S2|]. apply den_Lt. constructor.
Qed.
Definition no_match2 : list re :=
  [HELO_RE7; HELO_RE5; HELO_RE4; HEADER_RE; RDNS_RE2; RDNS_SMTP1; RDNS_RE1; RDNS_RE3; RDNS_RE4; UNKNOWN_RE_RDNS].
Definition no_skip2 : list re := UNKNOWN_RE :: no_skip1.
Lemma fails2 : forall r, In r (no_match2 ++ no_skip2) -> places r (true, shape2) = [].
Proof.
  assert (K : forallb (fun r => match places r (true, shape2) with [] => true | _ => false end) (no_match2 ++ no_skip2) = true) by (vm_compute; reflexivity).
  rewrite forallb_forall in K. intros r Hr. specialize (K r Hr). destruct (places r (true, shape2)); [reflexivity|discriminate].
Qed.
Lemma skip_none t h : den t h -> (forall r, In r no_skip2 -> places r (true, t) = []) -> without skip_marks h -> check_for_skip udigit uword h = false.
Proof.
  intros D P Hq.
  assert (F : forall r, In r no_skip2 -> r = Cat Bos (match r with Cat _ k => k | x => x end) -> s_ udigit uword r h = false).
  { intros r Hr E. apply (s_none r t); [exact E|apply P, Hr|exact D]. }
  unfold check_for_skip. rewrite (with_local_none _ _ Hq); [|left; reflexivity].
  rewrite (not_contains ($"fetchmail") _ _ Hq); [|right; left; reflexivity|reflexivity].
  rewrite (F BSMTP_RE), (F CONTENT_TECH_RE), (F LOCALHOST_RE), (F AVG_SMTP_RE), (F QMAIL_RE), (F FROM_RE), (F UNKNOWN_RE), (F AUTH_SKIP_RE), (F LOCAL_SKIP_RE),
    (F AMAZON_RE), (F NOVELL_RE), (F NO_NAME_RE), (F SMTPSVC_RE) by (first [reflexivity | unfold no_skip2, no_skip1; cbn [In]; tauto]).
  rewrite !andb_false_r. reflexivity.
Qed.
Lemma progress_one b c x k b' : progress (mkS b (c :: x) k) (mkS b' x k) = true.
Proof. unfold progress. cbn [s_after length]. apply negb_true_iff, Nat.eqb_neq. lia. Qed.
(** A run of a class whose last character is given back *)
Lemma run_back ci neg l : forall w n b c x k, Forall (fun y => class_in udigit uword ci neg l y = true) w -> class_in udigit uword ci neg l c = true ->
  (match x with y :: _ => class_in udigit uword ci neg l y = false | [] => True end) -> length w + 1 < n ->
  exists m, repeats (ways (Chr ci neg l)) true n 0 None (mkS b (w ++ c :: x) k) =
            mkS (c :: rev w ++ b) x k :: mkS (rev w ++ b) (c :: x) k :: m.
Proof.
  induction w as [|y w IH]; intros n b c x k Hw Hc Hx Hn; cbn [app length] in *.
  - destruct n as [|[|n]]; [lia|lia|]. cbn [repeats]. rewrite (ways_chr udigit uword ci neg l b c x k Hc). cbn [filter].
    rewrite progress_one. cbn [flat_map].
    assert (E : ways (Chr ci neg l) (mkS (c :: b) x k) = []).
    { cbn [Regexp.ways]. unfold step. cbn [s_after]. destruct x as [|z x]; [reflexivity|]. rewrite Hx. reflexivity. }
    rewrite E. cbn. eexists. reflexivity.
  - destruct n as [|n]; [lia|]. inversion Hw as [|? ? Hy Hw']; subst. cbn [repeats].
    rewrite (ways_chr udigit uword ci neg l b y (w ++ c :: x) k Hy). cbn [filter].
    rewrite progress_one. cbn [flat_map].
    destruct (IH n (y :: b) c x k Hw' Hc Hx) as [m ->]; [lia|]. cbn [rev]. rewrite <- !app_assoc. cbn [app]. eexists. reflexivity.
Qed.
Lemma word_paren n w b t k : word w -> ~ In 41%N w ->
  first udigit uword (Cat (Grp n (Rep true 1 None (Chr true false [INotSpace]))) (Chr true false [IChar 41]))
    (mkS b (w ++ 41%N :: 32%N :: t) k) (mkS (41%N :: rev w ++ b) (32%N :: t) ((n, w) :: k)).
Proof.
  intros [Hne Hb] _. destruct w as [|y w]; [congruence|].
  assert (C : forall z, is_space z = false -> class_in udigit uword true false [INotSpace] z = true) by (intros z Hz; unfold class_in; cbn; rewrite Hz; reflexivity).
  assert (Hw : Forall (fun z => class_in udigit uword true false [INotSpace] z = true) w) by (apply Forall_forall; intros z Hz; apply C, Hb; right; exact Hz).
  destruct (run_back true false [INotSpace] w (length ((y :: w) ++ 41%N :: 32%N :: t)) (y :: b) 41%N (32%N :: t) k Hw) as [m E]; [reflexivity|reflexivity| |].
  { cbn [app length]. rewrite app_length. cbn [length]. lia. }
  assert (R : ways (Rep true 1 None (Chr true false [INotSpace])) (mkS b ((y :: w) ++ 41%N :: 32%N :: t) k) =
              mkS (41%N :: rev w ++ y :: b) (32%N :: t) k :: mkS (rev w ++ y :: b) (41%N :: 32%N :: t) k :: m).
  { change (ways (Rep true 1 None (Chr true false [INotSpace])) (mkS b ((y :: w) ++ 41%N :: 32%N :: t) k)) with
      (flat_map (repeats (ways (Chr true false [INotSpace])) true (length ((y :: w) ++ 41%N :: 32%N :: t)) 0 None)
         (ways (Chr true false [INotSpace]) (mkS b (y :: w ++ 41%N :: 32%N :: t) k))).
    rewrite (ways_chr udigit uword true false [INotSpace] b y (w ++ 41%N :: 32%N :: t) k); [|apply C, Hb; left; reflexivity].
    cbn [flat_map]. rewrite E. rewrite app_nil_r. reflexivity. }
  unfold first. change (ways (Cat (Grp n (Rep true 1 None (Chr true false [INotSpace]))) (Chr true false [IChar 41])) (mkS b ((y :: w) ++ 41%N :: 32%N :: t) k)) with
    (flat_map (ways (Chr true false [IChar 41])) (ways (Grp n (Rep true 1 None (Chr true false [INotSpace]))) (mkS b ((y :: w) ++ 41%N :: 32%N :: t) k))).
  assert (G : exists m', ways (Grp n (Rep true 1 None (Chr true false [INotSpace]))) (mkS b ((y :: w) ++ 41%N :: 32%N :: t) k) =
    mkS (41%N :: rev w ++ y :: b) (32%N :: t) ((n, y :: w ++ [41%N]) :: k) :: mkS (rev w ++ y :: b) (41%N :: 32%N :: t) ((n, y :: w) :: k) :: m').
  { eexists. cbn [Regexp.ways] in R |- *. rewrite R. cbn [map s_before s_after s_caps].
    assert (W : consumed (mkS b ((y :: w) ++ 41%N :: 32%N :: t) k) (mkS (rev w ++ y :: b) (41%N :: 32%N :: t) k) = y :: w).
    { apply ext_consumed. split; [reflexivity|]. cbn [s_before rev]. rewrite <- app_assoc. reflexivity. }
    assert (W2 : consumed (mkS b ((y :: w) ++ 41%N :: 32%N :: t) k) (mkS (41%N :: rev w ++ y :: b) (32%N :: t) k) = y :: w ++ [41%N]).
    { apply ext_consumed. split; [cbn; rewrite <- app_assoc; reflexivity|]. cbn [s_before rev]. rewrite rev_app_distr. cbn. rewrite <- app_assoc. reflexivity. }
    rewrite W, W2. reflexivity. }
  destruct G as [m' ->]. cbn [flat_map].
  change (ways (Chr true false [IChar 41]) (mkS (41%N :: rev w ++ y :: b) (32%N :: t) ((n, y :: w ++ [41%N]) :: k))) with (@nil state). cbn [app].
  rewrite (ways_chr udigit uword true false [IChar 41] (rev w ++ y :: b) 41%N (32%N :: t) ((n, y :: w) :: k) eq_refl). cbn [app].
  eexists. cbn [rev]. rewrite <- app_assoc. reflexivity.
Qed.
Lemma lit_ci_first c b t k : first udigit uword (Chr true false [IChar c]) (mkS b (c :: t) k) (mkS (c :: b) t k).
Proof. apply lit_first. Qed.
Lemma lower_eq x : lower_char x = 61%N -> x = 61%N.
Proof.
  unfold lower_char. destruct (N.leb 65 x && N.leb x 90) eqn:E; [|auto].
  apply andb_true_iff in E as [E1 E2]. apply N.leb_le in E1. apply N.leb_le in E2. intros H. lia.
Qed.
Lemma host_not w c : host_name w -> In c exn -> ~ In c w.
Proof. intros Hw Hc I. destruct (host_plain w Hw c I) as [_ N]. exact (N Hc). Qed.
Lemma quad_not a b c d x : bytes a b c d -> In x exn -> ~ In x (quad a b c d).
Proof.
  intros (A & B & C & D) Hx. unfold quad. rewrite !in_app_iff.
  assert (P : forall n, (n < 256)%N -> ~ In x (byte_text n)).
  { intros n Hn I. destruct (byte_plain n Hn x I) as [_ N]. apply N. right. exact Hx. }
  assert (Dt : ~ In x ($".")). { intros [<-|[]]. vm_compute in Hx. repeat (destruct Hx as [Hx|Hx]; [discriminate Hx|]). destruct Hx. }
  intros [I|[I|[I|[I|[I|[I|I]]]]]]; (exact (P _ A I) || exact (P _ B I) || exact (P _ C I) || exact (P _ D I) || exact (Dt I)).
Qed.
Lemma rdns_post t h name : den t h -> places UNKNOWN_RE_RDNS (true, t) = [] -> rdns_raw udigit uword h = name -> host_name name ->
  contains ($"unknown") name = false -> name <> $"UnknownHost" -> get_rdns udigit uword h = name.
Proof.
  intros D P R Hn N1 N3. unfold get_rdns. rewrite R. cbv zeta. assert (At : contains ($"@") name = false).
  { destruct (contains ($"@") name) eqn:E; [|reflexivity]. exfalso. apply contains_app in E as (x & y & ->).
    destruct (host_plain _ Hn 64%N) as [_ N]; [apply in_or_app; right; left; reflexivity|]. apply N. vm_compute. tauto. }
  rewrite At, (m_none UNKNOWN_RE_RDNS t h P D).
  generalize (contains ($"(Postfix)") h) as pf. intros pf.
  assert (Pf : (if pf then name else name) = name) by (destruct pf; reflexivity). rewrite Pf.
  rewrite (m_none RDNS_IP_RE [W exn] name); [|vm_compute; reflexivity|].
  + cbn [matched]. rewrite N1. rewrite (proj2 (streqb_neq _ _) N3). apply strip_brackets, Hn.
  + pose proof (den_W exn [] name [] (proj1 Hn) (host_plain name Hn) den_nil) as K. rewrite app_nil_r in K. exact K.
Qed.
Lemma host_word w : host_name w -> word w.
Proof. intros H. split; [apply H|apply host_no_blank, H]. Qed.
Lemma rdns_word name t : word name -> exists st, m_ udigit uword RDNS_RE (name ++ 32%N :: t) = Some st /\ g_ 1 st = name.
Proof.
  intros Hn. eexists. split.
  - apply match_first. change RDNS_RE with (Cat Bos (Cat (Grp 1 (Rep true 1 None (Chr false false [INotSpace]))) (Chr false false [IChar 32]))).
    eapply first_cat; [apply bos_first|]. eapply first_cat; [apply word_first, Hn|]. apply lit_first.
  - reflexivity.
Qed.
Lemma rdns2 helo name a b c d server rest : host_name helo -> host_name name -> bytes a b c d -> word server ->
  contains ($"unknown") name = false -> name <> $"UnknownHost" ->
  get_rdns udigit uword (handover_exim helo name (quad a b c d) server rest) = name.
Proof.
  intros Hh Hn Hb Hs N1 N3. pose proof (den2 helo name a b c d server rest Hh Hn Hb Hs) as D.
  assert (F : forall r, In r no_match2 -> m_ udigit uword r (handover_exim helo name (quad a b c d) server rest) = None).
  { intros r Hr. apply (m_none r shape2); [apply fails2, in_or_app; left; exact Hr|exact D]. }
  apply (rdns_post shape2); [exact D|apply fails2, in_or_app; left; unfold no_match2; cbn [In]; tauto| |exact Hn|exact N1|exact N3].
  unfold rdns_raw. rewrite (F HELO_RE7), (F HELO_RE5), (F HELO_RE4), (F HEADER_RE), (F RDNS_RE2), (F RDNS_SMTP1), (F RDNS_RE1), (F RDNS_RE3), (F RDNS_RE4)
    by (unfold no_match2; cbn [In]; tauto). cbn [matched andb orb].
  unfold handover_exim. change ($" ([" ++ quad a b c d ++ $"] helo=" ++ helo ++ $") by " ++ server ++ $" " ++ rest) with
    (32%N :: ($"([" ++ quad a b c d ++ $"] helo=" ++ helo ++ $") by " ++ server ++ $" " ++ rest)).
  destruct (rdns_word name ($"([" ++ quad a b c d ++ $"] helo=" ++ helo ++ $") by " ++ server ++ $" " ++ rest) (host_word _ Hn)) as (st & -> & G). exact G.
Qed.
Lemma helo2 helo name a b c d server rest : host_name helo -> host_name name -> bytes a b c d ->
  without [$"(helo "; $"(ehlo "] (handover_exim helo name (quad a b c d) server rest) ->
  get_helo udigit uword (handover_exim helo name (quad a b c d) server rest) = helo.
Proof.
  intros Hh Hn Hb Hq. unfold get_helo.
  assert (E0 : m_ udigit uword HELO_RE (handover_exim helo name (quad a b c d) server rest) = None).
  { eapply (no_dots_match udigit uword false _ (match HELO_RE with Cat _ k => k | r => r end)); [exact Hq|].
    intros m Hm. vm_compute in Hm. destruct Hm as [<-|[<-|[]]]; [left; reflexivity|right; left; reflexivity]. }
  rewrite E0.
  assert (E3 : exists st, m_ udigit uword HELO_RE3 (handover_exim helo name (quad a b c d) server rest) = Some st /\ g_ 1 st = helo).
  { set (K := match HELO_RE3 with Cat _ k => k | r => r end).
    assert (EqH : handover_exim helo name (quad a b c d) server rest =
                  (name ++ $" ([" ++ quad a b c d ++ $"] ") ++ $"helo=" ++ helo ++ 41%N :: 32%N :: $"by " ++ server ++ $" " ++ rest).
    { unfold handover_exim. change ($"] helo=") with ($"] " ++ $"helo="). change ($") by ") with (41%N :: 32%N :: $"by "). rewrite <- !app_assoc. reflexivity. }
    rewrite EqH. eexists. split.
    - apply match_first. change HELO_RE3 with (Cat (Rep false 0 None Dot) K). apply lazy_first.
      + rewrite !in_app_iff. intros [I|[I|[I|I]]].
        * exact (no_newline _ (host_no_blank name Hn) I).
        * vm_compute in I. intuition discriminate.
        * exact (no_newline _ (quad_no_blank _ _ _ _ Hb) I).
        * vm_compute in I. intuition discriminate.
      + intros u x v E. destruct (ways K _) as [|st l] eqn:W; [reflexivity|]. exfalso.
        destruct (lead_deep udigit uword K _ st ltac:(rewrite W; left; reflexivity)) as (m & y & Hm & Hy). vm_compute in Hm. destruct Hm as [<-|[]].
        cbn [s_after] in Hy.
        assert (NE : ~ In 61%N (lower (x :: v))).
        { intros I. apply in_map_iff in I as (z & Hz & I). apply lower_eq in Hz. subst z.
          assert (J : In 61%N (name ++ $" ([" ++ quad a b c d ++ $"] ")) by (rewrite E; apply in_or_app; right; exact I).
          rewrite !in_app_iff in J. destruct J as [J|[J|[J|J]]].
          - apply (host_not name 61%N Hn) in J; [exact J|vm_compute; tauto].
          - vm_compute in J. intuition discriminate.
          - apply (quad_not _ _ _ _ 61%N Hb) in J; [exact J|vm_compute; tauto].
          - vm_compute in J. intuition discriminate. }
        change (x :: v ++ $"helo=" ++ helo ++ 41%N :: 32%N :: $"by " ++ server ++ $" " ++ rest) with
          ((x :: v) ++ $"helo" ++ 61%N :: helo ++ 41%N :: 32%N :: $"by " ++ server ++ $" " ++ rest) in Hy.
        unfold lower in Hy, NE. rewrite map_app, map_app in Hy.
        set (X := map lower_char (x :: v)) in *. assert (LX : length X = Datatypes.S (length v)) by (unfold X; rewrite map_length; reflexivity).
        clearbody X. rewrite app_assoc in Hy.
        change ((X ++ map lower_char ($"helo")) ++ 61%N :: map lower_char (helo ++ 41%N :: 32%N :: $"by " ++ server ++ $" " ++ rest) = $"helo" ++ 61%N :: y) in Hy.
        apply split_first in Hy as [Hy _].
        * apply (f_equal (@length char)) in Hy. rewrite app_length, LX, map_length in Hy. lia.
        * rewrite in_app_iff. intros [I|I]; [exact (NE I)|]. vm_compute in I. intuition discriminate.
        * intros I. vm_compute in I. intuition discriminate.
      + change K with (Cat (Chr true false [IChar 104]) (Cat (Chr true false [IChar 101]) (Cat (Chr true false [IChar 108]) (Cat (Chr true false [IChar 111])
          (Cat (Chr true false [IChar 61]) (Cat (Grp 1 (Rep true 1 None (Chr true false [INotSpace]))) (Chr true false [IChar 41]))))))).
        change ($"helo=" ++ helo ++ 41%N :: 32%N :: $"by " ++ server ++ $" " ++ rest) with
          (104%N :: 101%N :: 108%N :: 111%N :: 61%N :: helo ++ 41%N :: 32%N :: $"by " ++ server ++ $" " ++ rest).
        do 5 (eapply first_cat; [apply lit_first|]). apply word_paren; [apply host_word, Hh|]. apply host_not; [exact Hh|vm_compute; tauto].
    - reflexivity. }
  destruct E3 as (st & -> & ->). apply strip_p_none. intros x Hx. destruct (mem_char x ($"[ ]();" ++ [10%N])) eqn:E; [|reflexivity]. exfalso. apply mem_char_In in E.
  destruct (host_plain helo Hh x Hx) as [B N]. vm_compute in E.
  destruct E as [<-|[<-|[<-|[<-|[<-|[<-|[<-|[]]]]]]]]; try (apply N; vm_compute; tauto); discriminate.
Qed.
Lemma front2 helo name a b c d R x y : host_name helo -> host_name name -> bytes a b c d ->
  name ++ $" ([" ++ quad a b c d ++ $"] helo=" ++ helo ++ $")" ++ $" by " ++ R = x ++ $" by " ++ y ->
  length (name ++ $" ([" ++ quad a b c d ++ $"] helo=" ++ helo ++ $")") <= length x.
Proof.
  intros Hh Hn Hb E. apply skip_word in E as (x1 & -> & E); [|apply host_no_blank, Hn].
  change ($" ([") with [32; 40; 91]%N in *. change ($"] helo=") with [93; 32; 104; 101; 108; 111; 61]%N in *. change ($")") with [41]%N in *. cbn [app] in E.
  apply skip_blank in E as (x2 & -> & E); [|discriminate].
  change (40%N :: 91%N :: quad a b c d ++ 93%N :: 32%N :: 104%N :: 101%N :: 108%N :: 111%N :: 61%N :: helo ++ 41%N :: $" by " ++ R) with
    ((40%N :: 91%N :: quad a b c d) ++ 93%N :: 32%N :: 104%N :: 101%N :: 108%N :: 111%N :: 61%N :: helo ++ 41%N :: $" by " ++ R) in E.
  apply skip_word in E as (x3 & -> & E); [|intros z [<-|[<-|Hz]]; [reflexivity|reflexivity|apply (quad_no_blank _ _ _ _ Hb z Hz)]].
  change (93%N :: 32%N :: 104%N :: 101%N :: 108%N :: 111%N :: 61%N :: helo ++ 41%N :: $" by " ++ R) with
    ([93]%N ++ 32%N :: 104%N :: 101%N :: 108%N :: 111%N :: 61%N :: helo ++ 41%N :: $" by " ++ R) in E.
  apply skip_word in E as (x4 & -> & E); [|intros z [<-|[]]; reflexivity].
  apply skip_blank in E as (x5 & -> & E); [|discriminate].
  change (104%N :: 101%N :: 108%N :: 111%N :: 61%N :: helo ++ 41%N :: $" by " ++ R) with ([104; 101; 108; 111; 61]%N ++ helo ++ 41%N :: $" by " ++ R) in E.
  apply skip_word in E as (x6 & -> & E); [|intros z Hz; repeat (destruct Hz as [<-|Hz]; [reflexivity|]); destruct Hz].
  apply skip_word in E as (x7 & -> & E); [|apply host_no_blank, Hh].
  change (41%N :: $" by " ++ R) with ([41]%N ++ $" by " ++ R) in E.
  apply skip_word in E as (x8 & -> & E); [|intros z [<-|[]]; reflexivity].
  repeat (rewrite app_length || cbn [length app]). lia.
Qed.
Lemma exim_front helo name q server rest :
  handover_exim helo name q server rest = (name ++ $" ([" ++ q ++ $"] helo=" ++ helo ++ $")") ++ $" by " ++ server ++ $" " ++ rest.
Proof. unfold handover_exim. change ($") by ") with ($")" ++ $" by "). rewrite <- !app_assoc. reflexivity. Qed.
Lemma by2 helo name a b c d server rest : host_name helo -> host_name name -> bytes a b c d -> word server ->
  get_by udigit uword (handover_exim helo name (quad a b c d) server rest) = server.
Proof.
  intros Hh Hn Hb Hs. pose proof (den2 helo name a b c d server rest Hh Hn Hb Hs) as D. unfold get_by.
  rewrite (m_none RDNS_RE3 shape2 _ (fails2 RDNS_RE3 ltac:(apply in_or_app; left; unfold no_match2; cbn [In]; tauto)) D).
  rewrite exim_front.
  assert (K : option_map (g_ 1) (m_ udigit uword BY_RE ((name ++ $" ([" ++ quad a b c d ++ $"] helo=" ++ helo ++ $")") ++ $" by " ++ server ++ $" " ++ rest)) = Some server).
  { apply by_first; [exact Hs| |].
    - rewrite !in_app_iff. intros [I|[I|[I|[I|[I|I]]]]].
      + exact (no_newline _ (host_no_blank name Hn) I).
      + vm_compute in I. intuition discriminate.
      + exact (no_newline _ (quad_no_blank _ _ _ _ Hb) I).
      + vm_compute in I. intuition discriminate.
      + exact (no_newline _ (host_no_blank helo Hh) I).
      + vm_compute in I. intuition discriminate.
    - intros x y E. rewrite <- !app_assoc in E. exact (front2 helo name a b c d (server ++ $" " ++ rest) x y Hh Hn Hb E). }
  destruct (m_ udigit uword BY_RE _); [injection K as K; exact K|discriminate].
Qed.
Lemma before2 helo name a b c d server rest : host_name helo -> host_name name -> bytes a b c d ->
  Spec_Relays.before_by (handover_exim helo name (quad a b c d) server rest)
    ((name ++ $" (") ++ $"[" ++ quad a b c d ++ $"]" ++ ($" helo=" ++ helo ++ $")")).
Proof.
  intros Hh Hn Hb. right. exists (server ++ $" " ++ rest).
  assert (E : (name ++ $" (") ++ $"[" ++ quad a b c d ++ $"]" ++ ($" helo=" ++ helo ++ $")") = name ++ $" ([" ++ quad a b c d ++ $"] helo=" ++ helo ++ $")").
  { change ($" ([") with ($" (" ++ $"["). change ($"] helo=") with ($"]" ++ $" helo="). rewrite <- !app_assoc. reflexivity. }
  rewrite E. split; [apply exim_front|]. intros x y K. rewrite exim_front in K. rewrite <- !app_assoc in K.
  exact (front2 helo name a b c d (server ++ $" " ++ rest) x y Hh Hn Hb K).
Qed.
Lemma host_origin w t : host_name w -> (forall z, w <> $"X-ORIGINATING-IP" ++ z) -> startswith ($"X-ORIGINATING-IP") (w ++ 32%N :: t) = false.
Proof. intros H. apply origin_word, host_no_blank, H. Qed.
Lemma c163 helo name a b c d server rest date :
  let h := handover_exim helo name (quad a b c d) server rest in
  host_name helo -> host_name name -> bytes a b c d -> word server -> is_date date -> tidy h -> ~ In 59%N h ->
  (forall z, name <> $"X-ORIGINATING-IP" ++ z) -> without skip_marks h ->
  exists r, parse_received udigit uword [received_header h date] = [r] /\
    Model_Relays.rl_by r = server /\
    (without [$"(helo "; $"(ehlo "] h -> Model_Relays.rl_helo r = helo) /\
    (contains ($"unknown") name = false -> name <> $"UnknownHost" -> Model_Relays.rl_rdns r = name) /\
    (~ In 46%N helo \/ (forall x, In x helo -> is_d udigit x = false) ->
      (~ taken_private a b -> Model_Relays.rl_ip r = quad a b c d) /\
      ((forall x, In x name -> is_d udigit x = false) -> Model_Relays.rl_ip r = quad a b c d)).
Proof.
  intros h Hh Hn Hb Hs Hd Ht H59 Hx Hq. cbn [parse_received].
  assert (Hp : prepare (received_header h date) = Some h).
  { apply prepare_received; auto. unfold h, handover_exim. destruct (host_word _ Hn) as [Hne Hb']. destruct name as [|x name']; [congruence|]. cbn [app]. apply Hb'. left. reflexivity. }
  rewrite Hp. unfold parse_one.
  assert (Sk : check_for_skip udigit uword h = false).
  { apply (skip_none shape2); [apply den2; assumption| |exact Hq]. intros r Hr. apply fails2, in_or_app. right. exact Hr. }
  rewrite Sk.
  assert (X : startswith ($"X-ORIGINATING-IP") h = false).
  { unfold h, handover_exim. change ($" ([") with [32; 40; 91]%N. cbn [app]. apply host_origin; [exact Hn|exact Hx]. }
  rewrite X. eexists. split; [reflexivity|]. cbn [Model_Relays.rl_by Model_Relays.rl_helo Model_Relays.rl_rdns Model_Relays.rl_ip].
  split; [apply by2; assumption|]. split; [intros; apply helo2; assumption|]. split; [intros; apply rdns2; assumption|]. intros Hq2.
  assert (C58 : ~ In 58%N helo) by (apply host_not; [exact Hh|vm_compute; tauto]).
  assert (Q : quiet_tail udigit uword ($" helo=" ++ helo ++ $")")).
  { destruct Hq2 as [Hq2|Hq2].
    - apply quiet_marks; rewrite !in_app_iff; intros [I|[I|I]]; (contradiction || (vm_compute in I; intuition discriminate)).
    - apply quiet_signs. intros x I. rewrite !in_app_iff in I. destruct I as [I|[I|I]].
      + vm_compute in I. repeat (destruct I as [<-|I]; [split; (discriminate || reflexivity)|]). destruct I.
      + split; [intros ->; exact (C58 I)|apply Hq2, I].
      + vm_compute in I. destruct I as [<-|[]]; split; (discriminate || reflexivity). }
  split.
  - intros Hpriv. eapply (address_last udigit uword h (name ++ $" (") ($" helo=" ++ helo ++ $")")); [exact Hb|exact Q|apply before2; assumption|exact Hpriv].
  - intros Hdig. eapply (address_alone udigit uword h (name ++ $" (") ($" helo=" ++ helo ++ $")")); [exact Hb| |exact Q|apply before2; assumption].
    intros x I. rewrite !in_app_iff in I. destruct I as [I|I].
    + split; [intros ->; revert I; apply host_not; [exact Hn|vm_compute; tauto]|apply Hdig, I].
    + vm_compute in I. destruct I as [<-|[<-|[]]]; split; (discriminate || reflexivity).
Qed.

(** ** HELO ([ADDRESS]) by SERVER *)
Definition shape3 : list sym :=
  [W exn] ++ Lt ($" ([") ++ quad_shape ++ Lt ($"]) by ") ++ [W []] ++ Lt ($" ") ++ [Any].
Lemma den3 helo a b c d server rest : host_name helo -> bytes a b c d -> word server ->
  den shape3 (handover_bare helo (quad a b c d) server rest).
Proof.
  intros Hh Hb [S1 S2]. unfold shape3, handover_bare.
  apply den_W; [apply Hh|apply host_plain, Hh|]. apply den_Lt. apply den_quad; [exact Hb|]. apply den_Lt.
  apply den_W; [exact S1|apply plain_nil, S2|]. apply den_Lt. constructor.
Qed.
Definition no_match3 : list re :=
  [HELO_RE7; HELO_RE5; HEADER_RE; RDNS_RE2; RDNS_SMTP; RDNS_RE1; RDNS_RE3; UNKNOWN_RE_RDNS].
Definition no_skip3 : list re :=
  [UNKNOWN_RE; BSMTP_RE; LOCALHOST_RE; AVG_SMTP_RE; QMAIL_RE; FROM_RE; AUTH_SKIP_RE; LOCAL_SKIP_RE; AMAZON_RE; NOVELL_RE; NO_NAME_RE; SMTPSVC_RE].
Lemma fails3 : forall r, In r (no_match3 ++ no_skip3) -> places r (true, shape3) = [].
Proof.
  assert (K : forallb (fun r => match places r (true, shape3) with [] => true | _ => false end) (no_match3 ++ no_skip3) = true) by (vm_compute; reflexivity).
  rewrite forallb_forall in K. intros r Hr. specialize (K r Hr). destruct (places r (true, shape3)); [reflexivity|discriminate].
Qed.
(** What a sequence matches after its first parts *)
Fixpoint drop_cat (n : nat) (r : re) : re :=
  match n, r with Datatypes.S m, Cat _ k => drop_cat m k | _, _ => r end.
Lemma drop_cat_ways n : forall r st st' h x, In st' (ways r st) -> h = x ++ s_after st ->
  exists st1 x', In st' (ways (drop_cat n r) st1) /\ h = x' ++ s_after st1.
Proof.
  induction n as [|n IH]; intros r st st' h x H E; [exists st, x; auto|].
  destruct r; cbn [drop_cat]; try (exists st, x; split; assumption).
  cbn [Regexp.ways] in H. apply in_flat_map in H as (s1 & H1 & H2). destruct (ways_ext _ _ _ _ _ H1) as [w W1].
  destruct (after_piece _ _ _ h x W1 E) as [x1 X1]. exact (IH _ _ _ _ _ H2 X1).
Qed.
Lemma search_deep n r marks h : without marks h -> incl (lead true (drop_cat n r)) marks -> s_ udigit uword r h = false.
Proof.
  intros Hq Hi. unfold s_. destruct (matched _) eqn:E; [|reflexivity]. exfalso. apply search_iff in E as (u & v & st & E & H).
  destruct (drop_cat_ways n r _ _ h u H E) as (s1 & x & H1 & X). exact (without_lead udigit uword marks _ s1 st h x Hq X Hi H1).
Qed.
Lemma skip3 h : den shape3 h -> without ($"(content" :: skip_marks) h -> check_for_skip udigit uword h = false.
Proof.
  intros D Hq.
  assert (F : forall r, In r no_skip3 -> r = Cat Bos (match r with Cat _ k => k | x => x end) -> s_ udigit uword r h = false).
  { intros r Hr E. apply (s_none r shape3); [exact E|apply fails3, in_or_app; right; exact Hr|exact D]. }
  unfold check_for_skip. rewrite (with_local_none _ _ Hq); [|right; left; reflexivity].
  rewrite (not_contains ($"fetchmail") _ _ Hq); [|right; right; left; reflexivity|reflexivity].
  rewrite (search_deep 12 CONTENT_TECH_RE _ _ Hq).
  2:{ intros m Hm. vm_compute in Hm. destruct Hm as [<-|[]]. left. reflexivity. }
  rewrite (F BSMTP_RE), (F LOCALHOST_RE), (F AVG_SMTP_RE), (F QMAIL_RE), (F FROM_RE), (F UNKNOWN_RE), (F AUTH_SKIP_RE), (F LOCAL_SKIP_RE),
    (F AMAZON_RE), (F NOVELL_RE), (F NO_NAME_RE), (F SMTPSVC_RE) by (first [reflexivity | unfold no_skip3; cbn [In]; tauto]).
  rewrite !andb_false_r. reflexivity.
Qed.
Lemma helo4_first helo a b c d server rest : host_name helo -> bytes a b c d ->
  exists st, m_ udigit uword HELO_RE4 (handover_bare helo (quad a b c d) server rest) = Some st /\ g_ 1 st = helo.
Proof.
  intros Hh Hb. unfold m_, handover_bare.
  change ($" ([") with [32; 40; 91]%N. change ($"]) by ") with (93 :: 41 :: $" by ")%N. cbn [app].
  set (t := $" by " ++ server ++ $" " ++ rest).
  set (T := Cat (Rep true 0 (Some 1) (Chr false false [IChar 40])) (Cat (Rep true 0 (Some 1) (Chr false false [ISpace])) (Cat (Chr false false [IChar 91])
        (Cat IP_ADDRESS (Cat (Chr false false [IChar 93]) (Chr false false [IChar 41])))))).
  set (p := 32%N :: rev helo ++ []).
  assert (I : In (mkS (41%N :: 93%N :: rev (quad a b c d) ++ 91%N :: 40%N :: p) t [(1, helo)])
                 (ways T (mkS p (40%N :: 91%N :: quad a b c d ++ 93%N :: 41%N :: t) [(1, helo)]))).
  { unfold T. eapply in_cat; [apply first_in, opt_first; reflexivity|].
    eapply in_cat; [rewrite (opt_none udigit uword false false [ISpace] (40%N :: p) (91%N :: quad a b c d ++ 93%N :: 41%N :: t)); [left; reflexivity|reflexivity]|].
    eapply in_cat; [apply in_chr; reflexivity|].
    eapply in_cat; [apply ip_in, Hb|]. eapply in_cat; [apply in_chr; reflexivity|]. apply in_chr. reflexivity. }
  destruct (first_tail udigit uword T _ _ eq_refl I) as (st & F & C). exists st. split.
  - apply match_first. change HELO_RE4 with
      (Cat Bos (Cat (Rep true 0 (Some 1) (Chr false false [IChar 40])) (Cat (Grp 1 (Rep true 1 None (Chr false false [INotSpace]))) (Cat (Chr false false [ISpace]) T)))).
    eapply first_cat; [apply bos_first|].
    eapply first_cat.
    { exists []. apply opt_none. destruct helo as [|x w]; [reflexivity|]. cbn [app].
      destruct (host_plain _ Hh x (or_introl eq_refl)) as [_ N]. unfold class_in. cbn.
      destruct (N.eqb_spec x 40) as [->|]; [exfalso; apply N; vm_compute; tauto|reflexivity]. }
    eapply first_cat; [apply word_first, host_word, Hh|]. eapply first_cat; [apply sp_first|]. exact F.
  - unfold g_. rewrite C. reflexivity.
Qed.
Lemma helo3 helo a b c d server rest : host_name helo -> bytes a b c d ->
  without [$"helo="; $"(helo "; $"(ehlo "] (handover_bare helo (quad a b c d) server rest) ->
  get_helo udigit uword (handover_bare helo (quad a b c d) server rest) = helo.
Proof.
  intros Hh Hb Hq. unfold get_helo.
  destruct (helo4_first helo a b c d server rest Hh Hb) as (st & E4 & G).
  assert (E0 : m_ udigit uword HELO_RE (handover_bare helo (quad a b c d) server rest) = None).
  { eapply (no_dots_match udigit uword false _ (match HELO_RE with Cat _ k => k | r => r end)); [exact Hq|].
    intros m Hm. vm_compute in Hm. destruct Hm as [<-|[<-|[]]]; [right; left; reflexivity|right; right; left; reflexivity]. }
  assert (E3 : m_ udigit uword HELO_RE3 (handover_bare helo (quad a b c d) server rest) = None).
  { eapply (no_dots_match udigit uword false _ (match HELO_RE3 with Cat _ k => k | r => r end)); [exact Hq|].
    intros m Hm. vm_compute in Hm. destruct Hm as [<-|[]]. left. reflexivity. }
  rewrite E0, E3, E4. exact G.
Qed.
Lemma rdns3 helo a b c d server rest : host_name helo -> bytes a b c d -> word server ->
  contains ($"Exim") (handover_bare helo (quad a b c d) server rest) = false ->
  get_rdns udigit uword (handover_bare helo (quad a b c d) server rest) = [].
Proof.
  intros Hh Hb Hs Hx. pose proof (den3 helo a b c d server rest Hh Hb Hs) as D.
  destruct (helo4_first helo a b c d server rest Hh Hb) as (st & E4 & _).
  assert (F : forall r, In r no_match3 -> m_ udigit uword r (handover_bare helo (quad a b c d) server rest) = None).
  { intros r Hr. apply (m_none r shape3); [apply fails3, in_or_app; left; exact Hr|exact D]. }
  unfold get_rdns. replace (rdns_raw udigit uword (handover_bare helo (quad a b c d) server rest)) with (@nil char).
  - cbv zeta. change (contains ($"@") []) with false. rewrite (F UNKNOWN_RE_RDNS) by (unfold no_match3; cbn [In]; tauto).
    generalize (contains ($"(Postfix)") (handover_bare helo (quad a b c d) server rest)) as pf. intros [|]; vm_compute; reflexivity.
  - unfold rdns_raw. rewrite (F HELO_RE7), (F HELO_RE5), (F RDNS_SMTP), E4, Hx by (unfold no_match3; cbn [In]; tauto). reflexivity.
Qed.
Lemma rdns3_exim helo a b c d server rest : host_name helo -> bytes a b c d -> word server ->
  contains ($"Exim") (handover_bare helo (quad a b c d) server rest) = true ->
  contains ($"unknown") helo = false -> helo <> $"UnknownHost" ->
  get_rdns udigit uword (handover_bare helo (quad a b c d) server rest) = helo.
Proof.
  intros Hh Hb Hs Hx N1 N3. pose proof (den3 helo a b c d server rest Hh Hb Hs) as D.
  assert (F : forall r, In r no_match3 -> m_ udigit uword r (handover_bare helo (quad a b c d) server rest) = None).
  { intros r Hr. apply (m_none r shape3); [apply fails3, in_or_app; left; exact Hr|exact D]. }
  apply (rdns_post shape3); [exact D|apply fails3, in_or_app; left; unfold no_match3; cbn [In]; tauto| |exact Hh|exact N1|exact N3].
  unfold rdns_raw. rewrite (F HELO_RE7), (F HELO_RE5), (F HEADER_RE), (F RDNS_RE2), (F RDNS_RE1), (F RDNS_RE3), Hx
    by (unfold no_match3; cbn [In]; tauto). cbn [matched andb orb negb]. rewrite !andb_false_r.
  unfold handover_bare. change ($" ([" ++ quad a b c d ++ $"]) by " ++ server ++ $" " ++ rest) with
    (32%N :: ($"([" ++ quad a b c d ++ $"]) by " ++ server ++ $" " ++ rest)).
  destruct (rdns_word helo ($"([" ++ quad a b c d ++ $"]) by " ++ server ++ $" " ++ rest) (host_word _ Hh)) as (st & -> & G). exact G.
Qed.
Lemma front3 helo a b c d R x y : host_name helo -> bytes a b c d ->
  helo ++ $" ([" ++ quad a b c d ++ $"])" ++ $" by " ++ R = x ++ $" by " ++ y ->
  length (helo ++ $" ([" ++ quad a b c d ++ $"])") <= length x.
Proof.
  intros Hh Hb E. apply skip_word in E as (x1 & -> & E); [|apply host_no_blank, Hh].
  change ($" ([") with [32; 40; 91]%N in *. change ($"])") with [93; 41]%N in *. cbn [app] in E.
  apply skip_blank in E as (x2 & -> & E); [|discriminate].
  change (40%N :: 91%N :: quad a b c d ++ 93%N :: 41%N :: $" by " ++ R) with ((40%N :: 91%N :: quad a b c d) ++ 93%N :: 41%N :: $" by " ++ R) in E.
  apply skip_word in E as (x3 & -> & E); [|intros z [<-|[<-|Hz]]; [reflexivity|reflexivity|apply (quad_no_blank _ _ _ _ Hb z Hz)]].
  change (93%N :: 41%N :: $" by " ++ R) with ([93; 41]%N ++ $" by " ++ R) in E.
  apply skip_word in E as (x8 & -> & E); [|intros z [<-|[<-|[]]]; reflexivity].
  repeat (rewrite app_length || cbn [length app]). lia.
Qed.
Lemma bare_front helo q server rest :
  handover_bare helo q server rest = (helo ++ $" ([" ++ q ++ $"])") ++ $" by " ++ server ++ $" " ++ rest.
Proof. unfold handover_bare. change ($"]) by ") with ($"])" ++ $" by "). rewrite <- !app_assoc. reflexivity. Qed.
Lemma by3 helo a b c d server rest : host_name helo -> bytes a b c d -> word server ->
  get_by udigit uword (handover_bare helo (quad a b c d) server rest) = server.
Proof.
  intros Hh Hb Hs. pose proof (den3 helo a b c d server rest Hh Hb Hs) as D. unfold get_by.
  rewrite (m_none RDNS_RE3 shape3 _ (fails3 RDNS_RE3 ltac:(apply in_or_app; left; unfold no_match3; cbn [In]; tauto)) D).
  rewrite bare_front.
  assert (K : option_map (g_ 1) (m_ udigit uword BY_RE ((helo ++ $" ([" ++ quad a b c d ++ $"])") ++ $" by " ++ server ++ $" " ++ rest)) = Some server).
  { apply by_first; [exact Hs| |].
    - rewrite !in_app_iff. intros [I|[I|[I|I]]].
      + exact (no_newline _ (host_no_blank helo Hh) I).
      + vm_compute in I. intuition discriminate.
      + exact (no_newline _ (quad_no_blank _ _ _ _ Hb) I).
      + vm_compute in I. intuition discriminate.
    - intros x y E. rewrite <- !app_assoc in E. exact (front3 helo a b c d (server ++ $" " ++ rest) x y Hh Hb E). }
  destruct (m_ udigit uword BY_RE _); [injection K as K; exact K|discriminate].
Qed.
Lemma before3 helo a b c d server rest : host_name helo -> bytes a b c d ->
  Spec_Relays.before_by (handover_bare helo (quad a b c d) server rest) ((helo ++ $" (") ++ $"[" ++ quad a b c d ++ $"]" ++ $")").
Proof.
  intros Hh Hb. right. exists (server ++ $" " ++ rest).
  assert (E : (helo ++ $" (") ++ $"[" ++ quad a b c d ++ $"]" ++ $")" = helo ++ $" ([" ++ quad a b c d ++ $"])").
  { change ($" ([") with ($" (" ++ $"["). change ($"])") with ($"]" ++ $")"). rewrite <- !app_assoc. reflexivity. }
  rewrite E. split; [apply bare_front|]. intros x y K. rewrite bare_front in K. rewrite <- !app_assoc in K.
  exact (front3 helo a b c d (server ++ $" " ++ rest) x y Hh Hb K).
Qed.
Lemma c164 helo a b c d server rest date :
  let h := handover_bare helo (quad a b c d) server rest in
  host_name helo -> bytes a b c d -> word server -> is_date date -> tidy h -> ~ In 59%N h ->
  (forall z, helo <> $"X-ORIGINATING-IP" ++ z) -> without ($"(content" :: skip_marks) h ->
  exists r, parse_received udigit uword [received_header h date] = [r] /\
    Model_Relays.rl_by r = server /\
    (without [$"helo="; $"(helo "; $"(ehlo "] h -> Model_Relays.rl_helo r = helo) /\
    (contains ($"Exim") h = false -> Model_Relays.rl_rdns r = []) /\
    (contains ($"Exim") h = true -> contains ($"unknown") helo = false -> helo <> $"UnknownHost" -> Model_Relays.rl_rdns r = helo) /\
    (~ taken_private a b -> Model_Relays.rl_ip r = quad a b c d) /\
    ((forall x, In x helo -> is_d udigit x = false) -> Model_Relays.rl_ip r = quad a b c d).
Proof.
  intros h Hh Hb Hs Hd Ht H59 Hx Hq. cbn [parse_received].
  assert (Hp : prepare (received_header h date) = Some h).
  { apply prepare_received; auto. unfold h, handover_bare. destruct (host_word _ Hh) as [Hne Hb']. destruct helo as [|x helo']; [congruence|]. cbn [app]. apply Hb'. left. reflexivity. }
  rewrite Hp. unfold parse_one.
  rewrite (skip3 h (den3 helo a b c d server rest Hh Hb Hs) Hq).
  assert (X : startswith ($"X-ORIGINATING-IP") h = false).
  { unfold h, handover_bare. change ($" ([") with [32; 40; 91]%N. cbn [app]. apply host_origin; [exact Hh|exact Hx]. }
  rewrite X. eexists. split; [reflexivity|]. cbn [Model_Relays.rl_by Model_Relays.rl_helo Model_Relays.rl_rdns Model_Relays.rl_ip].
  split; [apply by3; assumption|]. split; [intros; apply helo3; assumption|]. split; [intros; apply rdns3; assumption|].
  split; [intros; apply rdns3_exim; assumption|].
  assert (Q : quiet_tail udigit uword ($")")) by (apply quiet_marks; intros I; vm_compute in I; intuition discriminate).
  split.
  - intros Hpriv. eapply (address_last udigit uword h (helo ++ $" (") ($")")); [exact Hb|exact Q|apply before3; assumption|exact Hpriv].
  - intros Hdig. eapply (address_alone udigit uword h (helo ++ $" (") ($")")); [exact Hb| |exact Q|apply before3; assumption].
    intros x I. rewrite !in_app_iff in I. destruct I as [I|I].
    + split; [intros ->; revert I; apply host_not; [exact Hh|vm_compute; tauto]|apply Hdig, I].
    + vm_compute in I. destruct I as [<-|[<-|[]]]; split; (discriminate || reflexivity).
Qed.
End Handover.
