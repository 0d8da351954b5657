(** Proofs about the option model. *)
From Verif Require Import PyStr PyDict Model_Rules Model_Parser Model_Conf Spec_Conf.

Lemma length_upd {A} (l : list A) n x : length (upd l n x) = length l.
Proof. revert n; induction l as [|y l IH]; intros [|n]; simpl; [reflexivity..|]. f_equal; apply IH. Qed.
Lemma nth_upd_same {A} (l : list A) n x : n < length l -> nth_error (upd l n x) n = Some x.
Proof. revert n; induction l as [|y l IH]; intros [|n] H; simpl in *; [lia..|reflexivity|]. apply IH; lia. Qed.
Lemma nth_upd_other {A} (l : list A) n m x : n <> m -> nth_error (upd l n x) m = nth_error l m.
Proof.
  revert n m; induction l as [|y l IH]; intros [|n] [|m] H; simpl; try reflexivity; [congruence|]. apply IH; congruence.
Qed.
Lemma nth_lt {A} (l : list A) n x : nth_error l n = Some x -> n < length l.
Proof. intros H. apply nth_error_Some. congruence. Qed.
Lemma nth_snoc_lt {A} (l : list A) n x : n < length l -> nth_error (l ++ [x]) n = nth_error l n.
Proof. intros H. apply nth_error_app1; exact H. Qed.
Lemma nth_snoc_eq {A} (l : list A) x : nth_error (l ++ [x]) (length l) = Some x.
Proof. rewrite nth_error_app2 by lia. rewrite Nat.sub_diag; reflexivity. Qed.

Section P.
Variable classes : dict table.
Variable py_float : str -> option Q.
Variable h0 : list (list str).
Hypothesis OK : classes_ok classes h0.

Notation opt := (option_of classes).

Definition data (w : world) (c : nat) (cls key : str) : option cval :=
  match nth_error (w_ctxs w) c with Some x => c_data x cls key | None => None end.

Lemma view_data w c cls key : view w c cls key = match data w c cls key with Some v => see w v | None => None end.
Proof. unfold view, data. destruct (nth_error (w_ctxs w) c); reflexivity. Qed.

Definition loaded (w : world) (c : nat) (cls : str) : Prop :=
  exists x, nth_error (w_ctxs w) c = Some x /\ In cls (main :: c_order x).

Record Inv (w : world) : Prop := {
  i_bound : forall c cls k n, data w c cls k = Some (CList n) -> n < length (w_heap w);
  i_dflt : forall c cls k n, data w c cls k = Some (CList n) -> n < length h0 -> exists ty, opt cls k = Some (ty, CList n);
  i_own : forall c cls k c' cls' k' n, data w c cls k = Some (CList n) -> data w c' cls' k' = Some (CList n) ->
      length h0 <= n -> c = c' /\ cls = cls' /\ k = k';
  i_len : length h0 <= length (w_heap w);
  i_list : forall c cls k ty d, loaded w c cls -> opt cls k = Some (ty, d) -> (ty = OAppend \/ ty = OAppendSplit) ->
      exists n, data w c cls k = Some (CList n);
  i_const : forall cls k ty n, opt cls k = Some (ty, CList n) -> ty <> OAppend -> ty <> OAppendSplit ->
      nth_error (w_heap w) n = nth_error h0 n
}.

Lemma share w c cls k c' cls' k' n : Inv w ->
  data w c cls k = Some (CList n) -> data w c' cls' k' = Some (CList n) ->
  cls = cls' /\ k = k' /\ (c = c' \/ n < length h0).
Proof.
  intros I H1 H2. destruct (Nat.lt_ge_cases n (length h0)) as [Hl|Hl].
  - destruct (i_dflt w I _ _ _ _ H1 Hl) as [ty E1], (i_dflt w I _ _ _ _ H2 Hl) as [ty' E2].
    destruct OK as (_ & _ & U & _). destruct (U _ _ _ _ _ _ _ E1 E2). auto.
  - destruct (i_own w I _ _ _ _ _ _ _ H1 H2 Hl) as (-> & -> & ->). auto.
Qed.

(** ** Writing one key *)
Definition here (c : nat) (cls k : str) (c' : nat) (cls' k' : str) : bool :=
  Nat.eqb c c' && (streqb cls cls' && streqb k k').
Lemma here_spec c cls k c' cls' k' : reflect (c = c' /\ cls = cls' /\ k = k') (here c cls k c' cls' k').
Proof.
  unfold here. destruct (Nat.eqb_spec c c'), (streqb_spec cls cls'), (streqb_spec k k'); constructor; tauto.
Qed.

Lemma data_set c cls k v w c' cls' k' : c < length (w_ctxs w) ->
  data (set_global c cls k v w) c' cls' k' = if here c cls k c' cls' k' then Some v else data w c' cls' k'.
Proof.
  intros H. unfold data, set_global, here. destruct (nth_error (w_ctxs w) c) as [x|] eqn:E;
    [|apply nth_error_None in E; lia].
  simpl. destruct (Nat.eqb_spec c c') as [<-|Hn]; simpl.
  - rewrite nth_upd_same by exact H. simpl. rewrite E. destruct (streqb cls cls' && streqb k k'); reflexivity.
  - rewrite nth_upd_other by exact Hn. reflexivity.
Qed.
Lemma heap_set c cls k v w : w_heap (set_global c cls k v w) = w_heap w.
Proof. unfold set_global. destruct (nth_error (w_ctxs w) c); reflexivity. Qed.
Lemma len_set c cls k v w : length (w_ctxs (set_global c cls k v w)) = length (w_ctxs w).
Proof. unfold set_global. destruct (nth_error (w_ctxs w) c); [apply length_upd|reflexivity]. Qed.
Lemma order_set c cls k v w c' : order_of (set_global c cls k v w) c' = order_of w c'.
Proof.
  unfold order_of, set_global. destruct (nth_error (w_ctxs w) c) as [x|] eqn:E; [|reflexivity]. simpl.
  destruct (Nat.eq_dec c c') as [<-|Hn].
  - rewrite nth_upd_same by (eapply nth_lt; exact E). rewrite E. reflexivity.
  - rewrite nth_upd_other by exact Hn. reflexivity.
Qed.
Lemma loaded_order w w' c cls : length (w_ctxs w) = length (w_ctxs w') -> order_of w c = order_of w' c -> loaded w c cls -> loaded w' c cls.
Proof.
  unfold order_of, loaded. intros L O (x & E & Hi). pose proof (nth_lt _ _ _ E) as Hl. rewrite L in Hl.
  apply nth_error_Some in Hl. destruct (nth_error (w_ctxs w') c) as [y|]; [|congruence].
  exists y. split; [reflexivity|]. rewrite E in O. rewrite <- O. exact Hi.
Qed.

Definition plain (v : cval) : Prop := match v with CList _ => False | _ => True end.
Lemma see_plain w w' v : plain v -> see w v = see w' v.
Proof. destruct v; simpl; tauto || reflexivity. Qed.

Lemma view_set_plain c cls k v w c' cls' k' : c < length (w_ctxs w) -> plain v ->
  view (set_global c cls k v w) c' cls' k' = if here c cls k c' cls' k' then see w v else view w c' cls' k'.
Proof.
  intros H Hp. rewrite !view_data, data_set by exact H. destruct (here c cls k c' cls' k'); [apply see_plain; exact Hp|].
  destruct (data w c' cls' k') as [u|]; [|reflexivity]. destruct u; simpl; try reflexivity. rewrite heap_set. reflexivity.
Qed.

Lemma inv_set_plain c cls k v w : Inv w -> c < length (w_ctxs w) -> plain v -> is_append classes cls k = false ->
  Inv (set_global c cls k v w).
Proof.
  intros I H Hp Ha. constructor.
  - intros c' cls' k' n E. rewrite heap_set. rewrite data_set in E by exact H.
    destruct (here c cls k c' cls' k'); [injection E as ->; contradiction|]. eapply i_bound; eassumption.
  - intros c' cls' k' n E Hn. rewrite data_set in E by exact H.
    destruct (here c cls k c' cls' k'); [injection E as ->; contradiction|]. eapply i_dflt; eassumption.
  - intros c1 cls1 k1 c2 cls2 k2 n E1 E2 Hn. rewrite data_set in E1, E2 by exact H.
    destruct (here c cls k c1 cls1 k1); [injection E1 as ->; contradiction|].
    destruct (here c cls k c2 cls2 k2); [injection E2 as ->; contradiction|]. eapply i_own; eassumption.
  - rewrite heap_set. apply i_len; exact I.
  - intros c' cls' k' ty d Hl Ho Ht. rewrite data_set by exact H.
    destruct (here_spec c cls k c' cls' k') as [(<- & <- & <-)|Hn].
    + unfold is_append in Ha. rewrite Ho in Ha. destruct Ht as [-> | ->]; discriminate Ha.
    + eapply i_list; try eassumption. eapply loaded_order; [| |exact Hl]; [apply len_set|apply order_set].
  - intros. rewrite heap_set. eapply i_const; eassumption.
Qed.

(** ** A new list *)
Lemma data_heap h w c cls k : data (mkW h (w_ctxs w)) c cls k = data w c cls k.
Proof. reflexivity. Qed.
Lemma data_new c cls k l w c' cls' k' : c < length (w_ctxs w) ->
  data (set_new_list c cls k l w) c' cls' k' = if here c cls k c' cls' k' then Some (CList (length (w_heap w))) else data w c' cls' k'.
Proof. intros H. unfold set_new_list. rewrite data_set by exact H. reflexivity. Qed.
Lemma heap_new c cls k l w : w_heap (set_new_list c cls k l w) = w_heap w ++ [l].
Proof. unfold set_new_list. rewrite heap_set. reflexivity. Qed.
Lemma len_new c cls k l w : length (w_ctxs (set_new_list c cls k l w)) = length (w_ctxs w).
Proof. unfold set_new_list. rewrite len_set. reflexivity. Qed.
Lemma order_new c cls k l w c' : order_of (set_new_list c cls k l w) c' = order_of w c'.
Proof. unfold set_new_list. rewrite order_set. reflexivity. Qed.

Lemma see_grow w w' v l : w_heap w' = w_heap w ++ [l] -> (forall n, v = CList n -> n < length (w_heap w)) -> see w' v = see w v.
Proof. intros E H. destruct v; simpl; try reflexivity. rewrite E, nth_snoc_lt by auto. reflexivity. Qed.

Lemma view_new c cls k l w c' cls' k' : Inv w -> c < length (w_ctxs w) ->
  view (set_new_list c cls k l w) c' cls' k' = if here c cls k c' cls' k' then Some (SList l) else view w c' cls' k'.
Proof.
  intros I H. rewrite !view_data, data_new by exact H. destruct (here c cls k c' cls' k').
  - simpl. rewrite heap_new, nth_snoc_eq. reflexivity.
  - destruct (data w c' cls' k') as [v|] eqn:E; [|reflexivity]. eapply see_grow; [apply heap_new|].
    intros n ->. eapply i_bound; eassumption.
Qed.

Lemma inv_new c cls k l w : Inv w -> c < length (w_ctxs w) -> Inv (set_new_list c cls k l w).
Proof.
  intros I H. pose proof (i_len w I) as HL. constructor.
  - intros c' cls' k' n E. rewrite heap_new, app_length; simpl. rewrite data_new in E by exact H.
    destruct (here c cls k c' cls' k'); [injection E as <-; lia|]. apply (i_bound w I) in E; lia.
  - intros c' cls' k' n E Hn. rewrite data_new in E by exact H.
    destruct (here c cls k c' cls' k'); [injection E as <-; lia|]. eapply i_dflt; eassumption.
  - intros c1 cls1 k1 c2 cls2 k2 n E1 E2 Hn. rewrite data_new in E1, E2 by exact H.
    destruct (here_spec c cls k c1 cls1 k1) as [(<- & <- & <-)|N1]; destruct (here_spec c cls k c2 cls2 k2) as [(<- & <- & <-)|N2].
    + auto.
    + injection E1 as <-. apply (i_bound w I) in E2; lia.
    + injection E2 as <-. apply (i_bound w I) in E1; lia.
    + eapply i_own; eassumption.
  - rewrite heap_new, app_length; lia.
  - intros c' cls' k' ty d Hl Ho Ht. rewrite data_new by exact H.
    destruct (here c cls k c' cls' k'); [eauto|]. eapply i_list; try eassumption.
    eapply loaded_order; [| |exact Hl]; [apply len_new|apply order_new].
  - intros cls' k' ty n Ho H1 H2. rewrite heap_new, nth_snoc_lt; [eapply i_const; eassumption|].
    destruct OK as (_ & B & _). apply B in Ho. lia.
Qed.

(** ** Clearing several keys *)
Definition clear_keys c cls ks w := fold_left (fun w k => set_new_list c cls k [] w) ks w.
Lemma clear_spec c cls ks : forall w, Inv w -> c < length (w_ctxs w) ->
  Inv (clear_keys c cls ks w) /\ length (w_ctxs (clear_keys c cls ks w)) = length (w_ctxs w) /\
  (forall c', order_of (clear_keys c cls ks w) c' = order_of w c') /\
  (exists extra, w_heap (clear_keys c cls ks w) = w_heap w ++ extra) /\
  (forall c' cls' k', view (clear_keys c cls ks w) c' cls' k' =
     if Nat.eqb c c' && (streqb cls cls' && mem_str k' ks) then Some (SList []) else view w c' cls' k').
Proof.
  induction ks as [|k ks IH]; intros w I H; simpl.
  - split; [exact I|]. split; [reflexivity|]. split; [reflexivity|]. split; [exists []; rewrite app_nil_r; reflexivity|].
    intros c' cls' k'. unfold mem_str; simpl. rewrite !andb_false_r. reflexivity.
  - destruct (IH (set_new_list c cls k [] w)) as (I' & L' & O' & (ex & X') & V'); [apply inv_new; assumption|rewrite len_new; exact H|].
    fold (clear_keys c cls ks (set_new_list c cls k [] w)).
    split; [exact I'|]. split; [|split; [|split]].
    + rewrite L'. apply len_new.
    + intros c'. rewrite O'. apply order_new.
    + rewrite X', heap_new, <- app_assoc. eauto.
    + intros c' cls' k'. rewrite V', view_new by assumption. unfold here, mem_str; simpl existsb.
      destruct (Nat.eqb c c'); simpl; [|reflexivity]. destruct (streqb cls cls'); simpl; [|reflexivity].
      rewrite (streqb_sym k' k). destruct (streqb k k'); simpl; [|reflexivity].
      destruct (existsb (streqb k') ks); reflexivity.
Qed.
Lemma clear_data c cls ks : forall w k, c < length (w_ctxs w) ->
  (In k ks -> exists n, data (clear_keys c cls ks w) c cls k = Some (CList n) /\ length (w_heap w) <= n) /\
  (forall c' cls' k', (c <> c' \/ cls <> cls' \/ ~ In k' ks) -> data (clear_keys c cls ks w) c' cls' k' = data w c' cls' k').
Proof.
  induction ks as [|k1 ks IH]; intros w k H; simpl; [split; [contradiction|reflexivity]|].
  split.
  - intros Hi. destruct (IH (set_new_list c cls k1 [] w) k) as [A B]; [rewrite len_new; exact H|].
    destruct (in_dec str_eq_dec k ks) as [Hk|Hk].
    + destruct (A Hk) as (n & E & Hn). exists n. split; [exact E|]. rewrite heap_new, app_length in Hn. lia.
    + destruct Hi as [->|]; [|contradiction]. exists (length (w_heap w)). split; [|lia].
      unfold clear_keys in B. rewrite B by tauto. rewrite data_new by exact H.
      destruct (here_spec c cls k c cls k); [reflexivity|tauto].
  - intros c' cls' k' Hn. destruct (IH (set_new_list c cls k1 [] w) k) as [A B]; [rewrite len_new; exact H|].
    unfold clear_keys in B. rewrite B by (simpl in Hn; tauto). rewrite data_new by exact H.
    destruct (here_spec c cls k1 c' cls' k') as [(<- & <- & <-)|]; [|reflexivity]. simpl in Hn; tauto.
Qed.

(** ** Adding to a list in place *)
Definition grow (n : nat) (l : list str) (w : world) : world := mkW (upd (w_heap w) n l) (w_ctxs w).
Lemma inv_grow w c cls k n l : Inv w -> data w c cls k = Some (CList n) -> is_append classes cls k = true -> Inv (grow n l w).
Proof.
  intros I E Ha. constructor; unfold grow; simpl.
  - intros c' cls' k' m Em. rewrite length_upd. eapply (i_bound w I); exact Em.
  - intros c' cls' k' m Em. eapply (i_dflt w I); exact Em.
  - intros c1 cls1 k1 c2 cls2 k2 m E1 E2. eapply (i_own w I); eassumption.
  - rewrite length_upd. apply i_len; exact I.
  - intros c' cls' k' ty d Hl. eapply (i_list w I); eassumption.
  - intros cls' k' ty m Ho H1 H2. destruct (Nat.eq_dec n m) as [<-|Hn].
    + exfalso. assert (Hlt : n < length h0) by (destruct OK as (_ & B & _); eapply B; exact Ho).
      destruct (i_dflt w I _ _ _ _ E Hlt) as [ty' E']. destruct OK as (_ & _ & U & _).
      destruct (U _ _ _ _ _ _ _ Ho E') as [-> ->]. rewrite Ho in E'. injection E' as <-.
      unfold is_append in Ha. rewrite Ho in Ha. destruct ty; congruence || discriminate.
    + rewrite nth_upd_other by exact Hn. eapply i_const; eassumption.
Qed.
Lemma view_grow w c cls k n l0 l c' cls' k' : Inv w -> data w c cls k = Some (CList n) -> nth_error (w_heap w) n = Some l0 ->
  (here c cls k c' cls' k' = true -> view (grow n l w) c' cls' k' = Some (SList l)) /\
  (view (grow n l w) c' cls' k' <> view w c' cls' k' -> cls' = cls /\ k' = k /\ (c' = c \/ n < length h0)).
Proof.
  intros I E En. pose proof (nth_lt _ _ _ En) as Hlt. rewrite !view_data. change (data (grow n l w) c' cls' k') with (data w c' cls' k').
  split.
  - destruct (here_spec c cls k c' cls' k') as [(<- & <- & <-)|]; [|discriminate]. intros _. rewrite E. simpl.
    rewrite nth_upd_same by exact Hlt. reflexivity.
  - destruct (data w c' cls' k') as [v|] eqn:Ev; [|congruence]. destruct v; simpl; try congruence.
    destruct (Nat.eq_dec n loc) as [<-|Hn]; [|rewrite nth_upd_other by exact Hn; congruence].
    intros _. destruct (share w _ _ _ _ _ _ _ I E Ev) as (<- & <- & [<-|]); auto.
Qed.

(** ** Loading the defaults of a class *)
Lemma opt_table cls k : opt cls k = dget k (table_of classes cls).
Proof. unfold option_of, table_of. destruct (dget cls classes); reflexivity. Qed.

Lemma puts_spec cls (t : table) : NoDup (dkeys t) -> forall x cls' k',
  c_data (fold_left (fun x e => put cls (fst e) (snd (snd e)) x) t x) cls' k' =
  (if streqb cls cls' then match dget k' t with Some (_, d) => Some d | None => c_data x cls' k' end else c_data x cls' k').
Proof.
  induction t as [|[k [ty d]] t IH]; intros ND x cls' k'; simpl.
  - destruct (streqb cls cls'); reflexivity.
  - inversion ND as [|? ? Hn ND']; subst. rewrite IH by exact ND'. simpl.
    destruct (streqb cls cls') eqn:Ec; simpl; [|reflexivity].
    rewrite (streqb_sym k' k). destruct (streqb_spec k k') as [->|Hk].
    + apply dget_None in Hn. rewrite Hn. reflexivity.
    + destruct (dget k' t) as [[? ?]|]; reflexivity.
Qed.
Lemma puts_order cls (t : table) x : c_order (fold_left (fun x e => put cls (fst e) (snd (snd e)) x) t x) = c_order x.
Proof. revert x; induction t as [|e t IH]; intros x; simpl; [reflexivity|]. rewrite IH. reflexivity. Qed.

Lemma defaults_spec cls x cls' k' :
  c_data (defaults classes cls x) cls' k' =
  (if streqb cls cls' then match opt cls k' with Some (_, d) => Some d | None => c_data x cls' k' end else c_data x cls' k').
Proof.
  unfold defaults. rewrite puts_spec.
  - rewrite opt_table. reflexivity.
  - unfold table_of. destruct OK as (ND & _). destruct (dget cls classes) as [t|] eqn:E; [exact (ND _ _ E)|constructor].
Qed.
Lemma defaults_order cls x : c_order (defaults classes cls x) = c_order x.
Proof. apply puts_order. Qed.

(** The data of a context after a class is loaded. *)
Lemma load_data cls x cls' k' :
  c_data (load_class classes cls x) cls' k' =
  (if streqb cls cls' then match opt cls k' with Some (_, d) => Some d
                           | None => if mem_str cls (c_order x) then None else c_data x cls' k' end
   else c_data x cls' k').
Proof.
  unfold load_class; simpl. rewrite defaults_spec. unfold drop_class.
  destruct (mem_str cls (c_order x)); simpl; destruct (streqb cls cls') eqn:E; simpl; try reflexivity.
Qed.
Lemma load_order cls x : c_order (load_class classes cls x) = reorder cls (c_order x).
Proof.
  unfold load_class; simpl. rewrite defaults_order. unfold drop_class, reorder.
  destruct (mem_str cls (c_order x)) eqn:E; simpl; [reflexivity|]. f_equal.
  unfold mem_str in E. induction (c_order x) as [|n l IH]; [reflexivity|]. simpl in *.
  apply orb_false_iff in E. destruct E as [E1 E2]. rewrite E1. simpl. f_equal. apply IH; exact E2.
Qed.

Lemma replace_ctx w c x y : nth_error (w_ctxs w) c = Some x -> forall c' cls k,
  data (mkW (w_heap w) (upd (w_ctxs w) c y)) c' cls k = if Nat.eqb c c' then c_data y cls k else data w c' cls k.
Proof.
  intros E c' cls k. unfold data; simpl. destruct (Nat.eqb_spec c c') as [<-|Hn].
  - rewrite nth_upd_same by (eapply nth_lt; exact E). reflexivity.
  - rewrite nth_upd_other by exact Hn. reflexivity.
Qed.

(** A world whose contexts hold what they held, or defaults of classes. *)
Lemma inv_renew w w' : Inv w -> w_heap w' = w_heap w ->
  (forall c cls k v, data w' c cls k = Some v -> data w c cls k = Some v \/ exists ty, opt cls k = Some (ty, v)) ->
  (forall c cls, loaded w' c cls -> loaded w c cls /\ (forall k ty d, opt cls k = Some (ty, d) -> data w' c cls k = data w c cls k) \/
                                    (forall k ty d, opt cls k = Some (ty, d) -> data w' c cls k = Some d)) ->
  Inv w'.
Proof.
  intros I Hh Hd Hl. pose proof (i_len w I) as HL. destruct OK as (_ & B & U & T). constructor.
  - intros c cls k n E. rewrite Hh. destruct (Hd _ _ _ _ E) as [E'|[ty E']]; [eapply i_bound; eassumption|].
    apply B in E'; lia.
  - intros c cls k n E Hn. destruct (Hd _ _ _ _ E) as [E'|[ty E']]; [eapply i_dflt; eassumption|eauto].
  - intros c1 cls1 k1 c2 cls2 k2 n E1 E2 Hn.
    destruct (Hd _ _ _ _ E1) as [E1'|[ty E1']]; [|apply B in E1'; lia].
    destruct (Hd _ _ _ _ E2) as [E2'|[ty E2']]; [|apply B in E2'; lia]. eapply i_own; eassumption.
  - rewrite Hh. exact HL.
  - intros c cls k ty d Hld Ho Ht. destruct (Hl _ _ Hld) as [[Hold He]|He].
    + rewrite (He _ _ _ Ho). eapply i_list; eassumption.
    + rewrite (He _ _ _ Ho). pose proof (T _ _ _ _ Ho) as Hty. destruct Ht as [-> | ->]; destruct Hty as [n ->]; eauto.
  - intros. rewrite Hh. eapply i_const; eassumption.
Qed.

Lemma inv_load w c cls x : Inv w -> nth_error (w_ctxs w) c = Some x ->
  Inv (mkW (w_heap w) (upd (w_ctxs w) c (load_class classes cls x))).
Proof.
  intros I E. apply (inv_renew w); [exact I|reflexivity| |].
  - intros c' cls' k v Hd. rewrite (replace_ctx _ _ _ _ E) in Hd. destruct (Nat.eqb_spec c c') as [<-|Hn]; [|left; exact Hd].
    rewrite load_data in Hd. assert (E' : forall cls k, data w c cls k = c_data x cls k) by (intros; unfold data; rewrite E; reflexivity).
    destruct (streqb_spec cls cls') as [<-|Hc]; [|left; rewrite E'; exact Hd].
    destruct (opt cls k) as [[ty d]|] eqn:Eo; [injection Hd as ->; eauto|].
    destruct (mem_str cls (c_order x)); [discriminate|]. left; rewrite E'; exact Hd.
  - intros c' cls' Hl. destruct (Nat.eq_dec c c') as [<-|Hn].
    + destruct (str_eq_dec cls cls') as [<-|Hc].
      * right. intros k ty d Ho. rewrite (replace_ctx _ _ _ _ E), Nat.eqb_refl, load_data, streqb_refl, Ho. reflexivity.
      * left. split.
        -- destruct Hl as (y & Ey & Hi). simpl in Ey. rewrite nth_upd_same in Ey by (eapply nth_lt; exact E).
           injection Ey as <-. rewrite load_order in Hi. exists x. split; [exact E|].
           destruct Hi as [->|Hi]; [left; reflexivity|right]. unfold reorder in Hi. apply in_app_iff in Hi.
           destruct Hi as [Hi|[Hi|[]]]; [|congruence]. apply filter_In in Hi. tauto.
        -- intros k ty d Ho. rewrite (replace_ctx _ _ _ _ E), Nat.eqb_refl, load_data.
           destruct (streqb_spec cls cls'); [congruence|]. unfold data. rewrite E. reflexivity.
    + left. split.
      * destruct Hl as (y & Ey & Hi). simpl in Ey. rewrite nth_upd_other in Ey by exact Hn. exists y; auto.
      * intros k ty d Ho. rewrite (replace_ctx _ _ _ _ E). destruct (Nat.eqb_spec c c'); [contradiction|reflexivity].
Qed.

Lemma new_data cls k : c_data (new_ctx classes) cls k = if streqb main cls then match opt main k with Some (_, d) => Some d | None => None end else None.
Proof. unfold new_ctx. rewrite defaults_spec. simpl. destruct (streqb main cls), (opt main k) as [[? ?]|]; reflexivity. Qed.
Lemma new_order : c_order (new_ctx classes) = [].
Proof. unfold new_ctx. rewrite defaults_order. reflexivity. Qed.
Lemma create_data w c cls k :
  data (mkW (w_heap w) (w_ctxs w ++ [new_ctx classes])) c cls k =
  if Nat.eqb c (length (w_ctxs w)) then c_data (new_ctx classes) cls k else data w c cls k.
Proof.
  unfold data; simpl. destruct (Nat.eqb_spec c (length (w_ctxs w))) as [->|Hn]; [rewrite nth_snoc_eq; reflexivity|].
  destruct (Nat.lt_ge_cases c (length (w_ctxs w))) as [Hl|Hl]; [rewrite nth_snoc_lt by exact Hl; reflexivity|].
  replace (nth_error (w_ctxs w ++ [new_ctx classes]) c) with (@None ctx); [|symmetry; apply nth_error_None; rewrite app_length; simpl; lia].
  replace (nth_error (w_ctxs w) c) with (@None ctx); [reflexivity|symmetry; apply nth_error_None; lia].
Qed.
Lemma inv_create w : Inv w -> Inv (mkW (w_heap w) (w_ctxs w ++ [new_ctx classes])).
Proof.
  intros I. apply (inv_renew w); [exact I|reflexivity| |].
  - intros c cls k v Hd. rewrite create_data in Hd. destruct (Nat.eqb c (length (w_ctxs w))); [|left; exact Hd].
    rewrite new_data in Hd. destruct (streqb_spec main cls) as [<-|]; [|discriminate].
    destruct (opt main k) as [[ty d]|] eqn:Eo; [|discriminate]. injection Hd as ->. right; exists ty; reflexivity.
  - intros c cls Hl. destruct (Nat.eq_dec c (length (w_ctxs w))) as [->|Hn].
    + right. intros k ty d Ho. rewrite create_data, Nat.eqb_refl, new_data.
      destruct Hl as (x & E & Hi). simpl in E. rewrite nth_snoc_eq in E. injection E as <-.
      rewrite new_order in Hi. destruct Hi as [<-|[]]. rewrite streqb_refl, Ho. reflexivity.
    + left. split.
      * destruct Hl as (x & E & Hi). exists x. split; [|exact Hi]. simpl in E.
        assert (Hlt : c < length (w_ctxs w)) by (apply nth_lt in E; rewrite app_length in E; simpl in E; lia).
        rewrite nth_snoc_lt in E by exact Hlt. exact E.
      * intros k ty d _. rewrite create_data. destruct (Nat.eqb_spec c (length (w_ctxs w))); [contradiction|reflexivity].
Qed.

(** ** One option line *)
Lemma Qneg_true q : Qneg q = true <-> (q < 0)%Q.
Proof.
  unfold Qneg. rewrite negb_true_iff. split.
  - intros H. apply Qnot_le_lt. intros Hle. apply Qle_bool_iff in Hle. congruence.
  - intros H. destruct (Qle_bool 0 q) eqn:E; [|reflexivity]. apply Qle_bool_iff in E. apply Qle_not_lt in E. contradiction.
Qed.
Lemma Qneg_false q : Qneg q = false <-> (0 <= q)%Q.
Proof. unfold Qneg. rewrite negb_false_iff. apply Qle_bool_iff. Qed.

Lemma unit_some c k : unit_seconds [c] = Some k <-> unit_of c k.
Proof.
  unfold unit_seconds. split.
  - repeat match goal with |- (if streqb ?a ?b then _ else _) = _ -> _ => destruct (streqb_spec a b) as [He|_];
      [injection He as ->; intros Hs; injection Hs as <-; constructor|] end. discriminate.
  - intros H; destruct H; reflexivity.
Qed.
Lemma unit_none c : unit_seconds [c] = None <-> forall k, ~ unit_of c k.
Proof.
  split.
  - intros E k H. apply unit_some in H. congruence.
  - intros H. destruct (unit_seconds [c]) as [k|] eqn:E; [|reflexivity]. apply unit_some in E. destruct (H _ E).
Qed.

Lemma last_split (t : str) : t <> [] -> exists p u, t = p ++ [u] /\ firstn (length t - 1) t = p /\ skipn (length t - 1) t = [u].
Proof.
  intros H. destruct (exists_last H) as (p & u & ->). exists p, u. split; [reflexivity|].
  rewrite app_length; simpl. replace (length p + 1 - 1) with (length p) by lia.
  split; [rewrite firstn_app, Nat.sub_diag, firstn_all; apply app_nil_r|rewrite skipn_app, Nat.sub_diag, skipn_all; reflexivity].
Qed.

Lemma time_spec t old :
  match time_value py_float t with
  | None => means py_float OTime t old old
  | Some None => refused py_float OTime t
  | Some (Some q) => means py_float OTime t old (Some (SFloat q))
  end.
Proof.
  unfold time_value. destruct t as [|a t0]; [constructor|]. remember (a :: t0) as t eqn:Et. assert (Hne : t <> []) by (subst; discriminate).
  clear Et. destruct (py_float t) as [q|] eqn:Ef.
  - destruct (Qneg q) eqn:En; [apply Qneg_true in En; eapply M_time_neg; eassumption|apply Qneg_false in En; apply M_time; assumption].
  - destruct (last_split t Hne) as (p & u & -> & -> & ->). destruct p as [|b p0]; [apply M_time_bare; exact Ef|].
    remember (b :: p0) as p eqn:Ep. assert (Hp : p <> []) by (subst; discriminate). clear Ep.
    destruct (py_float p) as [q|] eqn:Eq; [|constructor; assumption].
    destruct (Qneg q) eqn:En; [apply Qneg_true in En; eapply M_time_unit_neg; eassumption|apply Qneg_false in En].
    destruct (unit_seconds [u]) as [k|] eqn:Eu.
    + apply M_time_unit; auto. apply unit_some; exact Eu.
    + eapply M_time_unit_bad; try eassumption. apply unit_none; exact Eu.
Qed.

Record set_ok (c : nat) (cls k : str) (ty : otype) (t : str) (w w' : world) : Prop := {
  so_inv : Inv w';
  so_len : length (w_ctxs w') = length (w_ctxs w);
  so_order : forall c', order_of w' c' = order_of w c';
  so_means : ty <> OClear -> means py_float ty t (view w c cls k) (view w' c cls k);
  so_frame : forall c' cls' k', view w' c' cls' k' <> view w c' cls' k' ->
     cls' = cls /\ (k' = k \/ governs classes cls k k') /\ (c' = c \/ is_append classes cls k = true)
}.

Lemma set_ok_same c cls k ty t w : Inv w -> (ty <> OClear -> means py_float ty t (view w c cls k) (view w c cls k)) ->
  set_ok c cls k ty t w w.
Proof. intros I M. constructor; try reflexivity; try assumption. congruence. Qed.
Lemma set_ok_plain c cls k ty t v w : Inv w -> c < length (w_ctxs w) -> plain v -> is_append classes cls k = false ->
  means py_float ty t (view w c cls k) (see w v) -> set_ok c cls k ty t w (set_global c cls k v w).
Proof.
  intros I H Hp Ha M. constructor.
  - apply inv_set_plain; assumption.
  - apply len_set.
  - intros; apply order_set.
  - intros _. rewrite (view_set_plain c) by assumption. destruct (here_spec c cls k c cls k); [exact M|tauto].
  - intros c' cls' k'. rewrite view_set_plain by assumption. destruct (here_spec c cls k c' cls' k') as [(<- & <- & <-)|]; [auto|congruence].
Qed.

Lemma set_value_spec c cls k ty d t w : Inv w -> loaded w c cls -> opt cls k = Some (ty, d) ->
  match set_value py_float c cls k ty d t w with
  | SSet w' => set_ok c cls k ty t w w'
  | SError w' => w' = w /\ refused py_float ty t
  end.
Proof.
  intros I Hl Ho. assert (Hc : c < length (w_ctxs w)) by (destruct Hl as (x & E & _); eapply nth_lt; exact E).
  unfold set_value. destruct ty.
  - destruct t as [|a t]; [apply set_ok_same; [exact I|intros _; constructor]|].
    destruct (py_int (a :: t)) as [z|] eqn:E; [|split; [reflexivity|constructor; [discriminate|exact E]]].
    apply set_ok_plain; simpl; auto; [unfold is_append; rewrite Ho; reflexivity|constructor; [discriminate|exact E]].
  - destruct t as [|a t]; [apply set_ok_same; [exact I|intros _; constructor]|].
    destruct (py_float (a :: t)) as [z|] eqn:E; [|split; [reflexivity|constructor; [discriminate|exact E]]].
    apply set_ok_plain; simpl; auto; [unfold is_append; rewrite Ho; reflexivity|constructor; [discriminate|exact E]].
  - pose proof (fun old => time_spec t old) as HT. destruct (time_value py_float t) as [[q|]|].
    + apply set_ok_plain; simpl; auto. unfold is_append; rewrite Ho; reflexivity.
    + split; [reflexivity|exact (HT None)].
    + apply set_ok_same; [exact I|intros _; apply HT].
  - apply set_ok_plain; simpl; auto; [unfold is_append; rewrite Ho; reflexivity|].
    unfold mem_str; simpl existsb. destruct (streqb_spec (lower t) ($"1")) as [E1|E1]; [constructor; auto|].
    destruct (streqb_spec (lower t) ($"true")) as [E2|E2]; simpl; [constructor; auto|apply M_bool_no; auto].
  - apply set_ok_plain; simpl; auto; [unfold is_append; rewrite Ho; reflexivity|constructor].
  - constructor; [apply inv_new; assumption|apply len_new|intros; apply order_new| |].
    + intros _. rewrite (view_new c) by assumption. destruct (here_spec c cls k c cls k); [|tauto].
      constructor; [apply split_char_nonempty|apply join_split_char|]. apply Forall_forall. intros x Hx. eapply split_char_no_sep; exact Hx.
    + intros c' cls' k'. rewrite view_new by assumption. destruct (here_spec c cls k c' cls' k') as [(<- & <- & <-)|]; [auto|congruence].
  - destruct (i_list w I _ _ _ _ _ Hl Ho (or_introl eq_refl)) as [n En].
    assert (Ha : is_append classes cls k = true) by (unfold is_append; rewrite Ho; reflexivity).
    pose proof En as En'. unfold data in En'. destruct (nth_error (w_ctxs w) c) as [x|]; [|discriminate]. rewrite En'.
    pose proof (i_bound w I _ _ _ _ En) as Hb. apply nth_error_Some in Hb. destruct (nth_error (w_heap w) n) as [l|] eqn:El; [|congruence].
    fold (grow n (l ++ [t]) w). constructor; [eapply inv_grow; eassumption|reflexivity|reflexivity| |].
    + intros _. rewrite (view_data w c), En. simpl. rewrite El. simpl.
      destruct (view_grow w c cls k n l (l ++ [t]) c cls k I En El) as [V _]. rewrite V; [constructor|].
      destruct (here_spec c cls k c cls k); tauto || reflexivity.
    + intros c' cls' k' Hv. destruct (view_grow w c cls k n l (l ++ [t]) c' cls' k' I En El) as [_ V]. destruct (V Hv) as (-> & -> & _). auto.
  - destruct (i_list w I _ _ _ _ _ Hl Ho (or_intror eq_refl)) as [n En].
    assert (Ha : is_append classes cls k = true) by (unfold is_append; rewrite Ho; reflexivity).
    pose proof En as En'. unfold data in En'. destruct (nth_error (w_ctxs w) c) as [x|]; [|discriminate]. rewrite En'.
    pose proof (i_bound w I _ _ _ _ En) as Hb. apply nth_error_Some in Hb. destruct (nth_error (w_heap w) n) as [l|] eqn:El; [|congruence].
    fold (grow n (l ++ words t) w). constructor; [eapply inv_grow; eassumption|reflexivity|reflexivity| |].
    + intros _. rewrite (view_data w c), En. simpl. rewrite El. simpl.
      destruct (view_grow w c cls k n l (l ++ words t) c cls k I En El) as [V _]. rewrite V; [constructor|].
      destruct (here_spec c cls k c cls k); tauto || reflexivity.
    + intros c' cls' k' Hv. destruct (view_grow w c cls k n l (l ++ words t) c' cls' k' I En El) as [_ V]. destruct (V Hv) as (-> & -> & _). auto.
  - pose proof OK as (_ & _ & _ & T). destruct (T _ _ _ _ Ho) as [ks ->]. fold (clear_keys c cls ks w).
    destruct (clear_spec c cls ks w I Hc) as (I' & L' & O' & _ & V').
    constructor; [exact I'|exact L'|exact O'|congruence|].
    intros c' cls' k'. rewrite V'. destruct (Nat.eqb_spec c c') as [<-|]; [|simpl; congruence].
    destruct (streqb_spec cls cls') as [<-|]; [|simpl; congruence].
    destruct (mem_str k' ks) eqn:Em; [|simpl; congruence]. intros _. apply mem_str_In in Em.
    split; [reflexivity|]. split; [right; exists ks; auto|auto].
Qed.

Lemma offer_taker c order k t w :
  match taker classes order k with
  | None => offer_classes classes py_float c order k t w = CUnknown w
  | Some (cls, ty) => exists d, In cls order /\ opt cls k = Some (ty, d) /\
      offer_classes classes py_float c order k t w = match set_value py_float c cls k ty d t w with SSet w' => CHandled w' | SError w' => CFails w' end
  end.
Proof.
  induction order as [|cls order IH]; simpl; [reflexivity|]. rewrite <- opt_table. destruct (opt cls k) as [[ty d]|] eqn:E.
  - exists d. auto.
  - destruct (taker classes order k) as [[cls' ty]|]; [|exact IH]. destruct IH as (d & Hi & Ho & He). exists d. auto.
Qed.

Lemma hook_spec c k t w : Inv w -> c < length (w_ctxs w) ->
  match taker classes (main :: order_of w c) k with
  | None => hook_parse_config classes py_float c k t w = CUnknown w
  | Some (cls, ty) => exists d, loaded w c cls /\ opt cls k = Some (ty, d) /\
      hook_parse_config classes py_float c k t w = match set_value py_float c cls k ty d t w with SSet w' => CHandled w' | SError w' => CFails w' end
  end.
Proof.
  intros I H. apply nth_error_Some in H. unfold hook_parse_config, order_of.
  destruct (nth_error (w_ctxs w) c) as [x|] eqn:E; [|congruence].
  pose proof (offer_taker c (main :: c_order x) k t w) as HT. destruct (taker classes (main :: c_order x) k) as [[cls ty]|]; [|exact HT].
  destruct HT as (d & Hi & Ho & He). exists d. split; [exists x; auto|auto].
Qed.

Lemma step_inv w o : Inv w -> Inv (cstep classes py_float w o).
Proof.
  intros I. destruct o as [|c cls|c k t]; simpl.
  - apply inv_create; exact I.
  - destruct (nth_error (w_ctxs w) c) as [x|] eqn:E; [|exact I]. apply inv_load; assumption.
  - destruct (Nat.lt_ge_cases c (length (w_ctxs w))) as [Hc|Hc].
    + pose proof (hook_spec c k t w I Hc) as HT. destruct (taker classes (main :: order_of w c) k) as [[cls ty]|]; [|rewrite HT; exact I].
      destruct HT as (d & Hl & Ho & ->). pose proof (set_value_spec c cls k ty d t w I Hl Ho) as HS.
      destruct (set_value py_float c cls k ty d t w); [exact (so_inv _ _ _ _ _ _ _ HS)|destruct HS as [-> _]; exact I].
    + unfold hook_parse_config. apply nth_error_None in Hc. rewrite Hc. exact I.
Qed.
Lemma inv_init : Inv (mkW h0 []).
Proof.
  assert (D : forall c cls k, data (mkW h0 []) c cls k = None) by (intros; unfold data; simpl; destruct c; reflexivity).
  constructor; intros; try (rewrite D in *; discriminate); simpl; [reflexivity| |reflexivity].
  destruct H as (x & E & _). destruct c; discriminate.
Qed.
Lemma run_inv ops : forall w, Inv w -> Inv (crun classes py_float w ops).
Proof. induction ops as [|o ops IH]; intros w I; simpl; [exact I|]. apply IH, step_inv, I. Qed.
Lemma reachable_inv w : reachable classes py_float h0 w -> Inv w.
Proof. intros [ops ->]. apply run_inv, inv_init. Qed.

(** C20 *)
Lemma c20 w c k t cls ty : reachable classes py_float h0 w -> c < length (w_ctxs w) ->
  taker classes (main :: order_of w c) k = Some (cls, ty) -> ty <> OClear ->
  match hook_parse_config classes py_float c k t w with
  | CHandled w' => means py_float ty t (view w c cls k) (view w' c cls k) /\
      (forall cls' k', (cls', k') <> (cls, k) -> view w' c cls' k' = view w c cls' k')
  | CUnknown _ => False
  | CFails w' => w' = w /\ refused py_float ty t
  end.
Proof.
  intros R Hc Ht Hty. pose proof (reachable_inv w R) as I. pose proof (hook_spec c k t w I Hc) as HT. rewrite Ht in HT.
  destruct HT as (d & Hl & Ho & ->). pose proof (set_value_spec c cls k ty d t w I Hl Ho) as HS.
  destruct (set_value py_float c cls k ty d t w) as [w'|w']; [|exact HS].
  split; [apply (so_means _ _ _ _ _ _ _ HS Hty)|].
  intros cls' k' Hn.
  assert (D : view w' c cls' k' = view w c cls' k' \/ view w' c cls' k' <> view w c cls' k').
  { assert (seen_dec : forall a b : option seen, {a = b} + {a <> b}).
    { repeat decide equality. }
    destruct (seen_dec (view w' c cls' k') (view w c cls' k')); auto. }
  destruct D as [D|D]; [exact D|]. destruct (so_frame _ _ _ _ _ _ _ HS _ _ _ D) as (-> & [->|[ks [Hg _]]] & _); [congruence|].
  rewrite Ho in Hg. injection Hg as -> _. congruence.
Qed.
Lemma means_not_refused ty t old new : means py_float ty t old new -> ~ refused py_float ty t.
Proof.
  intros M R. inversion R; subst; inversion M; subst; try congruence;
    repeat match goal with H : _ ++ [_] = _ ++ [_] |- _ => apply app_inj_tail in H; destruct H; subst end; try congruence.
  - destruct t0; discriminate.
  - destruct t0 as [|? [|? ?]]; try discriminate. congruence.
Qed.

(** C22: the frame of a clear option, over every context. *)
Lemma seen_dec (a b : option seen) : {a = b} + {a <> b}.
Proof. repeat decide equality. Qed.

Lemma c22_frame w c k t cls : reachable classes py_float h0 w -> c < length (w_ctxs w) ->
  taker classes (main :: order_of w c) k = Some (cls, OClear) ->
  exists w', hook_parse_config classes py_float c k t w = CHandled w' /\
    (forall k', governs classes cls k k' -> view w' c cls k' = Some (SList [])) /\
    (forall c' cls' k', ~ (c' = c /\ cls' = cls /\ governs classes cls k k') -> view w' c' cls' k' = view w c' cls' k').
Proof.
  intros R Hc Ht. pose proof (reachable_inv w R) as I. pose proof (hook_spec c k t w I Hc) as HT. rewrite Ht in HT.
  destruct HT as (d & Hl & Ho & ->). pose proof OK as (_ & _ & _ & T). destruct (T _ _ _ _ Ho) as [ks ->].
  simpl. fold (clear_keys c cls ks w). destruct (clear_spec c cls ks w I Hc) as (_ & _ & _ & _ & V).
  exists (clear_keys c cls ks w). split; [reflexivity|]. split.
  - intros k' (ks' & E & Hi). rewrite Ho in E. injection E as <-. rewrite V, Nat.eqb_refl, streqb_refl.
    apply mem_str_In in Hi. rewrite Hi. reflexivity.
  - intros c' cls' k' Hn. rewrite V. destruct (Nat.eqb_spec c c') as [<-|]; [|reflexivity].
    destruct (streqb_spec cls cls') as [<-|]; [|reflexivity]. destruct (mem_str k' ks) eqn:Em; [|reflexivity].
    exfalso. apply Hn. apply mem_str_In in Em. repeat split; auto. exists ks; auto.
Qed.

(** A list made by a clear belongs to one key of one context. *)
Definition owned (w : world) (c : nat) (cls k : str) (n : nat) (acc : list str) : Prop :=
  data w c cls k = Some (CList n) /\ length h0 <= n /\ nth_error (w_heap w) n = Some acc.

Definition add_line (c : nat) (cls key : str) (order acc : list str) (c' : nat) (k v : str) : list str :=
  if Nat.eqb c' c then
    match taker classes (main :: order) k with
    | Some (cls', ty) =>
        if streqb cls' cls then
          match ty with
          | OAppend => if streqb k key then acc ++ [v] else acc
          | OAppendSplit => if streqb k key then acc ++ words v else acc
          | OClear => match option_of classes cls k with
                      | Some (_, CKeys ks) => if mem_str key ks then [] else acc
                      | _ => acc
                      end
          | _ => acc
          end
        else acc
    | None => acc
    end
  else acc.

Lemma clear_heap_old c cls ks : forall w n, n < length (w_heap w) ->
  nth_error (w_heap (clear_keys c cls ks w)) n = nth_error (w_heap w) n.
Proof.
  induction ks as [|k ks IH]; intros w n H; [reflexivity|].
  change (clear_keys c cls (k :: ks) w) with (clear_keys c cls ks (set_new_list c cls k [] w)).
  rewrite IH by (rewrite heap_new, app_length; lia). rewrite heap_new. apply nth_snoc_lt; exact H.
Qed.

Lemma owned_plain w c cls k n acc c' cls' k' v : c' < length (w_ctxs w) -> owned w c cls k n acc -> is_append classes cls k = true ->
  is_append classes cls' k' = false -> owned (set_global c' cls' k' v w) c cls k n acc.
Proof.
  intros Hc (D & L & H) Ha Hn. repeat split; [|exact L|rewrite heap_set; exact H].
  rewrite data_set by exact Hc. destruct (here_spec c' cls' k' c cls k) as [(-> & -> & ->)|]; [congruence|exact D].
Qed.
Lemma owned_new w c cls k n acc c' cls' k' l : Inv w -> c' < length (w_ctxs w) -> owned w c cls k n acc -> is_append classes cls k = true ->
  is_append classes cls' k' = false -> owned (set_new_list c' cls' k' l w) c cls k n acc.
Proof.
  intros I Hc (D & L & H) Ha Hn. pose proof (i_bound w I _ _ _ _ D) as Hb. repeat split; [|exact L|rewrite heap_new, nth_snoc_lt by exact Hb; exact H].
  rewrite data_new by exact Hc. destruct (here_spec c' cls' k' c cls k) as [(-> & -> & ->)|]; [congruence|exact D].
Qed.

Lemma clear_owned w c cls ks k : Inv w -> c < length (w_ctxs w) -> In k ks ->
  exists n, owned (clear_keys c cls ks w) c cls k n [].
Proof.
  intros I Hc Hi. destruct (clear_data c cls ks w k Hc) as [A _]. destruct (A Hi) as (n & D & Hn). exists n.
  destruct (clear_spec c cls ks w I Hc) as (I' & _ & _ & _ & V). pose proof (i_len w I).
  split; [exact D|]. split; [lia|]. specialize (V c cls k). rewrite Nat.eqb_refl, streqb_refl in V.
  assert (Hm : mem_str k ks = true) by (apply mem_str_In; exact Hi). rewrite Hm in V. simpl in V.
  rewrite view_data, D in V. simpl in V. destruct (nth_error (w_heap (clear_keys c cls ks w)) n); simpl in V; congruence.
Qed.

Lemma owned_line w c cls key n acc c' k v : Inv w -> owned w c cls key n acc -> is_append classes cls key = true ->
  exists n', owned (cstep classes py_float w (Set_ c' k v)) c cls key n' (add_line c cls key (order_of w c) acc c' k v).
Proof.
  intros I O Ha. simpl. destruct (Nat.lt_ge_cases c' (length (w_ctxs w))) as [Hc|Hc].
  2:{ exists n. unfold hook_parse_config. pose proof Hc as Hc'. apply nth_error_None in Hc. rewrite Hc. unfold add_line.
      destruct (Nat.eqb_spec c' c) as [->|]; [|exact O]. destruct O as (D & _ & _). unfold data in D. rewrite Hc in D. discriminate. }
  pose proof (hook_spec c' k v w I Hc) as HT. unfold add_line.
  destruct (taker classes (main :: order_of w c') k) as [[cls' ty]|] eqn:Et.
  2:{ rewrite HT. exists n. destruct (Nat.eqb_spec c' c) as [->|]; [rewrite Et|]; exact O. }
  destruct HT as (d & Hl & Ho & ->).
  assert (Hap : forall l0 add, set_value py_float c' cls' k ty d v w = SSet (grow l0 add w) \/ True) by (intros; right; exact Logic.I).
  clear Hap. pose proof OK as (_ & _ & _ & T). pose proof (T _ _ _ _ Ho) as HTy.
  assert (Hna : ty <> OAppend -> ty <> OAppendSplit -> is_append classes cls' k = false)
    by (intros; unfold is_append; rewrite Ho; destruct ty; congruence || reflexivity).
  assert (same : forall w', owned w' c cls key n acc -> (ty <> OAppend /\ ty <> OAppendSplit /\ ty <> OClear) ->
     exists n', owned w' c cls key n'
       (if Nat.eqb c' c then match taker classes (main :: order_of w c) k with
          | Some (cls', ty) => if streqb cls' cls then match ty with
              | OAppend => if streqb k key then acc ++ [v] else acc
              | OAppendSplit => if streqb k key then acc ++ words v else acc
              | OClear => match opt cls k with Some (_, CKeys ks) => if mem_str key ks then [] else acc | _ => acc end
              | _ => acc end else acc
          | None => acc end else acc)).
  { intros w' O' (H1 & H2 & H3). exists n. destruct (Nat.eqb_spec c' c) as [->|]; [|exact O']. rewrite Et.
    destruct (streqb cls' cls); [|exact O']. destruct ty; congruence || exact O'. }
  unfold set_value. destruct ty.
  - destruct v as [|a v]; [apply same; [exact O|repeat split; discriminate]|].
    destruct (py_int (a :: v)); (apply same; [|repeat split; discriminate]); [|exact O].
    apply owned_plain; auto. apply Hna; discriminate.
  - destruct v as [|a v]; [apply same; [exact O|repeat split; discriminate]|].
    destruct (py_float (a :: v)); (apply same; [|repeat split; discriminate]); [|exact O].
    apply owned_plain; auto. apply Hna; discriminate.
  - destruct (time_value py_float v) as [[q|]|]; (apply same; [|repeat split; discriminate]); try exact O.
    apply owned_plain; auto. apply Hna; discriminate.
  - apply same; [|repeat split; discriminate]. apply owned_plain; auto. apply Hna; discriminate.
  - apply same; [|repeat split; discriminate]. apply owned_plain; auto. apply Hna; discriminate.
  - apply same; [|repeat split; discriminate]. apply owned_new; auto. apply Hna; discriminate.
  - destruct (i_list w I _ _ _ _ _ Hl Ho (or_introl eq_refl)) as [m En]. pose proof En as En'. unfold data in En'.
    destruct (nth_error (w_ctxs w) c') as [x|] eqn:Ex; [|discriminate]. rewrite En'.
    pose proof (i_bound w I _ _ _ _ En) as Hb. pose proof Hb as Hb'. apply nth_error_Some in Hb. destruct (nth_error (w_heap w) m) as [l|] eqn:El; [|congruence].
    exists n. destruct O as (D & L & H). destruct (Nat.eq_dec m n) as [->|Hmn].
    + destruct (i_own w I _ _ _ _ _ _ _ En D L) as (-> & -> & ->). rewrite Nat.eqb_refl, Et, !streqb_refl.
      rewrite El in H. injection H as ->. split; [exact D|]. split; [exact L|]. simpl. apply nth_upd_same; exact Hb'.
    + assert (Hne : ~ (c' = c /\ cls' = cls /\ k = key)) by (intros (-> & -> & ->); congruence).
      destruct (Nat.eqb_spec c' c) as [->|]; [rewrite Et; destruct (streqb_spec cls' cls); [destruct (streqb_spec k key); [tauto|]|]|];
      (split; [exact D|]; split; [exact L|]; simpl; rewrite nth_upd_other by exact Hmn; exact H).
  - destruct (i_list w I _ _ _ _ _ Hl Ho (or_intror eq_refl)) as [m En]. pose proof En as En'. unfold data in En'.
    destruct (nth_error (w_ctxs w) c') as [x|] eqn:Ex; [|discriminate]. rewrite En'.
    pose proof (i_bound w I _ _ _ _ En) as Hb. pose proof Hb as Hb'. apply nth_error_Some in Hb. destruct (nth_error (w_heap w) m) as [l|] eqn:El; [|congruence].
    exists n. destruct O as (D & L & H). destruct (Nat.eq_dec m n) as [->|Hmn].
    + destruct (i_own w I _ _ _ _ _ _ _ En D L) as (-> & -> & ->). rewrite Nat.eqb_refl, Et, !streqb_refl.
      rewrite El in H. injection H as ->. split; [exact D|]. split; [exact L|]. simpl. apply nth_upd_same; exact Hb'.
    + assert (Hne : ~ (c' = c /\ cls' = cls /\ k = key)) by (intros (-> & -> & ->); congruence).
      destruct (Nat.eqb_spec c' c) as [->|]; [rewrite Et; destruct (streqb_spec cls' cls); [destruct (streqb_spec k key); [tauto|]|]|];
      (split; [exact D|]; split; [exact L|]; simpl; rewrite nth_upd_other by exact Hmn; exact H).
  - destruct HTy as [ks ->]. fold (clear_keys c' cls' ks w).
    assert (Keep : (c' <> c \/ cls' <> cls \/ ~ In key ks) -> owned (clear_keys c' cls' ks w) c cls key n acc).
    { intros Hn. destruct O as (D & L & H). destruct (clear_data c' cls' ks w key Hc) as [_ B]. split; [rewrite B by exact Hn; exact D|].
      split; [exact L|]. rewrite clear_heap_old by (eapply (i_bound w I); exact D). exact H. }
    destruct (Nat.eqb_spec c' c) as [->|]; [|exists n; apply Keep; auto]. rewrite Et.
    destruct (streqb_spec cls' cls) as [->|]; [|exists n; apply Keep; auto]. rewrite Ho.
    destruct (mem_str key ks) eqn:Em.
    + apply mem_str_In in Em. apply clear_owned; assumption.
    + exists n. apply Keep. right; right. intros Hi. apply mem_str_In in Hi. congruence.
Qed.

Lemma order_step_set w c' k v c : Inv w -> order_of (cstep classes py_float w (Set_ c' k v)) c = order_of w c /\
  length (w_ctxs (cstep classes py_float w (Set_ c' k v))) = length (w_ctxs w).
Proof.
  intros I. simpl. destruct (Nat.lt_ge_cases c' (length (w_ctxs w))) as [Hc|Hc].
  - pose proof (hook_spec c' k v w I Hc) as HT. destruct (taker classes (main :: order_of w c') k) as [[cls ty]|]; [|rewrite HT; auto].
    destruct HT as (d & Hl & Ho & ->). pose proof (set_value_spec c' cls k ty d v w I Hl Ho) as HS.
    destruct (set_value py_float c' cls k ty d v w); [|destruct HS as [-> _]; auto].
    split; [apply (so_order _ _ _ _ _ _ _ HS)|exact (so_len _ _ _ _ _ _ _ HS)].
  - unfold hook_parse_config. apply nth_error_None in Hc. rewrite Hc. auto.
Qed.
Lemma order_step_load w c' cls c : order_of (cstep classes py_float w (Load c' cls)) c =
  if Nat.eqb c' c && Nat.ltb c (length (w_ctxs w)) then reorder cls (order_of w c) else order_of w c.
Proof.
  unfold order_of; simpl. destruct (nth_error (w_ctxs w) c') as [x|] eqn:E; simpl.
  - pose proof (nth_lt _ _ _ E) as Hl. destruct (Nat.eqb_spec c' c) as [->|Hn]; simpl.
    + rewrite nth_upd_same, E by exact Hl. apply Nat.ltb_lt in Hl. rewrite Hl. apply load_order.
    + rewrite nth_upd_other by exact Hn. reflexivity.
  - destruct (Nat.eqb_spec c' c) as [->|]; simpl; [|reflexivity]. apply nth_error_None in E.
    destruct (Nat.ltb_spec c (length (w_ctxs w))); [lia|reflexivity].
Qed.
Lemma order_step_create w c : c < length (w_ctxs w) -> order_of (cstep classes py_float w Create) c = order_of w c.
Proof. intros H. unfold order_of; simpl. rewrite nth_snoc_lt by exact H. reflexivity. Qed.

Lemma owned_exists w c cls k n acc : owned w c cls k n acc -> c < length (w_ctxs w).
Proof. intros (D & _). unfold data in D. destruct (nth_error (w_ctxs w) c) eqn:E; [eapply nth_lt; exact E|discriminate]. Qed.

Lemma owned_run c cls key : is_append classes cls key = true -> forall ops w n acc, Inv w -> owned w c cls key n acc ->
  ~ In (Load c cls) ops ->
  exists n', owned (crun classes py_float w ops) c cls key n' (added classes c cls key (order_of w c) acc ops).
Proof.
  intros Ha. induction ops as [|o ops IH]; intros w n acc I O Hn; simpl in *; [eauto|].
  pose proof (step_inv w o I) as I'. pose proof (owned_exists _ _ _ _ _ _ O) as Hc. destruct o as [|c' cls'|c' k v].
  - destruct (IH (cstep classes py_float w Create) n acc I') as [n' O']; [|tauto|].
    + destruct O as (D & L & H). split; [|auto]. simpl. rewrite create_data. destruct (Nat.eqb_spec c (length (w_ctxs w))); [lia|exact D].
    + exists n'. rewrite order_step_create in O' by exact Hc. exact O'.
  - destruct (IH (cstep classes py_float w (Load c' cls')) n acc I') as [n' O']; [|tauto|].
    + destruct O as (D & L & H). simpl. destruct (nth_error (w_ctxs w) c') as [x|] eqn:E; [|split; auto].
      split; [|auto]. rewrite (replace_ctx _ _ _ _ E). destruct (Nat.eqb_spec c' c) as [->|]; [|exact D].
      rewrite load_data. destruct (streqb_spec cls' cls) as [->|]; [exfalso; apply Hn; auto|].
      unfold data in D. rewrite E in D. exact D.
    + exists n'. rewrite order_step_load in O'. apply Nat.ltb_lt in Hc. rewrite Hc, andb_true_r in O'. exact O'.
  - destruct (owned_line w c cls key n acc c' k v I O Ha) as [n1 O1].
    destruct (IH _ n1 _ I' O1) as [n' O']; [tauto|]. exists n'.
    destruct (order_step_set w c' k v c I) as [Eo _]. rewrite Eo in O'. exact O'.
Qed.

Lemma c22 w c clr t cls key ops : reachable classes py_float h0 w -> c < length (w_ctxs w) ->
  taker classes (main :: order_of w c) clr = Some (cls, OClear) -> governs classes cls clr key -> is_append classes cls key = true ->
  ~ In (Load c cls) ops ->
  view (crun classes py_float w (Set_ c clr t :: ops)) c cls key = Some (SList (added classes c cls key (order_of w c) [] ops)).
Proof.
  intros R Hc Ht (ks & Hk & Hi) Ha Hn. pose proof (reachable_inv w R) as I.
  pose proof (step_inv w (Set_ c clr t) I) as I'. destruct (order_step_set w c clr t c I) as [Eo _].
  assert (O : exists n, owned (cstep classes py_float w (Set_ c clr t)) c cls key n []).
  { simpl. pose proof (hook_spec c clr t w I Hc) as HT. rewrite Ht in HT. destruct HT as (d & Hl & Ho & ->).
    rewrite Hk in Ho. injection Ho as <-. simpl. apply clear_owned; assumption. }
  destruct O as [n O]. destruct (owned_run c cls key Ha ops _ _ _ I' O Hn) as [n' (D & _ & H)].
  rewrite Eo in H. change (crun classes py_float w (Set_ c clr t :: ops)) with (crun classes py_float (cstep classes py_float w (Set_ c clr t)) ops).
  rewrite view_data, D. unfold see. rewrite H. reflexivity.
Qed.

(** C21: options that are not append lists depend on the context's own lines only. *)
Record Same (c : nat) (w w' : world) : Prop := {
  s_inv : Inv w; s_inv' : Inv w';
  s_len : length (w_ctxs w) = length (w_ctxs w');
  s_order : order_of w c = order_of w' c;
  s_view : forall cls key, is_append classes cls key = false -> view w c cls key = view w' c cls key
}.

Lemma see_default w w' cls k ty d : Inv w -> Inv w' -> opt cls k = Some (ty, d) -> is_append classes cls k = false -> see w d = see w' d.
Proof.
  intros I I' Ho Ha. destruct d; simpl; try reflexivity. unfold is_append in Ha; rewrite Ho in Ha.
  rewrite (i_const w I _ _ _ _ Ho), (i_const w' I' _ _ _ _ Ho); [reflexivity|..]; intros ->; discriminate.
Qed.

Lemma see_same_heap w w' v : w_heap w' = w_heap w -> see w' v = see w v.
Proof. intros E. destruct v; simpl; try reflexivity. rewrite E. reflexivity. Qed.

(** The view after one line, for keys that are not append lists. *)
Definition line_view (c : nat) (order : list str) (k t : str) (c' : nat) (cls' k' : str) (old : option seen) : option seen :=
  match taker classes (main :: order) k with
  | None => old
  | Some (cls, ty) =>
      if Nat.eqb c c' && streqb cls cls' then
        match ty with
        | OAppend | OAppendSplit => old
        | OClear => match opt cls k with Some (_, CKeys ks) => if mem_str k' ks then Some (SList []) else old | _ => old end
        | OInt => if streqb k k' then match t with [] => old | _ => match py_int t with Some z => Some (SInt z) | None => old end end else old
        | OFloat => if streqb k k' then match t with [] => old | _ => match py_float t with Some z => Some (SFloat z) | None => old end end else old
        | OTime => if streqb k k' then match time_value py_float t with Some (Some q) => Some (SFloat q) | _ => old end else old
        | OBool => if streqb k k' then Some (SBool (mem_str (lower t) [$"1"; $"true"])) else old
        | OStr => if streqb k k' then Some (SStr t) else old
        | OList => if streqb k k' then Some (SList (split_char 44%N t)) else old
        end
      else old
  end.
Lemma view_line w c k t c' cls' k' : Inv w -> c < length (w_ctxs w) -> is_append classes cls' k' = false ->
  view (cstep classes py_float w (Set_ c k t)) c' cls' k' = line_view c (order_of w c) k t c' cls' k' (view w c' cls' k').
Proof.
  intros I Hc Ha. simpl. pose proof (hook_spec c k t w I Hc) as HT. unfold line_view.
  destruct (taker classes (main :: order_of w c) k) as [[cls ty]|]; [|rewrite HT; reflexivity].
  destruct HT as (d & Hl & Ho & ->). pose proof (set_value_spec c cls k ty d t w I Hl Ho) as HS.
  assert (App : ty = OAppend \/ ty = OAppendSplit -> match set_value py_float c cls k ty d t w with SSet w' | SError w' => view w' c' cls' k' end = view w c' cls' k').
  { intros Hty. assert (Hap : is_append classes cls k = true) by (unfold is_append; rewrite Ho; destruct Hty as [-> | ->]; reflexivity).
    destruct (set_value py_float c cls k ty d t w) as [w'|w']; [|destruct HS as [-> _]; reflexivity].
    destruct (seen_dec (view w' c' cls' k') (view w c' cls' k')) as [E|Hn]; [exact E|].
    destruct (so_frame _ _ _ _ _ _ _ HS _ _ _ Hn) as (-> & [->|[ks [Hg _]]] & _); [congruence|].
    rewrite Ho in Hg. destruct Hty as [-> | ->]; discriminate. }
  clear HS. pose proof OK as (_ & _ & _ & T). pose proof (T _ _ _ _ Ho) as HTy.
  assert (R : forall a b (old : option seen), (if here c cls k c' cls' k' then a else old) = b ->
     b = (if Nat.eqb c c' && streqb cls cls' then if streqb k k' then a else old else old)).
  { intros a b old <-. unfold here. destruct (Nat.eqb c c'), (streqb cls cls'), (streqb k k'); reflexivity. }
  unfold set_value in *. destruct ty; try (destruct (App (or_introl eq_refl))).
  - destruct t as [|a t]; [destruct (_ && _), (streqb k k'); reflexivity|].
    destruct (py_int (a :: t)); [|destruct (_ && _), (streqb k k'); reflexivity].
    apply R. rewrite view_set_plain by (simpl; auto). reflexivity.
  - destruct t as [|a t]; [destruct (_ && _), (streqb k k'); reflexivity|].
    destruct (py_float (a :: t)); [|destruct (_ && _), (streqb k k'); reflexivity].
    apply R. rewrite view_set_plain by (simpl; auto). reflexivity.
  - destruct (time_value py_float t) as [[q|]|]; [|destruct (_ && _), (streqb k k'); reflexivity..].
    apply R. rewrite view_set_plain by (simpl; auto). reflexivity.
  - apply R. rewrite view_set_plain by (simpl; auto). reflexivity.
  - apply R. rewrite view_set_plain by (simpl; auto). reflexivity.
  - apply R. rewrite view_new by assumption. reflexivity.
  - specialize (App (or_introl eq_refl)). destruct (nth_error (w_ctxs w) c) as [x|];
      [destruct (c_data x cls k) as [[]|]; try destruct (nth_error (w_heap w) loc)|];
      rewrite ?App; destruct (_ && _); reflexivity.
  - specialize (App (or_intror eq_refl)). destruct (nth_error (w_ctxs w) c) as [x|];
      [destruct (c_data x cls k) as [[]|]; try destruct (nth_error (w_heap w) loc)|];
      rewrite ?App; destruct (_ && _); reflexivity.
  - destruct HTy as [ks ->]. fold (clear_keys c cls ks w). destruct (clear_spec c cls ks w I Hc) as (_ & _ & _ & _ & V).
    rewrite V, Ho. destruct (Nat.eqb c c'), (streqb cls cls'), (mem_str k' ks); reflexivity.
Qed.

Lemma see_heap h w w' v : w_heap w = h -> w_heap w' = h -> see w v = see w' v.
Proof. intros E E'. destruct v; simpl; try reflexivity. rewrite E, E'. reflexivity. Qed.

Lemma view_load w c cls x : nth_error (w_ctxs w) c = Some x -> forall c' cls' k',
  view (cstep classes py_float w (Load c cls)) c' cls' k' =
  if Nat.eqb c c' && streqb cls cls' then
    match opt cls k' with Some (_, d) => see w d
    | None => if mem_str cls (order_of w c) then None else view w c' cls' k' end
  else view w c' cls' k'.
Proof.
  intros E c' cls' k'. cbn [cstep]. rewrite E, !view_data, (replace_ctx _ _ _ _ E). unfold order_of. rewrite E.
  assert (S : forall v, see (mkW (w_heap w) (upd (w_ctxs w) c (load_class classes cls x))) v = see w v) by (intros v; destruct v; reflexivity).
  destruct (Nat.eqb_spec c c') as [<-|Hn]; cbn [andb].
  - rewrite load_data. unfold data. rewrite E. destruct (streqb cls cls').
    + destruct (opt cls k') as [[ty d]|]; [apply S|]. destruct (mem_str cls (c_order x)); [reflexivity|].
      destruct (c_data x cls' k'); [apply S|reflexivity].
    + destruct (c_data x cls' k'); [apply S|reflexivity].
  - destruct (data w c' cls' k'); [apply S|reflexivity].
Qed.
Lemma view_create w c cls k : view (cstep classes py_float w Create) c cls k =
  if Nat.eqb c (length (w_ctxs w)) then
    (if streqb main cls then match opt main k with Some (_, d) => see w d | None => None end else None)
  else view w c cls k.
Proof.
  cbn [cstep]. rewrite !view_data, create_data.
  assert (S : forall v, see (mkW (w_heap w) (w_ctxs w ++ [new_ctx classes])) v = see w v) by (intros v; destruct v; reflexivity).
  destruct (Nat.eqb c (length (w_ctxs w))); [|destruct (data w c cls k); [apply S|reflexivity]].
  rewrite new_data. destruct (streqb main cls); [|reflexivity]. destruct (opt main k) as [[ty d]|]; [apply S|reflexivity].
Qed.

Lemma line_view_other c order k t c' cls' k' old : c <> c' -> line_view c order k t c' cls' k' old = old.
Proof.
  intros H. unfold line_view. destruct (taker classes (main :: order) k) as [[cls ty]|]; [|reflexivity].
  destruct (Nat.eqb_spec c c'); [contradiction|reflexivity].
Qed.

Lemma same_concern c w w' o : Same c w w' -> concerns c o = true -> Same c (cstep classes py_float w o) (cstep classes py_float w' o).
Proof.
  intros S Hc. pose proof (s_inv c w w' S) as I. pose proof (s_inv' c w w' S) as I'. pose proof (s_len c w w' S) as L.
  pose proof (s_order c w w' S) as O. constructor; try (apply step_inv; assumption).
  - destruct o as [|c1 cls|c1 k t].
    + simpl. rewrite !app_length, L. reflexivity.
    + simpl. destruct (nth_error (w_ctxs w) c1) eqn:E1, (nth_error (w_ctxs w') c1) eqn:E2; simpl; rewrite ?length_upd; exact L.
    + destruct (order_step_set w c1 k t c I) as [_ ->], (order_step_set w' c1 k t c I') as [_ ->]. exact L.
  - destruct o as [|c1 cls|c1 k t].
    + destruct (Nat.lt_ge_cases c (length (w_ctxs w))) as [Hl|Hl].
      * rewrite !order_step_create by (congruence || lia). exact O.
      * unfold order_of; simpl. destruct (Nat.eq_dec c (length (w_ctxs w))) as [->|Hne].
        -- rewrite nth_snoc_eq, L, nth_snoc_eq. reflexivity.
        -- replace (nth_error (w_ctxs w ++ [new_ctx classes]) c) with (@None ctx); [|symmetry; apply nth_error_None; rewrite app_length; simpl; lia].
           replace (nth_error (w_ctxs w' ++ [new_ctx classes]) c) with (@None ctx); [reflexivity|symmetry; apply nth_error_None; rewrite app_length; simpl; lia].
    + rewrite !order_step_load, L, O. reflexivity.
    + destruct (order_step_set w c1 k t c I) as [-> _], (order_step_set w' c1 k t c I') as [-> _]. exact O.
  - intros cls' k' Ha. pose proof (s_view c w w' S cls' k' Ha) as V. destruct o as [|c1 cls|c1 k t].
    + rewrite !view_create, <- L. destruct (Nat.eqb c (length (w_ctxs w))); [|exact V].
      destruct (streqb_spec main cls') as [<-|]; [|reflexivity]. destruct (opt main k') as [[ty d]|] eqn:Eo; [|reflexivity].
      eapply see_default; eassumption.
    + simpl in Hc. apply Nat.eqb_eq in Hc. subst c1.
      destruct (nth_error (w_ctxs w) c) as [x|] eqn:E1.
      * pose proof (nth_lt _ _ _ E1) as Hl. rewrite L in Hl. apply nth_error_Some in Hl.
        destruct (nth_error (w_ctxs w') c) as [x'|] eqn:E2; [|congruence].
        rewrite (view_load w c cls x E1), (view_load w' c cls x' E2), O. destruct (_ && _) eqn:Eb; [|exact V].
        apply andb_true_iff in Eb. destruct Eb as [_ Eb]. destruct (streqb_spec cls cls') as [<-|]; [|discriminate].
        destruct (opt cls k') as [[ty d]|] eqn:Eo; [eapply see_default; eassumption|]. destruct (mem_str cls (order_of w' c)); [reflexivity|exact V].
      * cbn [cstep]. rewrite E1. apply nth_error_None in E1. rewrite L in E1. apply nth_error_None in E1. rewrite E1. exact V.
    + simpl in Hc. apply Nat.eqb_eq in Hc. subst c1. destruct (Nat.lt_ge_cases c (length (w_ctxs w))) as [Hl|Hl].
      * rewrite !view_line by (assumption || congruence || lia). rewrite O, V. reflexivity.
      * simpl. unfold hook_parse_config. pose proof Hl as Hl'. rewrite L in Hl'. apply nth_error_None in Hl, Hl'. rewrite Hl, Hl'. exact V.
Qed.

Lemma same_other c w w' o : Same c w w' -> concerns c o = false -> Same c (cstep classes py_float w o) w'.
Proof.
  intros S Hc. pose proof (s_inv c w w' S) as I. pose proof (s_inv' c w w' S) as I'. pose proof (s_len c w w' S) as L.
  pose proof (s_order c w w' S) as O. destruct o as [|c1 cls|c1 k t]; [discriminate| |]; simpl in Hc; apply Nat.eqb_neq in Hc.
  - constructor; [apply step_inv; exact I|exact I'| | |].
    + simpl. destruct (nth_error (w_ctxs w) c1); simpl; rewrite ?length_upd; exact L.
    + rewrite order_step_load. destruct (Nat.eqb_spec c1 c); [contradiction|exact O].
    + intros cls' k' Ha. pose proof (s_view c w w' S cls' k' Ha) as V. destruct (nth_error (w_ctxs w) c1) as [x|] eqn:E.
      * rewrite (view_load w c1 cls x E). destruct (Nat.eqb_spec c1 c); [contradiction|exact V].
      * cbn [cstep]. rewrite E. exact V.
  - destruct (order_step_set w c1 k t c I) as [Eo El]. constructor; [apply step_inv; exact I|exact I'|congruence|congruence|].
    intros cls' k' Ha. pose proof (s_view c w w' S cls' k' Ha) as V. destruct (Nat.lt_ge_cases c1 (length (w_ctxs w))) as [Hl|Hl].
    + rewrite view_line by assumption. rewrite line_view_other by exact Hc. exact V.
    + simpl. unfold hook_parse_config. apply nth_error_None in Hl. rewrite Hl. exact V.
Qed.

Lemma same_run c ops : forall w w', Same c w w' -> Same c (crun classes py_float w ops) (crun classes py_float w' (filter (concerns c) ops)).
Proof.
  induction ops as [|o ops IH]; intros w w' S; simpl; [exact S|].
  destruct (concerns c o) eqn:E; simpl; apply IH; [apply same_concern|apply same_other]; assumption.
Qed.

Lemma c21 ops c cls key : is_append classes cls key = false ->
  view (crun classes py_float (mkW h0 []) ops) c cls key = view (crun classes py_float (mkW h0 []) (filter (concerns c) ops)) c cls key.
Proof.
  intros Ha. apply (s_view c); [|exact Ha]. apply same_run. constructor; try reflexivity; apply inv_init.
Qed.
End P.
