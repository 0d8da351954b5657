(** C250: the rule on stock market words hits exactly when the text holds as many as asked for. *)
From Verif Require Import PyStr Regexp Model_Stock Spec_Stock Proofs_Stock.

(** A hit means that the text holds that many stock words, no two of which overlap. *)
Theorem C250_sound udigit uword n raw text :
  (check_stock_info udigit uword (Z.of_nat n) true raw text = true -> holds (word_character uword) [] n raw) /\
  (check_stock_info udigit uword (Z.of_nat n) false raw text = true -> holds (word_character uword) [] n text).
Proof.
  split; intros H; unfold check_stock_info in H; cbv zeta in H; apply Z.leb_le, Nat2Z.inj_le in H;
    apply (count_sound udigit uword _ [] _ n H).
Qed.
Print Assumptions C250_sound.

(** One word is enough for one. *)
Theorem C250_one udigit uword text raw :
  check_stock_info udigit uword 1 false raw text = true <-> exists u w v, text = u ++ w ++ v /\ stock_word (word_character uword) u w.
Proof.
  split.
  - intros H. apply (C250_sound udigit uword 1) in H. inversion H as [|? u w s m W _]; subst. exists u, w, s. auto.
  - intros (u & w & v & -> & W). unfold check_stock_info. apply Z.leb_le. change 1%Z with (Z.of_nat 1). apply Nat2Z.inj_le.
    apply (count_complete udigit uword); [apply Nat.lt_succ_diag_r|]. apply (apart_one _ [] u w v). exact W.
Qed.
Print Assumptions C250_one.

(** More are found when each two have a character between them that is none of a word. *)
Theorem C250_more_partial udigit uword n raw text :
  (holds_apart (word_character uword) [] n text -> forall m, (m <= Z.of_nat n)%Z -> check_stock_info udigit uword m false raw text = true) /\
  (holds_apart (word_character uword) [] n raw -> forall m, (m <= Z.of_nat n)%Z -> check_stock_info udigit uword m true raw text = true).
Proof.
  split; intros H m Hm; unfold check_stock_info; apply Z.leb_le; (etransitivity; [exact Hm|]); apply Nat2Z.inj_le;
    (apply (count_complete udigit uword); [apply Nat.lt_succ_diag_r | exact H]).
Qed.
Print Assumptions C250_more_partial.

(** Missing: words that touch can hide each other. *)
Theorem C250_refuted : exists text, (forall uword, holds (word_character uword) [] 2 text) /\
  forall udigit uword raw, check_stock_info udigit uword 2 false raw text = false.
Proof.
  exists ($"yearestimatesector"). split.
  - intros uword. apply (holds_more _ [] [] ($"yearestimate") ($"sector") 1).
    + left. vm_compute. tauto.
    + apply (holds_more _ _ [] ($"sector") [] 0); [left; vm_compute; tauto | constructor].
  - intros. vm_compute. reflexivity.
Qed.
Print Assumptions C250_refuted.

(** A hidden word may have an underscore in it, but no dash or blank; a date counts at the beginning of a line only. *)
Example C250_case :
  holds_apart (word_character (fun _ => false)) [] 2 ($"Buy Xsto_ck, TARGET 5") /\
  map (fun t => check_stock_info (fun _ => false) (fun _ => false) 1 false [] t) [$"sto_ck"; $"sto-ck"; $"s ymbol"; $"my tradedate"; $"ok" ++ [10%N] ++ $"tradedate"] =
    [true; false; false; false; true].
Proof.
  split; [|vm_compute; reflexivity].
  apply (apart_more _ [] ($"Buy X") ($"sto_ck") [] 44%N ($" TARGET 5") 1); [|reflexivity|].
  - right. left. exists ($"stock"). split; [left; reflexivity|]. cbn [spelled].
    exists 115%N, [], ($"to_ck"). repeat split; [left; reflexivity|]. exists 116%N, [], ($"o_ck"). repeat split; [left; reflexivity|].
    exists 111%N, [95%N], ($"ck"). repeat split; [right; exists 95%N; split; reflexivity|]. exists 99%N, [], ($"k"). repeat split. left. reflexivity.
  - apply (apart_one _ _ ($" ") ($"TARGET") ($" 5")). left. vm_compute. tauto.
Qed.
