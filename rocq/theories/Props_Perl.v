(** More of C54: what is changed in the text of a Perl expression before it is compiled. *)
From Verif Require Import PyStr PyDict Model_Rules Model_Headers Spec_Headers Proofs_Headers Spec_Perl Proofs_Perl.

(** The text between the delimiters is compiled, with the flags of groups dropped, word boundaries before a
    question mark put in parentheses and independent groups made plain, and with exactly the flags i, s, m, x given. *)
Theorem C54_converted_partial :
  forall re_compile b1 pre d rd body flags b2 text,
    blank b1 -> blank b2 -> (forall c, In c pre -> In c ($"mgs")) ->
    In (d, rd) [(47, 47); (123, 125); (37, 37); (60, 62); (39, 39); (126, 126); (44, 44); (33, 33); (59, 59)]%N ->
    (forall c r, body = c :: r -> c <> d) -> (body = [] -> d <> rd) ->
    ~ In rd flags -> (forall c, In c flags -> is_space c = false) ->
    converted body text ->
    perl2re re_compile (b1 ++ (pre ++ [d] ++ body ++ [rd] ++ flags) ++ b2) =
    match re_compile text (mkFlags (mem_char 105%N flags) (mem_char 115%N flags)
                                   (mem_char 109%N flags) (mem_char 120%N flags)) with
    | Some f => ReOk f
    | None => ReInvalid
    end.
Proof.
  intros rc b1 pre d rd body flags b2 text H1 H2 Hpre Hd Hb Hb0 Hf Hfs Hc.
  change (pre ++ [d] ++ body ++ [rd] ++ flags) with (pre ++ d :: body ++ rd :: flags).
  rewrite (perl2re_delimited rc b1 pre d rd body flags b2); try assumption.
  - rewrite (converted_one _ _ _ (conv_converted body) Hc). reflexivity.
  - apply forallb_forall. intros c K. apply mem_char_In. apply Hpre; exact K.
  - repeat (destruct Hd as [Hd|Hd]; [inversion Hd; subst; reflexivity|]). destruct Hd.
  - apply forallb_forall. intros c K. rewrite (Hfs c K). reflexivity.
Qed.
Print Assumptions C54_converted_partial.
(** Every text is converted in exactly one way. *)
Theorem C54_one_conversion : forall body, exists text, converted body text /\ forall other, converted body other -> other = text.
Proof. intros body. eexists. split; [apply conv_converted|]. intros other H. exact (converted_one _ _ _ H (conv_converted body)). Qed.
Print Assumptions C54_one_conversion.
Example C54_converted_case : converted ($"(?i-s:a)\b?(?^i:x)(?>y)(?=z)") ($"(?:a)(\b)?(?:x)(?:y)(?=z)").
Proof. exact (conv_converted ($"(?i-s:a)\b?(?^i:x)(?>y)(?=z)")). Qed.
