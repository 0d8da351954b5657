(** Property theorems about headers: C13, C51, C52, C54, C56, C57. *)
From Verif Require Import PyStr PyDict Model_Rules Model_Headers Spec_Headers Proofs_Headers.

(** C51. Headers inserted in any order and any letter case: a lookup returns
    exactly the values inserted under that name, whatever its letter case, in
    order; and presence is existence of such an insertion. *)
Theorem C51_header_lookup_case_insensitive :
  forall (fields : list (str * str)) (k : str),
    h_get k (raw_of fields) = values_of k fields /\
    (h_in k (raw_of fields) = true <-> exists f, In f fields /\ same_name k (fst f) = true) /\
    (forall k', same_name k k' = true -> h_get k' (raw_of fields) = h_get k (raw_of fields)).
Proof. exact c51. Qed.
Print Assumptions C51_header_lookup_case_insensitive.

Example C51_example :
  h_get ($"RECEIVED") (raw_of [($"Received", $"a"); ($"subject", $"s"); ($"received", $"b")]) = [$"a"; $"b"].
Proof. reflexivity. Qed.

(** C52. *)
Theorem C52_line_breaks_normalised :
  (forall s, ~ In 13%N (translate_line_breaks s)) /\
  (forall s, translate_line_breaks (translate_line_breaks s) = translate_line_breaks s) /\
  (forall lines tail, Forall (fun p => clean_line (fst p)) lines -> clean_line tail -> unambiguous lines ->
     translate_line_breaks (text_of lines tail) = text_of (with_lf lines) tail).
Proof. exact c52. Qed.
Print Assumptions C52_line_breaks_normalised.

Example C52_example :
  let lines := [($"a", CRLF); ([], CR); ($"b", LF); ([], CRLF)] in
  Forall (fun p => clean_line (fst p)) lines /\ clean_line ($"c") /\ unambiguous lines /\
  translate_line_breaks (text_of lines ($"c")) = [97; 10; 10; 98; 10; 10; 99]%N.
Proof.
  cbv zeta. split; [|split; [|split]].
  - repeat constructor; vm_compute; intuition discriminate.
  - split; vm_compute; intuition discriminate.
  - simpl. repeat split; discriminate.
  - reflexivity.
Qed.

(** C54. The text between the delimiters is what is compiled, with exactly the
    flags given, for every delimiter.  The pattern does not start with its own
    opening delimiter and uses none of the three Perl notations that are
    rewritten. *)
Theorem C54_pattern_between_delimiters_partial :
  forall re_compile b1 pre d rd body flags b2,
    blank b1 -> blank b2 -> (forall c, In c pre -> In c ($"mgs")) ->
    In (d, rd) [(47, 47); (123, 125); (37, 37); (60, 62); (39, 39); (126, 126); (44, 44); (33, 33); (59, 59)]%N ->
    (forall c r, body = c :: r -> c <> d) -> (body = [] -> d <> rd) ->
    ~ In rd flags -> (forall c, In c flags -> is_space c = false) ->
    contains ($"(?") body = false -> contains ($"\b?") body = false -> contains ($"\B?") body = false ->
    perl2re re_compile (b1 ++ (pre ++ [d] ++ body ++ [rd] ++ flags) ++ b2) =
    match re_compile body (mkFlags (mem_char 105%N flags) (mem_char 115%N flags)
                                   (mem_char 109%N flags) (mem_char 120%N flags)) with
    | Some f => ReOk f
    | None => ReInvalid
    end.
Proof. exact c54. Qed.
Print Assumptions C54_pattern_between_delimiters_partial.

(** Everything else that is not empty is rejected as an invalid regex: no known
    delimiter after the optional prefix letters, or no closing delimiter. *)
Theorem C54_bad_delimiters_rejected :
  forall re_compile p c r,
    lstrip_chars ($"mgs") (strip p) = c :: r ->
    (~ In c ($"/{%<'~,!;") -> perl2re re_compile p = ReInvalid) /\
    (forall d, In (c, d) [(123, 125); (60, 62)]%N -> ~ In d r -> perl2re re_compile p = ReInvalid) /\
    (In c ($"/%'~,!;") -> ~ In c r -> perl2re re_compile p = ReInvalid).
Proof. exact c54_bad. Qed.
Print Assumptions C54_bad_delimiters_rejected.

Example C54_example :
  perl2re (fun p f => if streqb p ($"a\/b") && f_i f && negb (f_s f) && negb (f_m f) && negb (f_x f) then Some (fun s => true) else None)
          ($" m/a\/b/i ") = ReOk (fun s => true).
Proof. reflexivity. Qed.
Example C54_bad_example :
  perl2re (fun _ _ => None) ($"foo") = ReInvalid /\ perl2re (fun _ _ => None) ($"m/foo") = ReInvalid.
Proof. split; reflexivity. Qed.

(** C54 is false of the code in two ways: an empty text (or one of only the
    letters m, g, s) is not reported as an invalid regex but crashes, and a
    pattern that starts with its own opening delimiter loses it. *)
Theorem C54_perl_conversion_refuted :
  (forall re_compile, perl2re re_compile ($" ") = ReCrash /\ perl2re re_compile ($"m") = ReCrash) /\
  (exists re_compile f, perl2re re_compile ($"<<a>b>") = ReOk f /\ re_compile ($"<a>b") (mkFlags false false false false) = None).
Proof. exact c54_refuted. Qed.
Print Assumptions C54_perl_conversion_refuted.

(** C56. Lookups are repeatable: after any history of lookups, a lookup gives
    the decoded values of exactly the fields with that name. *)
Theorem C56_header_lookups_repeatable :
  forall decode fields (history : list str) (k : str),
    fst (get_decoded decode k (lookups decode history (fresh_h fields))) = map decode (values_of k fields) /\
    h_raw (lookups decode history (fresh_h fields)) = raw_of fields.
Proof. exact c56. Qed.
Print Assumptions C56_header_lookups_repeatable.

Example C56_example :
  fst (get_decoded Some ($"to") (lookups Some [$"TO"; $"x"; $"To"; $"to"] (fresh_h [($"To", $"a"); ($"tO", $"b")])))
  = [Some ($"a"); Some ($"b")].
Proof. reflexivity. Qed.

(** C57. Every message whose Subject fields can be decoded loads, with the text
    starting with the subjects.  Missing: undecodable subjects (below). *)
Theorem C57_message_loads_partial :
  forall decode fields rest,
    (forall v, In v (values_of ($"Subject") fields) -> decode v <> None) ->
    exists m text, load_fields decode fields rest = Some (m, text) /\
      h_raw m = raw_of fields /\
      exists subjects, map decode (values_of ($"subject") fields) = map Some subjects /\
                       text = join ($" ") (subjects ++ rest).
Proof. exact c57. Qed.
Print Assumptions C57_message_loads_partial.

Example C57_example :
  exists m, load_fields Some [($"SUBJECT", $"hi"); ($"To", $"a")] [$"body"] = Some (m, $"hi body").
Proof. eexists. vm_compute. reflexivity. Qed.

(** C57 is false of the code: one undecodable Subject field and the message
    cannot be loaded at all. *)
Theorem C57_every_message_loads_refuted :
  forall decode v rest, decode v = None -> load_fields decode [($"Subject", v)] rest = None.
Proof. exact c57_refuted. Qed.
Print Assumptions C57_every_message_loads_refuted.

(** C13. A test on a named header, at any point of a message's processing.
    With [=~] it hits exactly when some value matches.  With [!~] it hits
    exactly when some value does not match, which is the documented meaning
    only when the header occurs exactly once. *)
Theorem C13_match_test :
  forall re_compile decode addresses fields history b1 n b2 pat search,
    plain_name n -> blank b1 -> blank b2 ->
    perl2re re_compile pat = ReOk search ->
    (forall v, In v (values_of n fields) -> decode v <> None) ->
    exists r hit, header_rule re_compile (b1 ++ n ++ b2 ++ $"=~" ++ pat) = HOk r /\
      hrule_match decode addresses r (lookups decode history (fresh_h fields)) = Returns (VBool hit) /\
      (hit = true <-> exists v d, In v (values_of n fields) /\ decode v = Some d /\ search d = true).
Proof. exact c13_match. Qed.
Print Assumptions C13_match_test.

Theorem C13_not_match_test_partial :
  forall re_compile decode addresses fields history b1 n b2 pat search v,
    plain_name n -> blank b1 -> blank b2 ->
    contains ($"=~") pat = false ->
    perl2re re_compile pat = ReOk search ->
    values_of n fields = [v] -> decode v <> None ->
    exists r hit, header_rule re_compile (b1 ++ n ++ b2 ++ $"!~" ++ pat) = HOk r /\
      hrule_match decode addresses r (lookups decode history (fresh_h fields)) = Returns (VBool hit) /\
      (hit = true <-> ~ exists v d, In v (values_of n fields) /\ decode v = Some d /\ search d = true).
Proof. exact c13_not_match. Qed.
Print Assumptions C13_not_match_test_partial.

Theorem C13_exists_test_partial :
  forall re_compile decode addresses fields history b1 n b2,
    strip n = n -> n <> [] -> blank b1 -> blank b2 ->
    (forall c r, n = c :: r -> ~ In c ($"exist:")) ->
    contains ($"=~") n = false -> contains ($"!~") n = false ->
    exists r hit, header_rule re_compile ($"exists:" ++ b1 ++ n ++ b2) = HOk r /\
      hrule_match decode addresses r (lookups decode history (fresh_h fields)) = Returns (VBool hit) /\
      (hit = true <-> exists f, In f fields /\ same_name n (fst f) = true).
Proof. exact c13_exists. Qed.
Print Assumptions C13_exists_test_partial.

(** The modifiers select what is tested. *)
Theorem C13_raw_test :
  forall re_compile decode addresses fields history b1 n b2 pat search,
    plain_name n -> blank b1 -> blank b2 ->
    perl2re re_compile pat = ReOk search ->
    exists r hit, header_rule re_compile (b1 ++ (n ++ $":raw") ++ b2 ++ $"=~" ++ pat) = HOk r /\
      hrule_match decode addresses r (lookups decode history (fresh_h fields)) = Returns (VBool hit) /\
      (hit = true <-> exists v, In v (values_of n fields) /\ search v = true).
Proof. exact c13_raw. Qed.
Print Assumptions C13_raw_test.

(** Only the first non-empty address (name) of each field is tested. *)
Theorem C13_addr_name_test :
  forall re_compile decode addresses fields history b1 n b2 pat search (md : str) (sel : str * str -> str),
    (md = $":addr" /\ sel = snd) \/ (md = $":name" /\ sel = fst) ->
    plain_name n -> blank b1 -> blank b2 ->
    perl2re re_compile pat = ReOk search ->
    (forall v, In v (values_of n fields) -> decode v <> None) ->
    (forall v d, In v (values_of n fields) -> decode v = Some d -> addresses d <> None) ->
    exists r hit, header_rule re_compile (b1 ++ (n ++ md) ++ b2 ++ $"=~" ++ pat) = HOk r /\
      hrule_match decode addresses r (lookups decode history (fresh_h fields)) = Returns (VBool hit) /\
      (hit = true <-> exists v d before p after,
          In v (values_of n fields) /\ decode v = Some d /\
          addresses d = Some (before ++ p :: after) /\ (forall q, In q before -> sel q = []) /\
          sel p <> [] /\ search (sel p) = true).
Proof. exact c13_addr_name. Qed.
Print Assumptions C13_addr_name_test.

Definition has_x : str -> reflags -> option (str -> bool) := fun _ _ => Some (contains ($"x")).

Example C13_example :
  plain_name ($"Subject") /\ blank ($" ") /\ contains ($"=~") ($" /x/") = false /\
  perl2re has_x ($" /x/") = ReOk (contains ($"x")) /\
  values_of ($"Subject") [($"SUBJECT", $"axb")] = [$"axb"] /\
  header_rule has_x ($"Subject !~ /x/") = HOk (mkHR (HPlain ($"Subject")) true (contains ($"x"))).
Proof.
  split; [|repeat split; reflexivity].
  unfold plain_name. repeat split; try discriminate; try reflexivity; vm_compute; intuition discriminate.
Qed.
Example C13_exists_example :
  header_rule has_x ($"exists:X-Foo") = HOk (mkHR (HExists ($"X-Foo")) false (fun _ => false)).
Proof. reflexivity. Qed.

(** C13 is false of the code: a [!~] test hits although a value matches, never
    hits on an absent header, is split at a [=~] inside its pattern; and an
    [exists:] test on a header present in the message misses. *)
Theorem C13_polarity_refuted :
  (exists r, header_rule has_x ($"X-A !~ /x/") = HOk r /\
     hrule_match Some (fun _ => Some []) r (fresh_h [($"X-A", $"x"); ($"X-A", $"y")]) = Returns (VBool true) /\
     hrule_match Some (fun _ => Some []) r (fresh_h [($"X-B", $"y")]) = Returns (VBool false)) /\
  header_rule has_x ($"X-A !~ /a=~x/") = HBadRegex /\
  (exists r, header_rule has_x ($"exists:subject") = HOk r /\
     hrule_match Some (fun _ => Some []) r (fresh_h [($"Subject", $"x")]) = Returns (VBool false)).
Proof.
  split; [|split; [reflexivity|]].
  - eexists. split; [reflexivity|]. split; vm_compute; reflexivity.
  - eexists. split; [reflexivity|]. vm_compute; reflexivity.
Qed.
Print Assumptions C13_polarity_refuted.
