(** Theorems about the body evaluation rules (C46, C95, C96). *)
From Coq Require Import QArith.
From Verif Require Import PyStr PyRe PyDict Model_BodyEval Spec_BodyEval Proofs_BodyEval.
Open Scope nat_scope.

(** C95: the difference between the alternatives of a message is the share of the distinct
    words of its HTML alternatives that its plain text alternatives have less often; 0 if
    there are no HTML words. *)
Theorem C95_difference : forall is_w low root minr maxr,
  multipart_alternative_difference minr maxr (extract_all is_w low root) = true <->
  let html := words_of is_w low ($"text/html") root in let plain := words_of is_w low ($"text/plain") root in
  let d := if distinct html =? 0 then 0%Q else percent (lacking html plain) (distinct html) in (minr <= d <= maxr)%Q.
Proof. exact difference_iff. Qed.
Print Assumptions C95_difference.
(** It is between 0 and 100, *)
Theorem C95_range : forall is_w low root, (0 <= madiff (extract_all is_w low root) <= 100)%Q.
Proof. exact madiff_range. Qed.
Print Assumptions C95_range.
(** and 0 exactly if every HTML word is in the plain text at least as often. *)
Theorem C95_zero : forall is_w low root, (madiff (extract_all is_w low root) == 0)%Q <->
  forall w, occurrences w (words_of is_w low ($"text/html") root) <= occurrences w (words_of is_w low ($"text/plain") root).
Proof. exact madiff_zero. Qed.
Print Assumptions C95_zero.
(** The count rule compares the numbers of distinct words. *)
Theorem C95_count : forall is_w low root ratio minhtml,
  multipart_alternative_difference_count ratio minhtml (extract_all is_w low root) = true <->
  let html := distinct (words_of is_w low ($"text/html") root) in let plain := distinct (words_of is_w low ($"text/plain") root) in
  (minhtml <= Z.of_nat html)%Z /\ html <> 0 /\ (ratio * inject_Z (Z.of_nat html) < inject_Z (Z.of_nat plain))%Q.
Proof. exact count_iff. Qed.
Print Assumptions C95_count.
Definition mail (plain html : str) : part :=
  Multi ($"multipart/mixed") [Multi ($"multipart/alternative") [Leaf ($"text/plain") plain; Leaf ($"text/html") html]; Leaf ($"text/html") ($"other text")].
Example C95_case :
  words_of is_alnum lower ($"text/html") (mail ($"Hello, big world") ($"hello big big World!  Buy")) = [$"hello"; $"big"; $"big"; $"world"; $"buy"] /\
  (madiff (extract_all is_alnum lower (mail ($"Hello, big world") ($"hello big big World!  Buy"))) == 50)%Q /\
  multipart_alternative_difference 40 60 (extract_all is_alnum lower (mail ($"Hello, big world") ($"hello big big World!  Buy"))) = true /\
  multipart_alternative_difference_count (1 # 2) 2 (extract_all is_alnum lower (mail ($"Hello, big world") ($"hello big big World!  Buy"))) = true.
Proof. split; [vm_compute; reflexivity|]. split; [vm_compute; reflexivity|]. split; vm_compute; reflexivity. Qed.
(** The description of the rule says that every word of the plain text should be in the HTML
    and that the difference is 100 if none is.  It is 0 for a plain text with any further
    words, *)
Theorem C95_extra_plain_words_refuted : forall is_w low extra root root',
  words_of is_w low ($"text/html") root' = words_of is_w low ($"text/html") root ->
  words_of is_w low ($"text/plain") root' = words_of is_w low ($"text/plain") root ++ extra ->
  (madiff (extract_all is_w low root) == 0)%Q -> (madiff (extract_all is_w low root') == 0)%Q.
Proof.
  intros is_w low extra root root' H P Z. apply madiff_zero. intros w. rewrite H, P, count_app. pose proof (proj1 (madiff_zero is_w low root) Z w). lia.
Qed.
Print Assumptions C95_extra_plain_words_refuted.
Example C95_extra_case :
  words_of is_alnum lower ($"text/plain") (mail ($"hello buy this now") ($"hello")) = words_of is_alnum lower ($"text/plain") (mail ($"hello") ($"hello")) ++ [$"buy"; $"this"; $"now"] /\
  (madiff (extract_all is_alnum lower (mail ($"hello buy this now") ($"hello"))) == 0)%Q.
Proof. split; vm_compute; reflexivity. Qed.
(** and HTML inside a further multipart of the alternative, the usual form for pages with
    pictures, is not compared at all. *)
Theorem C95_related_refuted : forall is_w low plain html,
  (madiff (extract_all is_w low (Multi ($"multipart/alternative") [Leaf ($"text/plain") plain; Multi ($"multipart/related") [Leaf ($"text/html") html]])) == 0)%Q.
Proof. intros is_w low plain html. apply madiff_zero. intros w. cbn. apply Nat.le_0_l. Qed.
Print Assumptions C95_related_refuted.

(** C96: the blank line rule hits exactly if there are enough lines and the share counted
    is in the range; *)
Theorem C96_ratio : forall minr maxr minlines text, check_blank_line_ratio minr maxr minlines text = true <->
  (minlines <= Z.of_nat (length (lines text)))%Z /\ lines text <> [] /\ (minr <= percent (blank_line_count text) (length (lines text)) <= maxr)%Q.
Proof. exact blank_ratio_iff. Qed.
Print Assumptions C96_ratio.
(** the count is right for texts that do not start with a blank line and have no two blank
    lines in a row, *)
Theorem C96_blank_lines_partial : forall text, (forall b, text <> 10%N :: b) -> (forall a b, text <> a ++ [10%N; 10%N; 10%N] ++ b) ->
  blank_line_count text = blank_lines text.
Proof. exact blank_count_exact. Qed.
Print Assumptions C96_blank_lines_partial.
(** and otherwise between half of the blank lines and all of them. *)
Theorem C96_blank_lines_bounds : forall text, blank_line_count text <= blank_lines text <= 2 * blank_line_count text + 1.
Proof. exact blank_count_bounds. Qed.
Print Assumptions C96_blank_lines_bounds.
Definition nl : str := [10%N].
Example C96_case : let t := $"a" ++ nl ++ nl ++ $"b" ++ nl ++ nl ++ $"c" ++ nl in
  blank_lines t = 2 /\ length (lines t) = 5 /\ (forall b, t <> 10%N :: b) /\ check_blank_line_ratio 40 40 5 t = true.
Proof. cbv zeta. split; [reflexivity|]. split; [reflexivity|]. split; [intros b; discriminate|vm_compute; reflexivity]. Qed.
(** Three blank lines in a row count as two: *)
Theorem C96_blank_run_refuted : let t := $"a" ++ nl ++ nl ++ nl ++ nl ++ $"b" in
  blank_lines t = 3 /\ blank_line_count t = 2 /\ length (lines t) = 4 /\ check_blank_line_ratio 60 100 1 t = false.
Proof. vm_compute. repeat split. Qed.
Print Assumptions C96_blank_run_refuted.
(** The space rule compares blanks with other characters. *)
Theorem C96_vertical : forall minr maxr text, tvd_vertical_words minr maxr text = true <->
  let spaces := length (filter is_space text) in let others := length (filter (fun c => negb (is_space c)) text) in
  others <> 0 /\ (minr <= percent spaces others <= maxr)%Q.
Proof. exact vertical_iff. Qed.
Print Assumptions C96_vertical.
Example C96_vertical_case : tvd_vertical_words 100 100 ($"a b ") = true.
Proof. vm_compute. reflexivity. Qed.

(** C46, body rules: what is collected for a message depends on the events of that message
    only, whatever happens to others before or in between. *)
Theorem C46_body_local : forall is_w low l s i,
  brun is_w low l s i = fold_left (fun st e => bstep is_w low e st) (map snd (filter (fun me => Nat.eqb i (fst me)) l)) (s i).
Proof. exact brun_local. Qed.
Print Assumptions C46_body_local.
Example C46_body_case : forall s, let p := Leaf ($"text/plain") ($"hi") in let m := Multi ($"multipart/alternative") [p] in
  text_tokens (brun is_alnum lower [(1, BStart); (2, BStart); (1, BPart [] m); (2, BPart [0] p); (1, BPart [0] p)] s 1) = [($"hi", 1)] /\
  text_tokens (brun is_alnum lower [(1, BStart); (2, BStart); (1, BPart [] m); (2, BPart [0] p); (1, BPart [0] p)] s 2) = [].
Proof. intros s. cbv zeta. split; vm_compute; reflexivity. Qed.
