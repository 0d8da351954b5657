(** Vocabulary for the places named in errors about the configuration
    (C255, C256). *)
From Verif Require Import PyStr PyDict PyPath Model_Parser Spec_Parser.

(** [raw] is the line of [f] with this number, counting from one. *)
Definition line_of (files : str -> option (list str)) (f : str) (n : nat) (raw : str) : Prop :=
  exists lines, files f = Some lines /\ 1 <= n /\ nth_error lines (n - 1) = Some raw.

(** A way of includes from the file [f], outermost first.  Each step has the file
    that is included, and the number and text of the line that includes it, in
    the file before. *)
Inductive leads (files : str -> option (list str)) : str -> list (str * nat * str) -> Prop :=
| leads_here f : leads files f []
| leads_step f g n raw v rest :
    line_of files f n raw -> include_line raw v ->
    g = (if isabs v then v else if isabs f then path_join (dirname f) v else v) ->
    leads files g rest -> leads files f ((g, n, bare_line raw) :: rest).

(** A line that lacks an argument: fewer than three words, or a "lang" line with
    fewer than three words after the language. *)
Definition incomplete (raw : str) : Prop :=
  length (words (bare_line raw)) < 3 \/
  (hd_error (words (bare_line raw)) = Some ($"lang") /\ length (words (bare_line raw)) < 5).

(** The files read from [f] on: [f] itself and those that lines of them include. *)
Inductive reached (files : str -> option (list str)) (f : str) : str -> Prop :=
| reached_self : reached files f f
| reached_include g n raw v :
    reached files f g -> line_of files g n raw -> include_line raw v ->
    reached files f (if isabs v then v else if isabs g then path_join (dirname g) v else v).

(** An error tells the truth: it names a file read from [f] on, and the number and
    the text of an incomplete line of it. *)
Definition true_place (files : str -> option (list str)) (f : str) (p : str * nat * str) : Prop :=
  let '(g, n, text) := p in
  reached files f g /\ exists raw, line_of files g n raw /\ text = bare_line raw /\ incomplete raw.
