(** Vocabulary for the property of reports about mails checked under a configuration. *)
From Coq Require Import QArith.
From Verif Require Import PyStr PyDict Model_Rules Model_Report Spec_Report Spec_Message Spec_Program.

(** What stands in a report for a piece of its template: the rules [l] made the score [sum qs], [required] is needed to
    be spam; [fmt1] writes numbers, [whole] whole ones without a decimal point; [value]: what each rule is worth.  A tag the program does not know is left marked. *)
Definition shows (required : Q) (fmt1 : Q -> str) (whole : Q -> option str) (value : str -> Q) (qs : list Q) (l : list str) (p : piece) (v : str) : Prop :=
  match p with
  | Chr c => v = [c]
  | Tag t =>
      (t = $"YESNO" -> v = $"Yes" /\ (required <= sum qs)%Q \/ v = $"No" /\ (sum qs < required)%Q) /\
      (t = $"YESNOCAPS" -> v = $"YES" /\ (required <= sum qs)%Q \/ v = $"NO" /\ (sum qs < required)%Q) /\
      (t = $"TESTS" -> l = [] /\ v = $"none" \/ l <> [] /\ v = join ($",") l) /\
      (t = $"SCORE" -> exists q, (q == sum qs)%Q /\ v = fmt1 q) /\
      (t = $"REQD" -> v = fmt1 required) /\
      (t = $"SUMMARY" -> exists lines, v = join [13%N; 10%N] lines /\
         Forall2 (fun n line => exists number blanks rest, line = blanks ++ number ++ $" " ++ rest /\ Forall (eq 32%N) blanks /\
           (whole (value n) = Some number \/ whole (value n) = None /\ number = fmt1 (value n))) l lines) /\
      (~ In t [$"YESNO"; $"YESNOCAPS"; $"TESTS"; $"SCORE"; $"REQD"; $"CONTACTADDRESS"; $"HOSTNAME"; $"SUBVERSION"; $"VERSION"; $"REPORT"; $"TESTSSCORES"; $"SUMMARY"; $"PREVIEW"] ->
       v = $"@@" ++ t ++ $"@@")
  end.
