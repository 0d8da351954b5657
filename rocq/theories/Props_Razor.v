(** C253: reports to Razor. *)
From Verif Require Import PyStr PyUtf8 Model_Razor.

(** A message that is reported (as spam) or revoked (as ham) is sent, whole and once, to the program for that, with
    the configured file; whatever the program does, the report goes on, and its timer is stopped. *)
Theorem C253_sent_partial : forall (use spam : bool) (config raw : str) behaves bytes args,
  encode raw = Some bytes ->
  args = (if spam then $"razor-report" else $"razor-revoke") :: match config with [] => [] | _ => [$"-conf=" ++ config] end ->
  fst (razor_tell use spam config raw behaves) = Some tt /\
  (behaves args <> NoStart -> snd (razor_tell use spam config raw behaves) = [mkStarted args (Some bytes) true]) /\
  (behaves args = NoStart -> snd (razor_tell use spam config raw behaves) = []).
Proof.
  intros use spam config raw behaves bytes args E ->. unfold razor_tell, launch_subprocess. rewrite E.
  destruct config as [|c config]; destruct (behaves _); repeat split; intros; congruence || reflexivity.
Qed.
Print Assumptions C253_sent_partial.
(** What the program answers makes no difference. *)
Theorem C253_answer_unused : forall use spam config raw behaves behaves',
  (forall args, behaves args = NoStart <-> behaves' args = NoStart) ->
  razor_tell use spam config raw behaves = razor_tell use spam config raw behaves'.
Proof.
  intros use spam config raw behaves behaves' H. unfold razor_tell, launch_subprocess.
  destruct config as [|c config]; match goal with |- context[behaves ?a] => specialize (H a); destruct (behaves a) eqn:E, (behaves' a) eqn:E' end;
    destruct (encode raw); try reflexivity; exfalso; destruct H as [H1 H2]; (discriminate (H1 eq_refl) || discriminate (H2 eq_refl)).
Qed.
Print Assumptions C253_answer_unused.
(** A message that cannot be encoded makes the report fail, after the program was started. *)
Theorem C253_unencodable_refuted : forall use spam config raw behaves, encode raw = None -> (forall args, behaves args <> NoStart) ->
  fst (razor_tell use spam config raw behaves) = None /\ length (snd (razor_tell use spam config raw behaves)) = 1 /\
  Forall (fun p => p_input p = None) (snd (razor_tell use spam config raw behaves)).
Proof.
  intros use spam config raw behaves E H. unfold razor_tell, launch_subprocess. rewrite E.
  destruct config as [|c config]; match goal with |- context[behaves ?a] => specialize (H a); destruct (behaves a) end; try contradiction; repeat split; repeat constructor.
Qed.
Print Assumptions C253_unencodable_refuted.
(** With Razor switched off, messages are reported all the same. *)
Theorem C253_off_refuted : forall spam config raw behaves,
  razor_tell false spam config raw behaves = razor_tell true spam config raw behaves.
Proof. reflexivity. Qed.
Print Assumptions C253_off_refuted.
Example C253_case : razor_tell false true ($"/etc/r") ($"ab") (fun _ => Exits 0) =
  (Some tt, [mkStarted [$"razor-report"; $"-conf=/etc/r"] (Some [97; 98]%N) true]) /\ encode [55296%N] = None.
Proof. split; reflexivity. Qed.
