(** Proofs about messages with one HTML part, with the HTML parser of the standard library. *)
From Coq Require Import Lia Arith.
From Verif Require Import PyStr PyDict Model_Headers Spec_Headers Proofs_Headers Model_Load Spec_Load Proofs_Load PyHtml Spec_Html Proofs_Html Proofs_HtmlDoc.

Section Message.
Variables (udigit uword : char -> bool) (codec : str -> bool -> list N -> option str) (header_parts : str -> option (list hpart)).
Notation load := (load udigit uword codec html_feed header_parts).
Lemma one_line_same s t t' : one_line s t -> one_line s t' -> t = t'.
Proof. rewrite !one_line_iff. congruence. Qed.
Lemma html_loaded p line chunks raised : html_message codec p line -> html_feed line = (chunks, raised) ->
  if raised then load [p] = None else exists l, load [p] = Some l /\ l_text l = join ($" ") (pieces chunks).
Proof.
  intros (S & M & B & t & P & O) F. assert (I := load_iff udigit uword codec html_feed header_parts [p]). destruct raised.
  - destruct (load [p]) as [l|] eqn:E; [|reflexivity]. exfalso. destruct I as [I _]. destruct I as (_ & _ & H); [discriminate|]. specialize (H p t line (or_introl eq_refl) M B P O). rewrite F in H. discriminate.
  - destruct (load [p]) as [l|] eqn:E.
    + exists l. split; [reflexivity|]. apply load_some in E as (subj & texts & A & C & D & _). cbn [headers_of] in A. rewrite S in A. inversion A; subst subj.
      assert (K : filter texty [p] = [p]). { cbn [filter]. unfold texty. rewrite M. reflexivity. }
      rewrite K in C. inversion C as [|? [shown raw] ? ? [Q R] C']; subst. inversion C'; subst. cbn [fst snd map app] in *. rewrite P in Q. injection Q as <-.
      unfold html in R. rewrite B in R. change (streqb ($"html") ($"html")) with true in R. destruct R as (line' & ch & O' & F' & ->). rewrite <- (one_line_same _ _ _ O O') in F'. rewrite F in F'. injection F' as <-. exact D.
    + exfalso. destruct I as [_ I]. apply I; [|reflexivity]. split; [|split].
      * cbn [headers_of]. rewrite S. intros h [].
      * intros q [<-|[]] _. apply (payload_ok codec). eauto.
      * intros q t' line' [<-|[]] _ _ P' O'. rewrite P in P'. injection P' as <-. rewrite <- (one_line_same _ _ _ O O'), F. reflexivity.
Qed.
End Message.

(** ** Pieces *)
Lemma drop_split p (s : str) : exists a, s = a ++ drop_while p s.
Proof. induction s as [|c s [a IH]]; [exists []; reflexivity|]. cbn [drop_while]. destruct (p c); [exists (c :: a); cbn [app]; congruence|exists []; reflexivity]. Qed.
Lemma strip_split s : exists a b, s = a ++ strip s ++ b.
Proof.
  unfold strip, strip_p, rstrip_p, lstrip_p. destruct (drop_split is_space s) as [a A]. destruct (drop_split is_space (rev (drop_while is_space s))) as [b B].
  exists a, (rev b). rewrite A at 1. f_equal. rewrite <- (rev_involutive (drop_while is_space s)) at 1. rewrite B at 1. apply rev_app_distr.
Qed.
Lemma in_order_pieces l : forall s, in_order l s -> in_order (pieces l) s.
Proof.
  intros s H. induction H as [s|x c l r H IH]; [constructor|]. unfold pieces in *. cbn [map filter]. destruct (strip_split c) as (a & b & E).
  destruct (strip c) as [|d q] eqn:S; [rewrite app_assoc; apply in_order_after, IH|].
  rewrite E. replace (x ++ (a ++ (d :: q) ++ b) ++ r) with ((x ++ a) ++ (d :: q) ++ (b ++ r)) by (rewrite <- !app_assoc; reflexivity). constructor. apply in_order_after, IH.
Qed.
Lemma strip_word w : Forall (fun c => is_space c = false) w -> strip w = w.
Proof.
  intros F. unfold strip, strip_p, rstrip_p, lstrip_p.
  assert (G : forall l, Forall (fun c => is_space c = false) l -> drop_while is_space l = l). { intros [|c l] H; [reflexivity|]. cbn [drop_while]. inversion H as [|? ? K _]; subst. rewrite K. reflexivity. }
  rewrite (G w F), (G (rev w)) by (apply Forall_rev, F). apply rev_involutive.
Qed.
