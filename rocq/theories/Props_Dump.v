(** C252: the dump of a message. *)
From Coq Require Import Permutation.
From Verif Require Import PyStr PyDict Model_Rules Model_Headers Spec_Headers Proofs_Headers Model_Dump Spec_Dump Proofs_Dump.

(** After any lookups, the headers are listed by name, in the order in which the names first stand in the message,
    and under each name in the order of the message. *)
Theorem C252_order : forall decode fields history,
  fst (iter_decoded_headers decode (lookups decode history (fresh_h fields))) =
  flat_map (fun n => map (fun v => listed decode (n, v)) (values_of n fields)) (firsts (map (fun f => lower (fst f)) fields)).
Proof.
  intros decode fields history. unfold iter_decoded_headers. rewrite (proj2 (c56 decode fields history ($""))), keys_raw.
  rewrite (iter_names_lookups decode _ _ fields history eq_refl).
  apply flat_map_ext_in. intros n Hn. apply (proj1 (firsts_in _ _)), in_map_iff in Hn. destruct Hn as (f & <- & _).
  apply map_ext. intros v. unfold listed. cbn [fst snd]. rewrite lower_lower. reflexivity.
Qed.
Print Assumptions C252_order.
(** Each header of the message is listed exactly once. *)
Theorem C252_each_once : forall decode fields history,
  Permutation (fst (iter_decoded_headers decode (lookups decode history (fresh_h fields)))) (map (listed decode) fields).
Proof.
  intros decode fields history. rewrite C252_order.
  pose proof (grouped (map (fun f => (lower (fst f), f)) fields)) as G. rewrite map_map in G. cbn [fst] in G.
  apply (Permutation_map (fun x => listed decode (snd x))) in G. rewrite map_map in G. cbn [snd] in G.
  rewrite <- G. rewrite !flat_map_concat_map, concat_map, !map_map. rewrite <- !flat_map_concat_map.
  apply Permutation_refl'. apply flat_map_ext_in. intros n Hn. apply (proj1 (firsts_in _ _)), in_map_iff in Hn. destruct Hn as (f0 & <- & _).
  unfold values_of. rewrite map_map. clear. induction fields as [|f fields IH]; [reflexivity|]. cbn [map filter fst].
  unfold same_name at 1. rewrite lower_lower. destruct (streqb (lower (fst f0)) (lower (fst f))) eqn:E; [|exact IH].
  cbn [map snd]. rewrite IH. f_equal. apply streqb_eq in E. unfold listed. cbn [fst snd]. rewrite lower_lower, E. reflexivity.
Qed.
Print Assumptions C252_each_once.
(** The rules that dump the text hit; the one that dumps the headers and links never does. *)
Theorem C252_answers : forall decode text m uris,
  dump text = (VBool true, [text]) /\
  truthy (fst (fst (dump_meta_data decode m uris))) = false /\
  snd (fst (dump_meta_data decode m uris)) =
    $"Decoded Headers:" :: fst (iter_decoded_headers decode m) ++ $"" :: $"URI list:" :: uris.
Proof.
  intros decode text m uris. unfold dump_meta_data. destruct (iter_decoded_headers decode m) as [hs m']. split; [reflexivity|]. split; reflexivity.
Qed.
Print Assumptions C252_answers.
(** Not claimed: names are not listed as they are written. *)
Theorem C252_as_written_refuted : exists fields, forall decode history,
  (forall v, decode v = Some v) ->
  fst (iter_decoded_headers decode (lookups decode history (fresh_h fields))) = [$"to: a"; $"to: c"; $"subject: b"] /\
  map (fun f => fst f ++ $": " ++ snd f) fields = [$"To: a"; $"Subject: b"; $"TO: c"].
Proof.
  exists [($"To", $"a"); ($"Subject", $"b"); ($"TO", $"c")]. intros decode history D. split; [|reflexivity].
  rewrite C252_order. unfold listed. cbn [map firsts]. vm_compute. rewrite !D. reflexivity.
Qed.
Print Assumptions C252_as_written_refuted.
