(** Model of the classification part of oa/plugins/bayes.py: token probabilities,
    the choice of tokens and the rule ranges.  Floats are exact rationals.
    Definitions only. *)
From Verif Require Import PyStr PyDict.

(** oa/plugins/bayes.py:71,83-90,184-192 *)
Definition FW_S_CONSTANT : Q := 3 # 100.
(** For oa/plugins/bayes.py:1090-1124. *)
Definition FW_S_DOT_X : Q := (538 # 1000) * (3 # 100).
(** For oa/plugins/bayes.py:1207-1236. *)
Definition MIN_PROB_STRENGTH : Q := 346 # 1000.
(** oa/plugins/bayes.py:441 *)
Definition N_SIGNIFICANT_TOKENS : nat := 150.

(** A row of the token table: token, spam count, ham count, access time.
    For oa/plugins/bayes.py:1090-1124. *)
Record row := mkRow { r_token : str; r_spam : Z; r_ham : Z; r_atime : Z }.

(** oa/plugins/bayes.py:1090-1124 [_compute_prob_for_all_tokens], the body of the
    loop: the probability of one token. *)
Definition token_prob (hapaxes : bool) (ns nn : Z) (t : row) : option Q :=
  let s := r_spam t in let n := r_ham t in
  let threshold := if hapaxes then 1%Z else 2%Z in
  if (threshold <=? s + n)%Z then
    let prob := (inject_Z (s * nn) / inject_Z (n * ns + s * nn))%Q in
    Some ((FW_S_DOT_X + inject_Z (s + n) * prob) / (FW_S_CONSTANT + inject_Z (s + n)))%Q
  else None.
(** The whole function; [None]: it returns [None] and its caller raises.
    For oa/plugins/bayes.py:1140-1248. *)
Definition compute_probs (hapaxes : bool) (ns nn : Z) (data : list row) : option (list (option Q)) :=
  if (ns =? 0)%Z || (nn =? 0)%Z then None else Some (map (token_prob hapaxes ns nn) data).

(** oa/plugins/bayes.py:1160-1169: [zip] of the rows with the probabilities that are
    not [None]; later rows of a token replace earlier ones. *)
Fixpoint zip {A B} (l : list A) (m : list B) : list (A * B) :=
  match l, m with x :: l', y :: m' => (x, y) :: zip l' m' | _, _ => [] end.
(** For oa/plugins/bayes.py:1140-1248. *)
Definition not_none {A} (l : list (option A)) : list A := flat_map (fun o => match o with Some x => [x] | None => [] end) l.
(** For oa/plugins/bayes.py:1140-1248. *)
Record info := mkInfo { i_prob : Q; i_spam : Z; i_ham : Z; i_atime : Z }.
(** For oa/plugins/bayes.py:1140-1248. *)
Definition assign (data : list row) (probs : list (option Q)) : dict info :=
  fold_left (fun d e => dset (r_token (fst e)) (mkInfo (snd e) (r_spam (fst e)) (r_ham (fst e)) (r_atime (fst e))) d)
    (zip data (not_none probs)) [].

(** For oa/plugins/bayes.py:1194-1205. *)
Definition Qabs' (q : Q) : Q := if Qle_bool 0 q then q else (- q)%Q.
(** For oa/plugins/bayes.py:1194-1205. *)
Definition strength (i : info) : Q := Qabs' (i_prob i - (1 # 2)).

(** oa/plugins/bayes.py:1194-1205: [sorted] by strength (ascending, stable), cut. *)
Fixpoint insert (e : str * info) (l : dict info) : dict info :=
  match l with
  | [] => [e]
  | x :: l' => if Qle_bool (strength (snd e)) (strength (snd x)) then e :: l else x :: insert e l'
  end.
(** For oa/plugins/bayes.py:1140-1248. *)
Definition sort (l : dict info) : dict info := fold_right insert [] l.
(** For oa/plugins/bayes.py:1140-1248. *)
Definition candidates (pw : dict info) : dict info := firstn N_SIGNIFICANT_TOKENS (sort pw).

(** oa/plugins/bayes.py:1207-1236: the tokens used. *)
Definition significant (e : str * info) : bool := Qle_bool MIN_PROB_STRENGTH (strength (snd e)).
(** For oa/plugins/bayes.py:1140-1248. *)
Definition used (pw : dict info) : dict info := filter significant (candidates pw).
(** oa/plugins/bayes.py:1140-1248. *)
Definition hammy (pw : dict info) : dict info := filter (fun e => negb (Qle_bool (1 # 2) (i_prob (snd e)))) (used pw).
(** oa/plugins/bayes.py:1140-1248. *)
Definition spammy (pw : dict info) : dict info := filter (fun e => Qle_bool (1 # 2) (i_prob (snd e))) (used pw).

(** oa/plugins/bayes.py:738-763,1140-1248 [learner_is_scan_available], [scan]: what
    happens.  [rows]: the rows found for the tokens of the message. *)
Inductive scan_result := ScanRaises | NoScore | Score (q : Q) (touched : list str).
Section Scan.
Variable combine : Z -> Z -> list Q -> Q.
(** oa/plugins/bayes.py:1140-1248. *)
Definition scan (use_learner use_bayes ignored : bool) (hapaxes : bool) (min_spam min_ham : Z) (ns nn : Z) (rows : list row) : scan_result :=
  if negb use_learner then NoScore
  else if ignored then NoScore
  else if negb use_bayes then NoScore
  else if (ns <? min_spam)%Z then NoScore
  else if (nn <? min_ham)%Z then NoScore
  else
    match compute_probs hapaxes ns nn rows with
    | None => ScanRaises
    | Some probs =>
        let pw := assign rows probs in
        match pw with
        | [] => NoScore
        | _ => match used pw with
               | [] => NoScore
               | u => Score (combine ns nn (map (fun e => i_prob (snd e)) u)) (map fst u)
               end
        end
    end.
End Scan.

(** oa/plugins/bayes.py:1060-1088 [check_bayes]: [score] is what [scan] returned. *)
Definition lt (a b : Q) : bool := negb (Qle_bool b a).
(** oa/plugins/bayes.py:1060-1088. *)
Definition check_bayes (use_learner use_bayes use_rules : bool) (score : option Q) (lo : Q) (hi : option Q) : bool :=
  if negb use_learner then false
  else if negb use_bayes then false
  else if negb use_rules then false
  else match score with
       | None => false
       | Some q => negb (Qeq_bool q 0) && lt lo q && (match hi with Some h => Qle_bool q h | None => true end)
       end.
