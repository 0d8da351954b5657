(** Model of what oa/plugins/bayes.py reports about the tokens of a message: the
    counts kept by [scan], the declassification distance, the token lists and the
    header tags, and of the lists of addresses it ignores.  Definitions only.
    Probabilities are exact rationals, the distance is computed in exact real
    arithmetic. *)
From Coq Require Import Reals.
From Verif Require Import PyStr PyDict PyRe Model_BayesScan.

(** oa/plugins/bayes.py:1217-1221: what is kept about a used token. *)
Record tinfo := mkTinfo { t_word : str; t_prob : Q; t_spam : Z; t_ham : Z; t_atime : Z }.

(** oa/plugins/bayes.py:500-508 [check_start], 1140-1248 [scan]: what is stored with
    the message.  [l_corpus]: [bayes_nspam] and [bayes_nham], absent until a score
    was computed and the access times were updated. *)
Record locals := mkLocals { l_count : Z; l_learned : Z; l_hammy : list tinfo; l_spammy : list tinfo; l_corpus : option (Z * Z) }.
(** For oa/plugins/bayes.py:1140-1248. *)
Definition fresh : locals := mkLocals 0 0 [] [] None.

(** oa/plugins/bayes.py:1211-1216 [msgtokens.get(bytes(tok), "(unknown)")] *)
Definition token_info (msgtokens : dict str) (e : str * info) : tinfo :=
  mkTinfo (match dget (fst e) msgtokens with Some w => w | None => $"(unknown)" end)
    (i_prob (snd e)) (i_spam (snd e)) (i_ham (snd e)) (i_atime (snd e)).

(** oa/plugins/bayes.py:1140-1248 [scan], the values stored with the message.
    [msgtokens]: the words of the message by their hash; [rows]: the rows found for
    them; [touch]: does the update of the access times succeed.  The second
    component: [true] if the function raises. *)
Definition scan_locals (use_learner use_bayes ignored hapaxes : bool) (min_spam min_ham ns nn : Z)
    (msgtokens : dict str) (rows : list row) (touch : bool) : locals * bool :=
  if negb use_learner then (fresh, false)
  else if ignored then (fresh, false)
  else if negb use_bayes then (fresh, false)
  else if (ns <? min_spam)%Z then (fresh, false)
  else if (nn <? min_ham)%Z then (fresh, false)
  else
    match compute_probs hapaxes ns nn rows with
    | None => (fresh, true)
    | Some probs =>
        let pw := assign rows probs in
        match pw with
        | [] => (fresh, false)
        | _ =>
            let h := map (token_info msgtokens) (hammy pw) in
            let s := map (token_info msgtokens) (spammy pw) in
            let c := Z.of_nat (length msgtokens) in
            let n := Z.of_nat (length pw) in
            match used pw with
            | [] => (mkLocals c n h s None, false)
            | _ => if touch then (mkLocals c n h s (Some (ns, nn)), false) else (mkLocals c n h s None, true)
            end
        end
    end.

(** oa/plugins/bayes.py:1287-1329 [_compute_declassification_distance].
    [int] of a number from 1 on is its integral part. *)
Definition declassification_distance (hapaxes : bool) (Ns Nn ns nn : Z) (prob : R) : Z :=
  (if ((ns =? 0) && (nn =? 0))%Z then 0%Z
  else if negb hapaxes && (ns + nn <? 2)%Z then 0%Z
  else if ((Ns =? 0) || (Nn =? 0))%Z then 0%Z
  else if Rlt_dec (Rabs (prob - 5 / 10)) (346 / 1000) then 0%Z
  else
    let '(Na, na, Nb, nb) := if Rgt_dec prob (5 / 10) then (Nn, nn, Ns, ns) else (Ns, ns, Nn, nn) in
    let Na := IZR Na in let na := IZR na in let Nb := IZR Nb in let nb := IZR nb in
    let p := (5 / 10 - 346 / 1000)%R in
    let s := (30 / 1000)%R in
    let sx := (538 / 1000 * (30 / 1000))%R in
    let a := (Nb * (1 - p))%R in
    let b := (Nb * (sx + nb * (1 - p) - p * s) - p * Na * nb)%R in
    let c := (Na * nb * (sx - p * (s + nb)))%R in
    let discrim := (b * b - 4 * a * c)%R in
    let disc_max_0 := if Rlt_dec discrim 0 then 0%R else discrim in
    let dd_exact := (1 - / 10 ^ 6 + (- b + sqrt disc_max_0) / (2 * a) - na)%R in
    if Rlt_dec dd_exact 1 then 1%Z else Int_part dd_exact).

(** oa/plugins/bayes.py:1337-1349: the formats, as texts and fields. *)
Inductive piece := Lit (s : str) | Field (name : str).
(** For oa/plugins/bayes.py:1331-1379. *)
Definition formats : dict (list piece) := [
  ($"short", [Field ($"t")]);
  ($"Short", [Lit ($"Token: """); Field ($"t"); Lit ($"""")]);
  ($"compact", [Field ($"p"); Lit ($"-"); Field ($"D"); Lit ($"--"); Field ($"t")]);
  ($"Compact", [Lit ($"Probability "); Field ($"p"); Lit ($" -declassification distance "); Field ($"D");
                Lit ($" (""+"" means > 9) --token: """); Field ($"t"); Lit ($"""")]);
  ($"medium", [Field ($"p"); Lit ($"-"); Field ($"D"); Lit ($"-"); Field ($"N"); Lit ($"--"); Field ($"t")]);
  ($"long", [Field ($"p"); Lit ($"-"); Field ($"d"); Lit ($"--"); Field ($"h"); Lit ($"h-"); Field ($"s"); Lit ($"s--");
             Field ($"a"); Lit ($"d--"); Field ($"t")]);
  ($"Long", [Lit ($"Probability "); Field ($"p"); Lit ($" -declassification distance "); Field ($"D"); Lit ($" --in ");
             Field ($"h"); Lit ($" ham messages -and "); Field ($"s"); Lit ($" spam messages --"); Field ($"a");
             Lit ($" days old--token:"""); Field ($"t"); Lit ($"""")]) ].
(** For oa/plugins/bayes.py:1331-1379. *)
Definition default_format : list piece := [Field ($"p"); Lit ($"-"); Field ($"D"); Lit ($"--"); Field ($"t")].

(** [str.format] with named arguments; [None]: [KeyError].  For oa/plugins/bayes.py:1331-1379. *)
Fixpoint format_with (args : dict str) (f : list piece) : option str :=
  match f with
  | [] => Some []
  | Lit s :: f' => match format_with args f' with Some r => Some (s ++ r) | None => None end
  | Field n :: f' =>
      match dget n args, format_with args f' with Some v, Some r => Some (v ++ r) | _, _ => None end
  end.

Section Report.
(** The texts Python makes of numbers: ["%.3f" % x], [str] of a whole float and of an
    integer; [int(text)]; the order in which a set of texts is gone through. *)
Variable fixed3 : Q -> str.
Variable float_str : Z -> str.
Variable int_str : Z -> str.
Variable py_int : str -> option Z.
Variable set_order : list str -> list str.

(** oa/plugins/bayes.py:1362-1377 the function [f].  The age in days is computed and
    not used. *)
Definition token_args (hapaxes : bool) (ns nh : Z) (t : tinfo) : dict str :=
  let d := declassification_distance hapaxes ns nh (t_spam t) (t_ham t) (Q2R (t_prob t)) in
  let '(c, o) := if lt (t_prob t) (1 # 2) then (t_ham t, t_spam t) else (t_spam t, t_ham t) in
  [($"D", float_str d); ($"S", float_str (t_spam t)); ($"H", float_str (t_ham t)); ($"C", float_str c);
   ($"O", float_str o); ($"N", float_str (t_spam t + t_ham t)); ($"s", int_str (t_spam t)); ($"p", fixed3 (t_prob t));
   ($"h", int_str (t_ham t)); ($"t", t_word t)].

(** For oa/plugins/bayes.py:1331-1379. *)
Fixpoint all_some {A} (l : list (option A)) : option (list A) :=
  match l with
  | [] => Some []
  | Some x :: l' => match all_some l' with Some r => Some (x :: r) | None => None end
  | None :: _ => None
  end.

(** oa/plugins/bayes.py:1331-1379 [bayes_report_make_list]; [None]: it raises.  A
    negative limit is as good as a positive one. *)
Definition bayes_report_make_list (hapaxes : bool) (corpus : option (Z * Z)) (l : list tinfo) (param : option str) : option str :=
  match l with
  | [] => Some ($"Tokens not available.")
  | _ =>
      let text := match param with Some (c :: r) => c :: r | _ => $"5,," end in
      match split_char 44%N text with
      | [limit; arg; more] =>
          let fmt := match arg with [] => Some default_format | _ => dget arg formats end in
          match fmt with
          | None => Some ($"Invalid format, must be one of: " ++ join ($",") (dkeys formats))
          | Some f =>
              match py_int limit with
              | None => None
              | Some n =>
                  if (Z.min n (Z.of_nat (length l)) =? 0)%Z then Some []
                  else match corpus with
                       | None => None
                       | Some (ns, nh) =>
                           match all_some (map (fun t => format_with (token_args hapaxes ns nh t) f) l) with
                           | None => None
                           | Some texts => Some (join ($", ") (set_order (nodup str_eq_dec texts)))
                           end
                       end
              end
          end
      | _ => None
      end
  end.

(** oa/plugins/bayes.py:532-558 [check_end]: the tags, without the score.  [None]: it
    raises. *)
Definition or_empty (n : Z) : str := if (n =? 0)%Z then [] else int_str n.
(** For oa/plugins/bayes.py:532-553. *)
Definition summary (l : locals) : str :=
  let h := Z.of_nat (length (l_hammy l)) in let s := Z.of_nat (length (l_spammy l)) in
  $"Tokens new, " ++ int_str (l_count l - l_learned l) ++ $"; hammy, " ++ int_str h ++ $"; neutral, " ++
  int_str (l_learned l - h - s) ++ $"; spammy, " ++ int_str s ++ $".".
(** oa/plugins/bayes.py:532-553. *)
Definition check_end (hapaxes : bool) (l : locals) : option (dict str) :=
  match bayes_report_make_list hapaxes (l_corpus l) (l_hammy l) None, bayes_report_make_list hapaxes (l_corpus l) (l_spammy l) None with
  | Some h, Some s =>
      Some [($"BAYESTCHAMMY", int_str (Z.of_nat (length (l_hammy l)))); ($"BAYESTCSPAMMY", int_str (Z.of_nat (length (l_spammy l))));
            ($"BAYESTCLEARNED", or_empty (l_learned l)); ($"BAYESTC", or_empty (l_count l));
            ($"HAMMYTOKENS", h); ($"SPAMMYTOKENS", s); ($"TOKENSUMMARY", summary l)]
  | _, _ => None
  end.
End Report.

(** oa/plugins/bayes.py:572-580 [check_address_in_list], 1250-1272 [ignore_message]
    ([use_ignores] is always on).  The entries are taken as expressions as they
    are: [parse_list] (560-570) is never called.  [None]: an entry is no
    expression and the function raises, or it is outside the fragment of PyRe.v. *)
Fixpoint any_entry (entries : list str) (address : str) : option bool :=
  match entries with
  | [] => Some false
  | e :: r => match re_search e address with None => None | Some true => Some true | Some false => any_entry r address end
  end.
(** oa/plugins/bayes.py:573-580. *)
Fixpoint check_address_in_list (addresses entries : list str) : option bool :=
  match addresses with
  | [] => Some false
  | a :: r => match any_entry entries a with None => None | Some true => Some true | Some false => check_address_in_list r entries end
  end.
(** oa/plugins/bayes.py:1250-1272. *)
Definition ignore_message (senders recipients ignore_from ignore_to : list str) : option bool :=
  match check_address_in_list senders ignore_from with
  | None => None
  | Some f => match check_address_in_list recipients ignore_to with None => None | Some t => Some (f || t) end
  end.
