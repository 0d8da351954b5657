(** Vocabulary for the properties of loaded rules. *)
From Verif Require Import PyStr PyDict Model_Rules Spec_Rules Model_Headers Model_Parser Model_Build.

(** The text a configuration gives for an attribute of a rule. *)
Definition states (data : dict attr) (key : str) (raw : str) : Prop := dget key data = Some (AStr raw).
Definition silent_on (data : dict attr) (key : str) : Prop := dget key data = None.

(** A flag of the [tflags] line (surrounding blanks do not count). *)
Definition flagged (data : dict attr) (fl : str) : Prop :=
  exists l raw, dget ($"tflags") data = Some (AList l) /\ In raw l /\ strip raw = fl.

(** The scores a rule should get: none for sub-rules, the stated ones, or the
    default. *)
Inductive scores_of (py_float : str -> option Q) (name : str) (data : dict attr) : list Q -> Prop :=
| sc_sub : startswith ($"__") name = true -> scores_of py_float name data [0%Q]
| sc_stated raw qs : startswith ($"__") name = false -> states data ($"score") raw ->
    Forall2 (fun w q => py_float w = Some q) (words (strip raw)) qs -> scores_of py_float name data qs
| sc_nice : startswith ($"__") name = false -> silent_on data ($"score") -> flagged data ($"nice") ->
    scores_of py_float name data [(-1)%Q]
| sc_default : startswith ($"__") name = false -> silent_on data ($"score") -> ~ flagged data ($"nice") ->
    scores_of py_float name data [1%Q].

(** The four kinds of rule that search a pattern in a text of the message, and
    the texts they search. *)
Definition texts_for {X} (C : content X) (ty : str) (x : X) : option (list str) :=
  if streqb ty ($"body") then Some [ct_text C x]
  else if streqb ty ($"rawbody") then Some [ct_raw_text C x]
  else if streqb ty ($"full") then Some [ct_raw_msg C x]
  else if streqb ty ($"uri") then Some (ct_uris C x)
  else None.

(** What one line of the rule table adds to the score of a message with content
    [x], for the four pattern kinds. *)
Inductive adds {X} (C : content X) (re_compile : str -> reflags -> option (str -> bool)) (py_float : str -> option Q)
    (c : switches) (x : X) (name : str) (data : dict attr) : Q -> Prop :=
| adds_hit ty value ts f scores s :
    states data ($"type") ty -> states data ($"value") value -> texts_for C ty x = Some ts ->
    perl2re re_compile value = ReOk f -> (exists t, In t ts /\ f t = true) ->
    scores_of py_float name data scores -> ~ (exists fl, switched_off c fl /\ (forall g, In g fl <-> flagged data g)) ->
    mode_score (use_bayes c) (use_network c) scores = Some s ->
    adds C re_compile py_float c x name data s
| adds_off ty value :
    states data ($"type") ty -> states data ($"value") value ->
    (exists fl, switched_off c fl /\ (forall g, In g fl <-> flagged data g)) ->
    adds C re_compile py_float c x name data 0%Q
| adds_miss ty value ts f :
    states data ($"type") ty -> states data ($"value") value -> texts_for C ty x = Some ts ->
    perl2re re_compile value = ReOk f -> (forall t, In t ts -> f t = false) ->
    adds C re_compile py_float c x name data 0%Q
| adds_bad_regex value :
    states data ($"value") value -> perl2re re_compile value = ReInvalid ->
    adds C re_compile py_float c x name data 0%Q
| adds_bad_scores scores :
    scores_of py_float name data scores -> mode_score true true scores = None ->
    adds C re_compile py_float c x name data 0%Q
| adds_no_rule :
    silent_on data ($"type") -> adds C re_compile py_float c x name data 0%Q.

(** A table entry that is a pattern rule (or carries no type at all), whose
    flags come from [tflags] lines, and whose four scores, if any, do not start
    with a zero (finding C06). *)
Definition plain_entry (py_float : str -> option Q) (name : str) (data : dict attr) : Prop :=
  (silent_on data ($"type") \/
   exists ty value, In ty [$"body"; $"rawbody"; $"full"; $"uri"] /\ states data ($"type") ty /\ states data ($"value") value) /\
  (silent_on data ($"tflags") \/ exists l, dget ($"tflags") data = Some (AList l)) /\
  (silent_on data ($"score") \/ exists raw, states data ($"score") raw) /\
  (forall s0 s1 s2 s3, scores_of py_float name data [s0; s1; s2; s3] -> ~ s0 == 0).

Definition total (l : list Q) : Q := fold_right Qplus 0%Q l.
