(** Model of oa/plugins/body_eval.py:15-30,205-219: the count of stock market words. *)
From Verif Require Import PyStr Regexp.

(** oa/plugins/body_eval.py:15-30.  In MULTILINE mode [^] is also right after a line end; the flags IGNORECASE and
    VERBOSE are the two arguments of [compile]; DOTALL has no effect. *)
Definition stock_pattern : str :=
  ($"(?:^|(?<=\n))trad(?:e|ing)date|") ++
  ($" company(?:name)?|") ++
  ($" s\w?(?:t\w?o\w?c\w?k|y\w?m(?:\w?b\w?o\w?l)?)|") ++
  ($" t(?:arget|icker)|") ++
  ($" (?:opening|current)p(?:rice)?|") ++
  ($" p(?:rojected|osition)|") ++
  ($" expectations|") ++
  ($" weeks?high|") ++
  ($" marketperformance|") ++
  ($" (?:year|week|month|day|price)(?:target|estimates?)|") ++
  ($" sector|") ++
  ($" r(?:ecommendation|ating) ").
(** oa/plugins/body_eval.py:15-30. *)
Definition STOCK_RE : re := Eval vm_compute in match compile true true stock_pattern with Some r => r | None => Eps end.

(** oa/plugins/body_eval.py:205-219 [check_stock_info]: [uword] are the word characters above 127 and [minwords] is the
    number that [int] reads. *)
Definition check_stock_info (udigit uword : char -> bool) (minwords : Z) (rawbody : bool) (raw_text text : str) : bool :=
  let t := if rawbody then raw_text else text in
  Z.leb minwords (Z.of_nat (length (findall udigit uword STOCK_RE t))).
