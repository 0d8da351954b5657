(** Small independent definitions for the server properties. *)
From Verif Require Import PyStr PyDict PyUtf8 Model_Server.

(** A transport: [read(n)] returns between one and [n] of the bytes to come. *)
Definition transport (give : N -> list N -> N) : Prop :=
  forall n s, (0 < n)%N -> s <> [] -> (1 <= give n s <= N.min n (N.of_nat (length s)))%N.
(** The one of a buffered file: as many as there are. *)
Definition buffered : N -> list N -> N := fun n s => N.min n (N.of_nat (length s)).

(** [bytes] is one line holding the text [t], without its line end. *)
Definition line_of (bytes : list N) (t : str) : Prop := ~ In 10%N bytes /\ encode t = Some bytes.
Definition with_ends (lines : list (list N)) : list N := concat (map (fun l => l ++ [10%N]) lines).

(** [t] is an option line "name: value". *)
Definition option_line (t name value : str) : Prop :=
  strip t = name ++ $":" ++ value /\ ~ In 58%N name.
(** The last option line for [key] has the value [v]. *)
Definition last_option (texts : list str) (key v : str) : Prop :=
  exists before t after name value, texts = before ++ t :: after /\ option_line t name value /\
    lower name = key /\ strip value = v /\
    forall t' name' value', In t' after -> option_line t' name' value' -> lower name' <> key.

(** The bytes a request's message consists of: as many as announced, or all. *)
Definition message_bytes (announced : option N) (s : list N) : list N :=
  match announced with Some n => firstn (N.to_nat n) s | None => s end.

Definition known_commands : list str :=
  [$"TELL"; $"PING"; $"SKIP"; $"CHECK"; $"SYMBOLS"; $"REPORT"; $"REPORT_IFSPAM"; $"PROCESS"; $"HEADERS"].
