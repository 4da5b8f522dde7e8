(** * Where log records should go and what durations should say (C100) *)

From Verif.Model Require Import Base Formatter Logging.

(** The destination that a path stands for. *)
Definition asked_for (expand : bytes → bytes) (f : bytes) : destination :=
  if bool_decide (f = "-" ∨ f = "/dev/stdout") then Terminal else InFile (expand f).
(** The text of a duration of [us] microseconds: days if any, hours, minutes, seconds, and
    microseconds if any. *)
Definition says (text : bytes) (us : Z) : Prop :=
  ∃ d h m s u, us = (((d * 24 + h) * 60 + m) * 60 + s) * 1000000 + u ∧
    0 <= d ∧ 0 <= h < 24 ∧ 0 <= m < 60 ∧ 0 <= s < 60 ∧ 0 <= u < 1000000 ∧
    text = (if d =? 0 then "" else dec d +:+ (if d =? 1 then " day, " else " days, ")) +:+
           dec h +:+ ":" +:+ zero_padded 2 m +:+ ":" +:+ zero_padded 2 s +:+ (if u =? 0 then "" else "." +:+ zero_padded 6 u).
(** The levels of Python's logging, which [LoggingLevel] lists (utility.py:20-26). *)
Definition severities : list (bytes * Z) := [("CRITICAL", 50); ("ERROR", 40); ("WARNING", 30); ("INFO", 20); ("DEBUG", 10); ("NOTSET", 0)].
(** A line: level, time, for files also the place in the code, and the message. *)
Definition line_for (d : destination) (r : record) (text : bytes) : Prop :=
  ∃ place, text = "[" +:+ level_name (r_level r) +:+ "]" +:+ r_time r +:+ place +:+ ": " +:+ r_message r ∧
    match d with Terminal => place = "" | InFile _ => place = ":" +:+ r_module r +:+ ":" +:+ r_function r +:+ ":" +:+ r_line r end.
