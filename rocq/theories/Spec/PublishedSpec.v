(** * What the monitor's row for a worker should say (C98) *)

From Verif.Model Require Import Base Message SchedulerState Formatter Top Published.
From Verif.Spec Require Import TopSpec.

(** Measurements within what the monitor can show (C63): less than a pebibyte, less than
    1000 seconds. *)
Definition fits (h : heartbeat) : Prop :=
  0 <= hb_agent_rss h < 1024 ^ 5 ∧ 0 <= hb_worker_rss h < 1024 ^ 5 ∧ 0 <= hb_latency h < 10 ^ 9.

(** The row of worker [w] whose last heartbeat said [h], [ago] seconds ago, which has [sent]
    tasks and room for [free] more. *)
Definition tells_of (percent : Z → bytes) (w : bytes) (h : heartbeat) (free sent ago : Z) (cells : list cell) : Prop :=
  ∃ agent_rss rss lag,
    format_bytes (hb_agent_rss h) = Ok agent_rss ∧ format_bytes (hb_worker_rss h) = Ok rss ∧ format_microseconds (hb_latency h) = Ok lag ∧
    cells = [CText (truncate w 24 KeepLeft); CText (percent (hb_agent_cpu h)); CText agent_rss; CText (percent (hb_worker_cpu h)); CText rss;
             CInt free; CInt sent; CInt (hb_queued h); CText ((if decide (5 < ago) then "(" +:+ format_seconds ago +:+ ") " else "") +:+ lag);
             CText (flag (hb_initialized h) +:+ flag (hb_has_task h) +:+ flag (hb_task_lock h))].

(** A line of the upper table: a name and the number behind it. *)
Definition line (t : table) (name : bytes) (n : Z) : Prop := shown t [CText name; CText (format_integer n)].
