(** * The loops of the scheduler and of the workers *)

From Verif.Model Require Import Base.

(** scaled/utility/event_loop.py:34-45 [create_async_loop_routine]: [await routine()],
    then [await asyncio.sleep(seconds)], for ever.  A turn of the loop takes some time,
    and the sleep may last longer than asked for.  The loop starts its turns at
    [loop_starts].  SIMPLIFICATION: times are integers and a sleep never ends early; the
    end of a loop by an exception is the end of the whole process (C37, C65). *)
Record turn := Turn { takes : Z; oversleeps : Z }.
Fixpoint loop_starts (seconds start : Z) (turns : list turn) : list Z :=
  match turns with
  | [] => []
  | x :: turns => start :: loop_starts seconds (start + takes x + seconds + oversleeps x) turns
  end.

(** scaled/io/config.py:8, :25; used in scheduler/main.py:137-139.  worker.py:141. *)
Definition cleanup_interval : Z := 1.
Definition report_interval : Z := 1.
Definition timeout_interval : Z := 1.
