(** * Memory housekeeping of a processor *)

From Verif.Model Require Import Base.

Inductive mem_action : Type :=
| Collect                          (* gc.collect() *)
| Trim.                            (* malloc_trim(0) *)

(** cache_cleaner.py:64-75 [__clean_memory]: [prev] is [_previous_garbage_collect_time],
    [rss] the resident set size found after the collection.  SIMPLIFICATION: the clock
    shows the same in both places of one call. *)
Definition clean_memory (interval threshold prev now rss : Z) : Z * list mem_action :=
  if (now - prev <? interval)%Z then (prev, [])
  else (now, Collect :: (if (rss <? threshold)%Z then [] else [Trim])).

(** cache_cleaner.py:32-36 [run], as far as memory is concerned: one call per turn, at
    the time of the turn (see [EventLoop.loop_starts], whose turn and sleep this thread
    has too; the interval is CLEANUP_INTERVAL_SECONDS).  [prev] is first the time of
    construction (cache_cleaner.py:23). *)
Fixpoint memory_run (interval threshold prev : Z) (turns : list (Z * Z)) : list (list mem_action) :=
  match turns with
  | [] => []
  | (now, rss) :: turns =>
      let '(prev, acts) := clean_memory interval threshold prev now rss in
      acts :: memory_run interval threshold prev turns
  end.
