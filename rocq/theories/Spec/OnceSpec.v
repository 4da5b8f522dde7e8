(** * How often user code is called for a task (C83) *)

From Verif.Model Require Import Base Message Worker Processor System.
From Verif.Spec Require ProcessorSpec.

(** A call in a processor's history is for the task received last and not yet answered. *)
Definition run_step (t : bytes) (p : option task * nat) (e : pentry) : option task * nat :=
  (ProcessorSpec.outstanding_step p.1 e,
   match e, p.1 with
   | PCalled _ _ _, Some k => if String.eqb (task_id k) t then S p.2 else p.2
   | _, _ => p.2
   end).
Definition runs (t : bytes) (h : list pentry) : nat := (foldl (run_step t) (None, 0%nat) h).2.
(** In the whole system. *)
Definition total_runs (y : system) (t : bytes) : nat := sum_list_with (λ p, runs t (n_calls p.2)) (map_to_list (y_workers y)).
