(** * User code is called again only because of a dead worker: C96 *)

From Verif.Model Require Import Base Message Client Worker Processor Scheduler System.
From Verif.Spec Require Import SchedulerSpec SystemSpec FlowSpec TrafficSpec OnceSpec GraphFlowSpec CrashSpec CrashGraphSpec.
From Verif.Proofs Require Import BaseProofs SystemExamples FlowExamples GraphFlowExamples CrashExamples CrashGraphExamples CrashOnce.

(** No worker calls the user's code twice for one task. *)
Theorem C96_once_per_worker : ∀ c tr t w x, c_max_waiting c < 0 → crash_graphs_run c tr →
  y_workers (state_after c tr) !! w = Some x → (runs t (n_calls x) <= 1)%nat.
Proof. exact crash_runs_one. Qed.
Print Assumptions C96_once_per_worker.

(** If two workers have called it, one of them had died, and the scheduler has given up that one. *)
Theorem C96_again_only_after_death : ∀ c tr t w w' x x', c_max_waiting c < 0 → crash_graphs_run c tr →
  y_workers (state_after c tr) !! w = Some x → y_workers (state_after c tr) !! w' = Some x' → w ≠ w' → runs t (n_calls x) ≠ 0%nat → runs t (n_calls x') ≠ 0%nat →
  ∃ v, (v = w ∨ v = w') ∧ v ∈ died tr ∧ LDisconnected v ∈ s_log (y_sched (state_after c tr)).
Proof. exact crash_runs_again. Qed.
Print Assumptions C96_again_only_after_death.

(** In the whole system it is called at most once more than there were deaths. *)
Theorem C96_at_most : ∀ c tr t, c_max_waiting c < 0 → crash_graphs_run c tr → (total_runs (state_after c tr) t <= 1 + size (died tr))%nat.
Proof. exact crash_total_runs. Qed.
Print Assumptions C96_at_most.

(** And never again once a result of a worker who had the task has reached the scheduler: whoever
    has called the code for it later had done so then. *)
Theorem C96_never_after_result : ∀ c tr t, c_max_waiting c < 0 → ∀ more, crash_graphs_run c (tr ++ more) → settled t (s_log (y_sched (state_after c tr))) →
  settled t (s_log (y_sched (state_after c (tr ++ more)))) ∧
  ∀ w x', y_workers (state_after c (tr ++ more)) !! w = Some x' → runs t (n_calls x') ≠ 0%nat →
    ∃ x, y_workers (state_after c tr) !! w = Some x ∧ runs t (n_calls x) = runs t (n_calls x').
Proof. exact crash_late. Qed.
Print Assumptions C96_never_after_result.

(** So for a user: once the future of a task has its value or its exception, ... *)
Theorem C96_never_after_value : ∀ c tr t cl v p, c_max_waiting c < 0 → v = Value p ∨ v = Error p →
  ∀ more, crash_graphs_run c (tr ++ more) → CSet (FTask t) v ∈ history_of (state_after c tr) cl →
  ∀ w x', y_workers (state_after c (tr ++ more)) !! w = Some x' → runs t (n_calls x') ≠ 0%nat →
    ∃ x, y_workers (state_after c tr) !! w = Some x ∧ runs t (n_calls x) = runs t (n_calls x').
Proof. intros c tr t cl v p Hmax Hv more Hr Hi. exact (proj2 (crash_late c tr t Hmax more Hr (crash_value_settled c tr cl t v p Hmax (crash_graphs_prefix _ _ _ Hr) Hv Hi))). Qed.
Print Assumptions C96_never_after_value.
(** ... or that of a target of a graph its value (as in [C95_example_recovery]), nobody calls
    its code any more. *)
Theorem C96_never_after_target : ∀ c tr cl g i p, c_max_waiting c < 0 →
  ∀ more, crash_graphs_run c (tr ++ more) → CSet (FGraph g i) (Value p) ∈ history_of (state_after c tr) cl →
  ∃ fs ts ns t, asks (state_after c tr) cl g fs ts ns ∧ ts !! i = Some t ∧
  ∀ w x', y_workers (state_after c (tr ++ more)) !! w = Some x' → runs t (n_calls x') ≠ 0%nat →
    ∃ x, y_workers (state_after c tr) !! w = Some x ∧ runs t (n_calls x) = runs t (n_calls x').
Proof.
  intros c tr cl g i p Hmax more Hr Hi. destruct (crash_target_settled c tr cl g i p Hmax (crash_graphs_prefix _ _ _ Hr) Hi) as (fs & ts & ns & t & Ha & Ht & Hs).
  exists fs, ts, ns, t. split; [exact Ha|]. split; [exact Ht|]. exact (proj2 (crash_late c tr t Hmax more Hr Hs)).
Qed.
Print Assumptions C96_never_after_target.

(** A worker dies when it has called the code and its result is still in the machine. Another one
    takes over and calls it again: twice, with one death. Then the result has arrived. *)
Definition rerun : list incident :=
  crash_begin ++ Acts (ProcessorDoes "w" 4 (PRun (Returned "xy") 5)) :: drop (length crash_begin) crash ++ (Acts <$> recovery).
Example C96_example : c_max_waiting cfg < 0 ∧ crash_graphs_run cfg rerun ∧ died rerun = {["w"]} ∧ LDisconnected "w" ∈ s_log (y_sched (state_after cfg rerun)) ∧
  total_runs (state_after cfg rerun) "t" = 2%nat ∧ settled "t" (s_log (y_sched (state_after cfg rerun))) ∧
  CSet (FTask "t") (Value "xy") ∈ history_of (state_after cfg rerun) "cl".
Proof.
  split; [done|]. split; [apply checks_crash_graphs_run; vm_compute; reflexivity|]. split; [by_compute|]. split; [by_compute|]. split; [vm_compute; reflexivity|].
  split; [|by_compute].
  assert (Hl : s_log (y_sched (state_after cfg rerun)) !! 24%nat = Some (LIn 101 (ERecv "v" (MTaskResult "t" Success 5 "xy")))) by (vm_compute; reflexivity).
  assert (Hh : is_Some (holder (take 24 (s_log (y_sched (state_after cfg rerun)))) !! "t")) by (exists "v"; vm_compute; reflexivity).
  exists (take 24 (s_log (y_sched (state_after cfg rerun)))), 101, "v", Success, 5, "xy", (drop 25 (s_log (y_sched (state_after cfg rerun)))).
  split; [symmetry; apply take_drop_middle, Hl|exact Hh].
Qed.
