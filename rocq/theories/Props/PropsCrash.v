(** * The system survives crashes of workers: C94 *)

From Verif.Model Require Import Base Message Client Worker Processor Scheduler System.
From Verif.Spec Require Import SchedulerSpec SystemSpec FlowSpec CrashSpec.
From Verif.Proofs Require Import SystemExamples CrashFlow CrashExamples.

(** Whatever workers die, and whenever: nobody else ends, not the scheduler, no client's
    connector, no other worker's agent and no other worker's processor. *)
Theorem C94_others_survive : ∀ c tr, c_max_waiting c < 0 → crash_run c tr → well_but (died tr) (state_after c tr).
Proof. intros c tr Hmax Hr. exact (survives_well _ _ _ (survives_run c tr Hmax Hr)). Qed.
Print Assumptions C94_others_survive.

(** As long as one worker is alive, the execution can go on, without new parts, new work and
    further deaths, until every task ever submitted has its value, whatever the calls of user
    code return or raise. *)
Theorem C94_no_task_lost : ∀ c tr (verdict : task → outcome) w, c_max_waiting c < 0 → 1 <= c_queue_size c → 0 <= c_timeout c → (∀ k, verdict k ≠ Ended) →
  crash_run c tr → is_Some (y_workers (state_after c tr) !! w) → w ∉ died tr →
  ∃ more, crash_run c (tr ++ (Acts <$> more)) ∧ Forall no_news more ∧
    (∀ before a after, more = before ++ a :: after → as_decided verdict (state_after c (tr ++ (Acts <$> before))) a) ∧
    all_resolved (state_after c (tr ++ (Acts <$> more))).
Proof. exact crash_finish. Qed.
Print Assumptions C94_no_task_lost.

(** A worker dies while it runs the only task, and another one is there. *)
Example C94_example : c_max_waiting cfg < 0 ∧ 1 <= c_queue_size cfg ∧ 0 <= c_timeout cfg ∧ crash_run cfg crash ∧ is_Some (y_workers (state_after cfg crash) !! "v") ∧ "v" ∉ died crash ∧
  "w" ∈ died crash ∧ holder (s_log (y_sched (state_after cfg crash))) !! "t" = Some "w" ∧ (∀ v, CSet (FTask "t") v ∉ history_of (state_after cfg crash) "cl").
Proof.
  split; [done|]. split; [done|]. split; [done|]. split; [exact crash_ok|]. split; [by_compute|]. split; [by_compute|]. split; [by_compute|]. split; [vm_compute; reflexivity|].
  assert (Hn : existsb (λ e, match e with CSet _ _ => true | _ => false end) (history_of (state_after cfg crash) "cl") = false) by (vm_compute; reflexivity).
  revert Hn. generalize (history_of (state_after cfg crash) "cl"). intros l Hn v Hi. rewrite <- not_true_iff_false in Hn. apply Hn, existsb_exists. exists (CSet (FTask "t") v). split; [apply elem_of_list_In, Hi|reflexivity].
Qed.
(** One way in which it goes on. *)
Example C94_example_recovery : crash_run cfg (crash ++ (Acts <$> recovery)) ∧ Forall no_news recovery ∧ CSet (FTask "t") (Value "xy") ∈ history_of (state_after cfg (crash ++ (Acts <$> recovery))) "cl".
Proof. split; [exact recovery_ok|]. split; [repeat constructor|by_compute]. Qed.
