(** * The whole system, when nothing goes wrong: C81 to C83 and C85 *)

From Verif.Model Require Import Base Message Client Worker Processor Scheduler System.
From Verif.Spec Require Import SchedulerSpec SystemSpec FlowSpec OnceSpec PunctualSpec.
From Verif.Proofs Require Import SystemExamples FlowSystem FlowFinish FlowOnce FlowExamples FlowClock ClockExamples.

(** ** C81 *)

(** In an orderly execution no part ends: not the scheduler, no client's connector, no
    agent of a worker and no processor. *)
Theorem C81_nobody_crashes : ∀ c acts, c_max_waiting c < 0 → orderly_run c acts → all_well (execute c acts).
Proof. exact orderly_well. Qed.
Print Assumptions C81_nobody_crashes.
(** Two clients, one worker, every kind of loop: orderly, with both tasks run. *)
Example C81_example : c_max_waiting cfg < 0 ∧ orderly_run cfg course ∧
  CSet (FTask "t") (Value "xy") ∈ history_of (execute cfg course) "cl" ∧ CSet (FTask "u") (Error "no") ∈ history_of (execute cfg course) "dl".
Proof. split; [done|]. split; [exact course_orderly|]. split; by_compute. Qed.

(** ** C82 *)

(** From every state of an orderly execution with a worker, the execution can go on in an
    orderly way, without new parts and new work, until every task ever submitted has its
    value, whatever the calls of user code return or raise. *)
Theorem C82_no_dead_ends : ∀ c acts (verdict : task → outcome), c_max_waiting c < 0 → 1 <= c_queue_size c → (∀ k, verdict k ≠ Ended) →
  orderly_run c acts → y_workers (execute c acts) ≠ ∅ →
  ∃ more, orderly_run c (acts ++ more) ∧ Forall no_news more ∧
    (∀ before a after, more = before ++ a :: after → as_decided verdict (execute c (acts ++ before)) a) ∧
    all_resolved (execute c (acts ++ more)).
Proof. exact orderly_finish. Qed.
Print Assumptions C82_no_dead_ends.
(** Two tasks are with the scheduler and the worker, and neither has a value. *)
Example C82_example : c_max_waiting cfg < 0 ∧ 1 <= c_queue_size cfg ∧ orderly_run cfg course_begin ∧ y_workers (execute cfg course_begin) ≠ ∅ ∧
  CIn (KSubmit "u" "f" "fname" "body" ["z"]) ∈ history_of (execute cfg course_begin) "dl" ∧ ¬ all_resolved (execute cfg course_begin).
Proof.
  split; [done|]. split; [done|]. split; [exact course_begin_orderly|].
  assert (Hw : is_Some (y_workers (execute cfg course_begin) !! "w")) by by_compute.
  assert (Hd : CIn (KSubmit "u" "f" "fname" "body" ["z"]) ∈ history_of (execute cfg course_begin) "dl") by by_compute.
  assert (Hn : existsb (λ e, match e with CSet _ _ => true | _ => false end) (history_of (execute cfg course_begin) "dl") = false) by (vm_compute; reflexivity).
  revert Hw Hd Hn. generalize (execute cfg course_begin). intros y [x Hx] Hd Hn.
  split; [intros E; rewrite E, lookup_empty in Hx; discriminate|]. split; [exact Hd|]. intros H. destruct (H _ _ _ _ _ _ Hd) as [v Hv].
  rewrite <- not_true_iff_false in Hn. apply Hn, existsb_exists. exists (CSet (FTask "u") v). split; [apply elem_of_list_In, Hv|reflexivity].
Qed.

(** ** C83 *)

(** In an orderly execution user code is called at most once for a task, over all workers. *)
Theorem C83_at_most_once : ∀ c acts t, c_max_waiting c < 0 → orderly_run c acts → (total_runs (execute c acts) t <= 1)%nat.
Proof. exact orderly_once. Qed.
Print Assumptions C83_at_most_once.
(** Both tasks of [course] are run, one of them raising. *)
Example C83_example : c_max_waiting cfg < 0 ∧ orderly_run cfg course ∧ total_runs (execute cfg course) "t" = 1%nat ∧ total_runs (execute cfg course) "u" = 1%nat.
Proof. split; [done|]. split; [exact course_orderly|]. split; vm_compute; reflexivity. Qed.

(** It takes no lost message and no crash to break this: a worker that is silent for longer
    than the timeout while it works has its task run again elsewhere. The client gets one
    value. Every action but the check of the workers is orderly. *)
Theorem C83_silent_worker_refuted : ∃ c acts t,
  c_max_waiting c < 0 ∧
  (∀ before a after, acts = before ++ a :: after → orderly (execute c before) a ∨ ∃ now codes, a = SchedulerDoes now codes EWorkers) ∧
  total_runs (execute c acts) t = 2%nat ∧
  omap (λ e, match e with CSet f v => Some (f, v) | _ => None end) (history_of (execute c acts) "cl") = [(FTask t, Value "xy")].
Proof.
  exists cfg, late_worker, "t". split; [done|]. split; [exact late_worker_orderly|]. split; vm_compute; reflexivity.
Qed.
Print Assumptions C83_silent_worker_refuted.

(** ** C85 *)

(** [d] bounds the delay of heartbeats and of their answers, and [h] the time between two
    runs of a worker's heartbeat loop. When the timeouts of the scheduler and of the workers
    allow for two delays and one interval, nobody is ever taken for dead, however long tasks
    run: an execution that is orderly in everything else is orderly. So C81 to C83 hold. *)
Theorem C85_punctual : ∀ d h c acts, c_max_waiting c < 0 → 0 <= d → 0 <= h → 2 * d + h <= c_timeout c → patient (2 * d + h) acts →
  one_clock acts → punctual_run d h c acts → calm_run c acts → orderly_run c acts.
Proof. intros d h c acts Hm Hd Hh Hle Hp H1 H2 H3. exact (proj1 (punctual_timed d h c acts Hm Hd Hh Hle Hp H1 H2 H3)). Qed.
Print Assumptions C85_punctual.
(** In particular no check of the workers finds a silent one, and no worker gives up. *)
Theorem C85_nobody_given_up : ∀ d h c acts, c_max_waiting c < 0 → 0 <= d → 0 <= h → 2 * d + h <= c_timeout c → patient (2 * d + h) acts →
  one_clock acts → punctual_run d h c acts → calm_run c acts →
  (∀ before now codes after w, acts = before ++ SchedulerDoes now codes EWorkers :: after → ¬ silent (c_timeout c) now (s_log (y_sched (execute c before))) w) ∧
  (∀ w x, y_workers (execute c acts) !! w = Some x → a_dead (n_agent x) = None).
Proof.
  intros d h c acts Hm Hd Hh Hle Hp H1 H2 H3. pose proof (C85_punctual d h c acts Hm Hd Hh Hle Hp H1 H2 H3) as Ho. split.
  - intros before now codes after w E. pose proof (Ho _ _ _ E) as [_ Hs]. specialize (Hs w).
    assert (Hc : s_cfg (y_sched (execute c before)) = c).
    { destruct (flow_run c before Hm) as [g H]; [|exact (fl_cfg H)]. intros b a rest E'. apply (Ho b a (rest ++ SchedulerDoes now codes EWorkers :: after)). rewrite E, E', <- app_assoc. reflexivity. }
    rewrite Hc in Hs. exact Hs.
  - intros w x Hx. exact (proj1 (proj2 (proj2 (C81_nobody_crashes c acts Hm Ho)) w x Hx)).
Qed.
Print Assumptions C85_nobody_given_up.
(** A task runs for ten seconds at the only worker. The scheduler's timeout is five seconds,
    the worker's six; delays are one second, and the heartbeat loop runs every three. *)
Example C85_example : 2 * 1 + 3 <= c_timeout tight_cfg ∧ patient (2 * 1 + 3) (long_task 6) ∧ one_clock (long_task 6) ∧ punctual_run 1 3 tight_cfg (long_task 6) ∧ calm_run tight_cfg (long_task 6) ∧
  CSet (FTask "t") (Value "xy") ∈ history_of (execute tight_cfg (long_task 6)) "cl".
Proof. destruct long_task_ok as (H1 & H2 & H3). split; [vm_compute; discriminate|]. split; [apply patient_long; reflexivity|]. split; [exact H3|]. split; [exact H1|]. split; [exact H2|]. by_compute. Qed.

(** Neither timeout can be shorter by a second. With the scheduler's, a punctual worker is
    taken for dead; with a worker's, it gives up a punctual scheduler. *)
Theorem C85_timeout_too_short_refuted : ∃ d h c acts, c_max_waiting c < 0 ∧ 0 <= d ∧ 0 <= h ∧ 2 * d + h = c_timeout c + 1 ∧ patient (2 * d + h) acts ∧
  one_clock acts ∧ punctual_run d h c acts ∧ calm_run c acts ∧
  ∃ before now w, acts = before ++ [SchedulerDoes now [] EWorkers] ∧ w ∈ registered (s_log (y_sched (execute c before))) ∧ w ∉ registered (s_log (y_sched (execute c acts))).
Proof.
  destruct two_rounds_ok as (H1 & H2 & H3). exists 1, 3, short_cfg, (two_rounds 6 3). split; [done|]. split; [done|]. split; [done|]. split; [reflexivity|]. split; [apply patient_rounds; reflexivity|].
  split; [exact H3|]. split; [exact H1|]. split; [exact H2|]. exists (two_rounds 6 2), 8, "w". split; [reflexivity|]. split; by_compute.
Qed.
Print Assumptions C85_timeout_too_short_refuted.
Theorem C85_patience_too_short_refuted : ∃ d h c acts, c_max_waiting c < 0 ∧ 0 <= d ∧ 0 <= h ∧ 2 * d + h <= c_timeout c ∧ patient (2 * d + h - 1) acts ∧
  one_clock acts ∧ punctual_run d h c acts ∧ calm_run c acts ∧
  ∃ w x, y_workers (execute c acts) !! w = Some x ∧ a_dead (n_agent x) ≠ None.
Proof.
  destruct two_rounds_ok' as (H1 & H2 & H3). exists 1, 3, tight_cfg, (two_rounds 5 5). split; [done|]. split; [done|]. split; [done|]. split; [vm_compute; discriminate|]. split; [apply patient_rounds; reflexivity|].
  split; [exact H3|]. split; [exact H1|]. split; [exact H2|].
  assert (E : (y_workers (execute tight_cfg (two_rounds 5 5)) !! "w") ≫= (λ x, a_dead (n_agent x)) ≠ None) by by_compute.
  revert E. destruct (y_workers (execute tight_cfg (two_rounds 5 5)) !! "w") as [x|] eqn:Ex; [|by intros []]. intros E. exists "w", x. auto.
Qed.
Print Assumptions C85_patience_too_short_refuted.
