(** * Properties C07-C13: assignment of tasks to workers

    [al_run (al_init max) calls] is the list of answers a fresh allocator with queue
    size [max] gives to [calls], and the exception (if any) that ended it.
    [ledger_after lg_empty calls answers] is what an observer of those calls and
    answers knows: registered workers and the worker of each assigned task. *)

From Verif.Model Require Import Base Float PriorityQueue Allocator.
From Verif.Spec Require Import AllocatorSpec.
From Verif.Proofs Require Import AllocatorProofs AllocatorExamples FloatProofs.

(** A history used below: two workers, queue size 2, four tasks, one done. *)
Notation history := [AAddWorker "w1"; AAddWorker "w2"; AAssign "a"; AAssign "b"; AAssign "c"; ARemoveTask "b"].
Notation answers := [ABool true; ABool true; AResult (Assigned "w1"); AResult (Assigned "w2");
                     AResult (Assigned "w1"); AWorker (Some "w2")].

(** C07.  No worker ever holds more tasks than its queue size, in any history. *)
Theorem C07_worker_capacity :
  ∀ max calls answers w, 0 <= max → al_run (al_init max) calls = (answers, None) →
  load (ledger_after lg_empty calls answers) w <= max.
Proof. exact allocator_capacity_lemma. Qed.
Print Assumptions C07_worker_capacity.

Example C07_example :
  al_run (al_init 2) history = (answers, None) ∧ load (ledger_after lg_empty history answers) "w1" = 2.
Proof. split; by_compute. Qed.

(** C08.  The worker reported for a task is the one the ledger knows and is
    registered; no task is in the sets of two workers. *)
Theorem C08_assignment_views_agree :
  ∀ max calls t answers answer,
  al_run (al_init max) (calls ++ [AGetAssigned t]) = (answers ++ [answer], None) →
  answer = AWorker (lg_owner (ledger_after lg_empty calls answers) !! t) ∧
  (∀ w, answer = AWorker (Some w) → w ∈ lg_workers (ledger_after lg_empty calls answers)).
Proof. exact allocator_views_lemma. Qed.
Print Assumptions C08_assignment_views_agree.

Theorem C08_one_worker_per_task :
  ∀ max calls w w' t answers answer answer',
  al_run (al_init max) (calls ++ [ARemoveWorker w; ARemoveWorker w'])
    = (answers ++ [ATasks answer; ATasks answer'], None) →
  t ∈ answer → t ∉ answer'.
Proof. exact allocator_disjoint_lemma. Qed.
Print Assumptions C08_one_worker_per_task.

Example C08_example :
  al_run (al_init 2) (history ++ [AGetAssigned "c"; AGetAssigned "b"; ARemoveWorker "w1"; ARemoveWorker "w2"])
  = (answers ++ [AWorker (Some "w1"); AWorker None; ATasks {["a"; "c"]}; ATasks ∅], None).
Proof. by_compute. Qed.

(** C09.  In every disciplined history assignment succeeds with a least-loaded
    worker, is refused only when all workers are full, and waits only when there is
    no worker; no call of such a history raises. *)
Theorem C09_least_loaded :
  ∀ max calls t, disciplined false (calls ++ [AAssign t]) = true →
  ∃ answers r, al_run (al_init max) (calls ++ [AAssign t]) = (answers ++ [AResult r], None) ∧
    let g := ledger_after lg_empty calls answers in
    match r with
    | Waits => lg_workers g = ∅
    | AllFull => lg_workers g ≠ ∅ ∧ ∀ w, w ∈ lg_workers g → load g w = max
    | Assigned w =>
        lg_owner g !! t = Some w ∨
        (lg_owner g !! t = None ∧ w ∈ lg_workers g ∧ (0 <= max → load g w < max) ∧
         ∀ w', w' ∈ lg_workers g → load g w <= load g w')
    end.
Proof. exact allocator_least_loaded_lemma. Qed.
Print Assumptions C09_least_loaded.

Example C09_example :
  disciplined false (history ++ [AHasAvailable; AAssign "d"]) = true ∧
  al_run (al_init 2) (history ++ [AHasAvailable; AAssign "d"; AAssign "e"; AAssign "f"])
  = (answers ++ [ABool true; AResult (Assigned "w2"); AResult (Assigned "w2"); AResult AllFull], None).
Proof. split; by_compute. Qed.

(** Without the discipline it is false: a peek that is not followed by an
    assignment leaks the slot freed next, and the idle worker counts as full. *)
Theorem C09_least_loaded_any_history_refuted :
  ∃ calls t answers, al_run (al_init 1) (calls ++ [AAssign t]) = (answers ++ [AResult AllFull], None) ∧
    ∃ w, w ∈ lg_workers (ledger_after lg_empty calls answers) ∧
         load (ledger_after lg_empty calls answers) w = 0.
Proof. exact leak_lemma. Qed.
Print Assumptions C09_least_loaded_any_history_refuted.

(** C10.  Removing a worker returns exactly the tasks it holds. *)
Theorem C10_remove_worker_returns_its_tasks :
  ∀ max calls w answers answer,
  al_run (al_init max) (calls ++ [ARemoveWorker w]) = (answers ++ [answer], None) →
  answer = ATasks (tasks_of (ledger_after lg_empty calls answers) w).
Proof. exact allocator_remove_worker_lemma. Qed.
Print Assumptions C10_remove_worker_returns_its_tasks.

Example C10_example :
  al_run (al_init 2) (history ++ [ARemoveWorker "w1"; AGetAssigned "a"; AWorkerIds])
  = (answers ++ [ATasks {["a"; "c"]}; AWorker None; AWorkers {["w2"]}], None).
Proof. by_compute. Qed.

(** C11.  Balance advice. *)
Theorem C11_balance_advice :
  ∀ max calls answers answer,
  al_run (al_init max) (calls ++ [ABalance]) = (answers ++ [answer], None) →
  ∃ advice, answer = AAdvice advice ∧ advice_ok (ledger_after lg_empty calls answers) advice.
Proof. exact allocator_advice_lemma. Qed.
Print Assumptions C11_balance_advice.

(** Following the advice never takes a worker below what it had left over the
    mean: it keeps the floor of the mean, and at least one task moves. *)
Theorem C11_advice_is_moderate :
  ∀ max calls answers advice w k,
  al_run (al_init max) (calls ++ [ABalance]) = (answers ++ [AAdvice advice], None) →
  advice !! w = Some k →
  let g := ledger_after lg_empty calls answers in
  1 <= k <= load g w ∧ load g w - k = total_load g / Z.of_nat (size (lg_workers g)).
Proof. exact allocator_advice_moderate_lemma. Qed.
Print Assumptions C11_advice_is_moderate.

(** The code computes the mean as a float.  As long as the number of assigned tasks times
    the number of workers is below 2^52, rounding does not change the advice. *)
Theorem C11_float_mean :
  ∀ a, let tasks := foldr Z.add 0 ((λ p : bytes * gset bytes, Z.of_nat (size p.2)) <$> map_to_list (al_w2t a)) in
  tasks * Z.of_nat (size (al_w2t a)) < 2 ^ 52 → al_balance_float a = al_balance a.
Proof. exact balance_float_lemma. Qed.
Print Assumptions C11_float_mean.
(** With 1/3 off the mean the float is not exact, the advice is; with 2^53 tasks per
    worker the float mean of three workers hides an excess of 1/3. *)
Example C11_float_example :
  float_of 4 3 = (6004799503160661, 2 ^ 52) ∧ float_excess 4 3 2 = Some 1 ∧
  float_excess (3 * 2 ^ 53 - 1) 3 (2 ^ 53) = None ∧ 2 ^ 53 * 3 > 3 * 2 ^ 53 - 1.
Proof. vm_compute. auto. Qed.

Example C11_example :
  al_run (al_init 5) ([AAddWorker "w1"; AAssign "a"; AAssign "b"; AAssign "c"; AAddWorker "w2"; ABalance])
  = ([ABool true; AResult (Assigned "w1"); AResult (Assigned "w1"); AResult (Assigned "w1"); ABool true;
      AAdvice {["w1" := 2]}], None).
Proof. by_compute. Qed.

(** C12.  "Available" is never a false promise, in any history; and it is exact in
    every disciplined history. *)
Theorem C12_available_is_sound :
  ∀ max calls answers,
  al_run (al_init max) (calls ++ [AHasAvailable]) = (answers ++ [ABool true], None) →
  let g := ledger_after lg_empty calls answers in
  ∃ w, w ∈ lg_workers g ∧ load g w ≠ max ∧ (0 <= max → load g w < max).
Proof. exact allocator_available_sound_lemma. Qed.
Print Assumptions C12_available_is_sound.

Theorem C12_available_is_exact :
  ∀ max calls, disciplined false (calls ++ [AHasAvailable]) = true →
  ∃ answers b, al_run (al_init max) (calls ++ [AHasAvailable]) = (answers ++ [ABool b], None) ∧
    let g := ledger_after lg_empty calls answers in
    b = true ↔ ∃ w, w ∈ lg_workers g ∧ load g w ≠ max.
Proof. exact allocator_available_exact_lemma. Qed.
Print Assumptions C12_available_is_exact.

Example C12_example :
  disciplined false (history ++ [AHasAvailable]) = true ∧
  al_run (al_init 2) (history ++ [AHasAvailable; AAssign "d"; AAssign "e"; AHasAvailable])
  = (answers ++ [ABool true; AResult (Assigned "w2"); AResult (Assigned "w2"); ABool false], None).
Proof. split; by_compute. Qed.

(** Checking availability twice around a finished task reports "full" for an idle
    worker, and disconnecting that worker then raises. *)
Theorem C12_available_any_history_refuted :
  al_run (al_init 1) [AAddWorker "w"; AAssign "a"; AHasAvailable; ARemoveTask "a"; AHasAvailable; ARemoveWorker "w"]
  = ([ABool true; AResult (Assigned "w"); ABool false; AWorker (Some "w"); ABool false], Some ValueError).
Proof. exact unavailable_lemma. Qed.
Print Assumptions C12_available_any_history_refuted.

(** C13.  Statistics report the real number of tasks and the free slots of every
    registered worker and of no other. *)
Theorem C13_statistics :
  ∀ max calls answers answer,
  al_run (al_init max) (calls ++ [AStatistics]) = (answers ++ [answer], None) →
  ∃ stats, answer = AStats stats ∧
    ∀ w free sent, stats !! w = Some (free, sent) ↔
      w ∈ lg_workers (ledger_after lg_empty calls answers) ∧
      sent = load (ledger_after lg_empty calls answers) w ∧ free = max - sent.
Proof. exact allocator_stats_lemma. Qed.
Print Assumptions C13_statistics.

Example C13_example :
  al_run (al_init 2) (history ++ [AStatistics])
  = (answers ++ [AStats {["w1" := (0, 2); "w2" := (2, 0)]}], None).
Proof. by_compute. Qed.
