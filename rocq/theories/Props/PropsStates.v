(** * The published states of tasks: C99 *)

From Verif.Model Require Import Base Message Scheduler.
From Verif.Spec Require Import SchedulerSpec StateSpec.
From Verif.Proofs Require Import BaseProofs SchedPolite SchedExamples StateProofs NameProofs.

(** C99.  In well-behaved traffic, at every moment, the last state published of a task says
    where it is: none for a task never accepted, Inactive while it waits for a worker, Running
    or Canceling while a worker has it, and the status of its result once that is sent. *)
Theorem C99_published_state : ∀ c rs t, let h := s_log (run c rs) in c_max_waiting c < 0 → always (polite utf8) h →
  ((¬ ∃ cl, accepted cl t h) → last_state t h = None) ∧
  (unanswered t h → holder h !! t = None → last_state t h = Some Inactive) ∧
  (∀ w, holder h !! t = Some w → last_state t h = Some Running ∨ last_state t h = Some Canceling) ∧
  (∀ cl st d p, LSend cl (MTaskResult t st d p) ∈ h → last_state t h = Some st).
Proof. exact states_lemma. Qed.
Print Assumptions C99_published_state.

(** Every published state names a submitted task and its function, and all but Inactive and
    Running have a cause: a worker's result with this status, or a client's wish to cancel. *)
Theorem C99_published_cause : ∀ c rs t n st, let h := s_log (run c rs) in c_max_waiting c < 0 → always (polite utf8) h →
  LMonitor (MTaskState t n st) ∈ h → named t n h ∧ caused t st h.
Proof. exact names_lemma. Qed.
Print Assumptions C99_published_cause.

(** "a" is done, "b" is to be cancelled at w2, w1 has gone and its tasks wait again with "g". *)
Example C99_example : let h := s_log (run cfg (waiting ++ [from "cl" (MTaskCancel "b"); from "w1" (MDisconnectRequest "w1")])) in
  c_max_waiting cfg < 0 ∧ always (polite utf8) h ∧ holder h !! "b" = Some "w2" ∧
  (λ t, last_state t h) <$> ["a"; "b"; "c"; "d"; "e"; "g"; "zz"] = [Some Success; Some Canceling; Some Inactive; Some Inactive; Some Running; Some Inactive; None] ∧
  LMonitor (MTaskState "b" "name" Canceling) ∈ h.
Proof. split; [reflexivity|]. split; [apply polite_check; vm_compute; reflexivity|]. split; [by_compute|]. split; by_compute. Qed.
