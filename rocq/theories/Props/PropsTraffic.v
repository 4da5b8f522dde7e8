(** * Well-behaved traffic with graphs (C73-C75) *)

From Verif.Model Require Import Base OneToManyDict Allocator Message Sorter Scheduler.
From Verif.Spec Require Import SchedulerSpec TrafficSpec.
From Verif.Proofs Require Import BaseProofs SchedExamples GraphExamples TrafficExamples SchedPolite SchedTraffic SchedFinish.

(** C73.  Without waiting limit, no well-behaved traffic of tasks and graphs, in any
    order, with any clock, with workers coming and going, ends the scheduler. *)
Theorem C73_survives_graphs :
  ∀ c rs, c_max_waiting c < 0 → always (polite_graphs utf8) (s_log (run c rs)) → s_dead (run c rs) = None.
Proof. exact survives_graphs_lemma. Qed.
Print Assumptions C73_survives_graphs.
(** One graph runs, one fails, one is cancelled, a worker dies. *)
Example C73_example :
  c_max_waiting cfg < 0 ∧ always (polite_graphs utf8) (s_log (run cfg (crowd ++ crowd_ends))).
Proof. split; [reflexivity|]. apply polite_graphs_check. vm_compute. reflexivity. Qed.

(** A task that was refused for want of its function is submitted again and accepted. *)
Example C73_refused_example :
  let h := s_log (run cfg [from "w1" beat; from "cl" (MTask (Task "a" "f" [])); add "f"; from "cl" (MTask (Task "a" "f" [])); tick EDispatch]) in
  always (polite_graphs utf8) h ∧ LSend "cl" (MTaskEcho "a" FunctionNotExists) ∈ h ∧ holder h !! "a" = Some "w1".
Proof. intros h. split; [apply polite_graphs_check; vm_compute; reflexivity|]. split; [apply elem_of_list_In; vm_compute; tauto|by_compute]. Qed.

(** REFUTED expectation: whatever workers report about the tasks they have.  A worker
    that reports NotFound for a graph node it has ends the scheduler. *)
Theorem C73_not_found_refuted :
  ∃ c rs t w, let h := s_log (run c rs) in
  c_max_waiting c < 0 ∧ always (polite_graphs utf8) h ∧ holder h !! t = Some w ∧
  s_dead (step (run c rs) (from w (MTaskResult t NotFound 0 ""))) = Some ValueError.
Proof. exists cfg, crowd, "y", "w1". split; [reflexivity|]. split; [apply polite_graphs_check; vm_compute; reflexivity|]. split; by_compute. Qed.
Print Assumptions C73_not_found_refuted.
(** REFUTED expectation: a result counts only if it comes from the worker that has the
    task.  "y" is with w1; anybody's result settles it and its graph goes on. *)
Theorem C73_any_sender_refuted :
  ∃ c rs t w t', let h := s_log (run c rs) in let s := run c (rs ++ [from "stranger" (MTaskResult t Success 0 "7"); tick EDispatch; tick EDispatch]) in
  always (polite_graphs utf8) (s_log s) ∧ holder h !! t = Some w ∧ "stranger" ∉ registered (s_log s) ∧
  holder h !! t' = None ∧ is_Some (holder (s_log s) !! t').
Proof.
  exists cfg, crowd, "y", "w1", "z". split; [apply polite_graphs_check; vm_compute; reflexivity|]. split; [by_compute|]. split; [by_compute|]. split; [by_compute|].
  match goal with |- is_Some ?x => let v := eval vm_compute in x in exists (default "" v) end. by_compute.
Qed.
Print Assumptions C73_any_sender_refuted.

(** C74.  A graph that was taken up and is neither answered nor cancelled is always
    being worked on: some node of it waits for a worker or is with a registered one, and
    each node is either done, or on its way with all its inputs there, or lacks an input. *)
Theorem C74_graph_progress :
  ∀ c rs cl g fs ts ns, let h := s_log (run c rs) in
  c_max_waiting c < 0 → always (polite_graphs utf8) h → received cl (MGraphTask g fs ts ns) h → open_graph g h →
  (∃ n, n ∈ ns ∧ in_hand (task_id n) h) ∧
  ∀ n, n ∈ ns →
    (settled (task_id n) h ∧ ¬ in_hand (task_id n) h) ∨
    (in_hand (task_id n) h ∧ ¬ settled (task_id n) h ∧ ∀ x, ArgTask x ∈ task_args n → settled x h) ∨
    (holder h !! task_id n = None ∧ ¬ settled (task_id n) h ∧ ∃ x, ArgTask x ∈ task_args n ∧ ¬ settled x h).
Proof. exact graph_progress_lemma. Qed.
Print Assumptions C74_graph_progress.
(** ... a submitted graph is in the queue, worked on, answered or cancelled. *)
Theorem C74_graph_somewhere :
  ∀ c rs cl g, let h := s_log (run c rs) in
  c_max_waiting c < 0 → always (polite_graphs utf8) h → graph_from cl g h →
  g ∈ pending_graphs h ∨ open_graph g h ∨ graph_answered g h ∨ graph_cancelled g h.
Proof. exact graph_where. Qed.
Print Assumptions C74_graph_somewhere.
(** ... so once the last result is in, the answer is out. *)
Theorem C74_finished_graph_answered :
  ∀ c rs cl g fs ts ns, let h := s_log (run c rs) in
  c_max_waiting c < 0 → always (polite_graphs utf8) h →
  received cl (MGraphTask g fs ts ns) h → g ∉ pending_graphs h → ¬ graph_cancelled g h →
  (∀ n, n ∈ ns → settled (task_id n) h) → graph_answered g h.
Proof. exact graph_finished_lemma. Qed.
Print Assumptions C74_finished_graph_answered.
(** The diamond "G" in the middle of the crowd: x is done, y runs, z waits for y. *)
Example C74_example :
  let h := s_log (run cfg crowd) in
  always (polite_graphs utf8) h ∧ received "cl" (MGraphTask "G" [("f", ("name", "code"))] ["z"; "x"] diamond) h ∧ open_graph "G" h ∧ open_graph "H" h ∧
  settled "x" h ∧ holder h !! "y" = Some "w1" ∧ holder h !! "z" = None.
Proof.
  intros h. split; [apply polite_graphs_check; vm_compute; reflexivity|]. split; [exists 0; apply elem_of_list_In; vm_compute; tauto|].
  split; [apply openb_ok; vm_compute; reflexivity|]. split; [apply openb_ok; vm_compute; reflexivity|]. split; [apply settled_check; vm_compute; reflexivity|]. split; by_compute.
Qed.
(** ... and the whole diamond answered. *)
Example C74_finished_example :
  let h := s_log (run cfg diamond_run) in
  always (polite_graphs utf8) h ∧ "G" ∉ pending_graphs h ∧ (∀ n, n ∈ diamond → settled (task_id n) h).
Proof.
  intros h. split; [apply polite_graphs_check; vm_compute; reflexivity|]. split; [by_compute|].
  intros n Hn. unfold diamond in Hn. repeat (apply elem_of_cons in Hn as [-> |Hn]); [..|inversion Hn]; apply settled_check; vm_compute; reflexivity.
Qed.

(** C36 with graphs in the traffic. *)
Theorem C36_dispatch_graphs :
  ∀ c rs now codes, let s := run c rs in let s' := step s (Round now codes EDispatch) in
  c_max_waiting c < 0 → always (polite_graphs utf8) (s_log s) →
  match next_task s with
  | None => s_log s' = s_log s ++ [LIn now EDispatch]
  | Some t =>
      (registered (s_log s) = ∅ ∧ s_log s' = s_log s ++ [LIn now EDispatch] ∧ next_task s' = Some t) ∨
      (registered (s_log s) ≠ ∅ ∧ (∀ w, w ∈ registered (s_log s) → outstanding (s_log s) w = c_queue_size c) ∧
         s_log s' = s_log s ++ [LIn now EDispatch] ∧ last (s_unassigned s') = Some t) ∨
      (∃ w k mon, task_id k = t ∧ internal mon ∧ w ∈ registered (s_log s) ∧ (0 <= c_queue_size c → outstanding (s_log s) w < c_queue_size c) ∧
         (∀ w', w' ∈ registered (s_log s) → outstanding (s_log s) w <= outstanding (s_log s) w') ∧
         s_log s' = s_log s ++ [LIn now EDispatch; LSend w (MTask k); mon])
  end.
Proof. exact dispatch_graphs_lemma. Qed.
Print Assumptions C36_dispatch_graphs.
Example C36_graphs_example :
  let rs := [from "w1" beat; add "f"] ++ graph "G" ["z"; "x"] diamond in
  always (polite_graphs utf8) (s_log (run cfg rs)) ∧ next_task (run cfg rs) = Some "x" ∧ holder (s_log (run cfg (rs ++ [tick EDispatch]))) !! "x" = Some "w1".
Proof. split; [apply polite_graphs_check; vm_compute; reflexivity|]. split; by_compute. Qed.

(** C75.  There are no dead ends: whatever well-behaved traffic has led to, if from now on
    only the scheduler's loops turn and workers report success of what they have (and one
    worker joins whenever there is none), at any one time [now] and whatever the results
    [v] are, then everything can be finished. *)
Theorem C75_no_dead_end :
  ∀ now v c rs, let h := s_log (run c rs) in
  c_max_waiting c < 0 → 1 <= c_queue_size c → always (polite_graphs utf8) h →
  ∃ rs' l, let h' := s_log (run c (rs ++ rs')) in
    h' = h ++ l ∧ (∀ before e after, l = before ++ e :: after → helpful now v (h ++ before) e) ∧
    always (polite_graphs utf8) h' ∧ all_done h'.
Proof. intros now v c rs h Hc Hq. exact (finish_lemma now v "w" info c Hc Hq eq_refl rs). Qed.
Print Assumptions C75_no_dead_end.
(** Two graphs and a task open. *)
Example C75_example :
  let h := s_log (run cfg crowd) in
  c_max_waiting cfg < 0 ∧ 1 <= c_queue_size cfg ∧ always (polite_graphs utf8) h ∧ ¬ all_done h.
Proof.
  intros h. split; [reflexivity|]. split; [vm_compute; discriminate|]. split; [apply polite_graphs_check; vm_compute; reflexivity|]. intros [_ _ _ H].
  assert (E : holder h !! "y" = Some "w1") by by_compute. rewrite H in E. discriminate.
Qed.
(** ... and while not everything is done, there is a graph to take up, a task to place
    or a result to wait for: a scheduler with nothing to do owes nothing. *)
Theorem C75_idle_owes_nothing :
  ∀ c rs, let s := run c rs in let h := s_log s in
  c_max_waiting c < 0 → always (polite_graphs utf8) h →
  pending_graphs h = [] → holder h = ∅ → next_task s = None → all_done h.
Proof. intros c rs s h Hc. exact (stuck_lemma c Hc rs). Qed.
Print Assumptions C75_idle_owes_nothing.
Example C75_idle_example :
  let s := run cfg diamond_run in let h := s_log s in
  always (polite_graphs utf8) h ∧ pending_graphs h = [] ∧ holder h = ∅ ∧ next_task s = None ∧ graph_from "cl" "G" h.
Proof.
  intros s h. split; [apply polite_graphs_check; vm_compute; reflexivity|]. split; [by_compute|]. split; [by_compute|]. split; [by_compute|].
  exists [("f", ("name", "code"))], ["z"; "x"], diamond, 0. apply elem_of_list_In. vm_compute. tauto.
Qed.
(** Without room at any worker (per_worker_queue_size 0) nothing can be placed. *)
Theorem C75_queue_size_needed :
  ∀ c rs, c_queue_size c = 0 → holder (s_log (run c rs)) = ∅.
Proof. exact no_room_lemma. Qed.
Print Assumptions C75_queue_size_needed.
