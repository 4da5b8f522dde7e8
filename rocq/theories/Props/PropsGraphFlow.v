(** * The whole system with graphs, when nothing goes wrong: C86 *)

From Verif.Model Require Import Base Message Client Worker Processor Scheduler System.
From Verif.Spec Require Import SchedulerSpec SystemSpec FlowSpec TrafficSpec GraphFlowSpec.
From Verif.Proofs Require Import SystemExamples FlowExamples GraphFlow GraphFlowExamples.

(** ** C86 *)

(** In an orderly execution with graphs no part ends: not the scheduler, no client's
    connector, no agent of a worker and no processor. *)
Theorem C86_nobody_crashes : ∀ c acts, c_max_waiting c < 0 → orderly_graphs_run c acts → all_well (execute c acts).
Proof. exact orderly_graphs_well. Qed.
Print Assumptions C86_nobody_crashes.
(** The orderly executions without graphs (C81) are orderly in this sense. *)
Theorem C86_without_graphs : ∀ c acts, c_max_waiting c < 0 → orderly_run c acts → orderly_graphs_run c acts.
Proof. exact orderly_no_graphs. Qed.
Print Assumptions C86_without_graphs.
(** One client computes a graph while another one's task raises. *)
Example C86_example : c_max_waiting cfg < 0 ∧ orderly_graphs_run cfg graph_course ∧
  CSet (FGraph "g" 0%nat) (Value "hfxy") ∈ history_of (execute cfg graph_course) "cl" ∧ CSet (FGraph "g" 1%nat) (Value "fx") ∈ history_of (execute cfg graph_course) "cl" ∧
  CSet (FTask "u") (Error "no") ∈ history_of (execute cfg graph_course) "dl".
Proof. split; [done|]. split; [exact graph_course_orderly|]. split; [by_compute|]. split; by_compute. Qed.
Example C86_without_graphs_example : c_max_waiting cfg < 0 ∧ orderly_run cfg course.
Proof. split; [done|exact course_orderly]. Qed.

(** That no node fails cannot be left out. User code that raises in a node of a graph ends
    the scheduler when another node of the graph waits for a worker: the execution is
    orderly up to the message with the exception, and that message is the next one in turn. *)
Theorem C86_failing_node_refuted : ∃ c acts w t p,
  c_max_waiting c < 0 ∧ orderly_graphs_run c acts ∧
  let last := ToScheduler w (MTaskResult t Failed 5 p) 4 [] in
  orderly (execute c acts) last ∧ s_dead (y_sched (execute c acts)) = None ∧ s_dead (y_sched (execute c (acts ++ [last]))) = Some KeyError.
Proof.
  exists one_at_a_time, failing_begin, "w", "a", "no". split; [done|]. split; [exact failing_begin_orderly|].
  split; [exact failing_end_orderly|]. split; vm_compute; reflexivity.
Qed.
Print Assumptions C86_failing_node_refuted.
