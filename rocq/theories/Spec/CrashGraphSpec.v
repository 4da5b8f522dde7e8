(** * Executions with graphs in which workers crash

    As CrashSpec.v, but users also submit graphs, as in GraphFlowSpec.v. *)

From Verif.Model Require Import Base Message Client Worker Processor Scheduler System.
From Verif.Spec Require Import SchedulerSpec SystemSpec FlowSpec TrafficSpec GraphFlowSpec CrashSpec.

(** The executions, [dead] being the workers that have died:
    - dead workers do nothing;
    - the scheduler gives up only workers that have died, and only when it would by its
      timeout, and then nothing sent by these arrives any more;
    - everything else is as in [orderly_graphs]. *)
Definition orderly_graphs_but (dead : gset bytes) (y : system) (a : action) : Prop :=
  match a with
  | SchedulerDoes now _ EWorkers => undispatched (s_log (y_sched y)) = false ∧ ∀ w, silent (c_timeout (s_cfg (y_sched y))) now (s_log (y_sched y)) w → w ∈ dead
  | ToScheduler from _ _ _ => orderly_graphs y a ∧ (from ∈ dead → LDisconnected from ∉ s_log (y_sched y))
  | AgentDoes w _ _ | ToAgent w _ _ | ToAgentInside w _ _ | ProcessorDoes w _ _ | ToProcessor w _ _ _ => w ∉ dead ∧ orderly_graphs y a
  | _ => orderly_graphs y a
  end.
Definition crash_graphs_run (c : config) (tr : list incident) : Prop :=
  ∀ before i after, tr = before ++ i :: after →
    match i with
    | Acts a => orderly_graphs_but (died before) (state_after c before) a
    | Dies w => is_Some (y_workers (state_after c before) !! w)
    end.
(** No processor of a live worker has reported that a node failed, nor is about to. *)
Definition nodes_intact_but (dead : gset bytes) (y : system) : Prop :=
  ∀ w x, y_workers y !! w = Some x → w ∉ dead →
    (∀ t d p, POut (MTaskResult t Failed d p) ∈ n_calls x → ¬ of_graph y t) ∧
    match c_main (n_processor x) with
    | Found k => of_graph y (task_id k) → is_Some (c_functions (n_processor x) !! task_function k)
    | Calling k f => of_graph y (task_id k) → is_Some f
    | _ => True
    end.
