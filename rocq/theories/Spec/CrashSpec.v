(** * Executions in which workers crash

    The executions of FlowSpec.v, except that workers may die at any moment. *)

From Verif.Model Require Import Base Message Client Worker Processor Scheduler System.
From Verif.Spec Require Import SchedulerSpec SystemSpec FlowSpec.

(** A worker is killed: from then on it takes no step and receives nothing. What it has
    sent may still arrive, in order, or be lost from some point on. *)
Inductive incident := Acts (a : action) | Dies (w : bytes).
Definition actions (tr : list incident) : list action := omap (λ i, match i with Acts a => Some a | Dies _ => None end) tr.
Definition died (tr : list incident) : gset bytes := list_to_set (omap (λ i, match i with Acts _ => None | Dies w => Some w end) tr).
Definition state_after (c : config) (tr : list incident) : system := execute c (actions tr).

(** The executions, [dead] being the workers that have died:
    - dead workers do nothing;
    - the scheduler gives up only workers that have died, and only when it would by its
      timeout, and then nothing sent by these arrives any more;
    - everything else is as in [orderly]. *)
Definition orderly_but (dead : gset bytes) (y : system) (a : action) : Prop :=
  match a with
  | SchedulerDoes now _ EWorkers => undispatched (s_log (y_sched y)) = false ∧ ∀ w, silent (c_timeout (s_cfg (y_sched y))) now (s_log (y_sched y)) w → w ∈ dead
  | ToScheduler from _ _ _ => orderly y a ∧ (from ∈ dead → LDisconnected from ∉ s_log (y_sched y))
  | AgentDoes w _ _ | ToAgent w _ _ | ToAgentInside w _ _ | ProcessorDoes w _ _ | ToProcessor w _ _ _ => w ∉ dead ∧ orderly y a
  | _ => orderly y a
  end.
Definition crash_run (c : config) (tr : list incident) : Prop :=
  ∀ before i after, tr = before ++ i :: after →
    match i with
    | Acts a => orderly_but (died before) (state_after c before) a
    | Dies w => is_Some (y_workers (state_after c before) !! w)
    end.

(** Nobody else has crashed. *)
Definition well_but (dead : gset bytes) (y : system) : Prop :=
  s_dead (y_sched y) = None ∧
  (∀ c x, y_clients y !! c = Some x → k_up x.1 = true ∧ ∀ e, CCrash e ∉ x.2) ∧
  (∀ w x, y_workers y !! w = Some x → w ∉ dead → a_dead (n_agent x) = None ∧ c_main (n_processor x) ≠ Stopped).
