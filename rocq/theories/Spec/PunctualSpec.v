(** * Executions in which everybody is punctual

    Times are those of one clock that only runs forward. (The code compares only times
    read on the same machine, so clocks that differ by a constant do as well.) *)

From Verif.Model Require Import Base Message Client Worker Processor Scheduler System.
From Verif.Spec Require Import SchedulerSpec SystemSpec FlowSpec TrafficSpec GraphFlowSpec.

(** When an action happens. The actions of clients read no clock. *)
Definition moment (a : action) : option Z :=
  match a with
  | NewWorker _ _ now _ | SchedulerDoes now _ _ | ToScheduler _ _ now _ | AgentDoes _ now _ | ToAgent _ _ now | ToAgentInside _ _ now
  | ProcessorDoes _ now _ | ToProcessor _ _ _ now => Some now
  | NewClient _ | UserDoes _ _ | ToClient _ _ _ => None
  end.
Definition one_clock (acts : list action) : Prop :=
  ∀ before a after now, acts = before ++ a :: after → moment a = Some now → 0 < now ∧ ∀ t, t ∈ omap moment before → t <= now.

(** The times at which worker [w] started, or ran its heartbeat loop. *)
Definition rounds (w : bytes) (acts : list action) : list Z :=
  take 1 (omap (λ a, match a with NewWorker v _ now _ => if String.eqb v w then Some now else None | _ => None end) acts) ++
  omap (λ a, match a with AgentDoes v now (WHeartbeat _ _ _ _) => if String.eqb v w then Some now else None | _ => None end) acts.

(** When an agent last sent a heartbeat. *)
Definition beat_step (s : Z * option Z) (e : wentry) : Z * option Z :=
  match e with
  | WIn now _ => (now, s.2)
  | WOut (MHeartbeat _) => (s.1, Some s.1)
  | _ => s
  end.
Definition beat_sent_at (h : list wentry) : option Z := (foldl beat_step (0, None) h).2.

(** Nobody is late: at every moment every worker has run its heartbeat loop in the last [h]
    seconds (or was not started before), a heartbeat under way was sent in the last [d]
    seconds, and of an answer under way the heartbeat came in the last [d] seconds. *)
Definition punctual (d h : Z) (before : list action) (y : system) (a : action) : Prop :=
  ∀ now w x, moment a = Some now → y_workers y !! w = Some x →
    (∃ t, t ∈ rounds w before ∧ now - t <= h) ∧
    (∀ b t, MHeartbeat b ∈ to_scheduler y w → beat_sent_at (n_history x) = Some t → now - t <= d) ∧
    (∀ b t, MHeartbeatEcho ∈ to_agent y w x → last_beat w (s_log (y_sched y)) = Some (t, b) → now - t <= d).
Definition punctual_run (d h : Z) (c : config) (acts : list action) : Prop :=
  ∀ before a after, acts = before ++ a :: after → punctual d h before (execute c before) a.

(** Orderly in everything but silence: nothing is said about how long nobody has heard from
    a worker or from the scheduler. *)
Definition calm_action (y : system) (a : action) : Prop :=
  match a with
  | SchedulerDoes _ _ EWorkers => undispatched (s_log (y_sched y)) = false
  | AgentDoes _ _ WTimeout => True
  | _ => orderly y a
  end.
Definition calm_run (c : config) (acts : list action) : Prop :=
  ∀ before a after, acts = before ++ a :: after → calm_action (execute c before) a.
(** Every worker waits for the scheduler for longer than [n] seconds. *)
Definition patient (n : Z) (acts : list action) : Prop := ∀ w death now retention, NewWorker w death now retention ∈ acts → n < death.

(** The same with graphs. *)
Definition calm_graphs (y : system) (a : action) : Prop :=
  match a with
  | SchedulerDoes _ _ EWorkers => undispatched (s_log (y_sched y)) = false
  | AgentDoes _ _ WTimeout => True
  | _ => orderly_graphs y a
  end.
Definition calm_graphs_run (c : config) (acts : list action) : Prop :=
  ∀ before a after, acts = before ++ a :: after → calm_graphs (execute c before) a.
