(** * The whole system: clients, scheduler, workers and their processors

    The parts of Model/Client.v, Model/Scheduler.v, Model/Worker.v and Model/Processor.v,
    connected by a network.  A step is a step of one part, or the delivery of one
    message; steps come in any order.
    The network may deliver any message that was sent to a part, at any time, in any
    order, any number of times or never.  The ZeroMQ sockets of scaled/io do better
    (in order and at most once): what holds for all executions here holds for theirs.
    SIMPLIFICATION: messages travel as such; that encoding and decoding give back the
    same message is theorem C14. *)

From Verif.Model Require Import Base Message Client Worker Processor Scheduler.

#[global] Instance outcome_eq_dec : EqDecision outcome. Proof. solve_decision. Defined.
#[global] Instance kevent_eq_dec : EqDecision kevent. Proof. solve_decision. Defined.
#[global] Instance fvalue_eq_dec : EqDecision fvalue. Proof. solve_decision. Defined.
#[global] Instance kentry_eq_dec : EqDecision kentry. Proof. solve_decision. Defined.
#[global] Instance wevent_eq_dec : EqDecision wevent. Proof. solve_decision. Defined.
#[global] Instance wentry_eq_dec : EqDecision wentry. Proof. solve_decision. Defined.
#[global] Instance pentry_eq_dec : EqDecision pentry. Proof. solve_decision. Defined.

(** A worker: the agent with its history, and the current processor with the history of
    all processors the agent has started (worker.py:68-106, processor_manager.py:135-168).
    When an agent ends, its processor goes on. *)
Record worker := Node {
  n_agent : agent;
  n_history : list wentry;
  n_processor : processor;
  n_calls : list pentry;
  n_retention : Z }.

(** Clients and workers by the identity of their socket (async_connector.py:35,
    sync_connector.py:41). *)
Record system := System {
  y_sched : sched;
  y_clients : gmap bytes (client * list kentry);
  y_workers : gmap bytes worker }.

Inductive action : Type :=
| NewClient (c : bytes)
| NewWorker (w : bytes) (death now retention : Z)
| UserDoes (c : bytes) (e : kevent)                                  (* a user thread of a client *)
| ToClient (c : bytes) (m : message) (loads : bool)
| SchedulerDoes (now : Z) (codes : list (list nat)) (e : event)      (* a loop of the scheduler *)
| ToScheduler (from : bytes) (m : message) (now : Z) (codes : list (list nat))
| AgentDoes (w : bytes) (now : Z) (e : wevent)                       (* a loop of an agent *)
| ToAgent (w : bytes) (m : message) (now : Z)                        (* from the scheduler *)
| ToAgentInside (w : bytes) (m : message) (now : Z)                  (* from the processor *)
| ProcessorDoes (w : bytes) (now : Z) (e : pevent)
| ToProcessor (w : bytes) (m : message) (loads : bool) (now : Z).

Definition set_sched (s : sched) (y : system) : system := System s (y_clients y) (y_workers y).
Definition set_client (c : bytes) (x : client * list kentry) (y : system) : system :=
  System (y_sched y) (<[c := x]> (y_clients y)) (y_workers y).
Definition set_worker (w : bytes) (x : worker) (y : system) : system :=
  System (y_sched y) (y_clients y) (<[w := x]> (y_workers y)).

(** A step of an agent; processor_manager.py:139-168: a restart kills the old processor
    and starts a new one. *)
Definition agent_step (now : Z) (e : wevent) (x : worker) : worker :=
  let '(a, h) := w_step (n_agent x, n_history x) (WRound now e) in
  if bool_decide (WStart ∈ drop (length (n_history x)) h)
  then let '(p, out) := p_init (n_retention x) in Node a h p (n_calls x ++ out) (n_retention x)
  else Node a h (n_processor x) (n_calls x) (n_retention x).
Definition processor_step (now : Z) (e : pevent) (x : worker) : worker :=
  let '(p, h) := p_step (n_processor x, n_calls x) (PRound now e) in
  Node (n_agent x) (n_history x) p h (n_retention x).

(** Was [m] sent to the scheduler by [from]? *)
Definition sent_by (y : system) (from : bytes) (m : message) : bool :=
  match y_clients y !! from with Some x => bool_decide (COut m ∈ x.2) | None => false end
  || match y_workers y !! from with Some x => bool_decide (WOut m ∈ n_history x) | None => false end.

Definition unused (y : system) (i : bytes) : bool :=
  match y_clients y !! i with None => true | Some _ => false end && match y_workers y !! i with None => true | Some _ => false end.

(** An action that is not possible changes nothing. *)
Definition act (y : system) (a : action) : system :=
  match a with
  | NewClient c => if unused y c then set_client c (k_init, []) y else y
  | NewWorker w death now retention =>
      if unused y w then
        let '(g, h) := w_init w death now in let '(p, out) := p_init retention in
        set_worker w (Node g h p out retention) y
      else y
  | UserDoes c e =>
      match y_clients y !! c, e with
      | Some _, KRecv _ _ => y
      | Some x, _ => set_client c (k_step x e) y
      | None, _ => y
      end
  | ToClient c m loads =>
      match y_clients y !! c with
      | Some x => if bool_decide (LSend c m ∈ s_log (y_sched y)) then set_client c (k_step x (KRecv m loads)) y else y
      | None => y
      end
  | SchedulerDoes now codes e =>
      match e with
      | ERecv _ _ => y
      | _ => set_sched (step (y_sched y) (Round now codes e)) y
      end
  | ToScheduler from m now codes =>
      if sent_by y from m then set_sched (step (y_sched y) (Round now codes (ERecv from m))) y else y
  | AgentDoes w now e =>
      match y_workers y !! w, e with
      | Some _, (WExt _ | WProc _) => y
      | Some x, _ => set_worker w (agent_step now e x) y
      | None, _ => y
      end
  | ToAgent w m now =>
      match y_workers y !! w with
      | Some x => if bool_decide (LSend w m ∈ s_log (y_sched y)) then set_worker w (agent_step now (WExt m) x) y else y
      | None => y
      end
  | ToAgentInside w m now =>
      match y_workers y !! w with
      | Some x => if bool_decide (POut m ∈ n_calls x) then set_worker w (agent_step now (WProc m) x) y else y
      | None => y
      end
  | ProcessorDoes w now e =>
      match y_workers y !! w, e with
      | Some _, PMsg _ _ => y
      | Some x, _ => set_worker w (processor_step now e x) y
      | None, _ => y
      end
  | ToProcessor w m loads now =>
      match y_workers y !! w with
      | Some x => if bool_decide (WHand m ∈ n_history x) then set_worker w (processor_step now (PMsg m loads) x) y else y
      | None => y
      end
  end.

Definition boot (c : config) : system := System (start c) ∅ ∅.
Definition execute (c : config) (acts : list action) : system := foldl act (boot c) acts.
