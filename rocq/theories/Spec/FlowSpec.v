(** * Orderly executions of the whole system

    Executions of Model/System.v in which the network does what TCP and ZeroMQ promise,
    users only submit tasks, and nothing is killed, times out or is thrown away. *)

From Verif.Model Require Import Base Message Client Worker Processor Scheduler System.
From Verif.Spec Require Import SchedulerSpec SystemSpec.

(** ** What each part has sent and received, oldest first *)
Definition sent_to (i : bytes) (h : list entry) : list message :=
  omap (λ e, match e with LSend j m => if String.eqb j i then Some m else None | _ => None end) h.
Definition heard_from (i : bytes) (h : list entry) : list message :=
  omap (λ e, match e with LIn _ (ERecv j m) => if String.eqb j i then Some m else None | _ => None end) h.
Definition client_sent (h : list kentry) : list message := omap (λ e, match e with COut m => Some m | _ => None end) h.
Definition client_heard (h : list kentry) : list message := omap (λ e, match e with CIn (KRecv m _) => Some m | _ => None end) h.
Definition agent_sent (h : list wentry) : list message := omap (λ e, match e with WOut m => Some m | _ => None end) h.
Definition agent_heard (h : list wentry) : list message := omap (λ e, match e with WIn _ (WExt m) => Some m | _ => None end) h.
Definition agent_handed (h : list wentry) : list message := omap (λ e, match e with WHand m => Some m | _ => None end) h.
Definition agent_told (h : list wentry) : list message := omap (λ e, match e with WIn _ (WProc m) => Some m | _ => None end) h.
Definition processor_sent (h : list pentry) : list message := omap (λ e, match e with POut m => Some m | _ => None end) h.
Definition processor_heard (h : list pentry) : list message := omap (λ e, match e with PIn m => Some m | _ => None end) h.

(** ** Messages on their way: sent and not yet received *)
Definition on_the_way (sent heard : list message) : list message := drop (length heard) sent.
Definition sent_by_part (y : system) (i : bytes) : list message :=
  match y_clients y !! i, y_workers y !! i with
  | Some x, _ => client_sent x.2
  | None, Some x => agent_sent (n_history x)
  | None, None => []
  end.
Definition to_scheduler (y : system) (i : bytes) : list message := on_the_way (sent_by_part y i) (heard_from i (s_log (y_sched y))).
Definition to_client (y : system) (c : bytes) : list message := on_the_way (sent_to c (s_log (y_sched y))) (client_heard (history_of y c)).
Definition to_agent (y : system) (w : bytes) (x : worker) : list message := on_the_way (sent_to w (s_log (y_sched y))) (agent_heard (n_history x)).
Definition to_processor (x : worker) : list message := on_the_way (agent_handed (n_history x)) (processor_heard (n_calls x)).
Definition from_processor (x : worker) : list message := on_the_way (processor_sent (n_calls x)) (agent_told (n_history x)).

(** [m] is the oldest message on its way. *)
Definition next (q : list message) (m : message) : Prop := head q = Some m.

(** ** The executions
    - every message is delivered once, in the order of sending (the sockets);
    - names of functions and identities are text, and the ids of tasks are new;
    - users submit tasks and do nothing else: no graphs, no cancels, no disconnecting;
    - payloads can be deserialized, and user code does not kill its process;
    - the client gets no message while a call of submit is in progress (C52: it can miss
      the answer), and the scheduler no message between accepting a task and its next
      round of dispatching (C36);
    - no worker is silent for longer than the timeout, no agent waits too long. *)
Definition orderly (y : system) (a : action) : Prop :=
  match a with
  | NewClient c => utf8 c = true
  | NewWorker w _ _ _ => utf8 w = true
  | UserDoes c (KSubmit t f name _ _) => utf8 name = true ∧ ∀ c' f' name' content' args', ¬ CIn (KSubmit t f' name' content' args') ∈ history_of y c'
  | UserDoes c (KStep t) => True
  | UserDoes c _ => False
  | ToClient c m loads => next (to_client y c) m ∧ loads = true ∧ ∀ x, y_clients y !! c = Some x → k_flight x.1 = ∅
  | SchedulerDoes now _ EWorkers => undispatched (s_log (y_sched y)) = false ∧ ∀ w, ¬ silent (c_timeout (s_cfg (y_sched y))) now (s_log (y_sched y)) w
  | SchedulerDoes _ _ _ => True
  | ToScheduler from m _ _ => next (to_scheduler y from) m ∧ undispatched (s_log (y_sched y)) = false
  | AgentDoes w now WTimeout => ∀ x, y_workers y !! w = Some x → now - a_seen (n_agent x) < a_death (n_agent x)
  | AgentDoes w _ _ => True
  | ToAgent w m _ => ∀ x, y_workers y !! w = Some x → next (to_agent y w x) m
  | ToAgentInside w m _ => ∀ x, y_workers y !! w = Some x → next (from_processor x) m
  | ProcessorDoes w _ (PRun o _) => o ≠ Ended
  | ProcessorDoes _ _ _ => True
  | ToProcessor w m loads _ => loads = true ∧ ∀ x, y_workers y !! w = Some x → next (to_processor x) m
  end.
Definition orderly_run (c : config) (acts : list action) : Prop :=
  ∀ before a after, acts = before ++ a :: after → orderly (execute c before) a.

(** Actions that bring no new work and no new parts. *)
Definition no_news (a : action) : Prop :=
  match a with NewClient _ | NewWorker _ _ _ _ | UserDoes _ (KSubmit _ _ _ _ _) | UserDoes _ (KGraph _ _) => False | _ => True end.

(** Calls of user code end as [verdict] says. *)
Definition as_decided (verdict : task → outcome) (y : system) (a : action) : Prop :=
  match a with
  | ProcessorDoes w _ (PRun o _) => ∀ x k f, y_workers y !! w = Some x → c_main (n_processor x) = Calling k (Some f) → o = verdict k
  | _ => True
  end.

(** Everything that was submitted has its value. *)
Definition all_resolved (y : system) : Prop :=
  ∀ c t f name content args, CIn (KSubmit t f name content args) ∈ history_of y c → ∃ v, CSet (FTask t) v ∈ history_of y c.
(** Nobody has crashed. *)
Definition all_well (y : system) : Prop :=
  s_dead (y_sched y) = None ∧
  (∀ c x, y_clients y !! c = Some x → k_up x.1 = true ∧ ∀ e, CCrash e ∉ x.2) ∧
  (∀ w x, y_workers y !! w = Some x → a_dead (n_agent x) = None ∧ c_main (n_processor x) ≠ Stopped).
