(** * State of the scheduler process and the monad its coroutines run in *)

From Verif.Model Require Import Base OneToManyDict Allocator Message Sorter.

(** Constructor arguments of [Scheduler] (scheduler/main.py:33-43) that matter after
    start-up.  Times are in the unit of the clock; the code uses float seconds. *)
Record config := Config {
  c_max_waiting : Z;     (* max_number_of_tasks_waiting *)
  c_queue_size : Z;      (* per_worker_queue_size *)
  c_timeout : Z;         (* worker_timeout_seconds *)
  c_retention : Z;       (* function_retention_seconds *)
  c_lb_seconds : Z;      (* load_balance_seconds *)
  c_lb_times : Z }.      (* load_balance_trigger_times *)

(** function_manager.py:20-24 [_FuncInfo]. *)
Record func_info := FuncInfo { fi_name : bytes; fi_content : bytes; fi_alive : Z }.

(** The fields of a TaskResult message (message.py:159-171). *)
Record result := Result { r_id : bytes; r_status : task_status; r_duration : Z; r_payload : bytes }.
Definition MResult (r : result) : message := MTaskResult (r_id r) (r_status r) (r_duration r) (r_payload r).

(** The fields of a GraphTask message (message.py:174-180). *)
Record graph_task := GraphTask {
  gt_id : bytes; gt_functions : list (bytes * (bytes * bytes)); gt_targets : list bytes; gt_graph : list task }.

(** graph_manager.py:34-39 [_TaskState]. *)
Inductive node_state : Type := NInactive | NRunning | NCanceled | NFailed | NSuccess.

(** graph_manager.py:42-46 [_TaskInfo]. *)
Record node_info := NodeInfo { ni_state : node_state; ni_task : task; ni_result : option bytes }.

(** graph_manager.py:49-56 [_Graph]. *)
Record graph := Graph {
  g_targets : list bytes;
  g_ids : gset bytes;
  g_sorter : sorter;
  g_nodes : gmap bytes node_info;
  g_deps : kvs bytes bytes;
  g_client : bytes }.

(** What can happen to the scheduler: a message arrives, or one of the six loops of
    main.py:131-142 makes one round. *)
Inductive event : Type :=
| ERecv (source : bytes) (m : message)   (* binder.routine, decoded message *)
| EGraph                                 (* graph_manager.routine *)
| EDispatch                              (* task_manager.routine *)
| EFunctions                             (* function_manager.routine *)
| EWorkers                               (* worker_manager.routine *)
| EStatus.                               (* status_reporter.routine *)

(** One row of the worker table in the status report (worker_manager.py:112-130). *)
Record worker_row := WorkerRow { wr_info : heartbeat; wr_free : Z; wr_sent : Z; wr_last : Z }.

(** The report (status_reporter.py:23-26) without the process's own cpu and rss and
    without the message counters of the binder. *)
Record report := Report {
  rp_clients : gmap bytes Z;
  rp_functions : gmap bytes Z;
  rp_unassigned : Z; rp_running : Z;
  rp_success : Z; rp_failed : Z; rp_canceled : Z; rp_not_found : Z;
  rp_workers : gmap bytes worker_row }.

(** The observable history, in chronological order: inputs, messages sent to peers,
    messages published to monitors, reports, and the log lines of
    worker_manager.py:93 and :176. *)
Inductive entry : Type :=
| LIn (now : Z) (e : event)
| LSend (to : bytes) (m : message)
| LMonitor (m : message)
| LReport (r : report)
| LConnected (w : bytes)
| LDisconnected (w : bytes)
| LCrash (e : exn).

(** ** The state.
    [s_unassigned] is the IndexedQueue of task_manager.py:38, oldest first; that a
    list is a faithful picture of it is theorem C01 (task ids are assumed not to
    collide under Python's hash).
    [s_limbo] is the task whose [assign_task] is suspended waiting for a worker
    (queued.py:58): it has left the queue and is not assigned yet.
    [s_codes] supplies the iteration orders of sets and dictionaries, one per
    iteration. *)
Record sched := Sched {
  s_cfg : config;
  s_now : Z;
  s_codes : list (list nat);
  s_log : list entry;
  s_dead : option exn;
  s_funcs : gmap bytes func_info;
  s_ftasks : otm bytes bytes;
  s_clients : otm bytes bytes;
  s_tasks : gmap bytes task;
  s_unassigned : list bytes;
  s_running : gset bytes;
  s_nsuccess : Z;
  s_nfailed : Z;
  s_ncanceled : Z;
  s_nnotfound : Z;
  s_limbo : option task;
  s_alive : gmap bytes (Z * heartbeat);
  s_alloc : alloc;
  s_last_advice : option (gmap bytes Z);
  s_same : Z;
  s_gqueue : list (bytes * graph_task);
  s_graphs : gmap bytes graph;
  s_t2g : gmap bytes bytes }.

Definition set_now (f : Z → Z) (s : sched) : sched :=
  Sched (s_cfg s) (f (s_now s)) (s_codes s) (s_log s) (s_dead s) (s_funcs s) (s_ftasks s) (s_clients s)
    (s_tasks s) (s_unassigned s) (s_running s) (s_nsuccess s) (s_nfailed s) (s_ncanceled s) (s_nnotfound s) (s_limbo s)
    (s_alive s) (s_alloc s) (s_last_advice s) (s_same s) (s_gqueue s) (s_graphs s) (s_t2g s).
Definition set_codes (f : list (list nat) → list (list nat)) (s : sched) : sched :=
  Sched (s_cfg s) (s_now s) (f (s_codes s)) (s_log s) (s_dead s) (s_funcs s) (s_ftasks s) (s_clients s)
    (s_tasks s) (s_unassigned s) (s_running s) (s_nsuccess s) (s_nfailed s) (s_ncanceled s) (s_nnotfound s) (s_limbo s)
    (s_alive s) (s_alloc s) (s_last_advice s) (s_same s) (s_gqueue s) (s_graphs s) (s_t2g s).
Definition set_log (f : list entry → list entry) (s : sched) : sched :=
  Sched (s_cfg s) (s_now s) (s_codes s) (f (s_log s)) (s_dead s) (s_funcs s) (s_ftasks s) (s_clients s)
    (s_tasks s) (s_unassigned s) (s_running s) (s_nsuccess s) (s_nfailed s) (s_ncanceled s) (s_nnotfound s) (s_limbo s)
    (s_alive s) (s_alloc s) (s_last_advice s) (s_same s) (s_gqueue s) (s_graphs s) (s_t2g s).
Definition set_dead (f : option exn → option exn) (s : sched) : sched :=
  Sched (s_cfg s) (s_now s) (s_codes s) (s_log s) (f (s_dead s)) (s_funcs s) (s_ftasks s) (s_clients s)
    (s_tasks s) (s_unassigned s) (s_running s) (s_nsuccess s) (s_nfailed s) (s_ncanceled s) (s_nnotfound s) (s_limbo s)
    (s_alive s) (s_alloc s) (s_last_advice s) (s_same s) (s_gqueue s) (s_graphs s) (s_t2g s).
Definition set_funcs (f : gmap bytes func_info → gmap bytes func_info) (s : sched) : sched :=
  Sched (s_cfg s) (s_now s) (s_codes s) (s_log s) (s_dead s) (f (s_funcs s)) (s_ftasks s) (s_clients s)
    (s_tasks s) (s_unassigned s) (s_running s) (s_nsuccess s) (s_nfailed s) (s_ncanceled s) (s_nnotfound s) (s_limbo s)
    (s_alive s) (s_alloc s) (s_last_advice s) (s_same s) (s_gqueue s) (s_graphs s) (s_t2g s).
Definition set_ftasks (f : otm bytes bytes → otm bytes bytes) (s : sched) : sched :=
  Sched (s_cfg s) (s_now s) (s_codes s) (s_log s) (s_dead s) (s_funcs s) (f (s_ftasks s)) (s_clients s)
    (s_tasks s) (s_unassigned s) (s_running s) (s_nsuccess s) (s_nfailed s) (s_ncanceled s) (s_nnotfound s) (s_limbo s)
    (s_alive s) (s_alloc s) (s_last_advice s) (s_same s) (s_gqueue s) (s_graphs s) (s_t2g s).
Definition set_clients (f : otm bytes bytes → otm bytes bytes) (s : sched) : sched :=
  Sched (s_cfg s) (s_now s) (s_codes s) (s_log s) (s_dead s) (s_funcs s) (s_ftasks s) (f (s_clients s))
    (s_tasks s) (s_unassigned s) (s_running s) (s_nsuccess s) (s_nfailed s) (s_ncanceled s) (s_nnotfound s) (s_limbo s)
    (s_alive s) (s_alloc s) (s_last_advice s) (s_same s) (s_gqueue s) (s_graphs s) (s_t2g s).
Definition set_tasks (f : gmap bytes task → gmap bytes task) (s : sched) : sched :=
  Sched (s_cfg s) (s_now s) (s_codes s) (s_log s) (s_dead s) (s_funcs s) (s_ftasks s) (s_clients s) (f
    (s_tasks s)) (s_unassigned s) (s_running s) (s_nsuccess s) (s_nfailed s) (s_ncanceled s) (s_nnotfound s) (s_limbo s)
    (s_alive s) (s_alloc s) (s_last_advice s) (s_same s) (s_gqueue s) (s_graphs s) (s_t2g s).
Definition set_unassigned (f : list bytes → list bytes) (s : sched) : sched :=
  Sched (s_cfg s) (s_now s) (s_codes s) (s_log s) (s_dead s) (s_funcs s) (s_ftasks s) (s_clients s)
    (s_tasks s) (f (s_unassigned s)) (s_running s) (s_nsuccess s) (s_nfailed s) (s_ncanceled s) (s_nnotfound s) (s_limbo s)
    (s_alive s) (s_alloc s) (s_last_advice s) (s_same s) (s_gqueue s) (s_graphs s) (s_t2g s).
Definition set_running (f : gset bytes → gset bytes) (s : sched) : sched :=
  Sched (s_cfg s) (s_now s) (s_codes s) (s_log s) (s_dead s) (s_funcs s) (s_ftasks s) (s_clients s)
    (s_tasks s) (s_unassigned s) (f (s_running s)) (s_nsuccess s) (s_nfailed s) (s_ncanceled s) (s_nnotfound s) (s_limbo s)
    (s_alive s) (s_alloc s) (s_last_advice s) (s_same s) (s_gqueue s) (s_graphs s) (s_t2g s).
Definition set_nsuccess (f : Z → Z) (s : sched) : sched :=
  Sched (s_cfg s) (s_now s) (s_codes s) (s_log s) (s_dead s) (s_funcs s) (s_ftasks s) (s_clients s)
    (s_tasks s) (s_unassigned s) (s_running s) (f (s_nsuccess s)) (s_nfailed s) (s_ncanceled s) (s_nnotfound s) (s_limbo s)
    (s_alive s) (s_alloc s) (s_last_advice s) (s_same s) (s_gqueue s) (s_graphs s) (s_t2g s).
Definition set_nfailed (f : Z → Z) (s : sched) : sched :=
  Sched (s_cfg s) (s_now s) (s_codes s) (s_log s) (s_dead s) (s_funcs s) (s_ftasks s) (s_clients s)
    (s_tasks s) (s_unassigned s) (s_running s) (s_nsuccess s) (f (s_nfailed s)) (s_ncanceled s) (s_nnotfound s) (s_limbo s)
    (s_alive s) (s_alloc s) (s_last_advice s) (s_same s) (s_gqueue s) (s_graphs s) (s_t2g s).
Definition set_ncanceled (f : Z → Z) (s : sched) : sched :=
  Sched (s_cfg s) (s_now s) (s_codes s) (s_log s) (s_dead s) (s_funcs s) (s_ftasks s) (s_clients s)
    (s_tasks s) (s_unassigned s) (s_running s) (s_nsuccess s) (s_nfailed s) (f (s_ncanceled s)) (s_nnotfound s) (s_limbo s)
    (s_alive s) (s_alloc s) (s_last_advice s) (s_same s) (s_gqueue s) (s_graphs s) (s_t2g s).
Definition set_nnotfound (f : Z → Z) (s : sched) : sched :=
  Sched (s_cfg s) (s_now s) (s_codes s) (s_log s) (s_dead s) (s_funcs s) (s_ftasks s) (s_clients s)
    (s_tasks s) (s_unassigned s) (s_running s) (s_nsuccess s) (s_nfailed s) (s_ncanceled s) (f (s_nnotfound s)) (s_limbo s)
    (s_alive s) (s_alloc s) (s_last_advice s) (s_same s) (s_gqueue s) (s_graphs s) (s_t2g s).
Definition set_limbo (f : option task → option task) (s : sched) : sched :=
  Sched (s_cfg s) (s_now s) (s_codes s) (s_log s) (s_dead s) (s_funcs s) (s_ftasks s) (s_clients s)
    (s_tasks s) (s_unassigned s) (s_running s) (s_nsuccess s) (s_nfailed s) (s_ncanceled s) (s_nnotfound s) (f (s_limbo s))
    (s_alive s) (s_alloc s) (s_last_advice s) (s_same s) (s_gqueue s) (s_graphs s) (s_t2g s).
Definition set_alive (f : gmap bytes (Z * heartbeat) → gmap bytes (Z * heartbeat)) (s : sched) : sched :=
  Sched (s_cfg s) (s_now s) (s_codes s) (s_log s) (s_dead s) (s_funcs s) (s_ftasks s) (s_clients s)
    (s_tasks s) (s_unassigned s) (s_running s) (s_nsuccess s) (s_nfailed s) (s_ncanceled s) (s_nnotfound s) (s_limbo s) (f
    (s_alive s)) (s_alloc s) (s_last_advice s) (s_same s) (s_gqueue s) (s_graphs s) (s_t2g s).
Definition set_alloc (f : alloc → alloc) (s : sched) : sched :=
  Sched (s_cfg s) (s_now s) (s_codes s) (s_log s) (s_dead s) (s_funcs s) (s_ftasks s) (s_clients s)
    (s_tasks s) (s_unassigned s) (s_running s) (s_nsuccess s) (s_nfailed s) (s_ncanceled s) (s_nnotfound s) (s_limbo s)
    (s_alive s) (f (s_alloc s)) (s_last_advice s) (s_same s) (s_gqueue s) (s_graphs s) (s_t2g s).
Definition set_last_advice (f : option (gmap bytes Z) → option (gmap bytes Z)) (s : sched) : sched :=
  Sched (s_cfg s) (s_now s) (s_codes s) (s_log s) (s_dead s) (s_funcs s) (s_ftasks s) (s_clients s)
    (s_tasks s) (s_unassigned s) (s_running s) (s_nsuccess s) (s_nfailed s) (s_ncanceled s) (s_nnotfound s) (s_limbo s)
    (s_alive s) (s_alloc s) (f (s_last_advice s)) (s_same s) (s_gqueue s) (s_graphs s) (s_t2g s).
Definition set_same (f : Z → Z) (s : sched) : sched :=
  Sched (s_cfg s) (s_now s) (s_codes s) (s_log s) (s_dead s) (s_funcs s) (s_ftasks s) (s_clients s)
    (s_tasks s) (s_unassigned s) (s_running s) (s_nsuccess s) (s_nfailed s) (s_ncanceled s) (s_nnotfound s) (s_limbo s)
    (s_alive s) (s_alloc s) (s_last_advice s) (f (s_same s)) (s_gqueue s) (s_graphs s) (s_t2g s).
Definition set_gqueue (f : list (bytes * graph_task) → list (bytes * graph_task)) (s : sched) : sched :=
  Sched (s_cfg s) (s_now s) (s_codes s) (s_log s) (s_dead s) (s_funcs s) (s_ftasks s) (s_clients s)
    (s_tasks s) (s_unassigned s) (s_running s) (s_nsuccess s) (s_nfailed s) (s_ncanceled s) (s_nnotfound s) (s_limbo s)
    (s_alive s) (s_alloc s) (s_last_advice s) (s_same s) (f (s_gqueue s)) (s_graphs s) (s_t2g s).
Definition set_graphs (f : gmap bytes graph → gmap bytes graph) (s : sched) : sched :=
  Sched (s_cfg s) (s_now s) (s_codes s) (s_log s) (s_dead s) (s_funcs s) (s_ftasks s) (s_clients s)
    (s_tasks s) (s_unassigned s) (s_running s) (s_nsuccess s) (s_nfailed s) (s_ncanceled s) (s_nnotfound s) (s_limbo s)
    (s_alive s) (s_alloc s) (s_last_advice s) (s_same s) (s_gqueue s) (f (s_graphs s)) (s_t2g s).
Definition set_t2g (f : gmap bytes bytes → gmap bytes bytes) (s : sched) : sched :=
  Sched (s_cfg s) (s_now s) (s_codes s) (s_log s) (s_dead s) (s_funcs s) (s_ftasks s) (s_clients s)
    (s_tasks s) (s_unassigned s) (s_running s) (s_nsuccess s) (s_nfailed s) (s_ncanceled s) (s_nnotfound s) (s_limbo s)
    (s_alive s) (s_alloc s) (s_last_advice s) (s_same s) (s_gqueue s) (s_graphs s) (f (s_t2g s)).

Ltac ss := cbn [s_cfg s_now s_codes s_log s_dead s_funcs s_ftasks s_clients s_tasks s_unassigned s_running s_nsuccess s_nfailed s_ncanceled s_nnotfound s_limbo s_alive s_alloc s_last_advice s_same s_gqueue s_graphs s_t2g set_now set_codes set_log set_dead set_funcs set_ftasks set_clients set_tasks set_unassigned set_running set_nsuccess set_nfailed set_ncanceled set_nnotfound set_limbo set_alive set_alloc set_last_advice set_same set_gqueue set_graphs set_t2g] in *.

(** ** The monad: the state (and the history) survives an exception. *)
Definition M (A : Type) : Type := sched → sched * res A.
Definition ret {A} (a : A) : M A := λ s, (s, Ok a).
Definition bind {A B} (m : M A) (k : A → M B) : M B :=
  λ s, match m s with (s', Ok a) => k a s' | (s', Raise e) => (s', Raise e) end.
Definition throw {A} (e : exn) : M A := λ s, (s, Raise e).
Definition gets {A} (f : sched → A) : M A := λ s, (s, Ok (f s)).
Definition modify (f : sched → sched) : M unit := λ s, (f s, Ok tt).
Definition lift {A} (r : res A) : M A := λ s, (s, r).
Definition emit (e : entry) : M unit := modify (set_log (λ l, l ++ [e])).

Declare Scope sched_scope.
Delimit Scope sched_scope with S.
Notation "'let*' x := m 'in' k" := (bind m (λ x, k)) (at level 200, x pattern, right associativity) : sched_scope.
Notation "'do*' m 'in' k" := (bind m (λ _, k)) (at level 200, right associativity) : sched_scope.
#[global] Open Scope sched_scope.

Fixpoint foreach {A} (l : list A) (f : A → M unit) : M unit :=
  match l with
  | [] => ret tt
  | a :: l => do* f a in foreach l f
  end.

Definition when (b : bool) (m : M unit) : M unit := if b then m else ret tt.

(** The elements of a set or dictionary in the next iteration order. *)
Definition in_some_order {A} (l : list A) : M (list A) :=
  let* codes := gets s_codes in
  do* modify (set_codes (drop 1)) in
  ret (shuffle (default [] (head codes)) l).

(** AsyncBinder.send and AsyncConnector.send of the monitor socket; encoding cannot
    fail for these messages unless a count exceeds 2^32-1 (C17), which is not modelled. *)
Definition send (to : bytes) (m : message) : M unit := emit (LSend to m).
Definition send_monitor (m : message) : M unit := emit (LMonitor m).

