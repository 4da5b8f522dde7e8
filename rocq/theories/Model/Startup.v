(** * Starting schedulers and clusters: options, addresses, signals
    (scaled/io/config.py, scaled/entry_points, scaled/cluster, scaled/scheduler/main.py,
    scaled/utility/event_loop.py) *)

From Verif.Model Require Import Base ZMQConfig SchedulerState.
From Coq Require Import Ascii.

(** ** Defaults (io/config.py:14-62) *)
Definition DEFAULT_IO_THREADS : Z := 1.
Definition DEFAULT_MAX_NUMBER_OF_TASKS_WAITING : Z := -1.
Definition DEFAULT_WORKER_TIMEOUT_SECONDS : Z := 60.
Definition DEFAULT_LOAD_BALANCE_SECONDS : Z := 1.
Definition DEFAULT_LOAD_BALANCE_TRIGGER_TIMES : Z := 2.
Definition DEFAULT_PER_WORKER_QUEUE_SIZE : Z := 1000.
Definition DEFAULT_FUNCTION_RETENTION_SECONDS : Z := 20.
(** io/config.py:46; [cpus] is [os.cpu_count()], where that is known. *)
Definition DEFAULT_NUMBER_OF_WORKER (cpus : Z) : Z := cpus - 1.
Definition DEFAULT_HEARTBEAT_INTERVAL_SECONDS : Z := 2.
Definition DEFAULT_DEATH_TIMEOUT_SECONDS : Z := 10.
Definition DEFAULT_GARBAGE_COLLECT_INTERVAL_SECONDS : Z := 30.
Definition DEFAULT_TRIM_MEMORY_THRESHOLD_BYTES : Z := 1024 * 1024 * 1024.
Definition DEFAULT_WORKER_FUNCTION_RETENTION_SECONDS : Z := 20.

(** event_loop.py:9-15. *)
Definition allowed_loops : list string := ["builtin"; "uvloop"].
(** event_loop.py:18-31 [register_event_loop]; [has_uvloop]: whether uvloop can be
    imported. *)
Definition register_event_loop (has_uvloop : bool) (name : string) : res unit :=
  if negb (existsb (String.eqb name) allowed_loops) then Raise TypeError
  else if String.eqb name "uvloop" && negb has_uvloop then Raise ImportError
  else Ok tt.

(** ** The scheduler (scheduler/main.py:33-68, cluster/scheduler.py) *)

(** Keyword arguments of SchedulerProcess and scheduler_main. *)
Record scheduler_args := SchedulerArgs {
  sa_address : zmq_config;
  sa_io_threads : Z;
  sa_max_number_of_tasks_waiting : Z;
  sa_per_worker_queue_size : Z;
  sa_worker_timeout_seconds : Z;
  sa_function_retention_seconds : Z;
  sa_load_balance_seconds : Z;
  sa_load_balance_trigger_times : Z;
  sa_event_loop : string }.

(** A scheduler that runs: where it listens, where it publishes, the number of zmq
    threads, the settings of its managers (Model/Scheduler.v), its event loop. *)
Record scheduler_up := SchedulerUp {
  su_listens : string;
  su_publishes : string;
  su_io_threads : Z;
  su_config : config;
  su_event_loop : string }.

(** main.py:47: [f"/tmp/{address.host}_{address.port}_monitor"]. *)
Definition monitor_host (a : zmq_config) : string :=
  "/tmp/" +:+ zc_host a +:+ "_" +:+ (match zc_port a with Some p => print_int p | None => "None" end) +:+ "_monitor".

(** main.py:33-68 [Scheduler.__init__]: only the parts that depend on arguments, with the
    sockets of async_binder.py and async_connector.py. *)
Definition scheduler_init (a : scheduler_args) : res scheduler_up :=
  if negb (bool_decide (zc_type (sa_address a) = Tcp)) then Raise TypeError
  else
    m ← make_config Ipc (monitor_host (sa_address a)) None;
    Ok (SchedulerUp (to_address (sa_address a)) (to_address m) (sa_io_threads a)
          (Config (sa_max_number_of_tasks_waiting a) (sa_per_worker_queue_size a) (sa_worker_timeout_seconds a)
                  (sa_function_retention_seconds a) (sa_load_balance_seconds a) (sa_load_balance_trigger_times a))
          (sa_event_loop a)).

(** entry_points/scheduler.py:73-92 after parsing, and cluster/scheduler.py:43-62. *)
Definition scheduler_run (has_uvloop : bool) (a : scheduler_args) : res scheduler_up :=
  _ ← register_event_loop has_uvloop (sa_event_loop a);
  scheduler_init a.

(** ** Workers (worker/worker.py:31-53, :68-106, :136-144, processor_manager.py:40-53, :155-165) *)

(** Keyword arguments of Worker. *)
Record worker_args := WorkerArgs {
  wa_event_loop : string;
  wa_address : zmq_config;
  wa_heartbeat_interval_seconds : Z;
  wa_garbage_collect_interval_seconds : Z;
  wa_trim_memory_threshold_bytes : Z;
  wa_function_retention_seconds : Z;
  wa_death_timeout_seconds : Z }.

(** A worker that runs: the address it connects to, the pause of its heartbeat loop
    (worker.py:140), the death timeout ([a_death] in Model/Worker.v), and the function
    retention, collection interval and trim threshold of its processor
    ([c_retention] in Model/Processor.v). *)
Record worker_up := WorkerUp {
  wu_connects : string;
  wu_heartbeat : Z;
  wu_death : Z;
  wu_retention : Z;
  wu_collect : Z;
  wu_trim : Z;
  wu_event_loop : string }.
Definition worker_run (has_uvloop : bool) (a : worker_args) : res worker_up :=
  _ ← register_event_loop has_uvloop (wa_event_loop a);
  Ok (WorkerUp (to_address (wa_address a)) (wa_heartbeat_interval_seconds a) (wa_death_timeout_seconds a)
        (wa_function_retention_seconds a) (wa_garbage_collect_interval_seconds a) (wa_trim_memory_threshold_bytes a)
        (wa_event_loop a)).

(** ** Clusters (cluster/cluster.py) *)

Record cluster_args := ClusterArgs {
  ca_address : zmq_config;
  ca_n_workers : Z;
  ca_heartbeat_interval_seconds : Z;
  ca_function_retention_seconds : Z;
  ca_death_timeout_seconds : Z;
  ca_garbage_collect_interval_seconds : Z;
  ca_trim_memory_threshold_bytes : Z;
  ca_event_loop : string }.

(** cluster.py:62-74: one argument record for each of [range(n_workers)]. *)
Definition cluster_workers (a : cluster_args) : list worker_args :=
  replicate (Z.to_nat (ca_n_workers a))
    (WorkerArgs (ca_event_loop a) (ca_address a) (ca_heartbeat_interval_seconds a) (ca_garbage_collect_interval_seconds a)
       (ca_trim_memory_threshold_bytes a) (ca_function_retention_seconds a) (ca_death_timeout_seconds a)).

(** ** SchedulerClusterCombo (cluster/combo.py:22-63): what it starts *)
Record combo_args := ComboArgs {
  ba_address : string;
  ba_n_workers : Z;
  ba_io_threads : Z;
  ba_max_number_of_tasks_waiting : Z;
  ba_heartbeat_interval_seconds : Z;
  ba_event_loop : string;
  ba_worker_timeout_seconds : Z;
  ba_function_retention_seconds : Z;
  ba_death_timeout_seconds : Z;
  ba_load_balance_seconds : Z;
  ba_load_balance_trigger_times : Z;
  ba_garbage_collect_interval_seconds : Z;
  ba_trim_memory_threshold_bytes : Z;
  ba_per_worker_queue_size : Z }.

(** cluster/scheduler.py:26: the default of SchedulerProcess's [event_loop]. *)
Definition combo (b : combo_args) : res (cluster_args * scheduler_args) :=
  a1 ← from_string (ba_address b);
  a2 ← from_string (ba_address b);
  Ok (ClusterArgs a1 (ba_n_workers b) (ba_heartbeat_interval_seconds b) (ba_function_retention_seconds b)
        (ba_death_timeout_seconds b) (ba_garbage_collect_interval_seconds b) (ba_trim_memory_threshold_bytes b) (ba_event_loop b),
      SchedulerArgs a2 (ba_io_threads b) (ba_max_number_of_tasks_waiting b) (ba_per_worker_queue_size b)
        (ba_worker_timeout_seconds b) (ba_function_retention_seconds b) (ba_load_balance_seconds b)
        (ba_load_balance_trigger_times b) "builtin").

(** ** Command lines (entry_points/scheduler.py:20-70, entry_points/cluster.py:16-62)

    argparse as far as it is used here: options that take one value, one positional
    argument.  Exact option names only.  SIMPLIFICATION: [Unmodelled] stands for what
    argparse does with other words that begin with a dash (abbreviated names, values
    attached to short names, "-h", "--"). *)
Inductive parsed (A : Type) : Type :=
| Parsed (a : A)
| UsageError            (* exit status 2 *)
| Unmodelled.
Arguments Parsed {A} a.
Arguments UsageError {A}.
Arguments Unmodelled {A}.

Fixpoint all_digits (s : string) : bool :=
  match s with EmptyString => true | String c s => is_digit c && all_digits s end.
(** argparse's [_negative_number_matcher], its integer form. *)
Definition negative_number (s : string) : bool :=
  match s with
  | String "-"%char (String c s) => is_digit c && all_digits s
  | _ => false
  end.

(** An option: its names, the attribute it sets, and whether its value is checked with
    [type=int] or against [choices]. *)
Inductive kind := KInt | KLoop.
Record opt := Opt { op_names : list string; op_dest : string; op_kind : kind }.

(** How a word is read: an option, a plain argument, something else, or an option with its
    value ("--name=value"; argparse's [_parse_optional]). *)
Inductive word := WOption (o : opt) | WPlain | WOther | WEquals (o : opt) (v : string).
Definition classify (table : list opt) (s : string) : word :=
  match s with
  | String "-"%char _ =>
      match List.find (λ o, existsb (String.eqb s) (op_names o)) table with
      | Some o => WOption o
      | None => if negative_number s then WPlain else if String.eqb s "-" then WPlain
          else match split_at "=" s with
               | Some (n, v) => match List.find (λ o, existsb (String.eqb n) (op_names o)) table with Some o => WEquals o v | None => WOther end
               | None => WOther
               end
      end
  | _ => WPlain
  end.

(** The attributes set so far (a later value replaces an earlier one), and the
    positional arguments in order. *)
Record namespace := Namespace { ns_int : gmap string Z; ns_loop : option string; ns_plain : list string }.
Definition ns_option (o : opt) (v : string) (ns : namespace) : option namespace :=
  match op_kind o with
  | KInt => match py_int v with Some z => Some (Namespace (<[op_dest o := z]> (ns_int ns)) (ns_loop ns) (ns_plain ns)) | None => None end
  | KLoop => if existsb (String.eqb v) allowed_loops then Some (Namespace (ns_int ns) (Some v) (ns_plain ns)) else None
  end.
Definition ns_positional (v : string) (ns : namespace) : namespace := Namespace (ns_int ns) (ns_loop ns) (ns_plain ns ++ [v]).

Fixpoint collect (table : list opt) (args : list string) (ns : namespace) : parsed namespace :=
  match args with
  | [] => Parsed ns
  | w :: args =>
      match classify table w with
      | WOther => Unmodelled
      | WPlain => collect table args (ns_positional w ns)
      | WEquals o v => match ns_option o v ns with Some ns => collect table args ns | None => UsageError end
      | WOption o =>
          match args with
          | [] => UsageError
          | v :: args =>
              match classify table v with
              | WOther => Unmodelled
              | WOption _ | WEquals _ _ => UsageError
              | WPlain => match ns_option o v ns with Some ns => collect table args ns | None => UsageError end
              end
          end
      end
  end.
Definition no_arguments : namespace := Namespace ∅ None [].

(** The value of an attribute, or its default. *)
Definition int_of (ns : namespace) (d : string) (def : Z) : Z := default def (ns_int ns !! d).
Definition loop_of (ns : namespace) : string := default "builtin" (ns_loop ns).
(** The one positional argument, with [type=ZMQConfig.from_string]. *)
Definition address_of (ns : namespace) : option zmq_config :=
  match ns_plain ns with
  | [a] => match from_string a with Ok c => Some c | Raise _ => None end
  | _ => None
  end.

(** entry_points/scheduler.py:22-68. *)
Definition scheduler_table : list opt :=
  [Opt ["--io-threads"] "io_threads" KInt;
   Opt ["--max-number-of-tasks-waiting"; "-mt"] "max_number_of_tasks_waiting" KInt;
   Opt ["--worker-timeout-seconds"; "-wt"] "worker_timeout_seconds" KInt;
   Opt ["--function-retention-seconds"; "-ft"] "function_retention_seconds" KInt;
   Opt ["--load-balance-seconds"; "-ls"] "load_balance_seconds" KInt;
   Opt ["--load-balance-trigger-times"; "-lbt"] "load_balance_trigger_times" KInt;
   Opt ["--per-worker-queue-size"; "-qs"] "per_worker_queue_size" KInt;
   Opt ["--event-loop"; "-e"] "event_loop" KLoop].

(** entry_points/scheduler.py:73-92 [main] up to the call of scheduler_main. *)
Definition scheduler_command (args : list string) : parsed scheduler_args :=
  match collect scheduler_table args no_arguments with
  | Parsed ns =>
      match address_of ns with
      | Some a =>
          Parsed (SchedulerArgs a
            (int_of ns "io_threads" DEFAULT_IO_THREADS)
            (int_of ns "max_number_of_tasks_waiting" DEFAULT_MAX_NUMBER_OF_TASKS_WAITING)
            (int_of ns "per_worker_queue_size" DEFAULT_PER_WORKER_QUEUE_SIZE)
            (int_of ns "worker_timeout_seconds" DEFAULT_WORKER_TIMEOUT_SECONDS)
            (int_of ns "function_retention_seconds" DEFAULT_FUNCTION_RETENTION_SECONDS)
            (int_of ns "load_balance_seconds" DEFAULT_LOAD_BALANCE_SECONDS)
            (int_of ns "load_balance_trigger_times" DEFAULT_LOAD_BALANCE_TRIGGER_TIMES)
            (loop_of ns))
      | None => UsageError
      end
  | UsageError => UsageError
  | Unmodelled => Unmodelled
  end.

(** entry_points/cluster.py:17-61. *)
Definition cluster_table : list opt :=
  [Opt ["--num-of-workers"; "-n"] "num_of_workers" KInt;
   Opt ["--heartbeat-interval"; "-hi"] "heartbeat_interval" KInt;
   Opt ["--function-retention-seconds"; "-ft"] "function_retention_seconds" KInt;
   Opt ["--death-timeout-seconds"; "-dt"] "death_timeout_seconds" KInt;
   Opt ["--garbage-collect-interval-seconds"; "-gc"] "garbage_collect_interval_seconds" KInt;
   Opt ["--trim-memory-threshold-bytes"; "-tm"] "trim_memory_threshold_bytes" KInt;
   Opt ["--event-loop"; "-el"] "event_loop" KLoop].

(** entry_points/cluster.py:65-80 [main] up to [cluster.run]. *)
Definition cluster_command (cpus : Z) (args : list string) : parsed cluster_args :=
  match collect cluster_table args no_arguments with
  | Parsed ns =>
      match address_of ns with
      | Some a =>
          Parsed (ClusterArgs a
            (int_of ns "num_of_workers" (DEFAULT_NUMBER_OF_WORKER cpus))
            (int_of ns "heartbeat_interval" DEFAULT_HEARTBEAT_INTERVAL_SECONDS)
            (int_of ns "function_retention_seconds" DEFAULT_WORKER_FUNCTION_RETENTION_SECONDS)
            (int_of ns "death_timeout_seconds" DEFAULT_DEATH_TIMEOUT_SECONDS)
            (int_of ns "garbage_collect_interval_seconds" DEFAULT_GARBAGE_COLLECT_INTERVAL_SECONDS)
            (int_of ns "trim_memory_threshold_bytes" DEFAULT_TRIM_MEMORY_THRESHOLD_BYTES)
            (loop_of ns))
      | None => UsageError
      end
  | UsageError => UsageError
  | Unmodelled => Unmodelled
  end.

(** ** The life of a cluster process (cluster.py:40-89)

    The main thread goes through the phases below; a signal can arrive between any two
    steps.  Workers are numbered from 0.  The operating system ends a process that gets
    SIGTERM or SIGINT before a handler is set.
    SIMPLIFICATION: [worker.start()] is one step. *)
Inductive sig : Type := SIGINT | SIGTERM.
Inductive phase : Type :=
| Fresh                  (* before cluster.py:53 *)
| Handling               (* signal handlers set, [self._workers] still empty (:54-62) *)
| Starting (k : nat)     (* workers 0 .. k-1 started (:80-84) *)
| Joining (k : nat)      (* workers 0 .. k-1 joined (:86-87) *)
| Preparing              (* the only worker is run in this process (:76-78), up to worker.py:105 *)
| InProcess              (* ... from then on *)
| Ended
| Killed                 (* by a signal, before a handler was set *)
| Broken (e : exn).      (* by an exception *)

Record cluster := Cluster {
  cl_workers : nat;               (* len(range(n_workers)) *)
  cl_phase : phase;
  cl_alive : gset nat;            (* workers whose process runs *)
  cl_reaped : gset nat;           (* workers whose end the cluster has seen (waitpid) *)
  cl_told : gset nat }.           (* workers that were sent SIGINT *)

Inductive cevent : Type :=
| CStep                 (* the main thread goes on *)
| CSignal (s : sig)     (* the cluster process gets a signal *)
| CExit (w : nat).      (* a worker process ends *)

Definition cl_at (p : phase) (c : cluster) : cluster := Cluster (cl_workers c) p (cl_alive c) (cl_reaped c) (cl_told c).

(** cluster.py:45-50 [__destroy]: [os.kill(worker.pid, SIGINT)] for each worker in turn.
    [worker.pid] is None for a worker that was not started, which [os.kill] rejects with
    TypeError; the id of a process that was waited for is unknown to the system
    (SIMPLIFICATION: it may instead have been given to another process); that of a process
    that ended but was not waited for is still valid.  [started]: how many workers have
    been started. *)
Fixpoint destroy (started : nat) (reaped : gset nat) (ws : list nat) (told : gset nat) : gset nat * option exn :=
  match ws with
  | [] => (told, None)
  | w :: ws =>
      if negb (w <? started)%nat then (told, Some TypeError)
      else if bool_decide (w ∈ reaped) then (told, Some ProcessLookupError)
      else destroy started reaped ws ({[w]} ∪ told)
  end.
Definition cl_handler (started listed : nat) (c : cluster) : cluster :=
  let '(told, e) := destroy started (cl_reaped c) (seq 0 listed) (cl_told c) in
  Cluster (cl_workers c) (match e with Some e => Broken e | None => cl_phase c end) (cl_alive c) (cl_reaped c) told.

Definition cl_step (c : cluster) (e : cevent) : cluster :=
  match e with
  | CStep =>
      match cl_phase c with
      | Fresh => cl_at Handling c
      | Handling => cl_at (if (cl_workers c =? 1)%nat then Preparing else Starting 0) c
      | Starting k =>
          (* multiprocessing's start first polls, and so reaps, the children that have ended *)
          if (k <? cl_workers c)%nat
          then Cluster (cl_workers c) (Starting (S k)) ({[k]} ∪ cl_alive c) (cl_reaped c ∪ (list_to_set (seq 0 k) ∖ cl_alive c)) (cl_told c)
          else cl_at (Joining 0) c
      | Joining k =>
          if (k <? cl_workers c)%nat
          then (if decide (k ∈ cl_alive c) then c
                else Cluster (cl_workers c) (Joining (S k)) (cl_alive c) ({[k]} ∪ cl_reaped c) (cl_told c))
          else cl_at Ended c
      | Preparing => cl_at InProcess c
      | _ => c
      end
  | CSignal s =>
      match cl_phase c with
      | Fresh => cl_at Killed c
      | Handling => cl_handler 0 0 c
      | Starting k => cl_handler k (cl_workers c) c
      | Joining _ => cl_handler (cl_workers c) (cl_workers c) c
      | Preparing => cl_handler 0 1 c
      (* worker.py:159-163 replaces the handler of SIGINT by a clean exit, but not that of SIGTERM *)
      | InProcess => match s with SIGINT => cl_at Ended c | SIGTERM => cl_handler 0 1 c end
      | _ => c
      end
  | CExit w => Cluster (cl_workers c) (cl_phase c) (cl_alive c ∖ {[w]}) (cl_reaped c) (cl_told c)
  end.
Definition cl_start (a : cluster_args) : cluster := Cluster (Z.to_nat (ca_n_workers a)) Fresh ∅ ∅ ∅.
Definition cl_run (a : cluster_args) (es : list cevent) : cluster := foldl cl_step (cl_start a) es.
