(** * Well-behaved traffic with graphs (C73, C74)

    Everything here is a function of the observable history. *)

From Verif.Model Require Import Base OneToManyDict Message SchedulerState.
From Verif.Spec Require Import SchedulerSpec.

(** A graph that can be computed: distinct ids, references and targets are nodes, no
    cycle ([rank] decreases along references), no node refers twice to the same node,
    and it brings the functions of its nodes, with names that are text. *)
Record graph_fit (text : bytes → bool) (g : bytes) (fs : list (bytes * (bytes * bytes))) (ts : list bytes) (ns : list task) : Prop := {
  gf_ids : NoDup (g :: (task_id <$> ns));
  gf_closed : closed ns;
  gf_acyclic : ∃ rank : bytes → nat, ∀ n x, n ∈ ns → ArgTask x ∈ task_args n → (rank x < rank (task_id n))%nat;
  gf_refs n : n ∈ ns → NoDup (references (task_args n));
  gf_targets t : t ∈ ts → t ∈ task_id <$> ns;
  gf_functions n : n ∈ ns → task_function n ∈ fs.*1;
  gf_names p : p ∈ fs → text p.2.1 = true }.

(** [x] is the id of a task, graph or node submitted with message [m]. *)
Definition named (x : bytes) (m : message) : Prop :=
  match m with
  | MTask k => x = task_id k
  | MGraphTask g _ _ ns => x = g ∨ x ∈ task_id <$> ns
  | _ => False
  end.
(** Nothing submitted so far has id [x]. *)
Definition new_id (x : bytes) (h : history) : Prop := ∀ c m, received c m h → ¬ named x m.

(** No graph has brought id [x], and no task with id [x] was accepted: it is new, or all
    its submissions were refused. *)
Definition free_id (x : bytes) (h : history) : Prop :=
  (∀ c g fs ts ns, received c (MGraphTask g fs ts ns) h → ¬ named x (MGraphTask g fs ts ns)) ∧ ∀ c, ¬ accepted c x h.

(** A result of [t] has arrived while a worker had [t]. *)
Definition settled (t : bytes) (h : history) : Prop :=
  ∃ before now src st d r after, h = before ++ LIn now (ERecv src (MTaskResult t st d r)) :: after ∧ is_Some (holder before !! t).

(** [t] waits in the scheduler: accepted, not with a worker, not finished by one. *)
Definition unplaced (t : bytes) (h : history) : Prop := (∃ c, accepted c t h) ∧ holder h !! t = None ∧ ¬ settled t h.

(** [t] waits in the scheduler or is with a registered worker. *)
Definition in_hand (t : bytes) (h : history) : Prop := unplaced t h ∨ ∃ w, holder h !! t = Some w ∧ w ∈ registered h.

(** Graphs not looked at yet, oldest first: each round of the graph loop takes one. *)
Definition pending_step (q : list bytes) (e : entry) : list bytes :=
  match e with
  | LIn _ (ERecv _ (MGraphTask g _ _ _)) => q ++ [g]
  | LIn _ EGraph => tail q
  | _ => q
  end.
Definition pending_graphs (h : history) : list bytes := foldl pending_step [] h.

(** Some client was sent an answer to graph [g]; some client cancelled [g]. *)
Definition graph_answered (g : bytes) (h : history) : Prop := ∃ c st rs, LSend c (MGraphTaskResult g st rs) ∈ h.
Definition graph_cancelled (g : bytes) (h : history) : Prop := ∃ c, received c (MGraphTaskCancel g) h.

(** Graph [g] was submitted and started, and is neither answered nor cancelled. *)
Definition open_graph (g : bytes) (h : history) : Prop :=
  (∃ c, graph_from c g h) ∧ g ∉ pending_graphs h ∧ ¬ graph_answered g h ∧ ¬ graph_cancelled g h.

(** Each message arrives after the dispatch loop has looked at the last accepted task;
    every id is used once (a refused task may be submitted again); graphs fit; a graph is cancelled while it is open; when
    an open graph is cancelled, or a node of it fails or is cancelled in the queue, none
    of its (other) nodes waits in the scheduler; workers report nodes as succeeded,
    failed or cancelled; no function deletion; identities and function names are UTF-8. *)
Definition polite_graphs (text : bytes → bool) (before : history) (e : entry) : Prop :=
  match e with
  | LIn _ (ERecv from m) =>
      undispatched before = false ∧ text from = true ∧
      match m with
      | MTask k => free_id (task_id k) before
      | MGraphTask g fs ts ns => graph_fit text g fs ts ns ∧ ∀ x, named x m → new_id x before
      | MGraphTaskCancel g => open_graph g before ∧ ∀ t, node_of_graph t g before → ¬ unplaced t before
      | MTaskCancel t => unplaced t before →
          ∀ g t', open_graph g before → node_of_graph t g before → node_of_graph t' g before → t' ≠ t → ¬ unplaced t' before
      | MTaskResult t st _ _ => is_Some (holder before !! t) → st ≠ Success →
          ∀ g, open_graph g before → node_of_graph t g before →
          (st = Failed ∨ st = Canceled) ∧ ∀ t', node_of_graph t' g before → t' ≠ t → ¬ unplaced t' before
      | MFunctionRequest FnAdd _ name _ => text name = true
      | MFunctionRequest FnDelete _ _ _ => False
      | _ => True
      end
  | LIn _ EWorkers => undispatched before = false
  | _ => True
  end.

(** Nothing but the scheduler's own loops, workers that report success of tasks they
    have ([v t] is the result of [t]), and, if there is no worker, one that joins; all
    at time [now]. *)
Definition helpful (now : Z) (v : bytes → bytes) (before : history) (e : entry) : Prop :=
  match e with
  | LIn now' ev => now' = now ∧
      match ev with
      | ERecv w (MTaskResult t st _ r) => holder before !! t = Some w ∧ st = Success ∧ r = v t
      | ERecv w (MHeartbeat _) => registered before = ∅
      | EGraph | EDispatch => True
      | _ => False
      end
  | _ => True
  end.
(** No graph waits, every graph is answered or cancelled, every task is answered, and no
    worker has a task. *)
Record all_done (h : history) : Prop := {
  fi_pending : pending_graphs h = [];
  fi_graphs c g : graph_from c g h → graph_answered g h ∨ graph_cancelled g h;
  fi_tasks c t : accepted c t h → ¬ graph_node t h → answered t h;
  fi_workers : holder h = ∅ }.
