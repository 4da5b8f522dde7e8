(** * Reading the scheduler's observable history

    Everything here is a function of the history (inputs, messages sent, published
    states, connect/disconnect log lines), not of the scheduler's tables. *)

From Verif.Model Require Import Base OneToManyDict Message SchedulerState.
From Verif.Spec Require Import DictSpec.
From Verif.Spec Require Export HistorySpec.

Notation history := (list entry).

(** Message [m] arrived from [from]. *)
Definition received (from : bytes) (m : message) (h : history) : Prop := ∃ now, LIn now (ERecv from m) ∈ h.

(** [c] was told that its submission of [t] is accepted. *)
Definition accepted (c t : bytes) (h : history) : Prop := LSend c (MTaskEcho t SubmitOK) ∈ h.

(** Some client was sent a result for [t]. *)
Definition answered (t : bytes) (h : history) : Prop := ∃ c st d p, LSend c (MTaskResult t st d p) ∈ h.

(** [c] submitted a graph with id [g]. *)
Definition graph_from (c g : bytes) (h : history) : Prop := ∃ fs ts ns, received c (MGraphTask g fs ts ns) h.

(** [t] is a node of some submitted graph. *)
Definition graph_node (t : bytes) (h : history) : Prop :=
  ∃ c g fs ts ns n, received c (MGraphTask g fs ts ns) h ∧ n ∈ ns ∧ task_id n = t.

Definition is_accept (t : bytes) (e : entry) : bool :=
  match e with LSend _ (MTaskEcho t' SubmitOK) => String.eqb t' t | _ => false end.
Definition is_result (t : bytes) (e : entry) : bool :=
  match e with LSend _ (MTaskResult t' _ _ _) => String.eqb t' t | _ => false end.
Definition is_graph_result (g : bytes) (e : entry) : bool :=
  match e with LSend _ (MGraphTaskResult g' _ _) => String.eqb g' g | _ => false end.
Definition is_graph_submission (g : bytes) (e : entry) : bool :=
  match e with LIn _ (ERecv _ (MGraphTask g' _ _ _)) => String.eqb g' g | _ => false end.

(** ** Workers and assignments, replayed from the history *)

(** Workers the scheduler currently counts as connected: it has had a heartbeat from
    them since it last reported them disconnected. *)
Definition reg_step (ws : gset bytes) (e : entry) : gset bytes :=
  match e with
  | LIn _ (ERecv w (MHeartbeat _)) => {[w]} ∪ ws
  | LDisconnected w => ws ∖ {[w]}
  | _ => ws
  end.
Definition registered (h : history) : gset bytes := foldl reg_step ∅ h.

(** Which worker has which task: sent to it, and since then neither reported done, nor
    given back, nor taken back because the worker was disconnected. *)
Definition holder_step (m : gmap bytes bytes) (e : entry) : gmap bytes bytes :=
  match e with
  | LSend w (MTask t) => <[task_id t := w]> m
  | LDisconnected w => filter (λ p, p.2 ≠ w) m
  | LIn _ (ERecv _ (MTaskResult t _ _ _)) => delete t m
  | LIn _ (ERecv _ (MBalanceResponse ids)) => foldr delete m ids
  | _ => m
  end.
Definition holder (h : history) : gmap bytes bytes := foldl holder_step ∅ h.

(** Number of tasks a worker has. *)
Definition outstanding (h : history) (w : bytes) : Z := Z.of_nat (size (filter (λ p, p.2 = w) (holder h))).

(** ** Contents *)

(** The last message received or loop round started. *)
Definition last_input (h : history) : option event :=
  foldl (λ o e, match e with LIn _ ev => Some ev | _ => o end) None h.

(** Some worker reported success of task [t] with result [r]. *)
Definition success (h : history) (t r : bytes) : Prop := ∃ src d, received src (MTaskResult t Success d r) h.

(** [k] is node [n] of a graph with every reference to another node replaced by a
    result reported for that node, and no node is referred to twice. *)
Definition filled (h : history) (a' a : argument) : Prop :=
  match a with
  | ArgData d => a' = ArgData d
  | ArgTask x => ∃ r, a' = ArgData r ∧ success h x r
  end.
Definition references (args : list argument) : list bytes :=
  omap (λ a, match a with ArgTask x => Some x | ArgData _ => None end) args.
Definition instance_of (h : history) (k n : task) : Prop :=
  task_id k = task_id n ∧ task_function k = task_function n ∧ Forall2 (filled h) (task_args k) (task_args n) ∧
  NoDup (references (task_args n)).

(** Client [c] submitted [k], directly or as a node of a graph. *)
Definition submitted (c : bytes) (k : task) (h : history) : Prop :=
  received c (MTask k) h ∨
  ∃ g fs ts ns n, received c (MGraphTask g fs ts ns) h ∧ n ∈ ns ∧ instance_of h k n.

(** Task [t] is a node of a submitted graph with id [g]. *)
Definition node_of_graph (t g : bytes) (h : history) : Prop :=
  ∃ c fs ts ns n, received c (MGraphTask g fs ts ns) h ∧ n ∈ ns ∧ task_id n = t.

(** Task [t] is sent to a worker. *)
Definition is_dispatch (t : bytes) (e : entry) : bool :=
  match e with LSend _ (MTask k) => String.eqb (task_id k) t | _ => false end.

(** Task [t] is taken back from the worker that has it: the worker is gone, or it gave
    the task back when asked to balance. *)
Definition takes_back (t : bytes) (before : history) (e : entry) : bool :=
  match e with
  | LDisconnected w => bool_decide (holder before !! t = Some w)
  | LIn _ (ERecv _ (MBalanceResponse ids)) => bool_decide (t ∈ ids) && bool_decide (is_Some (holder before !! t))
  | _ => false
  end.

(** A result for [t] that the scheduler sends without a worker having just reported one. *)
Definition own_answer (t : bytes) (before : history) (e : entry) : bool :=
  match e with
  | LSend _ (MTaskResult t' _ _ _) =>
      String.eqb t' t &&
      match last_input before with Some (ERecv _ (MTaskResult t'' _ _ _)) => negb (String.eqb t'' t) | _ => true end
  | _ => false
  end.

(** ** Single rounds *)

(** Nothing changed except the history, the clock, the iteration orders and the
    allocator's internal queue. *)
Record untouched (s s' : sched) : Prop := {
  un_dead : s_dead s' = s_dead s; un_funcs : s_funcs s' = s_funcs s; un_ftasks : s_ftasks s' = s_ftasks s;
  un_clients : s_clients s' = s_clients s; un_tasks : s_tasks s' = s_tasks s;
  un_unassigned : s_unassigned s' = s_unassigned s; un_running : s_running s' = s_running s;
  un_counts : (s_nsuccess s', s_nfailed s', s_ncanceled s', s_nnotfound s')
              = (s_nsuccess s, s_nfailed s, s_ncanceled s, s_nnotfound s);
  un_limbo : s_limbo s' = s_limbo s; un_alive : s_alive s' = s_alive s;
  un_balance : (s_last_advice s', s_same s') = (s_last_advice s, s_same s);
  un_graphs : (s_gqueue s', s_graphs s', s_t2g s') = (s_gqueue s, s_graphs s, s_t2g s) }.

(** Published to monitors only (or the crash itself): invisible to clients and workers. *)
Definition internal (e : entry) : Prop := match e with LMonitor _ | LCrash _ => True | _ => False end.

(** Name and content of function [f] came with an Add or with a graph. *)
Definition function_from (f name content : bytes) (h : history) : Prop :=
  (∃ c, received c (MFunctionRequest FnAdd f name content) h) ∨
  (∃ c g fs ts ns, received c (MGraphTask g fs ts ns) h ∧ (f, (name, content)) ∈ fs).

(** Time and content of the last heartbeat of [w]. *)
Definition last_beat (w : bytes) (h : history) : option (Z * heartbeat) :=
  foldl (λ o e, match e with
    | LIn now (ERecv w' (MHeartbeat b)) => if String.eqb w' w then Some (now, b) else o
    | _ => o end) None h.

(** Workers silent for longer than [timeout] at time [now]. *)
Definition silent (timeout now : Z) (h : history) (w : bytes) : Prop :=
  w ∈ registered h ∧ ∃ t b, last_beat w h = Some (t, b) ∧ timeout < now - t.

(** Tasks held by workers satisfying [P]. *)
Definition held_by (P : bytes → Prop) `{∀ w, Decision (P w)} (h : history) : gset bytes :=
  dom (filter (λ p, P p.2) (holder h)).

(** Length of the block of [a] at the end of [l]. *)
Fixpoint leading {A} `{EqDecision A} (a : A) (l : list A) : nat :=
  match l with [] => 0 | b :: l => if decide (b = a) then S (leading a l) else 0 end.
Definition trailing {A} `{EqDecision A} (a : A) (l : list A) : nat := leading a (rev l).

(** Load-balance advice computed from the history: none unless some worker is idle and
    some is not; otherwise every worker above the mean should give up what it has above
    the floor of the mean. *)
Definition balance_advice (h : history) : gmap bytes Z :=
  let ws := elements (registered h) in
  let n := Z.of_nat (length ws) in
  let total := Z.of_nat (size (holder h)) in
  if existsb (λ w, outstanding h w =? 0) ws && existsb (λ w, 0 <? outstanding h w) ws
  then list_to_map ((λ w, (w, outstanding h w - total / n)) <$> filter (λ w, total < outstanding h w * n) ws)
  else ∅.

(** The advice at each worker-maintenance round so far, oldest first. *)
Fixpoint advices_from (before h : history) : list (gmap bytes Z) :=
  match h with
  | [] => []
  | e :: h =>
      match e with LIn _ EWorkers => [balance_advice before] | _ => [] end ++ advices_from (before ++ [e]) h
  end.
Definition advices (h : history) : list (gmap bytes Z) := advices_from [] h.
Definition is_balance_request (e : entry) : Prop := match e with LSend _ (MBalanceRequest _) => True | _ => False end.

(** ** Well-behaved traffic (C35, C37) *)

(** A task was accepted and the dispatch loop has not run since. *)
Definition undispatched (h : history) : bool :=
  foldl (λ b e, match e with
    | LSend _ (MTaskEcho _ SubmitOK) => true
    | LIn _ EDispatch => false
    | _ => b end) false h.

(** Each message arrives after the dispatch loop has looked at the last accepted task;
    no graph tasks, no function deletion, no submission of an id that was accepted
    before; identities and function names are UTF-8 ([text] decides that). *)
Definition polite (text : bytes → bool) (before : history) (e : entry) : Prop :=
  match e with
  | LIn _ (ERecv from m) =>
      undispatched before = false ∧ text from = true ∧
      match m with
      | MTask k => ¬ ∃ c, accepted c (task_id k) before
      | MGraphTask _ _ _ _ | MGraphTaskCancel _ => False
      | MFunctionRequest FnAdd _ name _ => text name = true
      | MFunctionRequest FnDelete _ _ _ => False
      | _ => True
      end
  | LIn _ EWorkers => undispatched before = false
  | _ => True
  end.

(** A result with status [st] is sent to a client. *)
Definition is_outcome (st : task_status) (e : entry) : bool :=
  match e with LSend _ (MTaskResult _ st' _ _) => bool_decide (st' = st) | _ => false end.

(** Accepted and not answered. *)
Definition unanswered (t : bytes) (h : history) : Prop := (∃ c, accepted c t h) ∧ ¬ answered t h.

(** How many tasks ended how, and how many tasks there are. *)
Definition outcomes (h : history) : Z * Z * Z * Z :=
  (Z.of_nat (occurrences (is_outcome Success) h), Z.of_nat (occurrences (is_outcome Failed) h),
   Z.of_nat (occurrences (is_outcome Canceled) h), Z.of_nat (occurrences (is_outcome NotFound) h)).
Definition number (X : gset bytes) : Z := Z.of_nat (size X).

(** The task the dispatch loop will try to place next: the one it is holding, else the
    oldest in the queue. *)
Definition next_task (s : sched) : option bytes := match s_limbo s with Some k => Some (task_id k) | None => head (s_unassigned s) end.

(** The balance requests a maintenance round must send, given the advices of the rounds
    before and the advice now. *)
Definition balance_order (p : bytes * Z) : entry := LSend p.1 (MBalanceRequest p.2).
Definition balance_round (c : config) (past : list (gmap bytes Z)) (now : gmap bytes Z) : list entry :=
  if decide (0 < c_lb_seconds c ∧ 2 <= c_lb_times c ∧ now ≠ ∅ ∧ Z.of_nat (trailing now (past ++ [now])) = c_lb_times c)
  then balance_order <$> map_to_list now else [].

(** Tasks recorded as using function [f] (for tasks submitted individually these are
    exactly the unanswered ones: [C28_users_are_unanswered]), and functions that should
    expire at time [now]. *)
Definition users (s : sched) (f : bytes) : gset bytes := owned (o_v2k (s_ftasks s)) f.
Definition expires (s : sched) (now : Z) (f : bytes) : Prop :=
  ∃ i, s_funcs s !! f = Some i ∧ c_retention (s_cfg s) < now - fi_alive i ∧ users s f = ∅.

(** [k] from [src] was recorded and appended to the queue. *)
Record stored (src : bytes) (k : task) (s s' : sched) : Prop := {
  sd_tasks : s_tasks s' = <[task_id k := k]> (s_tasks s);
  sd_unassigned : s_unassigned s' = s_unassigned s ++ [task_id k];
  sd_owner : o_v2k (s_clients s') = <[task_id k := src]> (o_v2k (s_clients s));
  sd_user : o_v2k (s_ftasks s') = <[task_id k := task_function k]> (o_v2k (s_ftasks s)) }.

(** ** Graphs *)

(** [r] is the value of the node with id [t] of the graph [ns], when function [f]
    applied to arguments [vs] gives [apply f vs]. *)
Inductive value (apply : bytes → list bytes → bytes) (ns : list task) : bytes → bytes → Prop :=
| value_node n vs : n ∈ ns → values apply ns (task_args n) vs → value apply ns (task_id n) (apply (task_function n) vs)
with values (apply : bytes → list bytes → bytes) (ns : list task) : list argument → list bytes → Prop :=
| values_nil : values apply ns [] []
| values_data d args vs : values apply ns args vs → values apply ns (ArgData d :: args) (d :: vs)
| values_task x v args vs : value apply ns x v → values apply ns args vs → values apply ns (ArgTask x :: args) (v :: vs).

(** Workers compute: every success reported for a task carries the function applied to
    the arguments of a Task message sent earlier under that id. *)
Definition honest (apply : bytes → list bytes → bytes) (before : history) (e : entry) : Prop :=
  match e with
  | LIn _ (ERecv _ (MTaskResult t Success _ r)) =>
      ∃ w k vs, LSend w (MTask k) ∈ before ∧ task_id k = t ∧ task_args k = ArgData <$> vs ∧ r = apply (task_function k) vs
  | _ => True
  end.

(** Every reference is to a node of the graph. *)
Definition closed (ns : list task) : Prop :=
  ∀ n x, n ∈ ns → ArgTask x ∈ task_args n → ∃ n', n' ∈ ns ∧ task_id n' = x.

(** The ids of the nodes of [ns] are used for nothing else. *)
Definition unshared (ns : list task) (h : history) : Prop :=
  ∀ n, n ∈ ns →
    (∀ c k, received c (MTask k) h → task_id k ≠ task_id n) ∧
    (∀ c g fs ts ns' n', received c (MGraphTask g fs ts ns') h → n' ∈ ns' → task_id n' = task_id n → n' = n).

(** Task [t] is submitted, directly or as a node of a graph. *)
Definition is_submission (t : bytes) (e : entry) : bool :=
  match e with
  | LIn _ (ERecv _ (MTask k)) => String.eqb (task_id k) t
  | LIn _ (ERecv _ (MGraphTask _ _ _ ns)) => bool_decide (t ∈ task_id <$> ns)
  | _ => false
  end.
