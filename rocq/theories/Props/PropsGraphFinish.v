(** * The whole system with graphs can always finish, runs nothing twice, and takes nobody for dead: C87 to C89 *)

From Verif.Model Require Import Base Message Client Worker Processor Scheduler System.
From Verif.Spec Require Import SchedulerSpec SystemSpec FlowSpec TrafficSpec OnceSpec GraphFlowSpec PunctualSpec.
From Verif.Proofs Require Import SystemExamples FlowExamples GraphFlowExamples ClockExamples GraphFlow GraphDone GraphOnce GraphClock GraphClockExamples.

(** ** C87 *)

(** From every state of an orderly execution with graphs and a worker, in which no processor
    has lost or will lose the function of a node, the execution can go on in an orderly way,
    without new parts and new work, until every task and every target of every graph ever
    submitted has its value, whatever the calls of user code return or raise, as long as
    those for the nodes of graphs return. *)
Theorem C87_no_dead_ends : ∀ c acts (verdict : task → outcome), c_max_waiting c < 0 → 1 <= c_queue_size c → (∀ k, verdict k ≠ Ended) →
  orderly_graphs_run c acts → y_workers (execute c acts) ≠ ∅ → nodes_intact (execute c acts) →
  (∀ k, of_graph (execute c acts) (task_id k) → ∃ v, verdict k = Returned v) →
  ∃ more, orderly_graphs_run c (acts ++ more) ∧ Forall no_news more ∧
    (∀ before a after, more = before ++ a :: after → as_decided verdict (execute c (acts ++ before)) a) ∧
    all_resolved (execute c (acts ++ more)) ∧ graphs_resolved (execute c (acts ++ more)).
Proof. exact orderly_graphs_finish. Qed.
Print Assumptions C87_no_dead_ends.
(** The worker has the first node of a graph of two and a task of another client; nothing
    has a value. The task may raise. *)
Example C87_example : c_max_waiting cfg < 0 ∧ 1 <= c_queue_size cfg ∧ orderly_graphs_run cfg graph_begin ∧ y_workers (execute cfg graph_begin) ≠ ∅ ∧ nodes_intact (execute cfg graph_begin) ∧
  (∃ verdict : task → outcome, (∀ k, verdict k ≠ Ended) ∧ (∀ k, of_graph (execute cfg graph_begin) (task_id k) → ∃ v, verdict k = Returned v) ∧ verdict other_task = Raised "no") ∧
  CIn (KGraph the_graph 2) ∈ history_of (execute cfg graph_begin) "cl" ∧ ¬ all_resolved (execute cfg graph_begin) ∧ ¬ graphs_resolved (execute cfg graph_begin).
Proof.
  split; [done|]. split; [done|]. split; [exact graph_begin_orderly|].
  assert (Hw : is_Some (y_workers (execute cfg graph_begin) !! "w")) by by_compute.
  assert (Hi : nodes_intact (execute cfg graph_begin)) by (apply intactb_ok; vm_compute; reflexivity).
  assert (Hu : graphedb (execute cfg graph_begin) "u" = false) by (vm_compute; reflexivity).
  assert (Hd : CIn (KSubmit "u" "f" "fname" "body" ["z"]) ∈ history_of (execute cfg graph_begin) "dl") by by_compute.
  assert (Hg : CIn (KGraph the_graph 2) ∈ history_of (execute cfg graph_begin) "cl") by by_compute.
  assert (Hn : ∀ c, c = "cl" ∨ c = "dl" → existsb (λ e, match e with CSet _ _ => true | _ => false end) (history_of (execute cfg graph_begin) c) = false) by (intros c [-> | ->]; vm_compute; reflexivity).
  revert Hw Hi Hu Hd Hg Hn. generalize (execute cfg graph_begin). intros y [x Hx] Hi Hu Hd Hg Hn.
  assert (Hno : ∀ c f v, c = "cl" ∨ c = "dl" → CSet f v ∉ history_of y c).
  { intros c f v Hc Hv. specialize (Hn c Hc). rewrite <- not_true_iff_false in Hn. apply Hn, existsb_exists. exists (CSet f v). split; [apply elem_of_list_In, Hv|reflexivity]. }
  split; [intros E; rewrite E, lookup_empty in Hx; discriminate|]. split; [exact Hi|]. split.
  { exists (λ k, if String.eqb (task_id k) "u" then Raised "no" else Returned "v"). split; [intros k; by destruct (String.eqb _ _)|]. split; [|reflexivity].
    intros k Hk%graphedb_spec. destruct (String.eqb_spec (task_id k) "u") as [E|]; [rewrite E in Hk; congruence|eauto]. }
  split; [exact Hg|]. split.
  - intros H. destruct (H _ _ _ _ _ _ Hd) as [v Hv]. exact (Hno "dl" _ _ ltac:(auto) Hv).
  - intros H. destruct (H "cl" _ _ _ _ _ 0%nat Hg ltac:(lia)) as [v Hv]. exact (Hno "cl" _ _ ltac:(auto) Hv).
Qed.

(** ** C88 *)

(** In an orderly execution with graphs user code is called at most once for a task or a
    node of a graph, over all workers. *)
Theorem C88_at_most_once : ∀ c acts t, c_max_waiting c < 0 → orderly_graphs_run c acts → (total_runs (execute c acts) t <= 1)%nat.
Proof. exact orderly_graphs_once. Qed.
Print Assumptions C88_at_most_once.
(** A graph of two nodes and a task of another client, each run once. *)
Example C88_example : c_max_waiting cfg < 0 ∧ orderly_graphs_run cfg graph_course ∧ CIn (KGraph the_graph 2) ∈ history_of (execute cfg graph_course) "cl" ∧
  total_runs (execute cfg graph_course) "a" = 1%nat ∧ total_runs (execute cfg graph_course) "b" = 1%nat ∧ total_runs (execute cfg graph_course) "u" = 1%nat.
Proof. split; [done|]. split; [exact graph_course_orderly|]. split; [by_compute|]. repeat split; vm_compute; reflexivity. Qed.

(** ** C89 *)

(** [d] bounds the delay of heartbeats and of their answers, and [h] the time between two
    runs of a worker's heartbeat loop. When the timeouts allow for two delays and one
    interval, an execution with graphs that is orderly in everything but silence is orderly.
    So C86 to C88 hold, however long tasks and nodes run. *)
Theorem C89_punctual : ∀ d h c acts, c_max_waiting c < 0 → 0 <= d → 0 <= h → 2 * d + h <= c_timeout c → patient (2 * d + h) acts →
  one_clock acts → punctual_run d h c acts → calm_graphs_run c acts → orderly_graphs_run c acts.
Proof. intros d h c acts Hm Hd Hh Hle Hp H1 H2 H3. exact (proj1 (gpunctual_timed d h c acts Hm Hd Hh Hle Hp H1 H2 H3)). Qed.
Print Assumptions C89_punctual.
(** In particular no check of the workers finds a silent one, and no worker gives up. *)
Theorem C89_nobody_given_up : ∀ d h c acts, c_max_waiting c < 0 → 0 <= d → 0 <= h → 2 * d + h <= c_timeout c → patient (2 * d + h) acts →
  one_clock acts → punctual_run d h c acts → calm_graphs_run c acts →
  (∀ before now codes after w, acts = before ++ SchedulerDoes now codes EWorkers :: after → ¬ silent (c_timeout c) now (s_log (y_sched (execute c before))) w) ∧
  (∀ w x, y_workers (execute c acts) !! w = Some x → a_dead (n_agent x) = None).
Proof.
  intros d h c acts Hm Hd Hh Hle Hp H1 H2 H3. pose proof (C89_punctual d h c acts Hm Hd Hh Hle Hp H1 H2 H3) as Ho. split.
  - intros before now codes after w E. pose proof (Ho _ _ _ E) as [_ Hs]. specialize (Hs w).
    assert (Hc : s_cfg (y_sched (execute c before)) = c).
    { destruct (gflow_run c before Hm) as (X & g & H); [|exact (cfg_of _ _ _ _ H)]. intros b a rest E'. apply (Ho b a (rest ++ SchedulerDoes now codes EWorkers :: after)). rewrite E, E', <- app_assoc. reflexivity. }
    rewrite Hc in Hs. exact Hs.
  - intros w x Hx. exact (proj1 (proj2 (proj2 (orderly_graphs_well c acts Hm Ho)) w x Hx)).
Qed.
Print Assumptions C89_nobody_given_up.
(** The two nodes of a graph run for five seconds each at the only worker. The scheduler's
    timeout is five seconds, the worker's six; delays are one second, and the heartbeat loop
    runs every three. *)
Example C89_example : 2 * 1 + 3 <= c_timeout tight_cfg ∧ patient (2 * 1 + 3) long_graph ∧ one_clock long_graph ∧ punctual_run 1 3 tight_cfg long_graph ∧ calm_graphs_run tight_cfg long_graph ∧
  CSet (FGraph "g" 0%nat) (Value "hfxy") ∈ history_of (execute tight_cfg long_graph) "cl" ∧ CSet (FGraph "g" 1%nat) (Value "fx") ∈ history_of (execute tight_cfg long_graph) "cl".
Proof.
  destruct long_graph_ok as (H1 & H2 & H3). split; [vm_compute; discriminate|]. split; [apply patient_graph; reflexivity|]. split; [exact H3|]. split; [exact H1|]. split; [exact H2|]. split; by_compute.
Qed.
