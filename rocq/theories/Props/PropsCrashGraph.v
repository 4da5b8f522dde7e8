(** * The system survives crashes of workers, with graphs: C95 *)

From Verif.Model Require Import Base Message Client Worker Processor Scheduler System.
From Verif.Spec Require Import SchedulerSpec SystemSpec FlowSpec TrafficSpec GraphFlowSpec CrashSpec CrashGraphSpec.
From Verif.Proofs Require Import SystemExamples FlowExamples GraphFlowExamples CrashGraph CrashGraphFinish CrashGraphExamples.

(** Users also submit graphs, no node of a graph fails, and workers die whenever they like:
    nobody else ends, not the scheduler, no client's connector, no other worker's agent and
    no other worker's processor. *)
Theorem C95_others_survive : ∀ c tr, c_max_waiting c < 0 → crash_graphs_run c tr → well_but (died tr) (state_after c tr).
Proof. intros c tr Hmax Hr. exact (gsurvives_well _ _ _ (gsurvives_run c tr Hmax Hr)). Qed.
Print Assumptions C95_others_survive.

(** As long as one worker is alive, and no processor of a live worker has lost or will lose the
    function of a node, the execution can go on, without new parts and new work, until every
    task and every target of every graph ever submitted has its value, whatever the calls of
    user code return or raise, as long as those for the nodes of graphs return. *)
Theorem C95_nothing_lost : ∀ c tr (verdict : task → outcome) w, c_max_waiting c < 0 → 1 <= c_queue_size c → 0 <= c_timeout c → (∀ k, verdict k ≠ Ended) →
  crash_graphs_run c tr → is_Some (y_workers (state_after c tr) !! w) → w ∉ died tr → nodes_intact_but (died tr) (state_after c tr) →
  (∀ k, of_graph (state_after c tr) (task_id k) → ∃ v, verdict k = Returned v) →
  ∃ more, crash_graphs_run c (tr ++ (Acts <$> more)) ∧ Forall no_news more ∧
    (∀ before a after, more = before ++ a :: after → as_decided verdict (state_after c (tr ++ (Acts <$> before))) a) ∧
    all_resolved (state_after c (tr ++ (Acts <$> more))) ∧ graphs_resolved (state_after c (tr ++ (Acts <$> more))).
Proof. exact crash_graphs_finish. Qed.
Print Assumptions C95_nothing_lost.

(** A worker dies that has the first node of a graph and the task of another client, and
    another worker is there. Nothing has a value, and the task may raise. *)
Example C95_example : c_max_waiting cfg < 0 ∧ 1 <= c_queue_size cfg ∧ 0 <= c_timeout cfg ∧ crash_graphs_run cfg graph_crash ∧ "w" ∈ died graph_crash ∧
  is_Some (y_workers (state_after cfg graph_crash) !! "v") ∧ "v" ∉ died graph_crash ∧ nodes_intact_but (died graph_crash) (state_after cfg graph_crash) ∧
  holder (s_log (y_sched (state_after cfg graph_crash))) !! "a" = Some "w" ∧ holder (s_log (y_sched (state_after cfg graph_crash))) !! "u" = Some "w" ∧ of_graph (state_after cfg graph_crash) "a" ∧
  (∃ verdict : task → outcome, (∀ k, verdict k ≠ Ended) ∧ (∀ k, of_graph (state_after cfg graph_crash) (task_id k) → ∃ v, verdict k = Returned v) ∧ verdict other_task = Raised "no") ∧
  ¬ all_resolved (state_after cfg graph_crash) ∧ ¬ graphs_resolved (state_after cfg graph_crash).
Proof.
  split; [done|]. split; [done|]. split; [done|]. split; [exact graph_crash_ok|]. split; [by_compute|]. split; [by_compute|]. split; [by_compute|].
  assert (Hi : nodes_intact_but (died graph_crash) (state_after cfg graph_crash)) by (apply intactb_but; vm_compute; reflexivity). split; [exact Hi|]. clear Hi.
  split; [vm_compute; reflexivity|]. split; [vm_compute; reflexivity|].
  assert (Ha : of_graph (state_after cfg graph_crash) "a") by (exists "cl", the_graph, 2%nat; split; [by_compute|cbn; right; by_compute]). split; [exact Ha|]. clear Ha.
  assert (Hu : graphedb (state_after cfg graph_crash) "u" = false) by (vm_compute; reflexivity).
  assert (Hd : CIn (KSubmit "u" "f" "fname" "body" ["z"]) ∈ history_of (state_after cfg graph_crash) "dl") by by_compute.
  assert (Hg : CIn (KGraph the_graph 2) ∈ history_of (state_after cfg graph_crash) "cl") by by_compute.
  assert (Hn : ∀ c, c = "cl" ∨ c = "dl" → existsb (λ e, match e with CSet _ _ => true | _ => false end) (history_of (state_after cfg graph_crash) c) = false) by (intros c [-> | ->]; vm_compute; reflexivity).
  revert Hu Hd Hg Hn. generalize (state_after cfg graph_crash). intros y Hu Hd Hg Hn.
  assert (Hno : ∀ c f v, c = "cl" ∨ c = "dl" → CSet f v ∉ history_of y c).
  { intros c f v Hc Hv. specialize (Hn c Hc). rewrite <- not_true_iff_false in Hn. apply Hn, existsb_exists. exists (CSet f v). split; [apply elem_of_list_In, Hv|reflexivity]. }
  split.
  { exists (λ k, if String.eqb (task_id k) "u" then Raised "no" else Returned "v"). split; [intros k; by destruct (String.eqb _ _)|]. split; [|reflexivity].
    intros k Hk%graphedb_spec. destruct (String.eqb_spec (task_id k) "u") as [E|]; [rewrite E in Hk; congruence|eauto]. }
  split.
  - intros H. destruct (H _ _ _ _ _ _ Hd) as [v Hv]. exact (Hno "dl" _ _ ltac:(auto) Hv).
  - intros H. destruct (H "cl" _ _ _ _ _ 0%nat Hg ltac:(lia)) as [v Hv]. exact (Hno "cl" _ _ ltac:(auto) Hv).
Qed.
(** One way in which it goes on. *)
Example C95_example_recovery : crash_graphs_run cfg (graph_crash ++ (Acts <$> graph_recovery)) ∧ Forall no_news graph_recovery ∧
  CSet (FGraph "g" 0%nat) (Value "hfxy") ∈ history_of (state_after cfg (graph_crash ++ (Acts <$> graph_recovery))) "cl" ∧
  CSet (FTask "u") (Error "no") ∈ history_of (state_after cfg (graph_crash ++ (Acts <$> graph_recovery))) "dl".
Proof. split; [exact graph_recovery_ok|]. split; [repeat constructor|]. split; by_compute. Qed.
