(** Deciding whether an execution with graphs and crashes is as in CrashGraphSpec.v, for the examples of C95. *)

From Verif.Model Require Import Base Message Client Worker Processor Scheduler System.
From Verif.Spec Require Import SchedulerSpec SystemSpec FlowSpec TrafficSpec GraphFlowSpec CrashSpec CrashGraphSpec.
From Verif.Proofs Require Import BaseProofs SystemExamples FlowExamples GraphFlowExamples CrashExamples.

Definition check_crash_graphs (dead : gset bytes) (y : system) (a : action) : bool :=
  match a with
  | SchedulerDoes now _ EWorkers => negb (undispatched (s_log (y_sched y))) &&
      forallb (λ w, match last_beat w (s_log (y_sched y)) with Some (t, _) => negb (c_timeout (s_cfg (y_sched y)) <? now - t) || bool_decide (w ∈ dead) | None => true end) (elements (registered (s_log (y_sched y))))
  | ToScheduler from _ _ _ => gcheck y a && (bool_decide (from ∉ dead) || bool_decide (LDisconnected from ∉ s_log (y_sched y)))
  | AgentDoes w _ _ | ToAgent w _ _ | ToAgentInside w _ _ | ProcessorDoes w _ _ | ToProcessor w _ _ _ => bool_decide (w ∉ dead) && gcheck y a
  | _ => gcheck y a
  end.
Lemma check_crash_graphs_orderly dead y a : check_crash_graphs dead y a = true → orderly_graphs_but dead y a.
Proof.
  destruct a as [c|w death now retention|c e|c m loads|now codes e|from m now codes|w now e|w m now|w m now|w now e|w m loads now]; cbn [check_crash_graphs orderly_graphs_but];
    try exact (gcheck_orderly y _); try (intros [Hd%bool_decide_eq_true_1 Hc]%andb_true_iff; split; [exact Hd|exact (gcheck_orderly y _ Hc)]).
  - destruct e; try exact (gcheck_orderly y _). intros [Hu Hf]%andb_true_iff. split; [by apply negb_true_iff in Hu|]. intros w (Hr & t & b & Hl & Ht). rewrite forallb_forall in Hf.
    specialize (Hf w). rewrite <- elem_of_list_In, elem_of_elements, Hl in Hf. specialize (Hf Hr). apply orb_true_iff in Hf as [Hf|Hf]; [apply negb_true_iff, Z.ltb_ge in Hf; lia|exact (bool_decide_eq_true_1 _ Hf)].
  - intros [Hc Hd]%andb_true_iff. split; [exact (gcheck_orderly y _ Hc)|]. intros Hi. apply orb_true_iff in Hd as [Hd|Hd]; apply bool_decide_eq_true_1 in Hd; [done|exact Hd].
Qed.
Fixpoint checks_crash_graphs (dead : gset bytes) (y : system) (tr : list incident) : bool :=
  match tr with
  | [] => true
  | Acts a :: tr => check_crash_graphs dead y a && checks_crash_graphs dead (act y a) tr
  | Dies w :: tr => bool_decide (is_Some (y_workers y !! w)) && checks_crash_graphs (dead ∪ {[w]}) y tr
  end.
Lemma checks_crash_graphs_run c tr : checks_crash_graphs ∅ (boot c) tr = true → crash_graphs_run c tr.
Proof.
  assert (Hgo : ∀ before tr dead y i after, tr = before ++ i :: after → checks_crash_graphs dead y tr = true →
    match i with Acts a => orderly_graphs_but (dead ∪ died before) (foldl act y (actions before)) a | Dies w => is_Some (y_workers (foldl act y (actions before)) !! w) end).
  { clear. induction before as [|j before IH]; intros tr dead y i after -> Hc.
    - cbn. replace (dead ∪ ∅) with dead by set_solver. destruct i as [a|w]; apply andb_true_iff in Hc as [Hc _]; [apply check_crash_graphs_orderly, Hc|exact (bool_decide_eq_true_1 _ Hc)].
    - destruct j as [a|w]; cbn in Hc; apply andb_true_iff in Hc as [_ Hc]; specialize (IH _ _ _ i after eq_refl Hc); [exact IH|].
      change (died (Dies w :: before)) with ({[w]} ∪ died before). change (actions (Dies w :: before)) with (actions before). rewrite (assoc_L (∪)). exact IH. }
  intros H before i after E. specialize (Hgo _ _ _ _ _ _ E H). rewrite (left_id_L ∅ (∪)) in Hgo. exact Hgo.
Qed.

(** Worker [w] has a node of a graph and a task of another client when it dies. Worker [v] comes ... *)
Definition graph_crash : list incident :=
  (Acts <$> graph_begin) ++ Dies "w" ::
  (Acts <$> [NewWorker "v" 60 90 3600; ToAgentInside "v" (MTaskResult "" Success 0 "") 90; AgentDoes "v" 90 (WHeartbeat 1 2 3 4); ToScheduler "v" heart 90 []; ToAgent "v" MHeartbeatEcho 90]).
Lemma graph_crash_ok : crash_graphs_run cfg graph_crash.
Proof. apply checks_crash_graphs_run. vm_compute. reflexivity. Qed.
Lemma intactb_but dead y : intactb y = true → nodes_intact_but dead y.
Proof. intros H%intactb_ok w x Hx _. exact (H w x Hx). Qed.
Definition by_v (k : task) (name content : bytes) (o : outcome) (m : message) : list action :=
  [ToProcessor "v" (MTask k) true 101; ToAgentInside "v" (MFunctionRequest FnRequest (task_function k) "" "") 101; ToScheduler "v" (MFunctionRequest FnRequest (task_function k) "" "") 101 [];
   ToAgent "v" (MFunctionResponse FnOK (task_function k) name content) 101; ToProcessor "v" (MFunctionResponse FnOK (task_function k) name content) true 101;
   ProcessorDoes "v" 101 PLook; ProcessorDoes "v" 102 (PRun o 5); ToAgentInside "v" m 102; ToScheduler "v" m 102 []].
Definition v_loops : list action := [AgentDoes "v" 100 WLoop; AgentDoes "v" 100 WLoop; AgentDoes "v" 100 WLoop].
(** ... and takes over: first the node, then the task, then the second node. *)
Definition graph_recovery : list action :=
 [SchedulerDoes 100 [] EWorkers; SchedulerDoes 100 [] EDispatch; SchedulerDoes 100 [] EDispatch;
  ToAgent "v" (MTask (Task "a" "f" [ArgData "x"])) 100; ToAgent "v" (MTask other_task) 100] ++ v_loops ++ by_v (Task "a" "f" [ArgData "x"]) "fname" "body" (Returned "fx") (MTaskResult "a" Success 5 "fx") ++
 [SchedulerDoes 102 [] EDispatch; SchedulerDoes 102 [] EDispatch] ++ v_loops ++
 [ToProcessor "v" (MTask other_task) true 103; ProcessorDoes "v" 103 PLook; ProcessorDoes "v" 103 (PRun (Raised "no") 5); ToAgentInside "v" (MTaskResult "u" Failed 5 "no") 103; ToScheduler "v" (MTaskResult "u" Failed 5 "no") 103 [];
  ToAgent "v" (MTask (Task "b" "h" [ArgData "fx"; ArgData "y"])) 103] ++ v_loops ++ by_v (Task "b" "h" [ArgData "fx"; ArgData "y"]) "hname" "code" (Returned "hfxy") (MTaskResult "b" Success 5 "hfxy") ++
  [ToClient "cl" (MTaskEcho "a" SubmitOK) true; ToClient "cl" (MTaskEcho "b" SubmitOK) true; ToClient "cl" (MGraphTaskResult "g" Success ["hfxy"; "fx"]) true;
   ToClient "dl" (MTaskEcho "u" SubmitOK) true; ToClient "dl" (MTaskResult "u" Failed 5 "no") true].
Lemma graph_recovery_ok : crash_graphs_run cfg (graph_crash ++ (Acts <$> graph_recovery)).
Proof. apply checks_crash_graphs_run. vm_compute. reflexivity. Qed.
