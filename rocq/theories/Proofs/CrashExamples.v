(** Deciding whether an execution with crashes is as in CrashSpec.v, for the examples of C94. *)

From Verif.Model Require Import Base Message Client Worker Processor Scheduler System.
From Verif.Spec Require Import SchedulerSpec SystemSpec FlowSpec CrashSpec.
From Verif.Proofs Require Import BaseProofs SystemExamples FlowExamples.

Definition check_crash (dead : gset bytes) (y : system) (a : action) : bool :=
  match a with
  | SchedulerDoes now _ EWorkers => negb (undispatched (s_log (y_sched y))) &&
      forallb (λ w, match last_beat w (s_log (y_sched y)) with Some (t, _) => negb (c_timeout (s_cfg (y_sched y)) <? now - t) || bool_decide (w ∈ dead) | None => true end) (elements (registered (s_log (y_sched y))))
  | ToScheduler from _ _ _ => check y a && (bool_decide (from ∉ dead) || bool_decide (LDisconnected from ∉ s_log (y_sched y)))
  | AgentDoes w _ _ | ToAgent w _ _ | ToAgentInside w _ _ | ProcessorDoes w _ _ | ToProcessor w _ _ _ => bool_decide (w ∉ dead) && check y a
  | _ => check y a
  end.
Lemma check_crash_orderly dead y a : check_crash dead y a = true → orderly_but dead y a.
Proof.
  destruct a as [c|w death now retention|c e|c m loads|now codes e|from m now codes|w now e|w m now|w m now|w now e|w m loads now]; cbn [check_crash orderly_but];
    try apply check_orderly; try (intros [Hd%bool_decide_eq_true_1 Hc]%andb_true_iff; split; [exact Hd|apply check_orderly, Hc]).
  - destruct e; try apply check_orderly. intros [Hu Hf]%andb_true_iff. split; [by apply negb_true_iff in Hu|]. intros w (Hr & t & b & Hl & Ht). rewrite forallb_forall in Hf.
    specialize (Hf w). rewrite <- elem_of_list_In, elem_of_elements, Hl in Hf. specialize (Hf Hr). apply orb_true_iff in Hf as [Hf|Hf]; [apply negb_true_iff, Z.ltb_ge in Hf; lia|exact (bool_decide_eq_true_1 _ Hf)].
  - intros [Hc Hd]%andb_true_iff. split; [apply check_orderly, Hc|]. intros Hi. apply orb_true_iff in Hd as [Hd|Hd]; apply bool_decide_eq_true_1 in Hd; [done|exact Hd].
Qed.
Fixpoint checks_crash (dead : gset bytes) (y : system) (tr : list incident) : bool :=
  match tr with
  | [] => true
  | Acts a :: tr => check_crash dead y a && checks_crash dead (act y a) tr
  | Dies w :: tr => bool_decide (is_Some (y_workers y !! w)) && checks_crash (dead ∪ {[w]}) y tr
  end.
Lemma checks_crash_run c tr : checks_crash ∅ (boot c) tr = true → crash_run c tr.
Proof.
  assert (Hgo : ∀ before tr dead y i after, tr = before ++ i :: after → checks_crash dead y tr = true →
    match i with Acts a => orderly_but (dead ∪ died before) (foldl act y (actions before)) a | Dies w => is_Some (y_workers (foldl act y (actions before)) !! w) end).
  { clear. induction before as [|j before IH]; intros tr dead y i after -> Hc.
    - cbn. replace (dead ∪ ∅) with dead by set_solver. destruct i as [a|w]; apply andb_true_iff in Hc as [Hc _]; [apply check_crash_orderly, Hc|exact (bool_decide_eq_true_1 _ Hc)].
    - destruct j as [a|w]; cbn in Hc; apply andb_true_iff in Hc as [_ Hc]; specialize (IH _ _ _ i after eq_refl Hc); [exact IH|].
      change (died (Dies w :: before)) with ({[w]} ∪ died before). change (actions (Dies w :: before)) with (actions before). rewrite (assoc_L (∪)). exact IH. }
  intros H before i after E. specialize (Hgo _ _ _ _ _ _ E H). rewrite (left_id_L ∅ (∪)) in Hgo. exact Hgo.
Qed.

(** Worker [w] dies in the middle of a task. Worker [v] comes ... *)
Definition crash_begin : list incident :=
  Acts <$> opening ++
  [ToAgent "w" MHeartbeatEcho 1; UserDoes "cl" (KSubmit "t" "f" "fname" "body" ["x"; "y"]); UserDoes "cl" (KStep "t");
   ToScheduler "cl" (MFunctionRequest FnAdd "f" "fname" "body") 1 []; UserDoes "cl" (KStep "t"); UserDoes "cl" (KStep "t");
   ToClient "cl" (MFunctionResponse FnOK "f" "" "") true; ToScheduler "cl" (MTask the_task) 1 []; SchedulerDoes 2 [] EDispatch] ++
  take 10 (work the_task "fname" "body" "xy").
Definition crash : list incident :=
  crash_begin ++ Dies "w" ::
  (Acts <$> [NewWorker "v" 60 90 3600; ToAgentInside "v" (MTaskResult "" Success 0 "") 90; AgentDoes "v" 90 (WHeartbeat 1 2 3 4); ToScheduler "v" heart 90 []]).
(** ... and takes over. *)
Definition recovery : list action :=
  [SchedulerDoes 100 [] EWorkers; SchedulerDoes 100 [] EDispatch;
   ToAgent "v" MHeartbeatEcho 100; ToAgent "v" (MTask the_task) 100; AgentDoes "v" 100 WLoop; AgentDoes "v" 100 WLoop; AgentDoes "v" 100 WLoop;
   ToProcessor "v" (MTask the_task) true 100; ToAgentInside "v" (MFunctionRequest FnRequest "f" "" "") 100; ToScheduler "v" (MFunctionRequest FnRequest "f" "" "") 100 [];
   ToAgent "v" (MFunctionResponse FnOK "f" "fname" "body") 100; ToProcessor "v" (MFunctionResponse FnOK "f" "fname" "body") true 100; ProcessorDoes "v" 100 PLook;
   ProcessorDoes "v" 101 (PRun (Returned "xy") 5);
   ToAgentInside "v" (MTaskResult "t" Success 5 "xy") 101; ToScheduler "v" (MTaskResult "t" Success 5 "xy") 101 []; ToClient "cl" (MTaskEcho "t" SubmitOK) true; ToClient "cl" (MTaskResult "t" Success 5 "xy") true].
Lemma crash_ok : crash_run cfg crash.
Proof. apply checks_crash_run. vm_compute. reflexivity. Qed.
Lemma recovery_ok : crash_run cfg (crash ++ (Acts <$> recovery)).
Proof. apply checks_crash_run. vm_compute. reflexivity. Qed.
