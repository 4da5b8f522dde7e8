(** Deciding whether an execution is orderly, for the examples of C81 and C82. *)

From Verif.Model Require Import Base Message Client Worker Processor Scheduler System.
From Verif.Spec Require Import SchedulerSpec SystemSpec FlowSpec.
From Verif.Proofs Require Import BaseProofs SystemProofs SystemExamples FlowClient FlowSystem.

Definition nextb (q : list message) (m : message) : bool := bool_decide (head q = Some m).
Definition check (y : system) (a : action) : bool :=
  match a with
  | NewClient c => utf8 c
  | NewWorker w _ _ _ => utf8 w
  | UserDoes c (KSubmit t f name _ _) => utf8 name && forallb (λ p, bool_decide (t ∉ subs p.2.2)) (map_to_list (y_clients y))
  | UserDoes c (KStep t) => true
  | UserDoes c _ => false
  | ToClient c m loads => nextb (to_client y c) m && loads && match y_clients y !! c with Some x => bool_decide (k_flight x.1 = ∅) | None => true end
  | SchedulerDoes now _ EWorkers => negb (undispatched (s_log (y_sched y))) &&
      forallb (λ w, match last_beat w (s_log (y_sched y)) with Some (t, _) => negb (c_timeout (s_cfg (y_sched y)) <? now - t) | None => true end) (elements (registered (s_log (y_sched y))))
  | SchedulerDoes _ _ _ => true
  | ToScheduler from m _ _ => nextb (to_scheduler y from) m && negb (undispatched (s_log (y_sched y)))
  | AgentDoes w now WTimeout => match y_workers y !! w with Some x => now - a_seen (n_agent x) <? a_death (n_agent x) | None => true end
  | AgentDoes w _ _ => true
  | ToAgent w m _ => match y_workers y !! w with Some x => nextb (to_agent y w x) m | None => true end
  | ToAgentInside w m _ => match y_workers y !! w with Some x => nextb (from_processor x) m | None => true end
  | ProcessorDoes w _ (PRun o _) => bool_decide (o ≠ Ended)
  | ProcessorDoes _ _ _ => true
  | ToProcessor w m loads _ => loads && match y_workers y !! w with Some x => nextb (to_processor x) m | None => true end
  end.
Lemma nextb_next q m : nextb q m = true → next q m.
Proof. apply bool_decide_eq_true_1. Qed.
Lemma check_orderly y a : check y a = true → orderly y a.
Proof.
  destruct a as [c|w death now retention|c e|c m loads|now codes e|from m now codes|w now e|w m now|w m now|w now e|w m loads now]; cbn [check orderly]; auto.
  - destruct e; try done. intros [Hn Hf]%andb_true_iff. split; [exact Hn|]. intros c' f' name' content' args' Hi. rewrite forallb_forall in Hf.
    unfold history_of in Hi. destruct (y_clients y !! c') as [x|] eqn:Hx; [|by apply elem_of_nil in Hi].
    specialize (Hf (c', x)). rewrite <- elem_of_list_In, elem_of_map_to_list in Hf. specialize (Hf Hx). cbn [snd] in Hf. rewrite bool_decide_eq_true in Hf. apply Hf, subs_in. eauto 10.
  - intros [[Hn ->]%andb_true_iff Hf]%andb_true_iff. split; [apply nextb_next, Hn|]. split; [reflexivity|]. intros x Hx. rewrite Hx in Hf. exact (bool_decide_eq_true_1 _ Hf).
  - destruct e; auto. intros [Hu Hf]%andb_true_iff. split; [by apply negb_true_iff in Hu|]. intros w (Hr & t & b & Hl & Ht). rewrite forallb_forall in Hf.
    specialize (Hf w). rewrite <- elem_of_list_In, elem_of_elements, Hl in Hf. specialize (Hf Hr). apply negb_true_iff, Z.ltb_ge in Hf. lia.
  - intros [Hn Hu]%andb_true_iff. split; [apply nextb_next, Hn|by apply negb_true_iff in Hu].
  - destruct e; auto. intros Hf x Hx. rewrite Hx in Hf. apply Z.ltb_lt, Hf.
  - intros Hf x Hx. rewrite Hx in Hf. apply nextb_next, Hf.
  - intros Hf x Hx. rewrite Hx in Hf. apply nextb_next, Hf.
  - destruct e; auto. intros Hf. exact (bool_decide_eq_true_1 _ Hf).
  - intros [-> Hf]%andb_true_iff. split; [reflexivity|]. intros x Hx. rewrite Hx in Hf. apply nextb_next, Hf.
Qed.
Fixpoint checks (y : system) (acts : list action) : bool :=
  match acts with [] => true | a :: acts => check y a && checks (act y a) acts end.
Lemma checks_orderly c acts : checks (boot c) acts = true → orderly_run c acts.
Proof.
  assert (Hgo : ∀ acts y before a after, acts = before ++ a :: after → checks y acts = true → orderly (foldl act y before) a).
  { clear. intros acts y before. revert acts y. induction before as [|b before IH]; intros acts y a after -> [Ha Hr]%andb_true_iff; [apply check_orderly, Ha|]. cbn. eapply IH; [reflexivity|exact Hr]. }
  intros H before a after E. exact (Hgo _ _ _ _ _ E H).
Qed.

(** Two clients submit a task with the same function; one worker runs both. *)
Definition other_task : task := Task "u" "f" [ArgData "z"].
Definition course_begin : list action :=
  opening ++
  [ToAgent "w" MHeartbeatEcho 1; NewClient "dl";
   UserDoes "cl" (KSubmit "t" "f" "fname" "body" ["x"; "y"]); UserDoes "dl" (KSubmit "u" "f" "fname" "body" ["z"]);
   UserDoes "cl" (KStep "t"); UserDoes "dl" (KStep "u"); UserDoes "dl" (KStep "u");
   ToScheduler "cl" (MFunctionRequest FnAdd "f" "fname" "body") 1 []; UserDoes "cl" (KStep "t"); UserDoes "cl" (KStep "t");
   ToClient "cl" (MFunctionResponse FnOK "f" "" "") true; ToScheduler "cl" (MTask the_task) 1 []; SchedulerDoes 2 [] EDispatch;
   ToScheduler "dl" (MFunctionRequest FnAdd "f" "fname" "body") 1 []; UserDoes "dl" (KStep "u");
   ToClient "dl" (MFunctionResponse FnDuplicated "f" "" "") true; ToScheduler "dl" (MTask other_task) 1 []; SchedulerDoes 2 [] EDispatch;
   SchedulerDoes 3 [] EWorkers; SchedulerDoes 3 [] EFunctions; SchedulerDoes 3 [] EGraph; SchedulerDoes 3 [] EStatus;
   ToClient "cl" (MTaskEcho "t" SubmitOK) true; AgentDoes "w" 3 WTimeout].
Definition course : list action :=
  course_begin ++ take 4 (work the_task "fname" "body" "xy") ++ [ToAgent "w" (MTask other_task) 5] ++ drop 4 (work the_task "fname" "body" "xy") ++
  [AgentDoes "w" 5 WLoop; AgentDoes "w" 5 WLoop; AgentDoes "w" 5 WLoop;
   ToProcessor "w" (MTask other_task) true 5; ProcessorDoes "w" 5 PLook; ProcessorDoes "w" 6 (PRun (Raised "no") 5);
   ToAgentInside "w" (MTaskResult "u" Failed 5 "no") 6; ToScheduler "w" (MTaskResult "u" Failed 5 "no") 6 [];
   ToClient "cl" (MTaskResult "t" Success 5 "xy") true; ToClient "dl" (MTaskEcho "u" SubmitOK) true; ToClient "dl" (MTaskResult "u" Failed 5 "no") true].
Lemma course_orderly : orderly_run cfg course.
Proof. apply checks_orderly. vm_compute. reflexivity. Qed.
Lemma course_begin_orderly : orderly_run cfg course_begin.
Proof. apply checks_orderly. vm_compute. reflexivity. Qed.

(** Worker [w] is busy and silent for longer than the timeout: worker [v] gets its task too. *)
Definition late_worker : list action :=
  opening ++
  [ToAgent "w" MHeartbeatEcho 1; UserDoes "cl" (KSubmit "t" "f" "fname" "body" ["x"; "y"]); UserDoes "cl" (KStep "t");
   ToScheduler "cl" (MFunctionRequest FnAdd "f" "fname" "body") 1 []; UserDoes "cl" (KStep "t"); UserDoes "cl" (KStep "t");
   ToClient "cl" (MFunctionResponse FnOK "f" "" "") true; ToScheduler "cl" (MTask the_task) 1 []; SchedulerDoes 2 [] EDispatch] ++
  take 10 (work the_task "fname" "body" "xy") ++
  [NewWorker "v" 60 90 3600; ToAgentInside "v" (MTaskResult "" Success 0 "") 90; AgentDoes "v" 90 (WHeartbeat 1 2 3 4); ToScheduler "v" heart 90 [];
   SchedulerDoes 100 [] EWorkers; SchedulerDoes 100 [] EDispatch;
   ToAgent "v" MHeartbeatEcho 100; ToAgent "v" (MTask the_task) 100; AgentDoes "v" 100 WLoop; AgentDoes "v" 100 WLoop; AgentDoes "v" 100 WLoop;
   ToProcessor "v" (MTask the_task) true 100; ToAgentInside "v" (MFunctionRequest FnRequest "f" "" "") 100; ToScheduler "v" (MFunctionRequest FnRequest "f" "" "") 100 [];
   ToAgent "v" (MFunctionResponse FnOK "f" "fname" "body") 100; ToProcessor "v" (MFunctionResponse FnOK "f" "fname" "body") true 100; ProcessorDoes "v" 100 PLook;
   ProcessorDoes "w" 100 (PRun (Returned "xy") 5); ProcessorDoes "v" 101 (PRun (Returned "xy") 5);
   ToAgentInside "v" (MTaskResult "t" Success 5 "xy") 101; ToScheduler "v" (MTaskResult "t" Success 5 "xy") 101 []; ToClient "cl" (MTaskEcho "t" SubmitOK) true; ToClient "cl" (MTaskResult "t" Success 5 "xy") true].
Fixpoint checks_but (y : system) (acts : list action) : bool :=
  match acts with [] => true | a :: acts => (match a with SchedulerDoes _ _ EWorkers => true | _ => check y a end) && checks_but (act y a) acts end.
Lemma late_worker_orderly before a after : late_worker = before ++ a :: after → orderly (execute cfg before) a ∨ ∃ now codes, a = SchedulerDoes now codes EWorkers.
Proof.
  assert (Hgo : ∀ acts y before a after, acts = before ++ a :: after → checks_but y acts = true → orderly (foldl act y before) a ∨ ∃ now codes, a = SchedulerDoes now codes EWorkers).
  { clear. intros acts y before. revert acts y. induction before as [|b before IH]; intros acts y a after -> [Ha Hr]%andb_true_iff; [|cbn; eapply IH; [reflexivity|exact Hr]].
    destruct a as [| | | |now codes []| | | | | |]; try (left; apply check_orderly, Ha). right. eauto. }
  intros E. eapply Hgo; [exact E|]. vm_compute. reflexivity.
Qed.
