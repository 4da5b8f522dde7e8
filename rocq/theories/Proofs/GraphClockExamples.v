(** Deciding whether an execution with graphs is punctual, for the example of C89. *)

From Verif.Model Require Import Base Message Client Worker Processor Scheduler System.
From Verif.Spec Require Import SchedulerSpec SystemSpec FlowSpec TrafficSpec GraphFlowSpec PunctualSpec.
From Verif.Proofs Require Import BaseProofs SystemProofs SystemExamples FlowClient FlowSystem FlowExamples ClockExamples GraphFlowExamples.

Definition gcheck_calm (y : system) (a : action) : bool :=
  match a with
  | SchedulerDoes _ _ EWorkers => negb (undispatched (s_log (y_sched y)))
  | AgentDoes _ _ WTimeout => true
  | _ => gcheck y a
  end.
Lemma gcheck_calm_ok y a : gcheck_calm y a = true → calm_graphs y a.
Proof.
  destruct a as [c|w death now retention|c e|c m loads|now codes e|from m now codes|w now e|w m now|w m now|w now e|w m loads now]; try exact (gcheck_orderly y _).
  - destruct e; try exact (gcheck_orderly y _). cbn. intros ->%negb_true_iff. reflexivity.
  - destruct e; try exact (gcheck_orderly y _). done.
Qed.
Fixpoint gchecks_all (d h : Z) (before : list action) (y : system) (acts : list action) : bool :=
  match acts with
  | [] => true
  | a :: acts => check_punctual d h before y a && gcheck_calm y a && check_clock before a && gchecks_all d h (before ++ [a]) (act y a) acts
  end.
Lemma gchecks_all_ok d h c acts : gchecks_all d h [] (boot c) acts = true → punctual_run d h c acts ∧ calm_graphs_run c acts ∧ one_clock acts.
Proof.
  intros H.
  assert (Hgo : ∀ before a after, acts = before ++ a :: after → check_punctual d h before (execute c before) a = true ∧ gcheck_calm (execute c before) a = true ∧ check_clock before a = true).
  { assert (Hgo : ∀ acts past y before a after, acts = before ++ a :: after → gchecks_all d h past y acts = true →
      check_punctual d h (past ++ before) (foldl act y before) a = true ∧ gcheck_calm (foldl act y before) a = true ∧ check_clock (past ++ before) a = true).
    { clear. intros acts past y before. revert acts past y. induction before as [|b before IH]; intros acts past y a after -> HH; cbn [gchecks_all app] in HH; apply andb_true_iff in HH as [[[H1 H2]%andb_true_iff H3]%andb_true_iff H4].
      - rewrite app_nil_r. auto.
      - cbn [foldl]. destruct (IH _ (past ++ [b]) (act y b) a after eq_refl H4) as (G1 & G2 & G3). rewrite <- app_assoc in G1, G3. auto. }
    intros before a after E. exact (Hgo acts [] _ _ _ _ E H). }
  split; [|split].
  - intros before a after E. apply check_punctual_ok, (Hgo _ _ _ E).
  - intros before a after E. apply gcheck_calm_ok, (Hgo _ _ _ E).
  - intros before a after now E Em. destruct (Hgo _ _ _ E) as (_ & _ & HH). unfold check_clock in HH. rewrite Em in HH. apply andb_true_iff in HH as [H1 H2].
    split; [apply Z.ltb_lt, H1|]. intros t Ht. rewrite forallb_forall in H2. apply elem_of_list_In in Ht. apply Z.leb_le, (H2 t Ht).
Qed.

(** Running the beginning of a task at time [n]. *)
Definition begin_at (n : Z) (k : task) (name content : bytes) : list action :=
  [ToAgent "w" (MTask k) n; AgentDoes "w" n WLoop; AgentDoes "w" n WLoop; AgentDoes "w" n WLoop;
   ToProcessor "w" (MTask k) true n; ToAgentInside "w" (MFunctionRequest FnRequest (task_function k) "" "") n;
   ToScheduler "w" (MFunctionRequest FnRequest (task_function k) "" "") n [];
   ToAgent "w" (MFunctionResponse FnOK (task_function k) name content) n;
   ToProcessor "w" (MFunctionResponse FnOK (task_function k) name content) true n; ProcessorDoes "w" n PLook].
Definition end_at (n : Z) (k : task) (v : bytes) : list action :=
  [ProcessorDoes "w" n (PRun (Returned v) 5); ToAgentInside "w" (MTaskResult (task_id k) Success 5 v) n; ToScheduler "w" (MTaskResult (task_id k) Success 5 v) n []].
(** A graph whose nodes run one after the other, for five seconds each, with a timeout of five seconds. *)
Definition long_graph : list action :=
  [NewClient "cl"; NewWorker "w" 6 1 3600; ToAgentInside "w" (MTaskResult "" Success 0 "") 1] ++ round_at 2 beat_free ++
  [UserDoes "cl" (KGraph the_graph 2); UserDoes "cl" (KGraphStep "g"); ToScheduler "cl" the_graph 5 []; SchedulerDoes 5 [] EGraph; SchedulerDoes 5 [] EDispatch] ++
  begin_at 5 (Task "a" "f" [ArgData "x"]) "fname" "body" ++ round_at 7 beat_busy ++ end_at 10 (Task "a" "f" [ArgData "x"]) "fx" ++
  [SchedulerDoes 10 [] EDispatch] ++ begin_at 10 (Task "b" "h" [ArgData "fx"; ArgData "y"]) "hname" "code" ++ round_at 12 beat_busy ++ end_at 15 (Task "b" "h" [ArgData "fx"; ArgData "y"]) "hfxy" ++
  [ToClient "cl" (MFunctionResponse FnOK "f" "" "") true; ToClient "cl" (MFunctionResponse FnOK "h" "" "") true;
   ToClient "cl" (MTaskEcho "a" SubmitOK) true; ToClient "cl" (MTaskEcho "b" SubmitOK) true; ToClient "cl" (MGraphTaskResult "g" Success ["hfxy"; "fx"]) true].
Lemma long_graph_ok : punctual_run 1 3 tight_cfg long_graph ∧ calm_graphs_run tight_cfg long_graph ∧ one_clock long_graph.
Proof. apply gchecks_all_ok. vm_compute. reflexivity. Qed.
Lemma patient_graph n : n < 6 → patient n long_graph.
Proof.
  intros Hn w de now r Hi. unfold long_graph, round_at, begin_at, end_at in Hi. cbn [app] in Hi. repeat (apply elem_of_cons in Hi as [Hi|Hi]; [try discriminate Hi; injection Hi as -> -> -> ->; exact Hn|]). by apply elem_of_nil in Hi.
Qed.
