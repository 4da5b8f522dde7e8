(** Deciding whether an execution is punctual, for the examples of C85. *)

From Verif.Model Require Import Base Message Client Worker Processor Scheduler System.
From Verif.Spec Require Import SchedulerSpec SystemSpec FlowSpec PunctualSpec.
From Verif.Proofs Require Import BaseProofs SystemProofs SystemExamples FlowClient FlowSystem FlowExamples.

Definition is_beat (m : message) : bool := match m with MHeartbeat _ => true | _ => false end.
Definition is_echo (m : message) : bool := match m with MHeartbeatEcho => true | _ => false end.
Definition check_punctual (d h : Z) (before : list action) (y : system) (a : action) : bool :=
  match moment a with
  | None => true
  | Some now => forallb (λ p,
      existsb (λ t, now - t <=? h) (rounds p.1 before) &&
      (negb (existsb is_beat (to_scheduler y p.1)) || match beat_sent_at (n_history p.2) with Some t => now - t <=? d | None => true end) &&
      (negb (existsb is_echo (to_agent y p.1 p.2)) || match last_beat p.1 (s_log (y_sched y)) with Some (t, _) => now - t <=? d | None => true end)) (map_to_list (y_workers y))
  end.
Lemma check_punctual_ok d h before y a : check_punctual d h before y a = true → punctual d h before y a.
Proof.
  unfold check_punctual. intros H now w x Em Hx. rewrite Em in H. rewrite forallb_forall in H. specialize (H (w, x)). rewrite <- elem_of_list_In, elem_of_map_to_list in H. specialize (H Hx). cbn [fst snd] in H.
  apply andb_true_iff in H as [[H1 H2]%andb_true_iff H3]. split; [|split].
  - apply existsb_exists in H1 as (t & Ht & Hl). exists t. split; [apply elem_of_list_In, Ht|]. apply Z.leb_le, Hl.
  - intros b t Hb Et. rewrite Et in H2. apply orb_true_iff in H2 as [H2|H2]; [|apply Z.leb_le, H2]. apply negb_true_iff, not_true_iff_false in H2. destruct H2. apply existsb_exists. eexists. split; [apply elem_of_list_In, Hb|reflexivity].
  - intros b t Hb Et. rewrite Et in H3. apply orb_true_iff in H3 as [H3|H3]; [|apply Z.leb_le, H3]. apply negb_true_iff, not_true_iff_false in H3. destruct H3. apply existsb_exists. eexists. split; [apply elem_of_list_In, Hb|reflexivity].
Qed.
Definition check_calm (y : system) (a : action) : bool :=
  match a with
  | SchedulerDoes _ _ EWorkers => negb (undispatched (s_log (y_sched y)))
  | AgentDoes _ _ WTimeout => true
  | _ => check y a
  end.
Lemma check_calm_ok y a : check_calm y a = true → calm_action y a.
Proof.
  destruct a as [c|w death now retention|c e|c m loads|now codes e|from m now codes|w now e|w m now|w m now|w now e|w m loads now]; try exact (check_orderly y _).
  - destruct e; try exact (check_orderly y _). cbn. intros ->%negb_true_iff. reflexivity.
  - destruct e; try exact (check_orderly y _). done.
Qed.
Definition check_clock (before : list action) (a : action) : bool :=
  match moment a with Some now => (0 <? now) && forallb (λ t, t <=? now) (omap moment before) | None => true end.

Fixpoint checks_all (d h : Z) (before : list action) (y : system) (acts : list action) : bool :=
  match acts with
  | [] => true
  | a :: acts => check_punctual d h before y a && check_calm y a && check_clock before a && checks_all d h (before ++ [a]) (act y a) acts
  end.
Lemma checks_all_ok d h c acts : checks_all d h [] (boot c) acts = true → punctual_run d h c acts ∧ calm_run c acts ∧ one_clock acts.
Proof.
  intros H.
  assert (Hgo : ∀ before a after, acts = before ++ a :: after → check_punctual d h before (execute c before) a = true ∧ check_calm (execute c before) a = true ∧ check_clock before a = true).
  { assert (Hgo : ∀ acts past y before a after, acts = before ++ a :: after → checks_all d h past y acts = true →
      check_punctual d h (past ++ before) (foldl act y before) a = true ∧ check_calm (foldl act y before) a = true ∧ check_clock (past ++ before) a = true).
    { clear. intros acts past y before. revert acts past y. induction before as [|b before IH]; intros acts past y a after -> HH; cbn [checks_all app] in HH; apply andb_true_iff in HH as [[[H1 H2]%andb_true_iff H3]%andb_true_iff H4].
      - rewrite app_nil_r. auto.
      - cbn [foldl]. destruct (IH _ (past ++ [b]) (act y b) a after eq_refl H4) as (G1 & G2 & G3). rewrite <- app_assoc in G1, G3. auto. }
    intros before a after E. exact (Hgo acts [] _ _ _ _ E H). }
  split; [|split].
  - intros before a after E. apply check_punctual_ok, (Hgo _ _ _ E).
  - intros before a after E. apply check_calm_ok, (Hgo _ _ _ E).
  - intros before a after now E Em. destruct (Hgo _ _ _ E) as (_ & _ & HH). unfold check_clock in HH. rewrite Em in HH. apply andb_true_iff in HH as [H1 H2].
    split; [apply Z.ltb_lt, H1|]. intros t Ht. rewrite forallb_forall in H2. apply elem_of_list_In in Ht. apply Z.leb_le, (H2 t Ht).
Qed.

(** Heartbeats of a worker that is free, and of one that has a task. *)
Definition beat_free : message := MHeartbeat (Heartbeat 1 2 3 4 0 0 true false false).
Definition beat_busy : message := MHeartbeat (Heartbeat 1 2 3 4 0 0 true true true).
(** One round of heartbeats with delays of one second, in which the scheduler looks for dead
    workers and the worker for a dead scheduler at the last moment. The worker runs its
    heartbeat loop once in vain, just before the answer comes. *)
Definition round_at (t : Z) (m : message) : list action :=
  [AgentDoes "w" t WTimeout; AgentDoes "w" t (WHeartbeat 1 2 3 4); SchedulerDoes (t + 1) [] EWorkers; ToScheduler "w" m (t + 1) [];
   AgentDoes "w" (t + 2) WTimeout; AgentDoes "w" (t + 2) (WHeartbeat 1 2 3 4); ToAgent "w" MHeartbeatEcho (t + 2); SchedulerDoes (t + 2) [] EWorkers].
Definition tight_cfg : config := Config (-1) 2 5 3600 1 2.
(** A task runs for ten seconds at a worker, with a timeout of five seconds. *)
Definition long_task (death : Z) : list action :=
  [NewClient "cl"; NewWorker "w" death 1 3600; ToAgentInside "w" (MTaskResult "" Success 0 "") 1] ++ round_at 2 beat_free ++
  [UserDoes "cl" (KSubmit "t" "f" "fname" "body" ["x"; "y"]); UserDoes "cl" (KStep "t");
   ToScheduler "cl" (MFunctionRequest FnAdd "f" "fname" "body") 5 []; UserDoes "cl" (KStep "t"); UserDoes "cl" (KStep "t");
   ToClient "cl" (MFunctionResponse FnOK "f" "" "") true; ToScheduler "cl" (MTask the_task) 5 []; SchedulerDoes 5 [] EDispatch;
   ToClient "cl" (MTaskEcho "t" SubmitOK) true;
   ToAgent "w" (MTask the_task) 5; AgentDoes "w" 5 WLoop; AgentDoes "w" 5 WLoop; AgentDoes "w" 5 WLoop;
   ToProcessor "w" (MTask the_task) true 5; ToAgentInside "w" (MFunctionRequest FnRequest "f" "" "") 5;
   ToScheduler "w" (MFunctionRequest FnRequest "f" "" "") 5 []; ToAgent "w" (MFunctionResponse FnOK "f" "fname" "body") 5;
   ToProcessor "w" (MFunctionResponse FnOK "f" "fname" "body") true 5; ProcessorDoes "w" 5 PLook] ++
  round_at 7 beat_busy ++ round_at 12 beat_busy ++
  [ProcessorDoes "w" 15 (PRun (Returned "xy") 10); ToAgentInside "w" (MTaskResult "t" Success 10 "xy") 15; ToScheduler "w" (MTaskResult "t" Success 10 "xy") 15 [];
   ToClient "cl" (MTaskResult "t" Success 10 "xy") true].
Lemma long_task_ok : punctual_run 1 3 tight_cfg (long_task 6) ∧ calm_run tight_cfg (long_task 6) ∧ one_clock (long_task 6).
Proof. apply checks_all_ok. vm_compute. reflexivity. Qed.
Lemma patient_long death n : n < death → patient n (long_task death).
Proof.
  intros Hn w de now r Hi. unfold long_task, round_at in Hi. cbn [app] in Hi. repeat (apply elem_of_cons in Hi as [Hi|Hi]; [try discriminate Hi; injection Hi as -> -> -> ->; exact Hn|]). by apply elem_of_nil in Hi.
Qed.

(** The same beginning, with a timeout or a patience that is one second shorter. *)
Definition short_cfg : config := Config (-1) 2 4 3600 1 2.
Definition two_rounds (death : Z) (n : nat) : list action :=
  [NewWorker "w" death 1 3600; ToAgentInside "w" (MTaskResult "" Success 0 "") 1] ++ round_at 2 beat_free ++ take n (round_at 7 beat_free).
Lemma two_rounds_ok : punctual_run 1 3 short_cfg (two_rounds 6 3) ∧ calm_run short_cfg (two_rounds 6 3) ∧ one_clock (two_rounds 6 3).
Proof. apply checks_all_ok. vm_compute. reflexivity. Qed.
Lemma two_rounds_ok' : punctual_run 1 3 tight_cfg (two_rounds 5 5) ∧ calm_run tight_cfg (two_rounds 5 5) ∧ one_clock (two_rounds 5 5).
Proof. apply checks_all_ok. vm_compute. reflexivity. Qed.
Lemma patient_rounds death n k : n < death → patient n (two_rounds death k).
Proof.
  intros Hn w de now r Hi. assert (Hi' : NewWorker w de now r ∈ [NewWorker "w" death 1 3600; ToAgentInside "w" (MTaskResult "" Success 0 "") 1] ++ round_at 2 beat_free ++ round_at 7 beat_free).
  { unfold two_rounds in Hi. rewrite !elem_of_app in Hi |- *. destruct Hi as [Hi|[Hi|Hi]]; auto. right; right. rewrite <- (take_drop k (round_at 7 beat_free)). apply elem_of_app. auto. }
  unfold round_at in Hi'. cbn [app] in Hi'. repeat (apply elem_of_cons in Hi' as [Hi'|Hi']; [try discriminate Hi'; injection Hi' as -> -> -> ->; exact Hn|]). by apply elem_of_nil in Hi'.
Qed.
