(** * Properties C46-C52, C65-C68, C84: the worker

    [w_run identity death start rs] is the agent after an arbitrary sequence of
    messages and loop rounds: its state and its observable history.  [p_exec retention
    rs] is the same for the processor, for any interleaving of its two threads.
    Spec/WorkerSpec.v and Spec/ProcessorSpec.v say how histories are read. *)

From Verif.Model Require Import Base Message Worker Processor.
From Verif.Spec Require Import WorkerSpec ProcessorSpec CacheSpec.
From Verif.Proofs Require Import HistoryProofs WorkerProofs ProcessorProofs ProcessorCache WorkerExamples.

(** C46.  The processor gets a task only when it is up and has nothing to do. *)
Theorem C46_one_at_a_time :
  ∀ i d start rs, always one_at_a_time (w_run i d start rs).2.
Proof. exact one_at_a_time_run. Qed.
Print Assumptions C46_one_at_a_time.
(** It gets the oldest task waiting. *)
Theorem C46_in_order :
  ∀ i d start rs, always fresh (w_run i d start rs).2 → always oldest_first (w_run i d start rs).2.
Proof. exact oldest_first_run. Qed.
Print Assumptions C46_in_order.
(** Only a result for the current task is forwarded, unchanged. *)
Theorem C46_own_results :
  ∀ i d start rs, always genuine (w_run i d start rs).2.
Proof. exact genuine_run. Qed.
Print Assumptions C46_own_results.
(** When the processor is up and idle, the oldest waiting task is handed over within
    three rounds of the task loop. *)
Theorem C46_progress :
  ∀ i d start rs k rest n1 n2 n3,
  working (w_run i d start rs).2 → always fresh (w_run i d start rs).2 →
  up (w_run i d start rs).2 = true → busy (w_run i d start rs).2 = None → waiting (w_run i d start rs).2 = k :: rest →
  ∃ l, (w_run i d start (rs ++ [WRound n1 WLoop; WRound n2 WLoop; WRound n3 WLoop])).2 = (w_run i d start rs).2 ++ l ∧ WHand (MTask k) ∈ l.
Proof. exact progress. Qed.
Print Assumptions C46_progress.

(** Tasks a, b, c: a is handed over, c arrives, a is answered, b is handed over. *)
Example C46_example :
  always fresh (w_run "w" 30 0 wk_demo).2 ∧
  (w_run "w" 30 0 wk_demo).2 =
  [WStart; WIn 2 (WExt (MTask (fn "a"))); WIn 2 (WExt (MTask (fn "b"))); WIn 3 WLoop; WIn 1 (WProc (MTaskResult "" Success 0 ""));
   WIn 3 WLoop; WIn 3 WLoop; WHand (MTask (fn "a")); WIn 2 (WExt (MTask (fn "c"))); WIn 4 (WProc (MTaskResult "a" Success 5 "va"));
   WOut (MTaskResult "a" Success 5 "va"); WIn 3 WLoop; WIn 3 WLoop; WIn 3 WLoop; WHand (MTask (fn "b"))].
Proof. split; [apply fresh_check; vm_compute; reflexivity|vm_compute; reflexivity]. Qed.
Example C46_progress_example :
  let h := (w_run "w" 30 0 (take 4 wk_demo)).2 in
  up h = true ∧ busy h = None ∧ waiting h = [fn "a"; fn "b"] ∧
  working h ∧ always fresh h.
Proof.
  split; [vm_compute; reflexivity|]. split; [vm_compute; reflexivity|]. split; [vm_compute; reflexivity|].
  split; [apply working_run; vm_compute; reflexivity|apply fresh_check; vm_compute; reflexivity].
Qed.

(** C47.  While the worker lives, every task received is answered, given back, or still
    there: queued ([a_ids]), taken from the queue and waiting for the processor
    ([a_loop]), or running ([a_task]) -- each as often as it was received. *)
Theorem C47_conservation :
  ∀ i d start rs t, plain_results (w_run i d start rs).2 → working (w_run i d start rs).2 →
  let '(a, h) := w_run i d start rs in
  total (arrivals t) h =
    (total (answers_to t) h + total (give_backs t) h +
     count_occ string_dec (a_ids a ++ (task_id <$> match a_loop a with LGet => [] | LLock k | LInit k => [k] end)
                                   ++ (task_id <$> option_list (a_task a))) t)%nat.
Proof.
  intros i d start rs t Hp Hw. apply working_run in Hw. pose proof (held_run i d start rs t Hp Hw) as H.
  destruct (w_run i d start rs) as [a h]. exact H.
Qed.
Print Assumptions C47_conservation.
(** With distinct ids, in exactly one of these places: those not running are exactly
    the waiting tasks read off the history, in order of arrival, and no id occurs
    twice. *)
Theorem C47_one_place :
  ∀ i d start rs, always fresh (w_run i d start rs).2 → working (w_run i d start rs).2 →
  let '(a, h) := w_run i d start rs in
  task_id <$> waiting h = (task_id <$> match a_loop a with LGet => [] | LLock k | LInit k => [k] end) ++ a_ids a ∧
  busy h = a_task a ∧
  NoDup ((task_id <$> waiting h) ++ (task_id <$> option_list (busy h))).
Proof.
  intros i d start rs Hf Hw. apply working_run in Hw. pose proof (ord_run i d start rs Hf Hw) as [H1 H2]. pose proof (run_ainv i d start rs Hw) as Ha.
  destruct (w_run i d start rs) as [a h]; cbn [fst snd] in *. split; [|split].
  - rewrite H1, fmap_app. f_equal. apply queue_ids; [apply (i_id _ _ Ha)|]. intros t; apply (i_dom _ _ Ha).
  - symmetry. apply (i_task _ _ Ha).
  - rewrite <- fmap_app. exact H2.
Qed.
Print Assumptions C47_one_place.
(** Never more answers and give-backs than arrivals, dead or alive. *)
Theorem C47_at_most_once :
  ∀ i d start rs t, plain_results (w_run i d start rs).2 →
  (total (answers_to t) (w_run i d start rs).2 + total (give_backs t) (w_run i d start rs).2 <= total (arrivals t) (w_run i d start rs).2)%nat.
Proof. exact answered_run. Qed.
Print Assumptions C47_at_most_once.

Example C47_example :
  let '(a, h) := w_run "w" 30 0 wk_demo in
  plain_results h ∧ working h ∧ total (arrivals "a") h = 1%nat ∧ total (answers_to "a") h = 1%nat ∧ a_ids a = ["c"] ∧ a_task a = Some (fn "b").
Proof.
  cbn zeta. destruct (w_run "w" 30 0 wk_demo) as [a h] eqn:E. vm_compute in E. injection E as <- <-.
  split; [intros now t st d p H; repeat (apply elem_of_cons in H as [H|H]; [first [discriminate H|injection H; intros; subst; auto]|]); apply elem_of_nil in H as []|].
  split; [intros e H; repeat (apply elem_of_cons in H as [H|H]; [discriminate|]); apply elem_of_nil in H as []|].
  vm_compute. auto.
Qed.

(** C48.  A balance request gives back the oldest queued tasks and changes nothing
    else. *)
Theorem C48_balance :
  ∀ i d start rs now n, 0 <= n → working (w_run i d start rs).2 →
  let '(a, h) := w_run i d start rs in
  let '(a', h') := w_run i d start (rs ++ [WRound now (WExt (MBalanceRequest n))]) in
  h' = h ++ [WIn now (WExt (MBalanceRequest n)); WOut (MBalanceResponse (take (Z.to_nat n) (a_ids a)))] ∧
  a_ids a' = drop (Z.to_nat n) (a_ids a) ∧ a_loop a' = a_loop a ∧ a_task a' = a_task a.
Proof. exact balance_run. Qed.
Print Assumptions C48_balance.
(** What is given back is not run: each arrival is handed to the processor or given
    back, not both. *)
Theorem C48_not_run :
  ∀ i d start rs t,
  (total (handovers t) (w_run i d start rs).2 + total (give_backs t) (w_run i d start rs).2 <= total (arrivals t) (w_run i d start rs).2)%nat.
Proof. exact handed_run. Qed.
Print Assumptions C48_not_run.

Example C48_example :
  let rs := wk_demo ++ [wk "d"; wk "e"; WRound 6 (WExt (MBalanceRequest 2))] in
  working (w_run "w" 30 0 (wk_demo ++ [wk "d"; wk "e"])).2 ∧
  last (w_run "w" 30 0 rs).2 = Some (WOut (MBalanceResponse ["c"; "d"])) ∧ a_ids (w_run "w" 30 0 rs).1 = ["e"] ∧ a_task (w_run "w" 30 0 rs).1 = Some (fn "b").
Proof. split; [apply working_run; vm_compute; reflexivity|]. vm_compute. auto. Qed.

(** C49.  A cancel of a queued or running task is answered Canceled; of a task not
    there, NotFound. *)
Theorem C49_cancel_answer :
  ∀ i d start rs now t, working (w_run i d start rs).2 →
  let '(a, h) := w_run i d start rs in
  (w_run i d start (rs ++ [WRound now (WExt (MTaskCancel t))])).2 = h ++ WIn now (WExt (MTaskCancel t)) ::
    (if bool_decide (t ∈ a_ids a) then [WOut (MTaskResult t Canceled 0 "")]
     else if up h then
       match busy h with
       | Some k => if String.eqb (task_id k) t then [WStart; WOut (MTaskResult t Canceled 0 "")] else [WOut (MTaskResult t NotFound 0 "")]
       | None => [WCrash AttributeError]
       end
     else [WOut (MTaskResult t NotFound 0 "")]).
Proof. exact cancel_run. Qed.
Print Assumptions C49_cancel_answer.
(** While the worker lives, there are as many answers to cancels as cancels. *)
Theorem C49_each_cancel_answered :
  ∀ i d start rs t, plain_results (w_run i d start rs).2 → working (w_run i d start rs).2 →
  total (cancel_answers t) (w_run i d start rs).2 = total (cancels_of t) (w_run i d start rs).2.
Proof. intros i d start rs t Hp Hw. apply cancels_run; [exact Hp|]. apply working_run. exact Hw. Qed.
Print Assumptions C49_each_cancel_answered.
(** A task received once and answered Canceled has no other answer, ever. *)
Theorem C49_no_other_result :
  ∀ i d start rs t before dd p after st' d' p',
  plain_results (w_run i d start rs).2 → total (arrivals t) (w_run i d start rs).2 = 1%nat →
  (w_run i d start rs).2 = before ++ WOut (MTaskResult t Canceled dd p) :: after →
  WOut (MTaskResult t st' d' p') ∈ before ++ after → st' = NotFound.
Proof.
  intros i d start rs t before dd p after st' d' p' Hp Ha E Hin. pose proof (answered_run i d start rs t Hp) as H. rewrite Ha, E in H. clear Ha E Hp.
  apply elem_of_app in Hin.
  assert (Hs : st' = NotFound ∨ (1 <= answers_to t (WOut (MTaskResult t st' d' p')))%nat).
  { destruct st'; cbn; rewrite ?String.eqb_refl; auto. }
  destruct Hs as [->|Hs]; [reflexivity|exfalso].
  rewrite !total_app in H. change (?e :: ?l) with ([e] ++ l) in H. rewrite !total_app in H.
  assert (Ec : total (answers_to t) [WOut (MTaskResult t Canceled dd p)] = 1%nat) by (cbn; rewrite String.eqb_refl; reflexivity).
  rewrite Ec in H.
  assert (Hg : ∀ l, WOut (MTaskResult t st' d' p') ∈ l → (1 <= total (answers_to t) l)%nat).
  { intros l (l1 & l2 & ->)%elem_of_list_split. rewrite total_app. change (?e :: l2) with ([e] ++ l2). rewrite total_app. unfold total at 2. cbn [sum_list_with]. lia. }
  destruct Hin as [Hin|Hin]; apply Hg in Hin; lia.
Qed.
Print Assumptions C49_no_other_result.

Example C49_example :
  let rs := wk_demo ++ [wk_cancel "c"; wk_cancel "b"; wk_cancel "zzz"] in
  working (w_run "w" 30 0 rs).2 ∧
  drop 15 (w_run "w" 30 0 rs).2 =
    [WIn 5 (WExt (MTaskCancel "c")); WOut (MTaskResult "c" Canceled 0 "");
     WIn 5 (WExt (MTaskCancel "b")); WStart; WOut (MTaskResult "b" Canceled 0 "");
     WIn 5 (WExt (MTaskCancel "zzz")); WOut (MTaskResult "zzz" NotFound 0 "")].
Proof. split; [apply working_run; vm_compute; reflexivity|]. vm_compute. reflexivity. Qed.

(** A task taken from the queue and waiting for the processor: its cancel is answered
    NotFound, and it is run and answered Success all the same. *)
Theorem C49_limbo_refuted :
  ∃ rs k v, always fresh (w_run "w" 30 0 rs).2 ∧
  ∃ h1 h2 h3 h4 n1 n2, (w_run "w" 30 0 rs).2 =
    h1 ++ WIn n1 (WExt (MTask k)) :: h2 ++ WIn n2 (WExt (MTaskCancel (task_id k))) :: WOut (MTaskResult (task_id k) NotFound 0 "") ::
    h3 ++ WHand (MTask k) :: h4 ++ [WOut (MTaskResult (task_id k) Success 9 v)].
Proof.
  exists [wk "a"; wk_loop; wk_loop; wk_cancel "a"; wk_up; wk_loop; WRound 7 (WProc (MTaskResult "a" Success 9 "v"))], (fn "a"), "v".
  split; [apply fresh_check; vm_compute; reflexivity|].
  eexists [WStart], [WIn 3 WLoop; WIn 3 WLoop], [_; _], [_], _, _. vm_compute. reflexivity.
Qed.
Print Assumptions C49_limbo_refuted.
(** A cancel while the processor is up and idle, for example of a task that has just
    been answered, ends the worker. *)
Theorem C49_idle_refuted :
  ∃ rs t, always fresh (w_run "w" 30 0 rs).2 ∧ WOut (MTaskResult t Success 9 "v") ∈ (w_run "w" 30 0 rs).2 ∧ working (w_run "w" 30 0 rs).2 ∧
  last (w_run "w" 30 0 (rs ++ [WRound 8 (WExt (MTaskCancel t))])).2 = Some (WCrash AttributeError).
Proof.
  exists [wk "a"; wk_loop; wk_loop; wk_up; wk_loop; WRound 7 (WProc (MTaskResult "a" Success 9 "v"))], "a".
  split; [apply fresh_check; vm_compute; reflexivity|]. split; [|split; [apply working_run; vm_compute; reflexivity|vm_compute; reflexivity]].
  set (h := (w_run _ _ _ _).2). vm_compute in h. subst h. set_solver.
Qed.
Print Assumptions C49_idle_refuted.

(** C50.  For an agent that sends one task at a time and a function only on request
    (C46), each result tells what the function just did with the task's arguments; or
    it is a failure without a call (C51). *)
Theorem C50_results :
  ∀ r rs, always one_by_one (p_exec r rs).2 → always tells (p_exec r rs).2.
Proof. exact tells_run. Qed.
Print Assumptions C50_results.
(** The user's code is only run for the task received last. *)
Theorem C50_calls :
  ∀ r rs, always one_by_one (p_exec r rs).2 → always calls_for_task (p_exec r rs).2.
Proof. exact calls_run. Qed.
Print Assumptions C50_calls.
(** One result per task (and the one that says the processor is up). *)
Theorem C50_exactly_one :
  ∀ r rs, always one_by_one (p_exec r rs).2 →
  (total tasks_in (p_exec r rs).2 + 1 = total results_out (p_exec r rs).2 + (if outstanding (p_exec r rs).2 then 1 else 0))%nat.
Proof. exact counted. Qed.
Print Assumptions C50_exactly_one.
(** A function is requested only right after a task that needs it arrived. *)
Theorem C50_requests :
  ∀ r rs, always one_by_one (p_exec r rs).2 → always requests_for_task (p_exec r rs).2.
Proof. exact requests_run. Qed.
Print Assumptions C50_requests.
(** A task that waits for its function is answered as soon as it comes ... *)
Theorem C50_answer_with_function :
  ∀ r rs k n c o st v d now1 now2 now3, always one_by_one (p_exec r rs).2 → PStop ∉ (p_exec r rs).2 →
  outstanding (p_exec r rs).2 = Some k → asked (p_exec r rs).2 = true →
  (o = Returned v ∧ st = Success ∨ o = Raised v ∧ st = Failed) →
  (p_exec r (rs ++ [PRound now1 (PMsg (MFunctionResponse FnOK (task_function k) n c) true); PRound now2 PLook; PRound now3 (PRun o d)])).2
    = (p_exec r rs).2 ++ [PIn (MFunctionResponse FnOK (task_function k) n c); PCalled c (arg_data <$> task_args k) o; POut (MTaskResult (task_id k) st d v)].
Proof.
  intros r rs k n c o st v d now1 now2 now3 Ho Hs Hk Ha Hv. rewrite stop_run in Hs.
  apply answer_with_function; try assumption. destruct Hv as [[-> ->]|[-> ->]]; reflexivity.
Qed.
Print Assumptions C50_answer_with_function.
(** ... and one that has it, at once. *)
Theorem C50_answer_now :
  ∀ r rs k v x d d' now1 now2 now3, always one_by_one (p_exec r rs).2 → PStop ∉ (p_exec r rs).2 →
  outstanding (p_exec r rs).2 = Some k → asked (p_exec r rs).2 = false →
  ∃ l st d'' p, (p_exec r (rs ++ [PRound now1 PLook; PRound now2 (PRun (Returned v) d); PRound now3 (PRun (Raised x) d')])).2
    = (p_exec r rs).2 ++ l ++ [POut (MTaskResult (task_id k) st d'' p)].
Proof. intros r rs k v x d d' now1 now2 now3 Ho Hs. rewrite stop_run in Hs. apply answer_now; assumption. Qed.
Print Assumptions C50_answer_now.

Definition pr_first : list pround :=
  [PRound 1 (PMsg (MTask (fn "a")) true); PRound 2 (PMsg (MFunctionResponse FnOK "f" "name" "code") true); PRound 3 PLook; PRound 4 (PRun (Returned "va") 5)].
Example C50_example :
  let rs := pr_first ++ [PRound 5 (PMsg (MTask (fn "b")) true); PRound 6 PLook; PRound 7 (PRun (Raised "eb") 6)] in
  always one_by_one (p_exec 60 rs).2 ∧
  (p_exec 60 rs).2 =
    [POut (MTaskResult "" Success 0 ""); PIn (MTask (fn "a")); POut (MFunctionRequest FnRequest "f" "" "");
     PIn (MFunctionResponse FnOK "f" "name" "code"); PCalled "code" ["a"] (Returned "va"); POut (MTaskResult "a" Success 5 "va");
     PIn (MTask (fn "b")); PCalled "code" ["b"] (Raised "eb"); POut (MTaskResult "b" Failed 6 "eb")].
Proof. split; [apply one_by_one_check; vm_compute; reflexivity|vm_compute; reflexivity]. Qed.

(** C51.  As long as the cleaner deletes nothing, every result comes from a call ... *)
Theorem C51_without_expiry :
  ∀ r rs, (∀ now, PRound now PDelete ∉ rs) → always one_by_one (p_exec r rs).2 → always tells_call (p_exec r rs).2.
Proof. exact tells_call_run. Qed.
Print Assumptions C51_without_expiry.
Example C51_example :
  let rs := pr_first ++ [PRound 5 PScan; PRound 6 (PMsg (MTask (fn "b")) true); PRound 7 PLook; PRound 8 (PRun (Raised "eb") 6)] in
  (∀ now, PRound now PDelete ∉ rs) ∧ always one_by_one (p_exec 60 rs).2 ∧ POut (MTaskResult "b" Failed 6 "eb") ∈ (p_exec 60 rs).2.
Proof.
  split; [intros now H; repeat (apply elem_of_cons in H as [H|H]; [discriminate|]); apply elem_of_nil in H as []|].
  split; [apply one_by_one_check; vm_compute; reflexivity|]. set (h := (p_exec _ _).2). vm_compute in h. subst h. set_solver.
Qed.
(** ... but when it deletes the function between the two look-ups, the task fails
    whatever its function would have done, without a call. *)
Theorem C51_expiry_refuted :
  ∃ rs, always one_by_one (p_exec 60 rs).2 ∧ PStop ∉ (p_exec 60 rs).2 ∧
    outstanding (p_exec 60 rs).2 = Some (fn "b") ∧ provided "f" (p_exec 60 rs).2 = Some "code" ∧
    (∀ f name c, PIn (MFunctionRequest FnDelete f name c) ∉ (p_exec 60 rs).2) ∧
  ∀ n1 n2 n3 v d x d',
    (p_exec 60 (rs ++ [PRound n1 PLook; PRound n2 (PRun (Returned v) d); PRound n3 (PRun (Raised x) d')])).2 =
    (p_exec 60 rs).2 ++ [POut (MTaskResult "b" Failed d' x)].
Proof.
  exists (pr_first ++ [PRound 100 PScan; PRound 100 (PMsg (MTask (fn "b")) true); PRound 100 PDelete]).
  split; [apply one_by_one_check; vm_compute; reflexivity|]. split; [rewrite stop_run; vm_compute; discriminate|].
  split; [vm_compute; reflexivity|]. split; [vm_compute; reflexivity|]. split.
  - intros f name c H. set (h := (p_exec _ _).2) in H. vm_compute in h. subst h. repeat (apply elem_of_cons in H as [H|H]; [discriminate|]). apply elem_of_nil in H as [].
  - intros. vm_compute. reflexivity.
Qed.
Print Assumptions C51_expiry_refuted.

(** ** C84: how long a function is kept *)

(** A processor that got a function asks for it again only if the cleaner deleted
    something after a scan at which all messages about the function were older than the
    retention time. *)
Theorem C84_kept : ∀ r rs now k c loads, in_time rs → let h := (p_exec r rs).2 in let f := task_function k in
  provided f h = Some c → POut (MFunctionRequest FnRequest f "" "") ∈ drop (length h) (p_exec r (rs ++ [PRound now (PMsg (MTask k) loads)])).2 →
  ∃ rs1 s rs2 d rs3, rs = rs1 ++ PRound s PScan :: rs2 ++ PRound d PDelete :: rs3 ∧ idle r rs1 f s ∧ is_Some (provided f (p_exec r rs1).2).
Proof. exact requested_again. Qed.
Print Assumptions C84_kept.
(** A function that is idle for longer is forgotten by a pass of the cleaner: the next
    task asks for it. *)
Theorem C84_forgotten : ∀ r rs s f n m t1 t2 now k loads, always one_by_one (p_exec r rs).2 → PStop ∉ (p_exec r rs).2 → outstanding (p_exec r rs).2 = None →
  idle r rs f s → not_looked_up r rs f s → (length rs <= n)%nat → (length rs <= m)%nat → task_function k = f →
  (p_exec r (rs ++ clean n t1 ++ [PRound s PScan] ++ clean m t2 ++ [PRound now (PMsg (MTask k) loads)])).2 =
  (p_exec r rs).2 ++ [PIn (MTask k); POut (MFunctionRequest FnRequest f "" "")].
Proof. exact forgotten. Qed.
Print Assumptions C84_forgotten.
(** The function is last looked for at time 3 and kept for 60: a scan at 63 keeps it, one at 65 does not. *)
Example C84_example :
  (let h := (p_exec 60 (pr_first ++ [PRound 65 PScan; PRound 66 PDelete])).2 in
   in_time (pr_first ++ [PRound 65 PScan; PRound 66 PDelete]) ∧ provided "f" h = Some "code" ∧
   drop (length h) (p_exec 60 (pr_first ++ [PRound 65 PScan; PRound 66 PDelete] ++ [PRound 67 (PMsg (MTask (fn "b")) true)])).2 =
     [PIn (MTask (fn "b")); POut (MFunctionRequest FnRequest "f" "" "")]) ∧
  (let h := (p_exec 60 (pr_first ++ [PRound 63 PScan; PRound 64 PDelete])).2 in
   drop (length h) (p_exec 60 (pr_first ++ [PRound 63 PScan; PRound 64 PDelete] ++ [PRound 65 (PMsg (MTask (fn "b")) true)])).2 = [PIn (MTask (fn "b"))]) ∧
  (always one_by_one (p_exec 60 pr_first).2 ∧ PStop ∉ (p_exec 60 pr_first).2 ∧ outstanding (p_exec 60 pr_first).2 = None ∧
   idle 60 pr_first "f" 65 ∧ not_looked_up 60 pr_first "f" 65).
Proof.
  assert (Hold : ∀ x, x ∈ pr_first → 60 < 65 - pr_now x) by (apply Forall_forall; repeat constructor).
  split; [|split; [vm_compute; reflexivity|]].
  - split; [|split; vm_compute; reflexivity]. unfold in_time, pr_first. cbn. repeat (constructor; [|repeat (constructor; [lia|]); constructor]). constructor.
  - split; [apply one_by_one_check; vm_compute; reflexivity|]. split; [rewrite stop_run; vm_compute; discriminate|]. split; [vm_compute; reflexivity|]. split.
    + intros before u m loads after E _ _. apply (Hold (PRound u (PMsg m loads))). rewrite E. apply elem_of_app. right. left.
    + intros before u after k E _ _. apply (Hold (PRound u PLook)). rewrite E. apply elem_of_app. right. left.
Qed.

(** C52.  One heartbeat in flight. *)
Theorem C52_one_beat :
  ∀ i d start rs, always clock_runs (w_run i d start rs).2 → always one_beat (w_run i d start rs).2.
Proof. intros i d start rs Hc. apply beats_run. exact Hc. Qed.
Print Assumptions C52_one_beat.
(** Echoes nobody waits for change nothing. *)
Theorem C52_unsolicited :
  ∀ i d start rs now, always clock_runs (w_run i d start rs).2 → working (w_run i d start rs).2 →
  unechoed (w_run i d start rs).2 = false →
  w_run i d start (rs ++ [WRound now (WExt MHeartbeatEcho)]) = ((w_run i d start rs).1, (w_run i d start rs).2 ++ [WIn now (WExt MHeartbeatEcho)]).
Proof. exact echo_run. Qed.
Print Assumptions C52_unsolicited.
(** A timeout check ends the worker exactly when the last echo waited for is too old. *)
Theorem C52_timeout :
  ∀ i d start rs now, always clock_runs (w_run i d start rs).2 → working (w_run i d start rs).2 →
  (w_run i d start (rs ++ [WRound now WTimeout])).2 = (w_run i d start rs).2 ++ WIn now WTimeout ::
    (if now - last_echo start (w_run i d start rs).2 <? d then [] else [WOut (MDisconnectRequest i); WCrash TimeoutError]).
Proof. exact timeout_run. Qed.
Print Assumptions C52_timeout.
Theorem C52_timeout_only :
  ∀ i d start rs before after, (w_run i d start rs).2 = before ++ WCrash TimeoutError :: after → ∃ now, WIn now WTimeout ∈ before.
Proof. exact timeout_only. Qed.
Print Assumptions C52_timeout_only.

Example C52_example :
  let rs := [WRound 1 (WHeartbeat 1 2 3 4); WRound 5 (WHeartbeat 1 2 3 4); WRound 6 (WExt MHeartbeatEcho); WRound 7 (WExt MHeartbeatEcho); WRound 35 WTimeout; WRound 36 WTimeout] in
  always clock_runs (w_run "w" 30 1 rs).2 ∧
  (w_run "w" 30 1 rs).2 = [WStart; WIn 1 (WHeartbeat 1 2 3 4); WOut (MHeartbeat (Heartbeat 1 2 3 4 0 0 false false false)); WIn 5 (WHeartbeat 1 2 3 4);
    WIn 6 (WExt MHeartbeatEcho); WIn 7 (WExt MHeartbeatEcho); WIn 35 WTimeout; WIn 36 WTimeout; WOut (MDisconnectRequest "w"); WCrash TimeoutError].
Proof. split; [apply clock_check; vm_compute; reflexivity|vm_compute; reflexivity]. Qed.

(** C65.  With well-behaved peers nothing but silence ends a worker. *)
Theorem C65_survives :
  ∀ i d start rs e, always welcome (w_run i d start rs).2 → WCrash e ∈ (w_run i d start rs).2 → e = TimeoutError.
Proof. exact welcome_run. Qed.
Print Assumptions C65_survives.
Example C65_example :
  let rs := wk_demo ++ [wk_cancel "c"; WRound 6 (WExt (MBalanceRequest 3)); WRound 6 (WProc (MFunctionRequest FnRequest "f" "" ""));
     WRound 7 (WExt (MFunctionResponse FnOK "f" "n" "c")); wk_cancel "b"; WRound 8 (WHeartbeat 0 0 0 0); WRound 9 (WExt MHeartbeatEcho); WRound 39 WTimeout] in
  always welcome (w_run "w" 30 0 rs).2 ∧ last (w_run "w" 30 0 rs).2 = Some (WCrash TimeoutError).
Proof. split; [apply welcome_check; vm_compute; reflexivity|vm_compute; reflexivity]. Qed.

(** C66.  Heartbeats tell the truth. *)
Theorem C66_true_beats :
  ∀ i d start rs, always fresh (w_run i d start rs).2 → always true_beat (w_run i d start rs).2.
Proof. exact true_beat_run. Qed.
Print Assumptions C66_true_beats.
Example C66_example :
  let rs := wk_demo ++ [WRound 8 (WHeartbeat 1 2 3 4)] in
  always fresh (w_run "w" 30 0 rs).2 ∧ last (w_run "w" 30 0 rs).2 = Some (WOut (MHeartbeat (Heartbeat 1 2 3 4 1 0 true true true))).
Proof. split; [apply fresh_check; vm_compute; reflexivity|vm_compute; reflexivity]. Qed.

(** C67.  A task that ends its processor is never answered: the processor sends nothing
    any more, and as long as the agent gets no result for the task and no cancel of
    it, it hands nothing over and sends no result for it. *)
Theorem C67_dead_processor_silent :
  ∀ r rs rs', PStop ∈ (p_exec r rs).2 → (p_exec r (rs ++ rs')).2 = (p_exec r rs).2.
Proof. intros r rs rs' H. rewrite stop_run in H. rewrite stopped_for_ever by exact H. reflexivity. Qed.
Print Assumptions C67_dead_processor_silent.
Theorem C67_worker_stuck :
  ∀ i d start rs k rs', busy (w_run i d start rs).2 = Some k →
  Forall (λ r, match wr_event r with WProc (MTaskResult t _ _ _) | WExt (MTaskCancel t) => t ≠ task_id k | _ => True end) rs' →
  ∃ l, (w_run i d start (rs ++ rs')).2 = (w_run i d start rs).2 ++ l ∧
    (∀ k', WHand (MTask k') ∉ l) ∧ (∀ st dd p, WOut (MTaskResult (task_id k) st dd p) ∉ l).
Proof.
  intros i d start rs k rs' Hb Hq. destruct (stuck_run i d start rs k rs' Hb Hq) as (l & H1 & _ & H2 & H3). eauto.
Qed.
Print Assumptions C67_worker_stuck.
(** The three ways: the user's code ends the process (or raises something that cannot
    be pickled), its function cannot be loaded, a function comes that no task waits
    for. *)
Theorem C67_killed_refuted :
  ∃ rs, always one_by_one (p_exec 60 rs).2 ∧ PStop ∉ (p_exec 60 rs).2 ∧ outstanding (p_exec 60 rs).2 = Some (fn "a") ∧
  PStop ∈ (p_exec 60 (rs ++ [PRound 4 (PRun Ended 5)])).2 ∧
  PStop ∈ (p_exec 60 [PRound 1 (PMsg (MTask (fn "a")) true); PRound 2 (PMsg (MFunctionResponse FnOK "f" "name" "garbage") false)]).2.
Proof.
  exists (take 3 pr_first). split; [apply one_by_one_check; vm_compute; reflexivity|]. rewrite !stop_run.
  split; [vm_compute; discriminate|]. split; [vm_compute; reflexivity|]. split; vm_compute; reflexivity.
Qed.
Print Assumptions C67_killed_refuted.
Example C67_example :
  busy (w_run "w" 30 0 wk_demo).2 = Some (fn "b") ∧
  drop 15 (w_run "w" 30 0 (wk_demo ++ [wk_loop; wk_loop; wk "d"; wk_loop; WRound 6 (WExt (MBalanceRequest 1)); wk_loop])).2 =
   [WIn 3 WLoop; WIn 3 WLoop; WIn 2 (WExt (MTask (fn "d"))); WIn 3 WLoop; WIn 6 (WExt (MBalanceRequest 1)); WOut (MBalanceResponse ["d"]); WIn 3 WLoop].
Proof. vm_compute. auto. Qed.

(** C68.  A function that comes when no task waits for it ends the processor ... *)
Theorem C68_unexpected_function :
  ∀ r rs now st f n c loads, always one_by_one (p_exec r rs).2 → outstanding (p_exec r rs).2 = None →
  PStop ∈ (p_exec r (rs ++ [PRound now (PMsg (MFunctionResponse st f n c) loads)])).2.
Proof. exact unexpected_function. Qed.
Print Assumptions C68_unexpected_function.
Example C68_example : always one_by_one (p_exec 60 pr_first).2 ∧ outstanding (p_exec 60 pr_first).2 = None.
Proof. split; [apply one_by_one_check; vm_compute; reflexivity|vm_compute; reflexivity]. Qed.
(** ... and the agent forwards such a function: task a asks for its function and is
    cancelled, b with the same function is started and asks again; both functions that
    the scheduler sends are forwarded while b runs, the second is for nobody. *)
Theorem C68_stale_function_refuted :
  ∃ rs h, always welcome (w_run "w" 30 0 rs).2 ∧ (w_run "w" 30 0 rs).2 = h ++
    [WStart; WOut (MTaskResult "a" Canceled 0 ""); WIn 1 (WProc (MTaskResult "" Success 0 "")); WIn 3 WLoop; WIn 3 WLoop; WIn 3 WLoop; WHand (MTask (fn "b"));
     WIn 7 (WProc (MFunctionRequest FnRequest "f" "" "")); WOut (MFunctionRequest FnRequest "f" "" "");
     WIn 8 (WExt (MFunctionResponse FnOK "f" "n" "c")); WHand (MFunctionResponse FnOK "f" "n" "c");
     WIn 9 (WExt (MFunctionResponse FnOK "f" "n" "c")); WHand (MFunctionResponse FnOK "f" "n" "c")] ∧
  WOut (MFunctionRequest FnRequest "f" "" "") ∈ h ∧
  PStop ∈ (p_exec 60 [PRound 1 (PMsg (MTask (fn "b")) true); PRound 2 (PMsg (MFunctionResponse FnOK "f" "n" "c") true); PRound 3 PLook;
                      PRound 4 (PRun (Returned "vb") 5); PRound 5 (PMsg (MFunctionResponse FnOK "f" "n" "c") true)]).2.
Proof.
  exists [wk "a"; wk "b"; wk_up; wk_loop; wk_loop; wk_loop; WRound 6 (WProc (MFunctionRequest FnRequest "f" "" "")); wk_cancel "a";
          wk_up; wk_loop; wk_loop; wk_loop; WRound 7 (WProc (MFunctionRequest FnRequest "f" "" ""));
          WRound 8 (WExt (MFunctionResponse FnOK "f" "n" "c")); WRound 9 (WExt (MFunctionResponse FnOK "f" "n" "c"))].
  eexists [WStart; WIn 2 (WExt (MTask (fn "a"))); WIn 2 (WExt (MTask (fn "b"))); WIn 1 (WProc (MTaskResult "" Success 0 "")); WIn 3 WLoop; WIn 3 WLoop; WIn 3 WLoop;
    WHand (MTask (fn "a")); WIn 6 (WProc (MFunctionRequest FnRequest "f" "" "")); WOut (MFunctionRequest FnRequest "f" "" ""); WIn 5 (WExt (MTaskCancel "a"))].
  split; [apply welcome_check; vm_compute; reflexivity|]. split; [vm_compute; reflexivity|]. split; [set_solver|]. rewrite stop_run. vm_compute. reflexivity.
Qed.
Print Assumptions C68_stale_function_refuted.
