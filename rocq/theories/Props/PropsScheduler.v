(** * Properties C20-C39: the scheduler

    [run c rs] is the scheduler started with settings [c] after the rounds [rs]: each
    round is a message arriving or one turn of one of its loops, at some time and with
    some iteration orders.  [s_log] is its observable history; [s_dead] is the
    exception that ended the process, if any.  The vocabulary is in
    Spec/SchedulerSpec.v and refers to the history only, except for the queue
    ([s_unassigned]), the task held by the dispatch loop ([s_limbo]) and the function
    cache ([s_funcs]). *)

From Verif.Model Require Import Base OneToManyDict Allocator Message Scheduler.
From Verif.Spec Require Import DictSpec SchedulerSpec TextSpec.
From Verif.Proofs Require Import SchedGlobal SchedStep SchedRemove SchedPolite SchedEcho SchedExamples TextProofs.

(** C20.  At every point of every history, no more results were sent for a task than
    submissions of it were accepted. *)
Theorem C20_at_most_one_result :
  ∀ c rs t before after, s_log (run c rs) = before ++ after →
  (occurrences (is_result t) before <= occurrences (is_accept t) before)%nat.
Proof. exact one_result_lemma. Qed.
Print Assumptions C20_at_most_one_result.

(** A second, late result for the same task is not relayed. *)
Example C20_example :
  let h := s_log (run cfg (busy ++ [done "w2" "a"; done "w1" "a"])) in
  occurrences (is_result "a") h = 1%nat ∧ occurrences (is_accept "a") h = 1%nat.
Proof. vm_compute. split; reflexivity. Qed.

(** C21.  A result for [t] goes to a client that was told [t] is accepted. *)
Theorem C21_result_to_submitter :
  ∀ c rs before cl t st d p after,
  s_log (run c rs) = before ++ LSend cl (MTaskResult t st d p) :: after →
  ¬ graph_from cl t before → accepted cl t before.
Proof. exact right_client_lemma. Qed.
Print Assumptions C21_result_to_submitter.

Example C21_example :
  ∃ before after, s_log (run cfg busy) = before ++ LSend "cl" (MTaskResult "a" Success 7 "value") :: after ∧
    accepted "cl" "a" before ∧ (∀ e, e ∈ before → ∀ now c g fs ts ns, e ≠ LIn now (ERecv c (MGraphTask g fs ts ns))).
Proof.
  exists (take 28 (s_log (run cfg busy))), (drop 29 (s_log (run cfg busy))).
  split; [vm_compute; reflexivity|]. split; [unfold accepted; by_compute|].
  intros e He now c g fs ts ns ->. revert He. vm_compute. intros He.
  repeat (apply elem_of_cons in He as [He|He]; [discriminate|]). apply elem_of_nil in He. exact He.
Qed.

(** C22.  A result is relayed from the worker message being handled, unchanged; or it
    is the empty Canceled result made for a cancel request or a cancelled graph. *)
Theorem C22_results_relayed_unmodified :
  ∀ c rs before cl t st d p after,
  s_log (run c rs) = before ++ LSend cl (MTaskResult t st d p) :: after →
  (∃ w, last_input before = Some (ERecv w (MTaskResult t st d p))) ∨
  (st = Canceled ∧ d = 0 ∧ p = "" ∧ ((∃ c, last_input before = Some (ERecv c (MTaskCancel t))) ∨ graph_node t before)).
Proof. exact relayed_lemma. Qed.
Print Assumptions C22_results_relayed_unmodified.

(** Both cases occur. *)
Example C22_example :
  last (sent (run cfg busy)) = Some (LSend "cl" (MTaskResult "a" Success 7 "value")) ∧
  last (sent (run cfg (waiting ++ [from "other" (MTaskCancel "g")]))) = Some (LSend "cl" (MTaskResult "g" Canceled 0 "")).
Proof. vm_compute. split; reflexivity. Qed.

(** C23.  An accepted, unanswered task (submitted individually) is queued, held by the
    dispatch loop, or with a registered worker. *)
Theorem C23_no_task_lost :
  ∀ c rs cl t, let s := run c rs in
  s_dead s = None → accepted cl t (s_log s) → ¬ answered t (s_log s) → ¬ graph_node t (s_log s) →
  t ∈ s_unassigned s ∨ (∃ k, s_limbo s = Some k ∧ task_id k = t) ∨
  ∃ w, holder (s_log s) !! t = Some w ∧ w ∈ registered (s_log s).
Proof. exact no_task_lost_lemma. Qed.
Print Assumptions C23_no_task_lost.

(** Worker w2 leaves: its tasks are queued again; both workers leave: one is held. *)
Example C23_example :
  s_unassigned (run cfg (busy ++ [from "x" (MDisconnectRequest "w2")])) = ["b"] ∧
  holder (s_log (run cfg (busy ++ [from "x" (MDisconnectRequest "w2")]))) = {["c" := "w1"]} ∧
  let s := run cfg (busy ++ [from "x" (MDisconnectRequest "w2"); later 100 EWorkers; tick EDispatch]) in
  s_dead s = None ∧ s_limbo s = Some (task_of "b") ∧ s_unassigned s = ["c"].
Proof. split; [vm_compute; reflexivity|]. split; [by_compute|]. vm_compute. auto. Qed.

(** C24.  Tasks go only to registered workers, within their capacity, with the content
    submitted by a client to which the task was accepted. *)
Theorem C24_dispatch_to_live_worker :
  ∀ c rs before w k after, s_log (run c rs) = before ++ LSend w (MTask k) :: after →
  w ∈ registered before ∧ (0 <= c_queue_size c → outstanding (before ++ [LSend w (MTask k)]) w <= c_queue_size c) ∧
  ∃ cl, submitted cl k before ∧ accepted cl (task_id k) before.
Proof. exact live_dispatch_lemma. Qed.
Print Assumptions C24_dispatch_to_live_worker.

Example C24_example :
  last (sent (run cfg (busy ++ submit "d"))) = Some (LSend "w1" (MTask (task_of "d"))) ∧
  registered (s_log (run cfg busy)) = {["w1"; "w2"]} ∧
  outstanding (s_log (run cfg busy)) "w1" = 1 ∧ outstanding (s_log (run cfg (busy ++ submit "d"))) "w1" = 2.
Proof. split; [vm_compute; reflexivity|]. split; [by_compute|]. vm_compute. auto. Qed.

(** C25.  Dispatches are paid for by acceptances and take-backs; a task that some
    worker has is never sent to another. *)
Theorem C25_dispatch_count :
  ∀ c rs t before after, s_log (run c rs) = before ++ after →
  (occurrences (is_dispatch t) before <= occurrences (is_accept t) before + moments (takes_back t) before)%nat.
Proof. exact dispatch_count_lemma. Qed.
Print Assumptions C25_dispatch_count.

Theorem C25_not_on_two_workers :
  ∀ c rs before w k after, s_log (run c rs) = before ++ LSend w (MTask k) :: after →
  ∀ w', holder before !! task_id k = Some w' → w' = w.
Proof. exact dispatch_holder_lemma. Qed.
Print Assumptions C25_not_on_two_workers.

Example C25_example :
  let h := s_log (run cfg (busy ++ [from "x" (MDisconnectRequest "w2"); tick EDispatch])) in
  occurrences (is_dispatch "b") h = 2%nat ∧ occurrences (is_accept "b") h = 1%nat ∧ moments (takes_back "b") h = 1%nat ∧
  holder h = {["b" := "w1"; "c" := "w1"]}.
Proof. split; [vm_compute; reflexivity|]. split; [vm_compute; reflexivity|]. split; [vm_compute; reflexivity|by_compute]. Qed.

(** C26.  As long as a task submitted individually is unanswered, whoever asks for its
    function gets it. *)
Theorem C26_function_available :
  ∀ c rs cl t f now codes w n d, let s := run c rs in
  s_dead s = None → accepted cl t (s_log s) → ¬ answered t (s_log s) → ¬ graph_node t (s_log s) →
  (∀ cl k, received cl (MTask k) (s_log s) → task_id k = t → task_function k = f) →
  let s' := step s (Round now codes (ERecv w (MFunctionRequest FnRequest f n d))) in
  ∃ name content, s_log s' = s_log s ++ [LIn now (ERecv w (MFunctionRequest FnRequest f n d));
                         LSend w (MFunctionResponse FnOK f name content)].
Proof. exact function_available_lemma. Qed.
Print Assumptions C26_function_available.

(** Even long after the retention time. *)
Example C26_example :
  let s := run cfg (busy ++ [later 10000 EFunctions; from "w2" (MFunctionRequest FnRequest "f" "" "")]) in
  last (sent s) = Some (LSend "w2" (MFunctionResponse FnOK "f" "name" "code")) ∧
  acceptedb "b" (s_log s) = true ∧ occurrences (is_result "b") (s_log s) = 0%nat.
Proof. vm_compute. auto. Qed.

(** C27.  Content under an id never changes while it is cached, and came with an Add
    (or a graph); answers to Add, Check and Request. *)
Theorem C27_function_content_stable :
  ∀ c rs r f i i', let s := run c rs in
  s_funcs s !! f = Some i → s_funcs (step s r) !! f = Some i' →
  fi_name i' = fi_name i ∧ fi_content i' = fi_content i.
Proof. exact function_stable_lemma. Qed.
Print Assumptions C27_function_content_stable.

Theorem C27_function_content_origin :
  ∀ c rs f i, s_funcs (run c rs) !! f = Some i → function_from f (fi_name i) (fi_content i) (s_log (run c rs)).
Proof. exact function_origin_lemma. Qed.
Print Assumptions C27_function_content_origin.

Theorem C27_add_answer :
  ∀ s c f n ct now codes, s_dead s = None →
  let ev := ERecv c (MFunctionRequest FnAdd f n ct) in let s' := step s (Round now codes ev) in
  s_dead s' = None ∧
  match s_funcs s !! f with
  | Some i => s_log s' = s_log s ++ [LIn now ev; LSend c (MFunctionResponse FnDuplicated f "" "")] ∧
              ∃ i', s_funcs s' !! f = Some i' ∧ fi_name i' = fi_name i ∧ fi_content i' = fi_content i
  | None => s_log s' = s_log s ++ [LIn now ev; LSend c (MFunctionResponse FnOK f "" "")] ∧
              ∃ i', s_funcs s' !! f = Some i' ∧ fi_name i' = n ∧ fi_content i' = ct
  end.
Proof. exact function_add_lemma. Qed.
Print Assumptions C27_add_answer.

Theorem C27_check_answer :
  ∀ s c f n ct now codes, s_dead s = None →
  let ev := ERecv c (MFunctionRequest FnCheck f n ct) in let s' := step s (Round now codes ev) in
  untouched s s' ∧ s_log s' = s_log s ++ [LIn now ev; LSend c (MFunctionResponse
    (if s_funcs s !! f then FnOK else FnNotExists) f "" "")].
Proof. exact function_check_lemma. Qed.
Print Assumptions C27_check_answer.

Theorem C27_request_answer :
  ∀ s c f n ct now codes, s_dead s = None →
  let ev := ERecv c (MFunctionRequest FnRequest f n ct) in let s' := step s (Round now codes ev) in
  untouched s s' ∧ s_log s' = s_log s ++ [LIn now ev; LSend c
    (match s_funcs s !! f with Some i => MFunctionResponse FnOK f (fi_name i) (fi_content i) | None => MFunctionResponse FnNotExists f "" "" end)].
Proof. exact function_request_lemma. Qed.
Print Assumptions C27_request_answer.

Example C27_example :
  sent (run cfg [add "f"; from "c2" (MFunctionRequest FnAdd "f" "other" "evil"); from "w" (MFunctionRequest FnRequest "f" "" "");
                 from "c2" (MFunctionRequest FnCheck "g" "" ""); from "c2" (MFunctionRequest FnRequest "g" "" "")])
  = [LSend "cl" (MFunctionResponse FnOK "f" "" ""); LSend "c2" (MFunctionResponse FnDuplicated "f" "" "");
     LSend "w" (MFunctionResponse FnOK "f" "name" "code"); LSend "c2" (MFunctionResponse FnNotExists "g" "" "");
     LSend "c2" (MFunctionResponse FnNotExists "g" "" "")].
Proof. vm_compute. reflexivity. Qed.

(** C28.  A clean-up round removes exactly the expired functions, touches nothing else
    and tells every registered worker about each of them, once. *)
Theorem C28_expiry :
  ∀ c rs now codes, let s := run c rs in s_dead s = None →
  let s' := step s (Round now codes EFunctions) in
  s_dead s' = None ∧
  (∀ f, expires s now f → s_funcs s' !! f = None) ∧
  (∀ f, ¬ expires s now f → s_funcs s' !! f = s_funcs s !! f) ∧
  untouched (set_funcs (λ _, s_funcs s') s) s' ∧
  ∃ l, s_log s' = s_log s ++ LIn now EFunctions :: l ∧ NoDup l ∧
       (∀ w f, LSend w (MFunctionRequest FnDelete f "" "") ∈ l ↔ w ∈ registered (s_log s) ∧ expires s now f) ∧
       (∀ e, e ∈ l → ∃ w f, e = LSend w (MFunctionRequest FnDelete f "" "")).
Proof. exact expiry_lemma. Qed.
Print Assumptions C28_expiry.

(** In well-behaved traffic the users of a function are the unanswered tasks that were
    submitted with it. *)
Theorem C28_users_are_unanswered :
  ∀ c rs f t, let s := run c rs in c_max_waiting c < 0 → always (polite utf8) (s_log s) →
  (t ∈ users s f → unanswered t (s_log s) ∧ ∃ cl k, received cl (MTask k) (s_log s) ∧ accepted cl t (s_log s) ∧ task_id k = t ∧ task_function k = f) ∧
  (unanswered t (s_log s) → (∀ cl k, received cl (MTask k) (s_log s) → task_id k = t → task_function k = f) → t ∈ users s f).
Proof. exact users_lemma. Qed.
Print Assumptions C28_users_are_unanswered.

(** "g" is unused and expires, "f" has unfinished tasks and stays. *)
Example C28_example :
  let s := run cfg (busy ++ [add "g"; later 3601 EFunctions]) in
  dom (s_funcs s) = {["f"]} ∧ sent s = sent (run cfg (busy ++ [add "g"])) ++
    [LSend "w2" (MFunctionRequest FnDelete "g" "" ""); LSend "w1" (MFunctionRequest FnDelete "g" "" "")] ∧
  dom (s_funcs (run cfg (busy ++ [add "g"; later 3600 EFunctions]))) = {["f"; "g"]}.
Proof. split; [by_compute|]. split; [vm_compute; reflexivity|by_compute]. Qed.

(** C29.  REFUTED expectation: a Delete never removes anything; for a known function
    that nothing uses it ends the scheduler. *)
Theorem C29_delete_refuted :
  ∀ c rs cl f n ct now codes, let s := run c rs in s_dead s = None →
  let ev := ERecv cl (MFunctionRequest FnDelete f n ct) in let s' := step s (Round now codes ev) in
  s_funcs s' = s_funcs s ∧ s_ftasks s' = s_ftasks s ∧
  if decide (s_funcs s !! f = None) then s_dead s' = None ∧ s_log s' = s_log s ++ [LIn now ev; LSend cl (MFunctionResponse FnNotExists f "" "")]
  else if decide (users s f = ∅) then s_dead s' = Some ValueError ∧ s_log s' = s_log s ++ [LIn now ev; LCrash ValueError]
  else s_dead s' = None ∧ s_log s' = s_log s ++ [LIn now ev; LSend cl (MFunctionResponse FnStillHaveTask f "" "")].
Proof. exact function_delete_lemma. Qed.
Print Assumptions C29_delete_refuted.

Example C29_example :
  sent (run cfg [add "f"; from "cl" (MFunctionRequest FnDelete "f" "" "")])
  = [LSend "cl" (MFunctionResponse FnOK "f" "" ""); LCrash ValueError].
Proof. vm_compute. reflexivity. Qed.

(** C30.  Each submission is answered by exactly one echo (everything else in the round
    is for monitors); the conditions of the three answers. *)
Theorem C30_submission_echo :
  ∀ c rs src k now codes, let s := run c rs in s_dead s = None →
  let ev := ERecv src (MTask k) in let s' := step s (Round now codes ev) in
  let waiting := Z.of_nat (length (s_unassigned s)) in
  ∃ status rest, s_log s' = s_log s ++ LIn now ev :: LSend src (MTaskEcho (task_id k) status) :: rest ∧ Forall internal rest ∧
    match status with
    | SubmitOK => is_Some (s_funcs s !! task_function k) ∧
        (0 <= c_max_waiting c → waiting < c_max_waiting c ∨
           ∃ w, w ∈ registered (s_log s) ∧ outstanding (s_log s) w ≠ c_queue_size c ∧
             (0 <= c_queue_size c → outstanding (s_log s) w < c_queue_size c)) ∧
        (s_dead s' = None → stored src k s s')
    | FunctionNotExists => s_funcs s !! task_function k = None ∧ untouched s s'
    | NoWorker => is_Some (s_funcs s !! task_function k) ∧ 0 <= c_max_waiting c <= waiting ∧ untouched s s'
    | _ => False
    end.
Proof. exact echo_lemma. Qed.
Print Assumptions C30_submission_echo.

(** REFUTED expectation: NoWorker only when no worker has room.  Worker w has no task
    at all, and the submission of "d" is refused. *)
Theorem C30_no_worker_only_when_full_refuted :
  ∃ c rs w, let s := run c rs in
  s_dead s = None ∧ w ∈ registered (s_log s) ∧ outstanding (s_log s) w = 0 ∧ c_queue_size c = 1 ∧
  ∃ src k now codes, last (s_log (step s (Round now codes (ERecv src (MTask k))))) = Some (LSend src (MTaskEcho (task_id k) NoWorker)).
Proof.
  exists cfg1, refused, "w". split; [vm_compute; reflexivity|]. split; [by_compute|]. split; [vm_compute; reflexivity|]. split; [reflexivity|].
  exists "cl", (task_of "d"), 0, []. vm_compute. reflexivity.
Qed.
Print Assumptions C30_no_worker_only_when_full_refuted.

Example C30_example :
  sent (run cfg1 ([from "cl" (MTask (task_of "a")); add "f"; from "w" beat] ++ submit "a" ++ submit "b"))
  = [LSend "cl" (MTaskEcho "a" FunctionNotExists); LSend "cl" (MFunctionResponse FnOK "f" "" ""); LSend "w" MHeartbeatEcho;
     LSend "cl" (MTaskEcho "a" SubmitOK); LSend "w" (MTask (task_of "a")); LSend "cl" (MTaskEcho "b" NoWorker)].
Proof. vm_compute. reflexivity. Qed.

(** C31.  Cancelling.  In well-behaved traffic: a queued task is answered Canceled, a
    held one is cancelled at its worker, anything else is ignored. *)
Theorem C31_cancel :
  ∀ c rs now codes src t, let s := run c rs in let s' := step s (Round now codes (ERecv src (MTaskCancel t))) in
  c_max_waiting c < 0 → always (polite utf8) (s_log s') →
  (t ∈ s_unassigned s → ∃ cl mon, accepted cl t (s_log s) ∧ ¬ answered t (s_log s) ∧ internal mon ∧
     s_log s' = s_log s ++ [LIn now (ERecv src (MTaskCancel t)); mon; LSend cl (MTaskResult t Canceled 0 "")] ∧ t ∉ s_unassigned s') ∧
  (∀ w, holder (s_log s) !! t = Some w → ∃ mon, internal mon ∧
     s_log s' = s_log s ++ [LIn now (ERecv src (MTaskCancel t)); LSend w (MTaskCancel t); mon] ∧ untouched s s') ∧
  (¬ unanswered t (s_log s) → s_log s' = s_log s ++ [LIn now (ERecv src (MTaskCancel t))] ∧ untouched s s').
Proof. exact cancel_lemma. Qed.
Print Assumptions C31_cancel.

(** In every history: an acceptance answered by the scheduler itself is not dispatched
    afterwards (each dispatch needs an acceptance beyond those). *)
Theorem C31_cancelled_not_dispatched :
  ∀ c rs t before w k after, s_log (run c rs) = before ++ LSend w (MTask k) :: after → task_id k = t →
  (moments (own_answer t) before < occurrences (is_accept t) before)%nat.
Proof. exact cancelled_lemma. Qed.
Print Assumptions C31_cancelled_not_dispatched.

Example C31_example :
  let cancel t := from "cl" (MTaskCancel t) in
  let s := run cfg (waiting ++ [cancel "g"; cancel "b"; cancel "a"; cancel "zzz"; done "w1" "d"; tick EDispatch]) in
  always (polite utf8) (s_log s) ∧
  sent s = sent (run cfg waiting) ++
    [LSend "cl" (MTaskResult "g" Canceled 0 ""); LSend "w2" (MTaskCancel "b"); LSend "cl" (MTaskResult "d" Success 7 "value")].
Proof. split; [apply polite_check|]; vm_compute; reflexivity. Qed.

(** C32.  REFUTED expectation: a cancel for an accepted, unanswered task has an effect.
    The only task of a scheduler without workers is cancelled by its client; nothing
    is answered, and when a worker connects the task is sent to it. *)
Theorem C32_cancel_lost_refuted :
  ∃ c rs, let s := run c (rs ++ [from "cl" (MTaskCancel "a")]) in
  always (polite utf8) (s_log s) ∧ accepted "cl" "a" (s_log (run c rs)) ∧ ¬ answered "a" (s_log (run c rs)) ∧
  s_log s = s_log (run c rs) ++ [LIn 0 (ERecv "cl" (MTaskCancel "a"))] ∧
  last (sent (run c (rs ++ [from "cl" (MTaskCancel "a"); from "w" beat; tick EDispatch]))) = Some (LSend "w" (MTask (task_of "a"))).
Proof.
  exists cfg, ([add "f"] ++ submit "a"). split; [apply polite_check; vm_compute; reflexivity|].
  split; [unfold accepted; by_compute|]. split; [|split; vm_compute; reflexivity].
  intros (c & st & d & p & Hi). revert Hi. vm_compute. intros Hi. repeat (apply elem_of_cons in Hi as [Hi|Hi]; [discriminate|]). apply elem_of_nil in Hi. exact Hi.
Qed.
Print Assumptions C32_cancel_lost_refuted.

(** C33.  A maintenance round removes exactly the silent workers and requeues exactly
    their tasks. *)
Theorem C33_timeout :
  ∀ c rs now codes, let s := run c rs in s_dead s = None →
  let s' := step s (Round now codes EWorkers) in s_dead s' = None →
  (∀ w, w ∈ registered (s_log s') ↔ w ∈ registered (s_log s) ∧ ¬ silent (c_timeout c) now (s_log s) w) ∧
  (∀ t w, holder (s_log s') !! t = Some w ↔ holder (s_log s) !! t = Some w ∧ ¬ silent (c_timeout c) now (s_log s) w) ∧
  (∃ ids, s_unassigned s' = s_unassigned s ++ ids ∧ NoDup ids ∧
     (∀ t, t ∈ ids ↔ ∃ w, silent (c_timeout c) now (s_log s) w ∧ holder (s_log s) !! t = Some w) ∧
     s_running s' = s_running s ∖ list_to_set ids) ∧
  (∀ w p, s_alive s' !! w = Some p ↔ s_alive s !! w = Some p ∧ ¬ silent (c_timeout c) now (s_log s) w) ∧
  (s_tasks s' = s_tasks s ∧ s_clients s' = s_clients s ∧ s_funcs s' = s_funcs s ∧ s_ftasks s' = s_ftasks s ∧ s_limbo s' = s_limbo s ∧
   s_graphs s' = s_graphs s).
Proof. exact timeout_lemma. Qed.
Print Assumptions C33_timeout.

(** w2 sends a heartbeat at time 50, w1 does not: at 61 only w1 goes. *)
Example C33_example :
  let s := run cfg (busy ++ [later 50 (ERecv "w2" beat); later 61 EWorkers]) in
  s_dead s = None ∧ registered (s_log s) = {["w2"]} ∧ s_unassigned s = ["c"] ∧ holder (s_log s) = {["b" := "w2"]} ∧
  registered (s_log (run cfg (busy ++ [later 60 EWorkers]))) = {["w1"; "w2"]}.
Proof. split; [vm_compute; reflexivity|]. split; [by_compute|]. split; [vm_compute; reflexivity|]. split; by_compute. Qed.

(** C34.  Balance requests appear only in maintenance rounds, and exactly those that
    [balance_round] prescribes. *)
Theorem C34_balance_requests :
  ∀ c rs r, let s := run c rs in s_dead s = None →
  if decide (rd_event r = EWorkers) then
    ∃ sends rest, s_log (step s r) = s_log s ++ LIn (rd_now r) EWorkers :: sends ++ rest ∧
      sends ≡ₚ balance_round c (advices (s_log s)) (balance_advice (s_log s)) ∧
      Forall (λ e, ¬ is_balance_request e) rest
  else
    ∃ rest, s_log (step s r) = s_log s ++ LIn (rd_now r) (rd_event r) :: rest ∧ Forall (λ e, ¬ is_balance_request e) rest.
Proof. exact balance_lemma. Qed.
Print Assumptions C34_balance_requests.

(** w1 has two tasks, w2 then joins: one task too many on w1, asked for once at the
    second round and not again. *)
Example C34_example :
  let s := run cfg ([from "w1" beat; add "f"] ++ submit "a" ++ submit "b" ++ [from "w2" beat; tick EWorkers; tick EWorkers]) in
  last (sent s) = Some (LSend "w1" (MBalanceRequest 1)) ∧
  balance_round cfg [{["w1" := 1]}] {["w1" := 1]} = [LSend "w1" (MBalanceRequest 1)] ∧
  sent (step s (tick EWorkers)) = sent s.
Proof. vm_compute. auto. Qed.

(** C35.  In well-behaved traffic the status report succeeds and adds up. *)
Theorem C35_status_report :
  ∀ c rs now codes, let s := run c rs in c_max_waiting c < 0 → always (polite utf8) (s_log s) →
  ∃ r, s_log (step s (Round now codes EStatus)) = s_log s ++ [LIn now EStatus; LReport r] ∧ s_dead (step s (Round now codes EStatus)) = None ∧
   rp_unassigned r = Z.of_nat (length (s_unassigned s)) ∧ rp_running r = number (dom (holder (s_log s))) ∧
   (∀ X : gset bytes, (∀ t, t ∈ X ↔ unanswered t (s_log s)) → number X = rp_unassigned r + (match s_limbo s with Some _ => 1 | None => 0 end) + rp_running r) ∧
   (rp_success r, rp_failed r, rp_canceled r, rp_not_found r) = outcomes (s_log s) ∧
   (∀ cl n, rp_clients r !! cl = Some n → ∀ X : gset bytes, (∀ t, t ∈ X ↔ accepted cl t (s_log s) ∧ ¬ answered t (s_log s)) → n = number X) ∧
   (∀ cl, is_Some (rp_clients r !! cl) ↔ ∃ t, accepted cl t (s_log s) ∧ ¬ answered t (s_log s)) ∧
   (∀ w row, rp_workers r !! w = Some row ↔ w ∈ registered (s_log s) ∧ ∃ last h, last_beat w (s_log s) = Some (last, h) ∧
        row = WorkerRow h (c_queue_size c - outstanding (s_log s) w) (outstanding (s_log s) w) (now - last)).
Proof. exact report_lemma. Qed.
Print Assumptions C35_status_report.

Example C35_example :
  always (polite utf8) (s_log (run cfg waiting)) ∧
  last (s_log (run cfg (waiting ++ [later 9 EStatus])))
  = Some (LReport (Report {["cl" := 5]} {["name" := 5]} 1 4 1 0 0 0 {["w1" := WorkerRow info 0 2 9; "w2" := WorkerRow info 0 2 9]})).
Proof. split; [apply polite_check; vm_compute; reflexivity|by_compute]. Qed.

(** Outside well-behaved traffic the report can end the scheduler: a worker identity
    that is not UTF-8. *)
Theorem C35_report_always_refuted :
  ∃ c rs, s_dead (run c rs) = None ∧ s_dead (step (run c rs) (tick EStatus)) = Some UnicodeError.
Proof. exists cfg, [from (String (Ascii.ascii_of_nat 200) EmptyString) beat]. vm_compute. auto. Qed.
Print Assumptions C35_report_always_refuted.
(** What counts as text in [polite]: the UTF-8 encodings of characters, surrogates not
    among them. *)
Theorem C35_text : ∀ s, utf8 s = true ↔ text s.
Proof. exact utf8_text. Qed.
Print Assumptions C35_text.
Example C35_text_example : text (octets [104; 195; 169; 226; 130; 172; 240; 159; 152; 128]) ∧ ¬ text (octets [237; 160; 128]) ∧ ¬ text (octets [192; 128]).
Proof. rewrite <- !utf8_text. vm_compute. repeat split; discriminate. Qed.

(** C36.  In well-behaved traffic a round of the dispatch loop places the task it
    holds, else the oldest queued one, with a least-loaded worker that has room; if
    all are full the task goes to the back of the queue. *)
Theorem C36_dispatch :
  ∀ c rs now codes, let s := run c rs in let s' := step s (Round now codes EDispatch) in
  c_max_waiting c < 0 → always (polite utf8) (s_log s) →
  match next_task s with
  | None => s_log s' = s_log s ++ [LIn now EDispatch]
  | Some t =>
      (registered (s_log s) = ∅ ∧ s_log s' = s_log s ++ [LIn now EDispatch] ∧ next_task s' = Some t) ∨
      (registered (s_log s) ≠ ∅ ∧ (∀ w, w ∈ registered (s_log s) → outstanding (s_log s) w = c_queue_size c) ∧
         s_log s' = s_log s ++ [LIn now EDispatch] ∧ last (s_unassigned s') = Some t) ∨
      (∃ w k mon, task_id k = t ∧ internal mon ∧ w ∈ registered (s_log s) ∧ (0 <= c_queue_size c → outstanding (s_log s) w < c_queue_size c) ∧
         (∀ w', w' ∈ registered (s_log s) → outstanding (s_log s) w <= outstanding (s_log s) w') ∧
         s_log s' = s_log s ++ [LIn now EDispatch; LSend w (MTask k); mon])
  end.
Proof. exact dispatch_lemma. Qed.
Print Assumptions C36_dispatch.

(** REFUTED expectation: tasks start in submission order.  "c" is accepted before "d",
    no worker is lost, and "d" starts while "c" is still queued. *)
Theorem C36_submission_order_refuted :
  ∃ c rs h1 h2 h3, let s := run c rs in
  always (polite utf8) (s_log s) ∧ c_max_waiting c < 0 ∧
  s_log s = h1 ++ LSend "cl" (MTaskEcho "c" SubmitOK) :: h2 ++ LSend "cl" (MTaskEcho "d" SubmitOK) :: h3 ∧
  occurrences (is_dispatch "d") (s_log s) = 1%nat ∧ occurrences (is_dispatch "c") (s_log s) = 0%nat ∧ s_unassigned s = ["c"].
Proof.
  exists cfg, overtaking, (take 18 (s_log (run cfg overtaking))), (take 3 (drop 19 (s_log (run cfg overtaking)))), (drop 23 (s_log (run cfg overtaking))).
  split; [apply polite_check; vm_compute; reflexivity|]. vm_compute. auto 10.
Qed.
Print Assumptions C36_submission_order_refuted.

Example C36_example :
  next_task (run cfg (waiting ++ [done "w2" "b"])) = Some "g" ∧
  last (sent (run cfg (waiting ++ [done "w2" "b"; tick EDispatch]))) = Some (LSend "w2" (MTask (task_of "g"))).
Proof. vm_compute. auto. Qed.

(** C37.  Well-behaved traffic never ends the scheduler. *)
Theorem C37_survives_well_behaved_traffic :
  ∀ c rs, c_max_waiting c < 0 → always (polite utf8) (s_log (run c rs)) → s_dead (run c rs) = None.
Proof. exact survives_lemma. Qed.
Print Assumptions C37_survives_well_behaved_traffic.

Example C37_example :
  always (polite utf8) (s_log (run cfg (waiting ++ [from "w1" (MBalanceResponse ["c"; "zzz"]); tick EDispatch;
    from "x" (MDisconnectRequest "w1"); later 61 EWorkers; tick EStatus; later 9999 EFunctions]))).
Proof. apply polite_check. vm_compute. reflexivity. Qed.

(** C38.  REFUTED expectation: the same without restrictions.  With a waiting limit of
    zero a refused submission and two completions end the scheduler; so does the same
    task id submitted twice while it is queued. *)
Theorem C38_survives_any_traffic_refuted :
  (∃ c rs, 0 <= c_max_waiting c ∧ s_dead (run c rs) = None ∧ s_dead (step (run c rs) (done "w" "b")) = Some ValueError ∧
     (∀ t, (occurrences (λ e, match e with LIn _ (ERecv _ (MTask k)) => String.eqb (task_id k) t | _ => false end) (s_log (run c rs)) <= 1)%nat) ∧
     holder (s_log (run c rs)) !! "b" = Some "w") ∧
  (∃ c rs, c_max_waiting c < 0 ∧ s_dead (run c rs) = Some KeyError ∧ always (λ b e, match e with LIn _ (ERecv _ (MTask k)) => True | _ => polite utf8 b e end) (s_log (run c rs))).
Proof.
  split.
  - exists cfg0, full. split; [cbn; lia|]. split; [vm_compute; reflexivity|]. split; [vm_compute; reflexivity|]. split; [|by_compute].
    intros t. destruct (decide (t = "a" ∨ t = "b" ∨ t = "c")) as [[->|[->| ->]]|Hn]; [by_compute..|].
    match goal with |- (occurrences ?p ?h <= 1)%nat => let h' := eval vm_compute in h in change (occurrences p h' <= 1)%nat end.
    unfold occurrences. cbn [List.filter task_id]. repeat match goal with |- context [String.eqb ?x t] => destruct (String.eqb_spec x t) as [<-|?]; [tauto|] end. cbn. lia.
  - exists cfg, twice. split; [reflexivity|]. split; [vm_compute; reflexivity|].
    intros before e after E. pose proof (alwaysb_ok (λ b e, match e with LIn _ (ERecv _ (MTask k)) => true | _ => politeb b e end)
      (λ b e, match e with LIn _ (ERecv _ (MTask k)) => True | _ => polite utf8 b e end)) as H.
    apply (H) with (h := s_log (run cfg twice)) (b := []) (after := after); [|vm_compute; reflexivity|exact E].
    intros b [now [src []| | | | |]| | | | | |]; auto using politeb_ok.
Qed.
Print Assumptions C38_survives_any_traffic_refuted.

(** C39.  Disconnecting a registered worker is acknowledged once and requeues its
    tasks; disconnecting any other is ignored. *)
Theorem C39_disconnect :
  ∀ c rs src w now codes, let s := run c rs in s_dead s = None →
  let ev := ERecv src (MDisconnectRequest w) in let s' := step s (Round now codes ev) in
  if decide (w ∈ registered (s_log s)) then
    s_dead s' = None →
    (∃ mons, s_log s' = s_log s ++ LIn now ev :: LDisconnected w :: mons ++ [LSend src (MDisconnectResponse w)] ∧ Forall internal mons) ∧
    registered (s_log s') = registered (s_log s) ∖ {[w]} ∧
    (∃ ids, s_unassigned s' = s_unassigned s ++ ids ∧ NoDup ids ∧ ∀ t, t ∈ ids ↔ holder (s_log s) !! t = Some w)
  else untouched s s' ∧ s_log s' = s_log s ++ [LIn now ev].
Proof. exact disconnect_lemma. Qed.
Print Assumptions C39_disconnect.

Example C39_example :
  sent (run cfg (busy ++ [from "x" (MDisconnectRequest "w2"); from "x" (MDisconnectRequest "w2")]))
  = sent (run cfg busy) ++ [LSend "x" (MDisconnectResponse "w2")].
Proof. vm_compute. reflexivity. Qed.
