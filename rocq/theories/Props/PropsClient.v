(** * The client: C53-C55, C60, C61, C69-C71 *)

From Verif.Model Require Import Base Message Client.
From Verif.Spec Require Import HistorySpec ClientSpec.
From Verif.Proofs Require Import BaseProofs HistoryProofs ClientProofs ClientRuns ClientStates ClientFacts.

(** ** Example runs *)

Definition new_idsb (before : list kentry) (e : kentry) : bool :=
  match e with
  | CIn (KSubmit t _ _ _ _) => negb (submitted t before)
  | CIn (KGraph (MGraphTask g _ _ _) _) => negb (existsb (asks_graph g) before)
  | _ => true
  end.
Lemma new_ids_check h : checked new_idsb [] h = true → new_ids h.
Proof.
  apply checked_always. intros b e. destruct e as [[]| | |]; try done; [by intros H%negb_true_iff|]. destruct m; try done. by intros H%negb_true_iff.
Qed.
Definition answers_onlyb (f : bytes) (before : list kentry) (e : kentry) : bool :=
  negb (grants f e) || (occurrences (grants f) before <? occurrences (requests f) before)%nat.
Lemma answers_only_check f h : checked (answers_onlyb f) [] h = true → answers_only f h.
Proof.
  apply checked_always. intros b e. unfold answers_onlyb. intros [H|H]%orb_true_iff Hg; [by rewrite Hg in H|]. by apply Nat.ltb_lt.
Qed.
Ltac here := split_and!; [apply new_ids_check; vm_compute; reflexivity|vm_compute; reflexivity..].

Definition sub (t : bytes) : list kevent := events_of (CallSubmit t "f" "name" "code" [t]).
Definition fn_ok : kevent := KRecv (MFunctionResponse FnOK "f" "name" "code") true.
Definition echo_ok (t : bytes) : kevent := KRecv (MTaskEcho t SubmitOK) true.
Definition value_of (t : bytes) : kevent := KRecv (MTaskResult t Success 1 "v") true.
Definition two : list kevent := sub "a" ++ sub "b" ++ [fn_ok; echo_ok "a"; echo_ok "b"].
Definition graph3 : message := MGraphTask "g" [] ["x"; "y"; "z"] [].

Example two_history : (k_run two).2 =
  [CIn (KSubmit "a" "f" "name" "code" ["a"]); CIn (KStep "a"); COut (MFunctionRequest FnAdd "f" "name" "code"); CIn (KStep "a"); CIn (KStep "a");
   CIn (KSubmit "b" "f" "name" "code" ["b"]); CIn (KStep "b"); CIn (KStep "b"); CIn (KStep "b");
   CIn fn_ok; COut (MTask (Task "a" "f" [ArgData "a"])); COut (MTask (Task "b" "f" [ArgData "b"])); CIn (echo_ok "a"); CIn (echo_ok "b")].
Proof. vm_compute. reflexivity. Qed.

(** ** C53 *)

(** Every future is resolved at most once ... *)
Theorem C53_once : ∀ es h k, (k_run es).2 = h → new_ids h → (occurrences (sets k) h <= 1)%nat.
Proof. intros es h k Hr Hn. destruct (k_run es) as [c h0] eqn:E. cbn in Hr. subst h0. by eapply set_once_run. Qed.
Print Assumptions C53_once.
(** ... with what its own result message carries, or because the client disconnects. *)
Theorem C53_own_result : ∀ es h, (k_run es).2 = h → new_ids h → own_result h.
Proof. intros es h Hr Hn. destruct (k_run es) as [c h0] eqn:E. cbn in Hr. subst h0. by eapply own_result_run. Qed.
Print Assumptions C53_own_result.
(** A waiting future is resolved by the first result for its task, and nothing else happens. *)
Theorem C53_resolved : ∀ es h t d p, (k_run es).2 = h → new_ids h → connected h = true → waits t h = true → cancelled (FTask t) h = false →
  (k_run (es ++ [KRecv (MTaskResult t Success d p) true])).2 = h ++ [CIn (KRecv (MTaskResult t Success d p) true); CSet (FTask t) (Value p)] ∧
  (k_run (es ++ [KRecv (MTaskResult t Failed d p) true])).2 = h ++ [CIn (KRecv (MTaskResult t Failed d p) true); CSet (FTask t) (Error p)].
Proof. exact result_now. Qed.
Print Assumptions C53_resolved.
(** The same for the futures of a graph. *)
Theorem C53_graph_resolved : ∀ es h g n ps, (k_run es).2 = h → new_ids h → connected h = true → graph_waits g h = Waits n → length ps = n →
  (∀ i, (i < n)%nat → cancelled (FGraph g i) h = false) →
  (k_run (es ++ [KRecv (MGraphTaskResult g Success ps) true])).2 = h ++ CIn (KRecv (MGraphTaskResult g Success ps) true) :: imap (λ i p, CSet (FGraph g i) (Value p)) ps.
Proof. intros es h g n ps Hr Hn Hc Hw <- Hca. by eapply graph_result_now. Qed.
Print Assumptions C53_graph_resolved.
Example C53_example :
  new_ids (k_run two).2 ∧ connected (k_run two).2 = true ∧ waits "b" (k_run two).2 = true ∧ cancelled (FTask "b") (k_run two).2 = false ∧
  let es := [KGraph graph3 3; KGraphStep "g"; KRecv (MGraphTaskResult "g" Success ["1"; "2"; "3"]) true] in
  drop 3 (k_run es).2 = [CIn (KRecv (MGraphTaskResult "g" Success ["1"; "2"; "3"]) true); CSet (FGraph "g" 0%nat) (Value "1"); CSet (FGraph "g" 1%nat) (Value "2"); CSet (FGraph "g" 2%nat) (Value "3")].
Proof. here. Qed.

(** ** C54 *)

(** A Task message is a submitted task and is sent while a positive response for its
    function is handled; requests carry a submitted function. *)
Theorem C54_upload_first : ∀ es h, (k_run es).2 = h → new_ids h → upload_first h ∧ true_uploads h.
Proof. intros es h Hr Hn. destruct (k_run es) as [c h0] eqn:E. cbn in Hr. subst h0. split; [by eapply upload_first_run|by eapply true_uploads_run]. Qed.
Print Assumptions C54_upload_first.
(** A task is sent at most once for its submission and once for every FunctionNotExists echo. *)
Theorem C54_not_too_often : ∀ es h k, (k_run es).2 = h → new_ids h → connected h = true → (∃ name content, submitted_as k name content h) →
  (occurrences (sends (task_id k)) h <= owed (task_id k) h)%nat.
Proof. exact sends_owed. Qed.
Print Assumptions C54_not_too_often.
(** After a positive response nothing is owed for that function, and what was owed has been sent. *)
Theorem C54_released : ∀ es h f st name content loads k, (k_run es).2 = h → new_ids h → connected h = true → positive st = true →
  (∃ name content, submitted_as k name content h) → task_function k = f →
  let h' := (k_run (es ++ [KRecv (MFunctionResponse st f name content) loads])).2 in
  occurrences (sends (task_id k)) h' = owed (task_id k) h' ∧ (owed (task_id k) h' = owed (task_id k) h) ∧
  ((occurrences (sends (task_id k)) h < owed (task_id k) h)%nat → COut (MTask k) ∈ h').
Proof. exact response_now. Qed.
Print Assumptions C54_released.
(** With calls that do not overlap and a scheduler that answers each request once, there
    is exactly one unanswered request as long as something is owed. *)
Theorem C54_requested : ∀ cs h f, (k_run (one_at_a_time cs)).2 = h → connected h = true → new_ids h → answers_only f h →
  (occurrences (grants f) h <= occurrences (requests f) h <= S (occurrences (grants f) h))%nat ∧
  ∀ k, (∃ name content, submitted_as k name content h) → task_function k = f → (occurrences (sends (task_id k)) h < owed (task_id k) h)%nat →
    occurrences (requests f) h = S (occurrences (grants f) h).
Proof. exact requested_run. Qed.
Print Assumptions C54_requested.
Definition resent : list call :=
  [CallSubmit "a" "f" "name" "code" ["1"]; CallMessage (MFunctionResponse FnOK "f" "name" "code") true; CallMessage (MTaskEcho "a" FunctionNotExists) true].
Example C54_example : let h := (k_run (one_at_a_time resent)).2 in
  new_ids h ∧ connected h = true ∧ occurrences (sends "a") h = 1%nat ∧ owed "a" h = 2%nat ∧ occurrences (requests "f") h = 2%nat ∧ occurrences (grants "f") h = 1%nat ∧
  drop 7 (k_run (one_at_a_time (resent ++ [CallMessage (MFunctionResponse FnDuplicated "f" "" "") true]))).2 =
    [CIn (KRecv (MTaskEcho "a" FunctionNotExists) true); COut (MFunctionRequest FnAdd "f" "name" "code"); CIn (KRecv (MFunctionResponse FnDuplicated "f" "" "") true); COut (MTask (Task "a" "f" [ArgData "1"]))].
Proof. here. Qed.
Example C54_answers : answers_only "f" (k_run (one_at_a_time resent)).2.
Proof. apply answers_only_check. vm_compute. reflexivity. Qed.

(** ** C55 *)

(** When something is owed for a function and every request is answered, no task with
    that function is sent any more, whatever is submitted and received later. *)
Theorem C55_stuck : ∀ es es' h h' f, (k_run es).2 = h → (k_run (es ++ es')).2 = h ++ h' → new_ids (h ++ h') → connected h = true → answers_only f (h ++ h') →
  (occurrences (requests f) h <= occurrences (grants f) h)%nat →
  (∃ k, (∃ name content, submitted_as k name content h) ∧ task_function k = f ∧ (occurrences (sends (task_id k)) h < owed (task_id k) h)%nat) →
  ∀ k, task_function k = f → COut (MTask k) ∉ h'.
Proof. exact stuck_run. Qed.
Print Assumptions C55_stuck.
(** A schedule that gets there: b is being submitted when the response to a's request is
    handled. *)
Definition race : list kevent := sub "a" ++ [KSubmit "b" "f" "name" "code" ["b"]; KStep "b"; fn_ok; KStep "b"; KStep "b"].
Theorem C55_forgotten_refuted : ∃ es h k, (k_run es).2 = h ∧ new_ids h ∧ connected h = true ∧ answers_only "f" h ∧
  submitted_as k "name" "code" h ∧ task_function k = "f" ∧ returned (task_id k) h = true ∧
  occurrences (sends (task_id k)) h = 0%nat ∧ owed (task_id k) h = 1%nat ∧ occurrences (requests "f") h = occurrences (grants "f") h.
Proof.
  exists race, (k_run race).2, (Task "b" "f" [ArgData "b"]). split; [done|]. split; [apply new_ids_check; vm_compute; reflexivity|]. split; [vm_compute; reflexivity|].
  split; [apply answers_only_check; vm_compute; reflexivity|]. split; [|repeat split; vm_compute; reflexivity].
  exists ["b"]. split; [|done]. apply elem_of_list_In. vm_compute. tauto.
Qed.
Print Assumptions C55_forgotten_refuted.
Example C55_example : occurrences (λ e, match e with COut (MTask _) | COut (MFunctionRequest _ _ _ _) => true | _ => false end) (drop (length (k_run race).2) (k_run (race ++ sub "c" ++ sub "d")).2) = 0%nat.
Proof. vm_compute. reflexivity. Qed.

(** ** C60 *)

(** A failed graph resolves its first future, and the others never. *)
Theorem C60_failed_graph_refuted : ∀ es h g n p, (k_run es).2 = h → new_ids h → connected h = true → graph_waits g h = Waits n → (1 <= n)%nat → cancelled (FGraph g 0%nat) h = false →
  let es1 := es ++ [KRecv (MGraphTaskResult g Failed [p]) true] in
  let h1 := h ++ [CIn (KRecv (MGraphTaskResult g Failed [p]) true); CSet (FGraph g 0%nat) (Error p)] in
  (k_run es1).2 = h1 ∧
  ∀ es' h', (k_run (es1 ++ es')).2 = h1 ++ h' → new_ids (h1 ++ h') → ∀ i v, CSet (FGraph g i) v ∉ h'.
Proof.
  intros es h g n p Hr Hn Hc Hw Hle Hca es1 h1. pose proof (graph_failed_now es h g n p Hr Hn Hc Hw Hle Hca) as H1. split; [exact H1|].
  intros es' h' Hr' Hn'. apply (graph_over_run es1 es' h1 h' g H1 Hr' Hn'). apply (graph_ends _ _ n); [exact Hw|]. repeat constructor.
Qed.
Print Assumptions C60_failed_graph_refuted.
(** A graph that ends neither successful nor failed resolves none. *)
Theorem C60_ended_graph_refuted : ∀ es h g n st ps loads, (k_run es).2 = h → new_ids h → connected h = true → graph_waits g h = Waits n → st ≠ Success → st ≠ Failed →
  let es1 := es ++ [KRecv (MGraphTaskResult g st ps) loads] in
  let h1 := h ++ [CIn (KRecv (MGraphTaskResult g st ps) loads)] in
  (k_run es1).2 = h1 ∧
  ∀ es' h', (k_run (es1 ++ es')).2 = h1 ++ h' → new_ids (h1 ++ h') → ∀ i v, CSet (FGraph g i) v ∉ h'.
Proof.
  intros es h g n st ps loads Hr Hn Hc Hw Hs Hf es1 h1. pose proof (graph_other_now es h g st ps loads Hr Hn Hc Hs Hf) as H1. split; [exact H1|].
  intros es' h' Hr' Hn'. apply (graph_over_run es1 es' h1 h' g H1 Hr' Hn'). apply (graph_ends _ _ n); [exact Hw|]. constructor.
Qed.
Print Assumptions C60_ended_graph_refuted.
Example C60_example : let h := (k_run [KGraph graph3 3; KGraphStep "g"]).2 in
  new_ids h ∧ connected h = true ∧ graph_waits "g" h = Waits 3 ∧ cancelled (FGraph "g" 0%nat) h = false ∧
  drop 3 (k_run [KGraph graph3 3; KGraphStep "g"; KRecv (MGraphTaskResult "g" Failed ["boom"]) true; KExit]).2 =
    [CIn (KRecv (MGraphTaskResult "g" Failed ["boom"]) true); CSet (FGraph "g" 0%nat) (Error "boom"); CIn KExit].
Proof. here. Qed.

(** ** C61 *)

(** Disconnecting: every future that waits for a result is resolved once, one cancel is
    sent for its task or graph, and nothing else is resolved or cancelled. *)
Theorem C61_exit : ∀ es h, (k_run es).2 = h → new_ids h → connected h = true →
  (∀ t, waits t h = true → cancelled (FTask t) h = false) → (∀ g n i, graph_waits g h = Waits n → (i < n)%nat → cancelled (FGraph g i) h = false) →
  ∃ out, (k_run (es ++ [KExit])).2 = h ++ CIn KExit :: out ∧ (∀ e, CCrash e ∉ out) ∧
    (∀ t, occurrences (sets (FTask t)) out = (if waits t h then 1 else 0)%nat ∧ occurrences (drops t) out = (if waits t h then 1 else 0)%nat) ∧
    (∀ g, occurrences (drops_graph g) out = (match graph_waits g h with Waits _ => 1 | _ => 0 end)%nat ∧
      ∀ i, occurrences (sets (FGraph g i)) out = (match graph_waits g h with Waits n => if (i <? n)%nat then 1 else 0 | _ => 0 end)%nat).
Proof. exact exit_now. Qed.
Print Assumptions C61_exit.
Example C61_example :
  let es := two ++ [KGraph graph3 3; KGraphStep "g"; value_of "a"] in
  new_ids (k_run es).2 ∧ connected (k_run es).2 = true ∧
  drop (length (k_run es).2) (k_run (es ++ [KExit])).2 =
  [CIn KExit; COut (MTaskCancel "b"); CSet (FTask "b") Disconnected; COut (MGraphTaskCancel "g"); CSet (FGraph "g" 0%nat) Disconnected; CSet (FGraph "g" 1%nat) Disconnected; CSet (FGraph "g" 2%nat) Disconnected].
Proof. here. Qed.
(** A future whose task ended Canceled, NotFound or WorkerDied waits no more: it is not
    resolved by that result nor by anything later, disconnecting included. *)
Theorem C61_ended_task_refuted : ∀ es h t st d p loads, (k_run es).2 = h → new_ids h → connected h = true → returned t h = true → st ≠ Success → st ≠ Failed →
  let es1 := es ++ [KRecv (MTaskResult t st d p) loads] in
  let h1 := h ++ [CIn (KRecv (MTaskResult t st d p) loads)] in
  (k_run es1).2 = h1 ∧
  ∀ es' h', (k_run (es1 ++ es')).2 = h1 ++ h' → new_ids (h1 ++ h') → ∀ v, CSet (FTask t) v ∉ h'.
Proof. exact ended_now. Qed.
Print Assumptions C61_ended_task_refuted.
Example C61_ended_example : let h := (k_run two).2 in new_ids h ∧ connected h = true ∧ returned "b" h = true ∧ waits "b" h = true ∧
  drop 14 (k_run (two ++ [value_of "a"; KRecv (MTaskResult "b" Canceled 0 "") true; KExit])).2 =
    [CIn (value_of "a"); CSet (FTask "a") (Value "v"); CIn (KRecv (MTaskResult "b" Canceled 0 "") true); CIn KExit].
Proof. here. Qed.
(** Nothing is resolved after the client has disconnected or its thread has ended. *)
Theorem C61_after : ∀ es es' h h', (k_run es).2 = h → (k_run (es ++ es')).2 = h ++ h' → new_ids (h ++ h') → connected h = false → ∀ k v, CSet k v ∉ h'.
Proof. exact dead_run. Qed.
Print Assumptions C61_after.
Example C61_after_example : connected (k_run (two ++ [KExit])).2 = false ∧ new_ids (k_run ((two ++ [KExit]) ++ sub "c" ++ [value_of "c"])).2.
Proof. split; [vm_compute; reflexivity|apply new_ids_check; vm_compute; reflexivity]. Qed.

(** ** C69: cancelling a future *)

(** The result of a task whose future was cancelled ends the client's thread, after which
    no future is resolved (C61_after). *)
Theorem C69_cancelled_result_refuted : ∀ es h t st d p, (k_run es).2 = h → new_ids h → connected h = true → waits t h = true → cancelled (FTask t) h = true → st = Success ∨ st = Failed →
  (k_run (es ++ [KRecv (MTaskResult t st d p) true])).2 = h ++ [CIn (KRecv (MTaskResult t st d p) true); CCrash InvalidStateError].
Proof. exact result_cancelled. Qed.
Print Assumptions C69_cancelled_result_refuted.
(** Disconnecting ends with an exception too. *)
Theorem C69_cancelled_exit_refuted : ∀ es h k, (k_run es).2 = h → new_ids h → connected h = true → cancelled k h = true →
  match k with inl t => waits t h = true | inr (g, i) => ∃ n, graph_waits g h = Waits n ∧ (i < n)%nat end →
  CCrash InvalidStateError ∈ (k_run (es ++ [KExit])).2.
Proof. exact exit_crash. Qed.
Print Assumptions C69_cancelled_exit_refuted.
(** The other task's future is lost in both cases. *)
Definition cancel_a : list kevent := sub "a" ++ sub "b" ++ [KCancel (FTask "a"); fn_ok; echo_ok "a"; echo_ok "b"].
Example C69_example : let h := (k_run cancel_a).2 in
  new_ids h ∧ connected h = true ∧ waits "a" h = true ∧ cancelled (FTask "a") h = true ∧ waits "b" h = true ∧
  drop (length h) (k_run (cancel_a ++ [value_of "a"; value_of "b"; KExit])).2 = [CIn (value_of "a"); CCrash InvalidStateError; CIn (value_of "b"); CIn KExit] ∧
  drop (length h) (k_run (cancel_a ++ [KExit])).2 = [CIn KExit; COut (MTaskCancel "a"); CCrash InvalidStateError].
Proof. here. Qed.

(** ** C70: a refused task *)

Theorem C70_no_worker_refuted : ∀ es h t loads, (k_run es).2 = h → new_ids h → connected h = true → submitted t h = true → accepted t h = false →
  (k_run (es ++ [KRecv (MTaskEcho t NoWorker) loads])).2 = h ++ [CIn (KRecv (MTaskEcho t NoWorker) loads); CCrash NotImplementedError] ∧
  ∀ es' h', (k_run ((es ++ [KRecv (MTaskEcho t NoWorker) loads]) ++ es')).2 = (h ++ [CIn (KRecv (MTaskEcho t NoWorker) loads); CCrash NotImplementedError]) ++ h' →
    new_ids ((h ++ [CIn (KRecv (MTaskEcho t NoWorker) loads); CCrash NotImplementedError]) ++ h') → ∀ k v, CSet k v ∉ h'.
Proof.
  intros es h t loads Hr Hn Hc Hs Ha. pose proof (no_worker_now es h t loads Hr Hn Hc Hs Ha) as H1. split; [exact H1|]. intros es' h' Hr' Hn'.
  apply (dead_run _ _ _ _ H1 Hr' Hn'). unfold connected. rewrite existsb_app. cbn. by rewrite orb_true_r.
Qed.
Print Assumptions C70_no_worker_refuted.
Example C70_example : let h := (k_run (take 10 two)).2 in new_ids h ∧ connected h = true ∧ submitted "b" h = true ∧ accepted "b" h = false.
Proof. here. Qed.

(** ** C71: an echo during submit *)

Theorem C71_early_echo_refuted : ∀ es h t loads n, (k_run es).2 = h → new_ids h → connected h = true → steps t h = Some n → (n < 3)%nat →
  (k_run (es ++ [KRecv (MTaskEcho t SubmitOK) loads])).2 = h ++ [CIn (KRecv (MTaskEcho t SubmitOK) loads); CCrash KeyError].
Proof. exact early_echo_now. Qed.
Print Assumptions C71_early_echo_refuted.
(** The task can have been sent by then. *)
Example C71_example : let es := take 3 (sub "a") ++ [fn_ok] in let h := (k_run es).2 in
  new_ids h ∧ connected h = true ∧ steps "a" h = Some 2%nat ∧ occurrences (sends "a") h = 1%nat.
Proof. here. Qed.
(** Later ones, before the result, are harmless, also for a future that was cancelled. *)
Theorem C71_echo : ∀ es h t loads, (k_run es).2 = h → new_ids h → connected h = true → waits t h = true →
  (k_run (es ++ [KRecv (MTaskEcho t SubmitOK) loads])).2 = h ++ [CIn (KRecv (MTaskEcho t SubmitOK) loads)].
Proof. exact echo_now. Qed.
Print Assumptions C71_echo.
Example C71_echo_example : let h := (k_run (sub "a" ++ [KCancel (FTask "a"); fn_ok])).2 in
  new_ids h ∧ connected h = true ∧ waits "a" h = true ∧ cancelled (FTask "a") h = true ∧ accepted "a" h = false.
Proof. here. Qed.
