(** One worker in an orderly execution: where its tasks are (C81, C82). *)

From Verif.Model Require Import Base Message Client Worker Processor Scheduler System.
From Verif.Spec Require Import SchedulerSpec SystemSpec FlowSpec.

(** ** What is in the queues *)
Definition tasks_in (q : list message) : list task := omap (λ m, match m with MTask k => Some k | _ => None end) q.
Definition back_ids (q : list message) : list bytes :=
  q ≫= λ m, match m with MTaskResult t _ _ _ => [t] | MBalanceResponse ids => ids | _ => [] end.
Definition fn_requests (q : list message) : list bytes := omap (λ m, match m with MFunctionRequest FnRequest f _ _ => Some f | _ => None end) q.
Definition fn_responses (q : list message) : list bytes := omap (λ m, match m with MFunctionResponse _ f _ _ => Some f | _ => None end) q.
Definition kept (q : list message) : list message := omap (λ m, match m with MFunctionRequest FnDelete _ _ _ => None | _ => Some m end) q.
Definition from_worker (m : message) : Prop :=
  match m with
  | MHeartbeat _ | MBalanceResponse _ => True
  | MTaskResult _ st _ _ => st = Success ∨ st = Failed
  | MFunctionRequest ty _ _ _ => ty = FnRequest
  | _ => False
  end.
Definition for_worker (m : message) : Prop :=
  match m with
  | MHeartbeatEcho | MTask _ => True
  | MBalanceRequest n => 0 <= n
  | MFunctionRequest ty _ _ _ => ty = FnDelete
  | MFunctionResponse st _ _ _ => st = FnOK
  | _ => False
  end.
Lemma tasks_in_app q q' : tasks_in (q ++ q') = tasks_in q ++ tasks_in q'.  Proof. apply omap_app. Qed.
Lemma back_ids_app q q' : back_ids (q ++ q') = back_ids q ++ back_ids q'.  Proof. apply bind_app. Qed.
Lemma fn_requests_app q q' : fn_requests (q ++ q') = fn_requests q ++ fn_requests q'.  Proof. apply omap_app. Qed.
Lemma fn_responses_app q q' : fn_responses (q ++ q') = fn_responses q ++ fn_responses q'.  Proof. apply omap_app. Qed.
Lemma kept_app q q' : kept (q ++ q') = kept q ++ kept q'.  Proof. apply omap_app. Qed.

(** ** The processor and its current task *)
Notation sentinel := (MTaskResult "" Success 0 "").
Notation ask f := (MFunctionRequest FnRequest f "" "").
(** [phase task init D U current main asked answered]: the task the agent has handed out, whether the processor is initialised, the messages
    to and from the processor, its current task and main thread, the function requests to and responses of the scheduler. *)
Inductive phase : option task → bool → list message → list message → option task → main_thread → list bytes → list bytes → Prop :=
| ph_start : phase None false [] [sentinel] None Waiting [] []
| ph_idle : phase None true [] [] None Waiting [] []
| ph_given k : phase (Some k) true [MTask k] [] None Waiting [] []
| ph_ask k : phase (Some k) true [] [ask (task_function k)] (Some k) Waiting [] []
| ph_asked k : phase (Some k) true [] [] (Some k) Waiting [task_function k] []
| ph_answered k : phase (Some k) true [] [] (Some k) Waiting [] [task_function k]
| ph_content k n ct : phase (Some k) true [MFunctionResponse FnOK (task_function k) n ct] [] (Some k) Waiting [] []
| ph_found k : phase (Some k) true [] [] None (Found k) [] []
| ph_calling k f : phase (Some k) true [] [] None (Calling k f) [] []
| ph_result k st d p : st = Success ∨ st = Failed → phase (Some k) true [] [MTaskResult (task_id k) st d p] None Waiting [] [].

Definition loop_task (l : task_loop) : list task := match l with LGet => [] | LLock k | LInit k => [k] end.
Definition held (Qsw : list message) (qs : list task) (a : agent) : list task := tasks_in Qsw ++ qs ++ loop_task (a_loop a) ++ option_list (a_task a).
Record worker_ok (T : gmap bytes task) (L : list bytes) (known : Prop) (qs : list task) (x : worker) (Qws Qsw : list message) : Prop := {
  wo_alive : a_dead (n_agent x) = None;
  wo_dlen : (length (processor_heard (n_calls x)) <= length (agent_handed (n_history x)))%nat;
  wo_ulen : (length (agent_told (n_history x)) <= length (processor_sent (n_calls x)))%nat;
  wo_ws : Forall from_worker Qws;
  wo_sw : Forall for_worker Qsw;
  wo_ids : a_ids (n_agent x) = task_id <$> qs;
  wo_map t k : a_tasks (n_agent x) !! t = Some k ↔ k ∈ qs ∧ task_id k = t;
  wo_nodup : NoDup L;
  wo_all : L ≡ₚ (task_id <$> held Qsw qs (n_agent x)) ++ back_ids Qws;
  wo_tasks k : k ∈ held Qsw qs (n_agent x) → T !! task_id k = Some k;
  wo_lock : a_lock (n_agent x) = match a_task (n_agent x), a_loop (n_agent x) with None, LGet | None, LLock _ => false | _, _ => true end;
  wo_loop : ∀ k, a_loop (n_agent x) = LInit k → a_task (n_agent x) = None;
  wo_phase : phase (a_task (n_agent x)) (a_init (n_agent x)) (kept (to_processor x)) (from_processor x) (c_task (n_processor x)) (c_main (n_processor x)) (fn_requests Qws) (fn_responses Qsw);
  wo_beat : (known ∧ MHeartbeatEcho ∈ Qsw) ∨ a_sent (n_agent x) = 0 ∨ ∃ h, MHeartbeat h ∈ Qws }.

Ltac back := repeat match goal with
  | E : _ = a_task _ |- context [a_task _] => progress rewrite <- E
  | E : _ = a_init _ |- context [a_init _] => progress rewrite <- E
  | E : _ = kept _ |- context [kept _] => progress rewrite <- E
  | E : _ = from_processor _ |- context [from_processor _] => progress rewrite <- E
  | E : _ = c_task _ |- context [c_task _] => progress rewrite <- E
  | E : _ = c_main _ |- context [c_main _] => progress rewrite <- E
  | E : _ = fn_requests _ |- context [fn_requests _] => progress rewrite <- E
  | E : _ = fn_responses _ |- context [fn_responses _] => progress rewrite <- E
  end.

(** ** Steps of the agent *)
Lemma agent_step_eq now e x a' out : a_dead (n_agent x) = None → w_handle now e (n_agent x) = (a', out, None) → WStart ∉ out →
  agent_step now e x = Node a' (n_history x ++ WIn now e :: out) (n_processor x) (n_calls x) (n_retention x).
Proof.
  intros Hd E Hn. unfold agent_step, w_step. rewrite Hd. cbn [wr_now wr_event]. rewrite E. rewrite drop_app.
  rewrite bool_decide_eq_false_2; [reflexivity|]. rewrite elem_of_cons. intros [H|H]; [discriminate|auto].
Qed.
Lemma on_the_way_sent sent heard out : (length heard <= length sent)%nat → on_the_way (sent ++ out) heard = on_the_way sent heard ++ out.
Proof. intros H. unfold on_the_way. apply drop_app_le, H. Qed.
Lemma on_the_way_heard sent heard m q : on_the_way sent heard = m :: q → (length (heard ++ [m]) <= length sent)%nat ∧ on_the_way sent (heard ++ [m]) = q.
Proof.
  unfold on_the_way. intros H. assert (H' : length (drop (length heard) sent) = S (length q)) by (rewrite H; reflexivity). rewrite drop_length in H'.
  rewrite app_length. cbn. split; [lia|]. rewrite <- drop_drop, H. reflexivity.
Qed.
Lemma drop1 {A} (l : list A) m q : l = m :: q → drop 1 l = q.
Proof. intros ->. reflexivity. Qed.

Definition output (o : wentry) : Prop := match o with WOut _ | WHand _ => True | _ => False end.
Lemma told_ext h now e out : Forall output out → agent_told (h ++ WIn now e :: out) = agent_told h ++ match e with WProc m => [m] | _ => [] end.
Proof.
  intros Ho. unfold agent_told. rewrite omap_app. f_equal. cbn.
  assert (E : omap (λ e, match e with WIn _ (WProc m) => Some m | _ => None end) out = []).
  { induction Ho as [|o out H _ IH]; [reflexivity|]. cbn. rewrite IH. by destruct o. }
  rewrite E. by destruct e.
Qed.
Lemma heard_ext h now e out : Forall output out → agent_heard (h ++ WIn now e :: out) = agent_heard h ++ match e with WExt m => [m] | _ => [] end.
Proof.
  intros Ho. unfold agent_heard. rewrite omap_app. f_equal. cbn.
  assert (E : omap (λ e, match e with WIn _ (WExt m) => Some m | _ => None end) out = []).
  { induction Ho as [|o out H _ IH]; [reflexivity|]. cbn. rewrite IH. by destruct o. }
  rewrite E. by destruct e.
Qed.

Section steps.
  Context (T : gmap bytes task) (L : list bytes) (known : Prop).
  Implicit Types (x : worker).
  Lemma agent_ok qs x Qws Qsw now e a' out qs' Qsw' : worker_ok T L known qs x Qws Qsw →
    w_handle now e (n_agent x) = (a', out, None) → Forall output out → a_dead a' = None →
    Qsw = match e with WExt m => [m] | _ => [] end ++ Qsw' →
    match e with WProc m => head (from_processor x) = Some m | _ => True end →
    Forall from_worker (agent_sent out) →
    a_ids a' = task_id <$> qs' → (∀ t k, a_tasks a' !! t = Some k ↔ k ∈ qs' ∧ task_id k = t) →
    task_id <$> held Qsw qs (n_agent x) ≡ₚ (task_id <$> held Qsw' qs' a') ++ back_ids (agent_sent out) →
    (∀ k, k ∈ held Qsw' qs' a' → k ∈ held Qsw qs (n_agent x)) →
    a_lock a' = match a_task a', a_loop a' with None, LGet | None, LLock _ => false | _, _ => true end →
    (∀ k, a_loop a' = LInit k → a_task a' = None) →
    phase (a_task a') (a_init a') (kept (to_processor x) ++ kept (agent_handed out)) (match e with WProc _ => tail (from_processor x) | _ => from_processor x end)
      (c_task (n_processor x)) (c_main (n_processor x)) (fn_requests Qws ++ fn_requests (agent_sent out)) (fn_responses Qsw') →
    ((known ∧ MHeartbeatEcho ∈ Qsw') ∨ a_sent a' = 0 ∨ ∃ h, MHeartbeat h ∈ Qws ++ agent_sent out) →
    let x' := agent_step now e x in
    x' = Node a' (n_history x ++ WIn now e :: out) (n_processor x) (n_calls x) (n_retention x) ∧
    agent_sent (n_history x') = agent_sent (n_history x) ++ agent_sent out ∧
    agent_heard (n_history x') = agent_heard (n_history x) ++ match e with WExt m => [m] | _ => [] end ∧
    worker_ok T L known qs' x' (Qws ++ agent_sent out) Qsw'.
  Proof.
    intros H E Ho Hd HQ HU Hw Hi Hm Hall Hh Hl Hlo Hp Hb. cbv zeta. rewrite (agent_step_eq now e x a' out (wo_alive _ _ _ _ _ _ _ H) E).
    2:{ intros Hi'. rewrite Forall_forall in Ho. exact (Ho _ Hi'). }
    split; [reflexivity|]. cbn [n_history]. split; [unfold agent_sent; rewrite omap_app; reflexivity|]. split; [apply heard_ext, Ho|].
    assert (HD : to_processor (Node a' (n_history x ++ WIn now e :: out) (n_processor x) (n_calls x) (n_retention x)) = to_processor x ++ agent_handed out).
    { unfold to_processor, agent_handed. cbn [n_history n_calls]. rewrite omap_app. apply on_the_way_sent, (wo_dlen _ _ _ _ _ _ _ H). }
    assert (HU' : (length (agent_told (n_history x ++ WIn now e :: out)) <= length (processor_sent (n_calls x)))%nat ∧
       from_processor (Node a' (n_history x ++ WIn now e :: out) (n_processor x) (n_calls x) (n_retention x)) = match e with WProc _ => tail (from_processor x) | _ => from_processor x end).
    { unfold from_processor. cbn [n_history n_calls]. rewrite told_ext by exact Ho. pose proof (wo_ulen _ _ _ _ _ _ _ H).
      destruct e as [| m | | |]; rewrite ?app_nil_r; try (split; [assumption|reflexivity]).
      destruct (from_processor x) as [|m' q] eqn:EU; [discriminate|]. injection HU as ->. unfold from_processor in EU. rewrite EU. apply on_the_way_heard, EU. }
    destruct HU' as [HU1 HU2]. split; cbn [n_agent n_history n_processor n_calls]; auto.
    - unfold agent_handed. rewrite omap_app, app_length. pose proof (wo_dlen _ _ _ _ _ _ _ H). unfold agent_handed in *. lia.
    - apply Forall_app. split; [exact (wo_ws _ _ _ _ _ _ _ H)|exact Hw].
    - pose proof (wo_sw _ _ _ _ _ _ _ H) as Hs. rewrite HQ, Forall_app in Hs. tauto.
    - exact (wo_nodup _ _ _ _ _ _ _ H).
    - rewrite (wo_all _ _ _ _ _ _ _ H), Hall, back_ids_app, <- !app_assoc. f_equiv. apply Permutation_app_comm.
    - intros k Hk. apply (wo_tasks _ _ _ _ _ _ _ H), Hh, Hk.
    - rewrite HD, HU2, kept_app, fn_requests_app. exact Hp.
  Qed.
  Notation to_go x x' Qws Qsw' e := (∃ qs' out, agent_sent (n_history x') = agent_sent (n_history x) ++ out ∧
    agent_heard (n_history x') = agent_heard (n_history x) ++ match e with WExt m => [m] | _ => [] end ∧ worker_ok T L known qs' x' (Qws ++ out) Qsw').
  (** An event that changes neither tasks nor the processor. *)
  Lemma idle_ok qs x Qws Qsw now e a' out Qsw' : worker_ok T L known qs x Qws Qsw →
    w_handle now e (n_agent x) = (a', out, None) → Forall output out → Forall from_worker (agent_sent out) → back_ids (agent_sent out) = [] → fn_requests (agent_sent out) = [] →
    kept (agent_handed out) = [] →
    (∃ sent lat seen, a' = with_beat sent lat seen (n_agent x) ∧ (sent = 0 ∨ sent = a_sent (n_agent x) ∨ ∃ h, MHeartbeat h ∈ agent_sent out) ∧ (e = WExt MHeartbeatEcho → sent = 0)) →
    Qsw = match e with WExt m => [m] | _ => [] end ++ Qsw' → (∀ m, e ≠ WProc m) → tasks_in Qsw = tasks_in Qsw' → fn_responses Qsw = fn_responses Qsw' →
    to_go x (agent_step now e x) Qws Qsw' e.
  Proof.
    intros H E Ho Hw Hb Hf Hk (sent & lat & seen & -> & Hs & Hz) HQ He Ht Hr. exists qs, (agent_sent out).
    destruct (agent_ok qs x Qws Qsw now e _ out qs Qsw' H E Ho) as (_ & H1 & H2 & H3); try done; cbn.
    - exact (wo_alive _ _ _ _ _ _ _ H).
    - destruct e; try done. by destruct (He m).
    - exact (wo_ids _ _ _ _ _ _ _ H).
    - exact (wo_map _ _ _ _ _ _ _ H).
    - rewrite Hb, app_nil_r. unfold held. rewrite Ht. reflexivity.
    - intros k. unfold held. rewrite Ht. auto.
    - exact (wo_lock _ _ _ _ _ _ _ H).
    - exact (wo_loop _ _ _ _ _ _ _ H).
    - rewrite Hk, Hf, !app_nil_r, <- Hr. destruct e; try exact (wo_phase _ _ _ _ _ _ _ H). destruct (He m eq_refl).
    - destruct (wo_beat _ _ _ _ _ _ _ H) as [[Hx Hx']|[Hx|[h Hx]]]; [| |right; right; exists h; apply elem_of_app; auto].
      { rewrite HQ, elem_of_app in Hx'. destruct Hx' as [Hx'|Hx']; [|auto]. right; left. destruct e; try (by apply elem_of_nil in Hx'). apply elem_of_list_singleton in Hx' as <-. auto. }
      destruct Hs as [->|[->|[h Hs]]]; [auto|auto|right; right; exists h; apply elem_of_app; auto].
  Qed.
  Lemma heartbeat_ok qs x Qws Qsw now ac ar wc wr : worker_ok T L known qs x Qws Qsw →
    to_go x (agent_step now (WHeartbeat ac ar wc wr) x) Qws Qsw (WHeartbeat ac ar wc wr).
  Proof.
    intros H. destruct (w_handle now (WHeartbeat ac ar wc wr) (n_agent x)) as [[a' out] e] eqn:E. pose proof E as E'. cbn [w_handle] in E. unfold wh_routine in E.
    destruct (negb (a_sent (n_agent x) =? 0)); injection E as <- <- <-; eapply idle_ok; try exact E'; try exact H; try done; try (by repeat constructor).
    - exists (a_sent (n_agent x)), (a_latency (n_agent x)), (a_seen (n_agent x)). split; [by destruct (n_agent x)|split; [auto|discriminate]].
    - exists now, (a_latency (n_agent x)), (a_seen (n_agent x)). split; [reflexivity|]. split; [|discriminate]. right; right. eexists. left.
  Qed.
  Lemma timeout_ok qs x Qws Qsw now : worker_ok T L known qs x Qws Qsw → now - a_seen (n_agent x) < a_death (n_agent x) → to_go x (agent_step now WTimeout x) Qws Qsw WTimeout.
  Proof.
    intros H Hn. assert (E : w_handle now WTimeout (n_agent x) = (n_agent x, [], None)). { cbn. unfold wo_routine. apply Z.ltb_lt in Hn. rewrite Hn. reflexivity. }
    eapply idle_ok; try exact E; try exact H; try done; try (by repeat constructor).
    exists (a_sent (n_agent x)), (a_latency (n_agent x)), (a_seen (n_agent x)). split; [by destruct (n_agent x)|split; [auto|discriminate]].
  Qed.
  Lemma echo_ok qs x Qws Qsw now : worker_ok T L known qs x Qws (MHeartbeatEcho :: Qsw) → to_go x (agent_step now (WExt MHeartbeatEcho) x) Qws Qsw (WExt MHeartbeatEcho).
  Proof.
    intros H. destruct (w_handle now (WExt MHeartbeatEcho) (n_agent x)) as [[a' out] e] eqn:E. pose proof E as E'. cbn [w_handle] in E. unfold wh_echo in E.
    destruct (a_sent (n_agent x) =? 0) eqn:Es; injection E as <- <- <-; eapply idle_ok; try exact E'; try exact H; try done; try (by repeat constructor).
    - exists (a_sent (n_agent x)), (a_latency (n_agent x)), (a_seen (n_agent x)). apply Z.eqb_eq in Es. split; [by destruct (n_agent x)|auto].
    - exists 0, ((now - a_sent (n_agent x)) / 2 / 1000), now. auto.
  Qed.
  Lemma delete_ok qs x Qws Qsw now f n ct : worker_ok T L known qs x Qws (MFunctionRequest FnDelete f n ct :: Qsw) →
    to_go x (agent_step now (WExt (MFunctionRequest FnDelete f n ct)) x) Qws Qsw (WExt (MFunctionRequest FnDelete f n ct)).
  Proof.
    intros H. eapply idle_ok; try exact H; try reflexivity; try done; try (by repeat constructor).
    exists (a_sent (n_agent x)), (a_latency (n_agent x)), (a_seen (n_agent x)). split; [by destruct (n_agent x)|split; [auto|discriminate]].
  Qed.
  Ltac beat H := destruct (wo_beat _ _ _ _ _ _ _ H) as [[? He]|[?|[? ?]]]; [try (apply elem_of_cons in He as [He|He]; [discriminate|]); auto|auto|right; right; eexists; first [eassumption|apply elem_of_app; eauto]].
  (** A task arrives. *)
  Lemma task_ok qs x Qws Qsw now k : worker_ok T L known qs x Qws (MTask k :: Qsw) → to_go x (agent_step now (WExt (MTask k)) x) Qws Qsw (WExt (MTask k)).
  Proof.
    intros H. pose proof (wo_nodup _ _ _ _ _ _ _ H) as Hnd. rewrite (wo_all _ _ _ _ _ _ _ H) in Hnd.
    assert (Hni : task_id k ∉ task_id <$> qs). { unfold held in Hnd. cbn in Hnd. apply NoDup_cons in Hnd as [Hnd _]. rewrite !fmap_app in Hnd. set_solver. }
    exists (qs ++ [k]), []. rewrite !app_nil_r.
    edestruct (agent_ok qs x Qws (MTask k :: Qsw) now (WExt (MTask k)) (with_queue (<[task_id k := k]> (a_tasks (n_agent x))) (a_ids (n_agent x) ++ [task_id k]) (n_agent x)) [] (qs ++ [k]) Qsw H)
      as (_ & H1 & H2 & H3); try done; cbn; rewrite ?app_nil_r in *; auto.
    - unfold wt_new. cbn. rewrite bool_decide_eq_false_2; [reflexivity|]. rewrite (wo_ids _ _ _ _ _ _ _ H). exact Hni.
    - exact (wo_alive _ _ _ _ _ _ _ H).
    - rewrite (wo_ids _ _ _ _ _ _ _ H), fmap_app. reflexivity.
    - intros t k'. rewrite lookup_insert_Some, (wo_map _ _ _ _ _ _ _ H), elem_of_app, elem_of_list_singleton. split.
      + intros [[<- <-]|(H1 & H2 & H3)]; auto.
      + intros [[H1| ->] <-]; [right|auto]. split; [|auto]. intros E. apply Hni. rewrite E. apply elem_of_list_fmap. eauto.
    - unfold held. cbn. rewrite !fmap_app, <- !app_assoc. cbn. solve_Permutation.
    - intros k'. unfold held. cbn. set_solver.
    - exact (wo_lock _ _ _ _ _ _ _ H).
    - exact (wo_loop _ _ _ _ _ _ _ H).
    - exact (wo_phase _ _ _ _ _ _ _ H).
    - beat H.
  Qed.
  (** A balance request. *)
  Lemma wt_take_spec m qs : ∀ a : agent, (m <= length qs)%nat → NoDup (task_id <$> qs) → a_ids a = task_id <$> qs → (∀ t k, a_tasks a !! t = Some k ↔ k ∈ qs ∧ task_id k = t) →
    ∃ M, wt_take m a = (with_queue M (task_id <$> drop m qs) a, task_id <$> take m qs, None) ∧ ∀ t k, M !! t = Some k ↔ k ∈ drop m qs ∧ task_id k = t.
  Proof.
    revert qs; induction m as [|m IH]; intros qs a Hm Hnd Hi Hq; cbn [wt_take].
    - exists (a_tasks a). rewrite drop_0, <- Hi. split; [destruct a; reflexivity|exact Hq].
    - destruct qs as [|k qs]; cbn in Hm; [lia|]. rewrite Hi. cbn [fmap list_fmap]. cbn in Hnd. apply NoDup_cons in Hnd as [Hk Hnd].
      rewrite (proj2 (Hq (task_id k) k)) by (split; [left|reflexivity]).
      destruct (IH qs (with_queue (delete (task_id k) (a_tasks a)) (task_id <$> qs) a)) as (M & E & HM); [lia|exact Hnd|reflexivity| |].
      + intros t k'. cbn [a_tasks with_queue]. rewrite lookup_delete_Some, Hq, elem_of_cons. split.
        * intros (Hne & [->|H] & E); [congruence|auto].
        * intros [H <-]. split; [|auto]. intros E. apply Hk. rewrite E. apply elem_of_list_fmap. eauto.
      + change (fmap task_id qs) with (task_id <$> qs). rewrite E. exists M. split; [reflexivity|exact HM].
  Qed.
  Lemma queue_nodup qs x Qws Qsw : worker_ok T L known qs x Qws Qsw → NoDup (task_id <$> qs).
  Proof.
    intros H. pose proof (wo_nodup _ _ _ _ _ _ _ H) as Hnd. rewrite (wo_all _ _ _ _ _ _ _ H) in Hnd. apply NoDup_app in Hnd as [Hnd _]. unfold held in Hnd. rewrite !fmap_app in Hnd.
    apply NoDup_app in Hnd as (_ & _ & Hnd). apply NoDup_app in Hnd as [Hnd _]. exact Hnd.
  Qed.
  Lemma balance_ok qs x Qws Qsw now n : worker_ok T L known qs x Qws (MBalanceRequest n :: Qsw) → to_go x (agent_step now (WExt (MBalanceRequest n)) x) Qws Qsw (WExt (MBalanceRequest n)).
  Proof.
    intros H. pose proof (wo_sw _ _ _ _ _ _ _ H) as Hs. apply Forall_cons in Hs as [Hs _]. cbn in Hs.
    set (m := Z.to_nat (Z.min n (Z.of_nat (length (a_ids (n_agent x)))))).
    assert (Hlen : length (a_ids (n_agent x)) = length qs) by (rewrite (wo_ids _ _ _ _ _ _ _ H), fmap_length; reflexivity).
    assert (Hm : (m <= length qs)%nat) by (subst m; lia).
    destruct (wt_take_spec m qs (n_agent x) Hm (queue_nodup _ _ _ _ H) (wo_ids _ _ _ _ _ _ _ H) (wo_map _ _ _ _ _ _ _ H)) as (M & E & HM).
    exists (drop m qs), [MBalanceResponse (task_id <$> take m qs)].
    edestruct (agent_ok qs x Qws (MBalanceRequest n :: Qsw) now (WExt (MBalanceRequest n)) (with_queue M (task_id <$> drop m qs) (n_agent x)) [WOut (MBalanceResponse (task_id <$> take m qs))] (drop m qs) Qsw H)
      as (_ & H1 & H2 & H3); try done; cbn; rewrite ?app_nil_r in *; try (by repeat constructor); auto.
    - unfold wt_balance. rewrite (proj2 (Z.ltb_ge _ 0)) by lia. fold m. rewrite E. reflexivity.
    - exact (wo_alive _ _ _ _ _ _ _ H).
    - unfold held. cbn. rewrite <- (take_drop m qs) at 1. rewrite !fmap_app. solve_Permutation.
    - intros k'. unfold held. cbn. rewrite !elem_of_app. intros [?|[Hd|?]]; auto. right; left. eapply elem_of_submseteq; [exact Hd|]. apply sublist_submseteq, sublist_drop.
    - exact (wo_lock _ _ _ _ _ _ _ H).
    - exact (wo_loop _ _ _ _ _ _ _ H).
    - exact (wo_phase _ _ _ _ _ _ _ H).
    - beat H.
  Qed.

  (** The task loop. *)
  Lemma loop_ok qs x Qws Qsw now : worker_ok T L known qs x Qws Qsw → to_go x (agent_step now WLoop x) Qws Qsw WLoop.
  Proof.
    intros H. destruct (a_loop (n_agent x)) as [|k|k] eqn:El.
    - destruct qs as [|k qs].
      + assert (E : w_handle now WLoop (n_agent x) = (n_agent x, [], None)). { cbn. unfold wt_loop. rewrite El, (wo_ids _ _ _ _ _ _ _ H). reflexivity. }
        eapply idle_ok; try exact E; try exact H; try done; try (by repeat constructor).
        exists (a_sent (n_agent x)), (a_latency (n_agent x)), (a_seen (n_agent x)). split; [by destruct (n_agent x)|split; [auto|discriminate]].
      + pose proof (queue_nodup _ _ _ _ H) as Hnd. cbn in Hnd. apply NoDup_cons in Hnd as [Hk Hnd]. exists qs, [].
        edestruct (agent_ok (k :: qs) x Qws Qsw now WLoop (with_loop (LLock k) (with_queue (delete (task_id k) (a_tasks (n_agent x))) (task_id <$> qs) (n_agent x))) [] qs Qsw H)
          as (_ & H1 & H2 & H3); try done; cbn; rewrite ?app_nil_r in *; try (by repeat constructor); auto.
        * unfold wt_loop. rewrite El, (wo_ids _ _ _ _ _ _ _ H). cbn. rewrite (proj2 (wo_map _ _ _ _ _ _ _ H (task_id k) k)) by (split; [left|reflexivity]). reflexivity.
        * exact (wo_alive _ _ _ _ _ _ _ H).
        * intros t k'. rewrite lookup_delete_Some, (wo_map _ _ _ _ _ _ _ H), elem_of_cons. split.
          -- intros (Hne & [->|Hi] & Ei); [congruence|auto].
          -- intros [Hi <-]. split; [|auto]. intros Ei. apply Hk. rewrite Ei. apply elem_of_list_fmap. eauto.
        * unfold held. cbn. rewrite El, !fmap_app. cbn. rewrite fmap_app. solve_Permutation.
        * intros k'. unfold held. cbn. rewrite El. set_solver.
        * rewrite (wo_lock _ _ _ _ _ _ _ H), El. reflexivity.
        * exact (wo_phase _ _ _ _ _ _ _ H).
        * exact (wo_beat _ _ _ _ _ _ _ H).
    - pose proof (wo_lock _ _ _ _ _ _ _ H) as Hlk. rewrite El in Hlk. destruct (a_task (n_agent x)) as [k0|] eqn:Et.
      + assert (E : w_handle now WLoop (n_agent x) = (n_agent x, [], None)). { cbn. unfold wt_loop. rewrite El, Hlk. reflexivity. }
        eapply idle_ok; try exact E; try exact H; try done; try (by repeat constructor).
        exists (a_sent (n_agent x)), (a_latency (n_agent x)), (a_seen (n_agent x)). split; [by destruct (n_agent x)|split; [auto|discriminate]].
      + exists qs, [].
        edestruct (agent_ok qs x Qws Qsw now WLoop (with_loop (LInit k) (with_holder (a_init (n_agent x)) None true (n_agent x))) [] qs Qsw H)
          as (_ & H1 & H2 & H3); try done; cbn; rewrite ?app_nil_r in *; try (by repeat constructor); auto.
        * unfold wt_loop. rewrite El, Hlk, Et. reflexivity.
        * exact (wo_alive _ _ _ _ _ _ _ H).
        * exact (wo_ids _ _ _ _ _ _ _ H).
        * exact (wo_map _ _ _ _ _ _ _ H).
        * unfold held. cbn. rewrite El, Et. reflexivity.
        * intros k'. unfold held. cbn. rewrite El, Et. auto.
        * rewrite <- Et. exact (wo_phase _ _ _ _ _ _ _ H).
        * exact (wo_beat _ _ _ _ _ _ _ H).
    - pose proof (wo_loop _ _ _ _ _ _ _ H k El) as Et. pose proof (wo_phase _ _ _ _ _ _ _ H) as Hp. rewrite Et in Hp. destruct (a_init (n_agent x)) eqn:Ei.
      + exists qs, [].
        edestruct (agent_ok qs x Qws Qsw now WLoop (with_loop LGet (with_holder true (Some k) (a_lock (n_agent x)) (n_agent x))) [WHand (MTask k)] qs Qsw H)
          as (_ & H1 & H2 & H3); try done; cbn; rewrite ?app_nil_r in *; try (by repeat constructor); auto.
        * unfold wt_loop. rewrite El, Ei, Et. reflexivity.
        * exact (wo_alive _ _ _ _ _ _ _ H).
        * exact (wo_ids _ _ _ _ _ _ _ H).
        * exact (wo_map _ _ _ _ _ _ _ H).
        * unfold held. cbn. rewrite El, Et. reflexivity.
        * intros k'. unfold held. cbn. rewrite El, Et. auto.
        * rewrite (wo_lock _ _ _ _ _ _ _ H), El, Et. reflexivity.
        * inversion Hp; subst. constructor.
        * exact (wo_beat _ _ _ _ _ _ _ H).
      + assert (E : w_handle now WLoop (n_agent x) = (n_agent x, [], None)). { cbn. unfold wt_loop. rewrite El, Ei. reflexivity. }
        eapply idle_ok; try exact E; try exact H; try done; try (by repeat constructor).
        exists (a_sent (n_agent x)), (a_latency (n_agent x)), (a_seen (n_agent x)). split; [by destruct (n_agent x)|split; [auto|discriminate]].
  Qed.

  (** Functions. *)
  Lemma response_ok qs x Qws Qsw now f n ct : worker_ok T L known qs x Qws (MFunctionResponse FnOK f n ct :: Qsw) →
    to_go x (agent_step now (WExt (MFunctionResponse FnOK f n ct)) x) Qws Qsw (WExt (MFunctionResponse FnOK f n ct)).
  Proof.
    intros H. pose proof (wo_phase _ _ _ _ _ _ _ H) as Hp. cbn in Hp. inversion Hp; try done; subst.
    exists qs, [].
    edestruct (agent_ok qs x Qws (MFunctionResponse FnOK (task_function k) n ct :: Qsw) now (WExt (MFunctionResponse FnOK (task_function k) n ct)) (n_agent x) [WHand (MFunctionResponse FnOK (task_function k) n ct)] qs Qsw H)
          as (_ & X1 & X2 & X3); try done; cbn; rewrite ?app_nil_r in *; try (by repeat constructor); auto.
    - unfold wp_function_response. rewrite <- H2, <- H1. cbn. rewrite String.eqb_refl. reflexivity.
    - exact (wo_alive _ _ _ _ _ _ _ H).
    - exact (wo_ids _ _ _ _ _ _ _ H).
    - exact (wo_map _ _ _ _ _ _ _ H).
    - exact (wo_lock _ _ _ _ _ _ _ H).
    - exact (wo_loop _ _ _ _ _ _ _ H).
    - rewrite <- H1, <- H2, <- H3, <- H4, <- H5, <- H6, <- H7. unfold fn_responses. rewrite <- H9. constructor.
    - beat H.
  Qed.

  (** What the scheduler sends is understood. *)
  Lemma external_ok qs x Qws Qsw now m : worker_ok T L known qs x Qws (m :: Qsw) → to_go x (agent_step now (WExt m) x) Qws Qsw (WExt m).
  Proof.
    intros H. pose proof (wo_sw _ _ _ _ _ _ _ H) as Hs. apply Forall_cons in Hs as [Hs _]. destruct m; cbn in Hs; try done.
    - by eapply task_ok.
    - by eapply balance_ok.
    - by eapply echo_ok.
    - subst. by eapply delete_ok.
    - subst. by eapply response_ok.
  Qed.
  (** ... and so is what the processor sends. *)
  Lemma internal_ok qs x Qws Qsw now m : worker_ok T L known qs x Qws Qsw → head (from_processor x) = Some m → to_go x (agent_step now (WProc m) x) Qws Qsw (WProc m).
  Proof.
    intros H Hm. pose proof (wo_phase _ _ _ _ _ _ _ H) as Hp. inversion Hp; subst;
      match goal with E : _ = from_processor x |- _ => rewrite <- E in Hm; cbn in Hm; try discriminate; injection Hm as <- end.
    - exists qs, [].
      edestruct (agent_ok qs x Qws Qsw now (WProc sentinel) (with_holder true None (a_lock (n_agent x)) (n_agent x)) [] qs Qsw H) as (_ & X1 & X2 & X3);
        try done; cbn [agent_sent agent_handed omap list_omap]; rewrite ?app_nil_r in *; try (by repeat constructor); auto.
      + cbn. unfold wp_result. back. reflexivity.
      + exact (wo_alive _ _ _ _ _ _ _ H).
      + back. reflexivity.
      + exact (wo_ids _ _ _ _ _ _ _ H).
      + exact (wo_map _ _ _ _ _ _ _ H).
      + unfold held. cbn. back. rewrite !app_nil_r. reflexivity.
      + intros k'. unfold held. cbn. back. auto.
      + cbn. rewrite (wo_lock _ _ _ _ _ _ _ H). back. reflexivity.
      + cbn. back. constructor.
      + exact (wo_beat _ _ _ _ _ _ _ H).
    - exists qs, [ask (task_function k)].
      edestruct (agent_ok qs x Qws Qsw now (WProc (ask (task_function k))) (n_agent x) [WOut (ask (task_function k))] qs Qsw H) as (_ & X1 & X2 & X3);
        try done; cbn [agent_sent agent_handed omap list_omap]; rewrite ?app_nil_r in *; try (by repeat constructor); auto.
      + cbn. unfold wp_internal_request. back; rewrite String.eqb_refl. reflexivity.
      + exact (wo_alive _ _ _ _ _ _ _ H).
      + back. reflexivity.
      + exact (wo_ids _ _ _ _ _ _ _ H).
      + exact (wo_map _ _ _ _ _ _ _ H).
      + exact (wo_lock _ _ _ _ _ _ _ H).
      + exact (wo_loop _ _ _ _ _ _ _ H).
      + cbn. back. constructor.
      + beat H.
    - exists qs, [MTaskResult (task_id k) st d p].
      edestruct (agent_ok qs x Qws Qsw now (WProc (MTaskResult (task_id k) st d p)) (with_holder true None false (n_agent x)) [WOut (MTaskResult (task_id k) st d p)] qs Qsw H) as (_ & X1 & X2 & X3);
        try done; cbn [agent_sent agent_handed omap list_omap]; rewrite ?app_nil_r in *; try (by repeat constructor); auto.
      + cbn. unfold wp_result. back; rewrite String.eqb_refl. cbn. rewrite (wo_lock _ _ _ _ _ _ _ H). back. reflexivity.
      + exact (wo_alive _ _ _ _ _ _ _ H).
      + back. reflexivity.
      + exact (wo_ids _ _ _ _ _ _ _ H).
      + exact (wo_map _ _ _ _ _ _ _ H).
      + unfold held. cbn. back. rewrite !fmap_app. cbn. rewrite !app_nil_r. rewrite <- !app_assoc. reflexivity.
      + intros k'. unfold held. cbn. back. set_solver.
      + cbn. destruct (a_loop (n_agent x)) eqn:El; try reflexivity. by rewrite (wo_loop _ _ _ _ _ _ _ H k0 El) in *.
      + cbn. back. constructor.
      + beat H.
  Qed.

  (** ** Steps of the processor *)
  Lemma proc_ok qs x Qws Qsw now e p' l : worker_ok T L known qs x Qws Qsw → p_step (n_processor x, n_calls x) (PRound now e) = (p', n_calls x ++ l) →
    processor_heard l = [] ∨ (∃ m, processor_heard l = [m] ∧ head (to_processor x) = Some m) →
    phase (a_task (n_agent x)) (a_init (n_agent x)) (kept (drop (length (processor_heard l)) (to_processor x))) (from_processor x ++ processor_sent l) (c_task p') (c_main p') (fn_requests Qws) (fn_responses Qsw) →
    let x' := processor_step now e x in
    x' = Node (n_agent x) (n_history x) p' (n_calls x ++ l) (n_retention x) ∧ worker_ok T L known qs x' Qws Qsw.
  Proof.
    intros H E Hl Hp. cbv zeta. unfold processor_step. rewrite E. split; [reflexivity|].
    set (x' := Node _ _ _ _ _).
    assert (HU : from_processor x' = from_processor x ++ processor_sent l).
    { unfold from_processor, x', processor_sent. cbn [n_history n_calls]. rewrite omap_app. apply on_the_way_sent, (wo_ulen _ _ _ _ _ _ _ H). }
    assert (HD : (length (processor_heard (n_calls x')) <= length (agent_handed (n_history x')))%nat ∧ to_processor x' = drop (length (processor_heard l)) (to_processor x)).
    { pose proof (wo_dlen _ _ _ _ _ _ _ H) as Hd. unfold to_processor, x'. cbn [n_history n_calls]. unfold processor_heard at 1 2. rewrite omap_app. fold (processor_heard (n_calls x)) (processor_heard l).
      destruct Hl as [Hl|(m & Hl & Hm)]; rewrite Hl; cbn [length]; [rewrite app_nil_r, drop_0; auto|].
      destruct (to_processor x) as [|m' q] eqn:ED; [discriminate|]. injection Hm as ->. unfold to_processor in ED. rewrite ED. apply on_the_way_heard, ED. }
    destruct HD as [HD1 HD2]. destruct H as [W1 W2 W3 W4 W5 W6 W7 W8 W9 W10 W11 W12 W13 W14]. split; auto.
    - subst x'. cbn [n_history n_calls]. unfold processor_sent in *. rewrite omap_app, app_length. lia.
    - rewrite HU, HD2. exact Hp.
  Qed.
  Lemma proc_same qs x Qws Qsw now e p' : worker_ok T L known qs x Qws Qsw → p_step (n_processor x, n_calls x) (PRound now e) = (p', n_calls x) → c_task p' = c_task (n_processor x) →
    phase (a_task (n_agent x)) (a_init (n_agent x)) (kept (to_processor x)) (from_processor x) (c_task p') (c_main p') (fn_requests Qws) (fn_responses Qsw) →
    let x' := processor_step now e x in
    x' = Node (n_agent x) (n_history x) p' (n_calls x ++ []) (n_retention x) ∧ worker_ok T L known qs x' Qws Qsw.
  Proof.
    intros H E _ Hp. apply proc_ok; auto.
    - rewrite E, app_nil_r. reflexivity.
    - cbn. rewrite drop_0, app_nil_r. exact Hp.
  Qed.
  Lemma worker_running qs x Qws Qsw : worker_ok T L known qs x Qws Qsw → c_main (n_processor x) ≠ Stopped.
  Proof. intros H. pose proof (wo_phase _ _ _ _ _ _ _ H) as Hp. inversion Hp; congruence. Qed.
  Lemma kept_cons m D : (∃ f n ct, m = MFunctionRequest FnDelete f n ct) ∧ kept (m :: D) = kept D ∨ kept (m :: D) = m :: kept D.
  Proof. destruct m; try (right; reflexivity). destruct type; try (right; reflexivity). left. split; [eauto|reflexivity]. Qed.
  Lemma phase_head ot i m D U c mn fr fs : phase ot i (m :: D) U c mn fr fs → D = [] ∧ ((∃ k, m = MTask k) ∨ ∃ f n ct, m = MFunctionResponse FnOK f n ct).
  Proof. intros H. inversion H; subst; eauto 7. Qed.
  Lemma processor_ok qs x Qws Qsw now e : worker_ok T L known qs x Qws Qsw →
    match e with PRun o _ => o ≠ Ended | PMsg m loads => loads = true ∧ head (to_processor x) = Some m | _ => True end →
    let x' := processor_step now e x in
    n_agent x' = n_agent x ∧ n_history x' = n_history x ∧ worker_ok T L known qs x' Qws Qsw.
  Proof.
    intros H He. cbv zeta. pose proof (wo_phase _ _ _ _ _ _ _ H) as Hp.
    assert (Hgo : ∀ p' l, p_step (n_processor x, n_calls x) (PRound now e) = (p', n_calls x ++ l) →
      processor_heard l = [] ∨ (∃ m, processor_heard l = [m] ∧ head (to_processor x) = Some m) →
      phase (a_task (n_agent x)) (a_init (n_agent x)) (kept (drop (length (processor_heard l)) (to_processor x))) (from_processor x ++ processor_sent l) (c_task p') (c_main p') (fn_requests Qws) (fn_responses Qsw) →
      n_agent (processor_step now e x) = n_agent x ∧ n_history (processor_step now e x) = n_history x ∧ worker_ok T L known qs (processor_step now e x) Qws Qsw).
    { intros p' l E Hl Hph. destruct (proc_ok qs x Qws Qsw now e p' l H E Hl Hph) as [-> Hok]. auto. }
    assert (Hsame : ∀ p', p_step (n_processor x, n_calls x) (PRound now e) = (p', n_calls x) → c_task p' = c_task (n_processor x) → c_main p' = c_main (n_processor x) →
      n_agent (processor_step now e x) = n_agent x ∧ n_history (processor_step now e x) = n_history x ∧ worker_ok T L known qs (processor_step now e x) Qws Qsw).
    { intros p' E Ht Hm. apply (Hgo p' []); [rewrite app_nil_r; exact E|auto|]. cbn. rewrite drop_0, app_nil_r, Ht, Hm. exact Hp. }
    assert (Hcases : c_main (n_processor x) = Waiting ∨ (∃ k, c_main (n_processor x) = Found k) ∨ ∃ k f, c_main (n_processor x) = Calling k f).
    { inversion Hp; eauto. }
    unfold p_step in *. destruct e as [m loads| |o d| |]; cbn [pr_event pr_now] in *.
    - destruct He as [-> Hm]. destruct Hcases as [Hw|[[k Hw]|(k & f & Hw)]]; [|apply (Hsame (n_processor x)); rewrite ?Hw; reflexivity..].
      destruct (p_receive now m true (n_processor x)) as [p' out] eqn:Er. rewrite Hw in *. destruct (to_processor x) as [|m' D] eqn:ED; [discriminate|]. injection Hm as ->.
      destruct (kept_cons m D) as [[(f & n & ct & ->) Hk]|Hk]; rewrite Hk in Hp.
      + cbn [p_receive] in Er. injection Er as <- <-. eapply (Hgo _ [PIn (MFunctionRequest FnDelete f n ct)]); [reflexivity|right; eauto|]. cbn. rewrite drop_0, app_nil_r, Hw. exact Hp.
      + destruct (phase_head _ _ _ _ _ _ _ _ _ Hp) as [HD [[k ->]|(f & n & ct & ->)]]; inversion Hp as [| | | | | | k' n' ct'| | |]; subst; cbn [p_receive] in Er.
        * destruct (pc_get now (task_function k) (n_processor x)) as [q [b|]] eqn:Eg; injection Er as <- <-; unfold pc_get in Eg.
          -- destruct (c_functions (n_processor x) !! task_function k); [|discriminate]. injection Eg as <- <-. eapply (Hgo _ [PIn (MTask k)]); [reflexivity|right; eauto|]. cbn.
             rewrite ?drop_0, ?app_nil_r; fold (kept D); rewrite HD. back. constructor.
          -- destruct (c_functions (n_processor x) !! task_function k); [discriminate|]. injection Eg as <-. eapply (Hgo _ [PIn (MTask k); POut (ask (task_function k))]); [reflexivity|right; eauto|]. cbn.
             rewrite ?drop_0; fold (kept D); rewrite HD. back. rewrite Hw. constructor.
        * cbn in Er. match goal with E : Some k' = c_task _ |- _ => rewrite <- E in Er end. injection Er as <- <-. eapply (Hgo _ [PIn (MFunctionResponse FnOK (task_function k') n ct)]); [reflexivity|right; eauto|]. cbn.
          rewrite ?drop_0, ?app_nil_r; fold (kept D); rewrite HD. back. constructor.
    - destruct Hcases as [Hw|[[k Hw]|(k & f & Hw)]]; [apply (Hsame (n_processor x)); rewrite ?Hw; reflexivity| |apply (Hsame (n_processor x)); rewrite ?Hw; reflexivity].
      rewrite Hw in *. unfold pc_get in *. destruct (c_functions (n_processor x) !! task_function k) as [b|] eqn:Eb.
      + eapply (Hgo _ []); [rewrite app_nil_r; reflexivity|auto|]. cbn. rewrite ?drop_0, app_nil_r; fold (kept (to_processor x)). inversion Hp; subst. back. constructor.
      + eapply (Hgo _ []); [rewrite app_nil_r; reflexivity|auto|]. cbn. rewrite ?drop_0, app_nil_r; fold (kept (to_processor x)). inversion Hp; subst. back. constructor.
    - destruct Hcases as [Hw|[[k Hw]|(k & f & Hw)]];
        [apply (Hsame (n_processor x)); unfold p_run; rewrite ?Hw, ?app_nil_r; reflexivity|apply (Hsame (n_processor x)); unfold p_run; rewrite ?Hw, ?app_nil_r; reflexivity|].
      unfold p_run in *. rewrite Hw in *. inversion Hp; subst. destruct f as [c|], o as [v|v|]; try done.
      + eapply Hgo; [reflexivity|left; reflexivity|]. cbn. rewrite ?drop_0; fold (kept (to_processor x)). back. constructor. auto.
      + eapply Hgo; [reflexivity|left; reflexivity|]. cbn. rewrite ?drop_0; fold (kept (to_processor x)). back. constructor. auto.
      + apply (Hsame (n_processor x)); rewrite ?Hw, ?app_nil_r; reflexivity.
      + eapply Hgo; [reflexivity|left; reflexivity|]. cbn. rewrite ?drop_0; fold (kept (to_processor x)). back. constructor. auto.
    - apply (Hsame (p_scan now (n_processor x))); unfold p_scan; destruct (c_doomed (n_processor x)); try reflexivity; destruct Hcases as [Hw|[[k Hw]|(k & f & Hw)]]; rewrite Hw; reflexivity.
    - apply (Hsame (p_delete (n_processor x))); unfold p_delete; destruct (c_doomed (n_processor x)); try reflexivity; destruct Hcases as [Hw|[[k Hw]|(k & f & Hw)]]; rewrite Hw; reflexivity.
  Qed.
End steps.

(** ** What the scheduler does to it *)
Lemma worker_change T L (known : Prop) T' L' (known' : Prop) qs x Qws Qsw Qws' Qsw' : worker_ok T L known qs x Qws Qsw →
  Forall from_worker Qws' → Forall for_worker Qsw' → NoDup L' → L' ≡ₚ (task_id <$> held Qsw' qs (n_agent x)) ++ back_ids Qws' →
  (∀ k, k ∈ held Qsw' qs (n_agent x) → T' !! task_id k = Some k) →
  phase (a_task (n_agent x)) (a_init (n_agent x)) (kept (to_processor x)) (from_processor x) (c_task (n_processor x)) (c_main (n_processor x)) (fn_requests Qws') (fn_responses Qsw') →
  ((known' ∧ MHeartbeatEcho ∈ Qsw') ∨ a_sent (n_agent x) = 0 ∨ ∃ h, MHeartbeat h ∈ Qws') → worker_ok T' L' known' qs x Qws' Qsw'.
Proof. intros [] **. split; auto. Qed.

Definition worker_flow (T : gmap bytes task) (owner : gmap bytes bytes) (known : Prop) (w : bytes) (x : worker) (Qws Qsw : list message) : Prop :=
  ∃ L qs, (∀ t, t ∈ L ↔ owner !! t = Some w) ∧ worker_ok T L known qs x Qws Qsw.
Section effects.
  Context (T : gmap bytes task) (owner : gmap bytes bytes) (w : bytes) (x : worker).
  Definition chatter (m : message) : Prop := match m with MBalanceRequest n => 0 <= n | MHeartbeatEcho => True | MFunctionRequest ty _ _ _ => ty = FnDelete | _ => False end.
  Lemma chatter_nothing out : Forall chatter out → tasks_in out = [] ∧ fn_responses out = [] ∧ Forall for_worker out.
  Proof.
    induction 1 as [|m out Hm _ (IH1 & IH2 & IH3)]; [repeat split; constructor|]. unfold tasks_in, fn_responses in *. destruct m; try done; cbn; repeat split; auto.
  Qed.
  Lemma held_in L known qs Qws Qsw k : worker_ok T L known qs x Qws Qsw → k ∈ held Qsw qs (n_agent x) → task_id k ∈ L.
  Proof. intros H Hk. rewrite (wo_all _ _ _ _ _ _ _ H), elem_of_app. left. apply elem_of_list_fmap_1, Hk. Qed.
  Lemma held_app q q' qs a : tasks_in q' = [] → held (q ++ q') qs a = held q qs a.
  Proof. intros E. unfold held. rewrite tasks_in_app, E, app_nil_r. reflexivity. Qed.
  Lemma effect_none (known known' : Prop) T' owner' Qws Qsw out : worker_flow T owner known w x Qws Qsw → Forall chatter out → (known → known') →
    (∀ t, owner' !! t = Some w ↔ owner !! t = Some w) → (∀ t, owner !! t = Some w → T' !! t = T !! t) → worker_flow T' owner' known' w x Qws (Qsw ++ out).
  Proof.
    intros (L & qs & HL & H) Ho Hk Ho' HT. destruct (chatter_nothing _ Ho) as (O1 & O2 & O3). exists L, qs. split; [intros t; rewrite Ho'; auto|].
    eapply worker_change; [exact H|try (destruct H; assumption)..].
    - apply Forall_app. split; [exact (wo_sw _ _ _ _ _ _ _ H)|exact O3].
    - rewrite held_app by done. exact (wo_all _ _ _ _ _ _ _ H).
    - rewrite held_app by done. intros k Hk'. rewrite HT by (apply HL; eapply held_in; eassumption). exact (wo_tasks _ _ _ _ _ _ _ H k Hk').
    - rewrite fn_responses_app, O2, app_nil_r. exact (wo_phase _ _ _ _ _ _ _ H).
    - destruct (wo_beat _ _ _ _ _ _ _ H) as [[Hb Hb']|Hb]; auto. left. split; [auto|apply elem_of_app; auto].
  Qed.
  Lemma effect_task (known : Prop) k Qws Qsw : worker_flow T owner known w x Qws Qsw → owner !! task_id k = None → T !! task_id k = Some k →
    worker_flow T (<[task_id k := w]> owner) known w x Qws (Qsw ++ [MTask k]).
  Proof.
    intros (L & qs & HL & H) Hn HT. assert (HnL : task_id k ∉ L) by (rewrite HL; congruence). exists (task_id k :: L), qs. split.
    { intros t. rewrite elem_of_cons, HL, lookup_insert_Some. destruct (decide (t = task_id k)) as [->|]; naive_solver. }
    eapply worker_change; [exact H|try (destruct H; assumption)..].
    - apply Forall_app. split; [exact (wo_sw _ _ _ _ _ _ _ H)|repeat constructor].
    - constructor; [exact HnL|exact (wo_nodup _ _ _ _ _ _ _ H)].
    - rewrite (wo_all _ _ _ _ _ _ _ H). unfold held. rewrite tasks_in_app, !fmap_app. cbn. solve_Permutation.
    - intros k'. unfold held. rewrite tasks_in_app. cbn. intros Hk'. pose proof (wo_tasks _ _ _ _ _ _ _ H k') as Ht. unfold held in Ht. revert Hk'. rewrite !elem_of_app, elem_of_list_singleton in *. naive_solver.
    - rewrite fn_responses_app, app_nil_r. exact (wo_phase _ _ _ _ _ _ _ H).
    - destruct (wo_beat _ _ _ _ _ _ _ H) as [[Hb Hb']|Hb]; auto. left. split; [auto|apply elem_of_app; auto].
  Qed.
  Lemma effect_heartbeat (known : Prop) h Qws Qsw : worker_flow T owner known w x (MHeartbeat h :: Qws) Qsw → worker_flow T owner True w x Qws (Qsw ++ [MHeartbeatEcho]).
  Proof.
    intros (L & qs & HL & H). exists L, qs. split; [exact HL|].
    eapply worker_change; [exact H|try (destruct H; assumption)..].
    - pose proof (wo_ws _ _ _ _ _ _ _ H) as Hw. apply Forall_cons in Hw as [_ Hw]. exact Hw.
    - apply Forall_app. split; [exact (wo_sw _ _ _ _ _ _ _ H)|repeat constructor].
    - rewrite held_app by done. exact (wo_all _ _ _ _ _ _ _ H).
    - rewrite held_app by done. exact (wo_tasks _ _ _ _ _ _ _ H).
    - rewrite fn_responses_app, app_nil_r. exact (wo_phase _ _ _ _ _ _ _ H).
    - left. split; [auto|]. apply elem_of_app. right. left.
  Qed.
  Lemma effect_result (known : Prop) t st d p Qws Qsw : worker_flow T owner known w x (MTaskResult t st d p :: Qws) Qsw →
    owner !! t = Some w ∧ (st = Success ∨ st = Failed) ∧ worker_flow (delete t T) (delete t owner) known w x Qws Qsw.
  Proof.
    intros (L & qs & HL & H). pose proof (wo_all _ _ _ _ _ _ _ H) as Ha. pose proof (wo_nodup _ _ _ _ _ _ _ H) as Hn. cbn [back_ids mbind list_bind] in Ha.
    assert (Ha' : L ≡ₚ t :: (task_id <$> held Qsw qs (n_agent x)) ++ back_ids Qws). { rewrite Ha. cbn. solve_Permutation. }
    pose proof (wo_ws _ _ _ _ _ _ _ H) as Hw. apply Forall_cons in Hw as [Hst Hw].
    split; [apply HL; rewrite Ha'; left|]. split; [exact Hst|]. rewrite Ha' in Hn. apply NoDup_cons in Hn as [Hn1 Hn2].
    exists ((task_id <$> held Qsw qs (n_agent x)) ++ back_ids Qws), qs. split.
    { intros t'. rewrite lookup_delete_Some, <- HL, Ha', elem_of_cons. split; [|naive_solver]. intros Ht. split; [|auto]. intros <-. auto. }
    eapply worker_change; [exact H|try (destruct H; assumption)..]; auto.
    - intros k Hk. rewrite lookup_delete_ne; [exact (wo_tasks _ _ _ _ _ _ _ H k Hk)|]. intros ->. apply Hn1, elem_of_app. left. apply elem_of_list_fmap_1, Hk.
    - destruct (wo_beat _ _ _ _ _ _ _ H) as [Hb|[Hb|[h Hb]]]; auto. right. right. exists h. apply elem_of_cons in Hb as [Hb|Hb]; [discriminate|exact Hb].
  Qed.
  Lemma lookup_deletes {A} (m : gmap bytes A) ids t a : foldr delete m ids !! t = Some a ↔ t ∉ ids ∧ m !! t = Some a.
  Proof.
    induction ids as [|i ids IH]; cbn; [set_solver|]. rewrite lookup_delete_Some, IH, elem_of_cons. naive_solver.
  Qed.
  Lemma effect_balance (known : Prop) ids Qws Qsw : worker_flow T owner known w x (MBalanceResponse ids :: Qws) Qsw →
    (∀ t, t ∈ ids → owner !! t = Some w) ∧ worker_flow T (foldr delete owner ids) known w x Qws Qsw.
  Proof.
    intros (L & qs & HL & H). pose proof (wo_all _ _ _ _ _ _ _ H) as Ha. pose proof (wo_nodup _ _ _ _ _ _ _ H) as Hn.
    assert (Ha' : L ≡ₚ ids ++ (task_id <$> held Qsw qs (n_agent x)) ++ back_ids Qws). { rewrite Ha. cbn. solve_Permutation. }
    pose proof (wo_ws _ _ _ _ _ _ _ H) as Hw. apply Forall_cons in Hw as [Hst Hw].
    split; [intros t Ht; apply HL; rewrite Ha', elem_of_app; auto|]. rewrite Ha' in Hn. apply NoDup_app in Hn as (Hn1 & Hn2 & Hn3).
    exists ((task_id <$> held Qsw qs (n_agent x)) ++ back_ids Qws), qs. split.
    { intros t'. rewrite lookup_deletes, <- HL, Ha', (elem_of_app ids). split; [|naive_solver]. intros Ht. split; [|auto]. intros Hi. exact (Hn2 _ Hi Ht). }
    eapply worker_change; [exact H|try (destruct H; assumption)..]; auto.
    - destruct (wo_beat _ _ _ _ _ _ _ H) as [Hb|[Hb|[h Hb]]]; auto. right. right. exists h. apply elem_of_cons in Hb as [Hb|Hb]; [discriminate|exact Hb].
  Qed.
  Lemma effect_request (known : Prop) ty f n ct n' ct' Qws Qsw : worker_flow T owner known w x (MFunctionRequest ty f n ct :: Qws) Qsw →
    ty = FnRequest ∧ (∃ k, owner !! task_id k = Some w ∧ T !! task_id k = Some k ∧ task_function k = f) ∧ worker_flow T owner known w x Qws (Qsw ++ [MFunctionResponse FnOK f n' ct']).
  Proof.
    intros (L & qs & HL & H). pose proof (wo_ws _ _ _ _ _ _ _ H) as Hw. apply Forall_cons in Hw as [Hst Hw]. cbn in Hst. subst ty.
    pose proof (wo_phase _ _ _ _ _ _ _ H) as Hp. cbn in Hp. inversion Hp; subst.
    assert (Hk : k ∈ held Qsw qs (n_agent x)) by (unfold held; back; set_solver).
    split; [reflexivity|]. split.
    { exists k. split; [apply HL; eapply held_in; eassumption|]. split; [exact (wo_tasks _ _ _ _ _ _ _ H k Hk)|reflexivity]. }
    exists L, qs. split; [exact HL|]. eapply worker_change; [exact H|try (destruct H; assumption)..]; auto.
    - apply Forall_app. split; [exact (wo_sw _ _ _ _ _ _ _ H)|repeat constructor].
    - rewrite held_app by done. exact (wo_all _ _ _ _ _ _ _ H).
    - rewrite held_app by done. exact (wo_tasks _ _ _ _ _ _ _ H).
    - rewrite fn_responses_app. back. cbn. unfold fn_requests. match goal with E : [] = _ |- _ => rewrite <- E end. constructor.
    - destruct (wo_beat _ _ _ _ _ _ _ H) as [[Hb Hb']|[Hb|[h Hb]]]; [left; split; [auto|apply elem_of_app; auto]|auto|]. right. right. exists h. apply elem_of_cons in Hb as [Hb|Hb]; [discriminate|exact Hb].
  Qed.
End effects.

(** A new worker. *)
Lemma worker_new T owner known w death now retention : (∀ t, owner !! t ≠ Some w) →
  let '(g, h) := w_init w death now in let '(p, out) := p_init retention in worker_flow T owner known w (Node g h p out retention) (agent_sent h) [].
Proof.
  intros Ho. cbn. exists [], []. split; [intros t; split; [by intros []%elem_of_nil|intros H; by apply Ho in H]|].
  split; cbn; try done; try (by repeat constructor); auto; set_solver.
Qed.
