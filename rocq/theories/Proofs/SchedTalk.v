(** Who is told about functions: which rounds send which function responses. *)

From Verif.Model Require Import Base OneToManyDict Allocator Message Sorter Scheduler.
From Verif.Spec Require Import AllocatorSpec SchedulerSpec.
From Verif.Proofs Require Import BaseProofs AllocatorProofs SchedWp SchedCount SchedHold SchedContent SchedPrim SchedStep.

Section talk.
(** Who may be sent a function response in a round. *)
Context (talk : bytes → Prop).
Definition fine (e : entry) : Prop := match e with LSend c (MFunctionResponse _ _ _ _) => talk c | _ => True end.
Inductive prim : sched → sched → Prop :=
| q_emit e s : fine e → prim s (set_log (λ l, l ++ [e]) s)
| q_state s s' : s_log s' = s_log s → prim s s'.
Notation path := (rtc prim).
Lemma path_step s0 s s' : path s0 s → prim s s' → path s0 s'.
Proof. intros. eapply rtc_r; eauto. Qed.
Ltac pp :=
  repeat match goal with
  | H : rtc prim ?a ?b |- rtc prim ?a ?b => exact H
  | |- rtc prim _ (set_log (λ l, l ++ [_]) _) => eapply path_step; [|apply q_emit; first [exact I|assumption]]
  | |- rtc prim _ (_ ?s) => eapply (path_step _ s); [|apply q_state; reflexivity]
  end.
Definition goes {A} (m : M A) : Prop := ∀ s0 s, path s0 s → wp m (λ _ s', path s0 s') (λ _ s', path s0 s') s.

Ltac go1 :=
  first
    [ wstep
    | match goal with |- wp ?m _ (λ _ s', rtc prim ?s0 s') ?s =>
        let H := fresh in assert (H : goes m) by (solve [auto with goes]); eapply wp_mono; [apply (H s0 s); pp| |]; clear H;
        [cbv beta; intros ? ? ?|cbv beta; intros ? ? ?] end
    | match goal with |- wp (foreach _ _) _ (λ _ s', rtc prim ?s0 s') _ =>
        apply (wp_mono _ (λ _ s', path s0 s') _ (λ _ s', path s0 s')); [apply (wp_foreach _ (λ _ s', path s0 s')); [pp|intros ? ? ? ?]|cbv beta; intros ? ? ?|auto] end ].
Ltac go := let s0 := fresh "s0" in let s := fresh "s" in let H := fresh "Hpath" in intros s0 s H; repeat (go1; cbv beta zeta); pp.

Lemma go_use t f : goes (fm_use t f).
Proof.
  intros s0 s H. unfold fm_use. wstep. wstep. wstep. wstep; [|assumption]. wsteps.
  - ss. destruct (s_funcs s !! f) eqn:E; [|discriminate]. injection Hok as <-. pp.
  - ss. destruct (s_funcs s !! f) eqn:E; [|discriminate]. injection Hok as <-. pp.
Qed.
Lemma go_done t : goes (fm_done t). Proof. unfold fm_done. go. Qed.
Lemma go_monitor t st : goes (tm_monitor t st). Proof. unfold tm_monitor, fm_get_name. go. Qed.
Lemma go_put t : goes (tm_put t). Proof. unfold tm_put. go. Qed.
Lemma go_cm_new c t : goes (cm_new c t). Proof. unfold cm_new. go. Qed.
Lemma go_cm_done t : goes (cm_done t). Proof. unfold cm_done. go. Qed.
Lemma go_available : goes wm_has_available. Proof. unfold wm_has_available. go. Qed.
Lemma go_wcancel t : goes (wm_cancel t). Proof. unfold wm_cancel. go. Qed.
Local Hint Resolve go_use go_done go_monitor go_put go_cm_new go_cm_done go_available go_wcancel : goes.
Lemma go_tm_new c t : goes (tm_new c t).
Proof. unfold tm_new, fm_has_function. go. Qed.
Lemma go_reroute t : goes (tm_reroute t). Proof. unfold tm_reroute. go. Qed.
Lemma go_count st : goes (tm_count st). Proof. unfold tm_count. go. Qed.
Local Hint Resolve go_tm_new go_reroute go_count : goes.
Lemma go_forget r : goes (tm_forget r). Proof. unfold tm_forget. go. Qed.
Lemma go_graph g : goes (gm_graph g). Proof. unfold gm_graph. go. Qed.
Lemma go_store g i : goes (gm_store g i). Proof. unfold gm_store. go. Qed.
Local Hint Resolve go_forget go_graph go_store : goes.
Lemma go_cancel done t : (∀ r, goes (done r)) → goes (tm_cancel done t).
Proof. intros Hd. unfold tm_cancel. go. Qed.
Lemma go_clean_nodes cancel ids : (∀ t, goes (cancel t)) → ∀ nodes, goes (gm_clean_nodes cancel ids nodes).
Proof. intros Hc. induction ids as [|t ids IH]; intros nodes; cbn [gm_clean_nodes]; go. Qed.
Local Hint Resolve go_cancel go_clean_nodes : goes.
Lemma go_clean cancel g : (∀ t, goes (cancel t)) → goes (gm_clean cancel g).
Proof. intros Hc. unfold gm_clean. go. Qed.
Lemma go_mark g r : goes (gm_mark g r). Proof. unfold gm_mark. go. Qed.
Lemma go_task_result g t a : goes (gm_task_result g t a). Proof. unfold gm_task_result. go. Qed.
Local Hint Resolve go_clean go_mark go_task_result : goes.
Lemma go_arguments g t args : goes (gm_arguments g t args).
Proof. induction args as [|[]]; cbn [gm_arguments]; go. Qed.
Local Hint Resolve go_arguments : goes.
Lemma go_start g t : goes (gm_start g t). Proof. unfold gm_start. go. Qed.
Local Hint Resolve go_start : goes.
Lemma go_check cancel g : (∀ t, goes (cancel t)) → goes (gm_check cancel g).
Proof. intros Hc. unfold gm_check. go. Qed.
Local Hint Resolve go_check : goes.
Lemma go_gm_done cancel r : (∀ t, goes (cancel t)) → goes (gm_done cancel r).
Proof. intros Hc. unfold gm_done. go. Qed.
Local Hint Resolve go_gm_done : goes.
Lemma go_done_fuel n r : goes (tm_done_fuel n r).
Proof. revert r; induction n as [|n IH]; intros r; cbn [tm_done_fuel]; go. Qed.
Local Hint Resolve go_done_fuel : goes.
Lemma go_tm_done r : goes (tm_done r). Proof. unfold tm_done. go. Qed.
Local Hint Resolve go_tm_done : goes.
Lemma go_cancel_any t : goes (tm_cancel_any t). Proof. unfold tm_cancel_any. auto with goes. Qed.
Local Hint Resolve go_cancel_any : goes.
Lemma go_nodes g targets ts nodes deps gr : goes (gm_nodes g targets ts nodes deps gr).
Proof. revert nodes deps gr; induction ts as [|t ts IH]; intros nodes deps gr; cbn [gm_nodes]; go. Qed.
Local Hint Resolve go_nodes : goes.
Lemma go_match t : goes (tm_match t). Proof. unfold tm_match. go. Qed.
Local Hint Resolve go_match : goes.
Lemma go_tm_routine : goes tm_routine. Proof. unfold tm_routine. go. Qed.
Lemma go_wm_done r : goes (wm_done r). Proof. unfold wm_done. go. Qed.
Lemma go_take_back ids : goes (wm_take_back ids).
Proof. induction ids as [|t ids IH]; cbn [wm_take_back]; go. Qed.
Local Hint Resolve go_take_back : goes.
Lemma go_balance_response ids : goes (wm_balance_response ids). Proof. unfold wm_balance_response. go. Qed.
Lemma go_heartbeat w h : goes (wm_heartbeat w h). Proof. unfold wm_heartbeat. go. Qed.
Lemma go_drop w : goes (wm_drop w). Proof. unfold wm_drop. go. Qed.
Local Hint Resolve go_drop : goes.
Lemma go_disconnect c w : goes (wm_disconnect c w). Proof. unfold wm_disconnect. go. Qed.
Lemma go_wm_clean : goes wm_clean. Proof. unfold wm_clean. go. Qed.
Local Hint Resolve go_wm_clean : goes.
Lemma go_status : goes st_routine. Proof. unfold st_routine. go. Qed.
Lemma go_balance : goes wm_balance. Proof. unfold wm_balance. go. Qed.
Lemma go_delete_function f : goes (wm_delete_function f). Proof. unfold wm_delete_function. go. Qed.
Local Hint Resolve go_delete_function : goes.
Lemma go_fm_add c f n ct : talk c → goes (fm_on_function c FnAdd f n ct).
Proof. intros Hc. cbn. unfold fm_add, fm_respond. go. Qed.
Lemma go_on_function c ty f n ct : talk c → goes (fm_on_function c ty f n ct).
Proof. intros Hc. destruct ty; cbn; unfold fm_add, fm_check, fm_request, fm_delete, fm_respond, fm_has_function; go. Qed.
Lemma go_fm_routine : goes fm_routine.
Proof. unfold fm_routine. go. Qed.
Lemma go_gm_add c gt : talk c → goes (gm_add c gt).
Proof.
  intros Hc s0 s H. unfold gm_add. wstep.
  apply (wp_mono _ (λ _ s', path s0 s') _ (λ _ s', path s0 s')); [|clear s H|auto].
  { apply (wp_foreach _ (λ _ s', path s0 s')); [exact H|]. intros ? ? s' Hs'. apply go_on_function; assumption. }
  intros u. revert s0. cut (goes (do* cm_new c (gt_id gt) in let* p := gm_nodes (gt_id gt) (gt_targets gt) (gt_graph gt) ∅ ∅ [] in
     let '(nodes, deps, gr) := p in let* so := lift (so_prepare gr (so_of_graph gr)) in
     do* gm_store (gt_id gt) (Graph (gt_targets gt) (list_to_set (task_id <$> gt_graph gt)) so nodes deps c) in gm_check tm_cancel_any (gt_id gt))).
  { intros Hg s0 s H. apply Hg, H. }
  go.
Qed.
Lemma go_wm_routine : goes wm_routine.
Proof. pose proof go_balance. unfold wm_routine. go. Qed.

(** The whole round. *)
Definition round_talk (s : sched) (e : event) : Prop :=
  match e with
  | ERecv c (MFunctionRequest _ _ _ _) => talk c
  | EGraph => match s_gqueue s with (c, _) :: _ => talk c | [] => True end
  | _ => True
  end.
Lemma go_handle s e : round_talk s e → wp (handle e) (λ _ s', path s s') (λ _ s', path s s') s.
Proof.
  intros Ha. assert (path s s) as Hp by apply rtc_refl.
  destruct e as [src m| | | | |]; cbn [handle].
  - destruct m; cbn [on_receive]; try (wsteps; pp; fail).
    + apply go_tm_new, Hp.
    + apply go_cancel_any, Hp.
    + apply go_wm_done, Hp.
    + wstep. eapply wp_mono; [apply go_clean; [apply go_cancel_any|exact Hp]|cbv beta; intros; wsteps; assumption|auto].
    + apply go_balance_response, Hp.
    + apply go_heartbeat; exact Hp.
    + apply go_on_function; [exact Ha|exact Hp].
    + apply go_disconnect, Hp.
  - unfold gm_routine. wstep. wstep. cbn in Ha. destruct (s_gqueue s) as [|[c gt] q]; [wsteps; exact Hp|].
    wsteps. apply go_gm_add; [exact Ha|pp].
  - apply go_tm_routine, Hp.
  - apply go_fm_routine; exact Hp.
  - apply go_wm_routine; exact Hp.
  - apply go_status, Hp.
Qed.
End talk.

Lemma path_said talk s s' : rtc (prim talk) s s' → ∃ l, s_log s' = s_log s ++ l ∧ Forall (fine talk) l.
Proof.
  induction 1 as [s|s1 s2 s3 H _ (l & El & Hl)]; [exists []; rewrite app_nil_r; auto|].
  destruct H as [e s He|s s2 E].
  - exists (e :: l). rewrite El. cbn. rewrite <- app_assoc. split; [reflexivity|]. constructor; assumption.
  - exists l. rewrite El, E. auto.
Qed.
(** A round sends function responses only to the client it is about. *)
Lemma step_said talk s r : s_dead s = None → round_talk talk s (rd_event r) →
  ∃ l, s_log (step s r) = s_log s ++ LIn (rd_now r) (rd_event r) :: l ∧ Forall (fine talk) l.
Proof.
  intros Hd Hr. unfold step. rewrite Hd. set (s0 := set_log _ _).
  pose proof (go_handle talk s0 (rd_event r) Hr) as Hw. unfold wp in Hw.
  destruct (handle _ s0) as [s' [u|e]]; destruct (path_said _ _ _ Hw) as (l & El & Hl).
  - exists l. split; [|exact Hl]. rewrite El. cbn. rewrite <- app_assoc. reflexivity.
  - exists (l ++ [LCrash e]). split; [|apply Forall_app; split; [exact Hl|constructor; [exact I|constructor]]].
    cbn. rewrite El. cbn. rewrite <- !app_assoc. reflexivity.
Qed.
Definition told (w : bytes) (st : function_response_type) (f n ct : bytes) (h : history) : Prop :=
  st = FnNotExists ∨ function_from f n ct h ∨
  (∃ ty f' n' c', ty ≠ FnRequest ∧ received w (MFunctionRequest ty f' n' c') h) ∨
  (∃ g fs ts ns, received w (MGraphTask g fs ts ns) h).
Lemma told_app w st f n ct h l : told w st f n ct h → told w st f n ct (h ++ l).
Proof.
  intros [?|[?|[(ty & f' & n' & c' & Hty & H)|(g & fs & ts & ns & H)]]]; [left; assumption|right; left; apply function_from_app; assumption|..].
  - right. right. left. exists ty, f', n', c'. split; [exact Hty|]. apply received_app. exact H.
  - right. right. right. exists g, fs, ts, ns. apply received_app. exact H.
Qed.
Lemma function_told_lemma c rs w st f n ct : LSend w (MFunctionResponse st f n ct) ∈ s_log (run c rs) → told w st f n ct (s_log (run c rs)).
Proof.
  induction rs as [|r rs IH] using rev_ind; [intros H; by apply elem_of_nil in H|].
  rewrite run_snoc. set (s := run c rs). destruct (s_dead s) eqn:Hd; [rewrite (step_dead _ _ _ Hd); exact IH|].
  assert (Hold : ∀ l, LSend w (MFunctionResponse st f n ct) ∈ s_log s → told w st f n ct (s_log s ++ l)) by (intros l H; apply told_app, IH, H).
  destruct r as [now codes e].
  assert (Hcase : (∃ src ty f' n' c', e = ERecv src (MFunctionRequest ty f' n' c')) ∨ e = EGraph ∨ round_talk (λ _, False) s e).
  { destruct e as [src m| | | | |]; cbn; auto. destruct m; auto. left. eauto 10. }
  destruct Hcase as [(src & ty & f' & n' & c' & ->)|[->|Hr]].
  - destruct (decide (ty = FnRequest)) as [->|Hty].
    + destruct (function_request_lemma s src f' n' c' now codes Hd) as [_ ->]. intros [H|H]%elem_of_app; [auto|].
      apply elem_of_cons in H as [H|H]; [discriminate|]. apply elem_of_list_singleton in H. injection H as -> H.
      destruct (s_funcs s !! f') as [i|] eqn:Ei; injection H as -> -> -> ->; [|left; reflexivity].
      right. left. apply function_from_app. apply function_origin_lemma. exact Ei.
    + destruct (step_said (λ c, c = src) s (Round now codes (ERecv src (MFunctionRequest ty f' n' c'))) Hd eq_refl) as (l & -> & Hl).
      intros [H|H]%elem_of_app; [auto|]. apply elem_of_cons in H as [H|H]; [discriminate|].
      rewrite Forall_forall in Hl. specialize (Hl _ H). cbn in Hl. subst w.
      right. right. left. exists ty, f', n', c'. split; [exact Hty|]. exists now. set_solver.
  - destruct (s_gqueue s) as [|[cl gt] q] eqn:Eq.
    + destruct (step_said (λ _, False) s (Round now codes EGraph) Hd) as (l & -> & Hl); [cbn; rewrite Eq; exact I|].
      intros [H|H]%elem_of_app; [auto|]. apply elem_of_cons in H as [H|H]; [discriminate|].
      rewrite Forall_forall in Hl. destruct (Hl _ H).
    + destruct (step_said (λ c, c = cl) s (Round now codes EGraph) Hd) as (l & -> & Hl); [cbn; rewrite Eq; reflexivity|].
      intros [H|H]%elem_of_app; [auto|]. apply elem_of_cons in H as [H|H]; [discriminate|].
      rewrite Forall_forall in Hl. specialize (Hl _ H). cbn in Hl. subst w.
      right. right. right. destruct (Inv1_run c rs) as [_ H1]. specialize (H1 Hd).
      exists (gt_id gt), (gt_functions gt), (gt_targets gt), (gt_graph gt). apply received_app.
      apply (i1_gqueue _ _ _ H1 cl gt). fold s. rewrite Eq. set_solver.
  - destruct (step_said (λ _, False) s (Round now codes e) Hd Hr) as (l & -> & Hl).
    intros [H|H]%elem_of_app; [auto|]. apply elem_of_cons in H as [H|H]; [discriminate|].
    rewrite Forall_forall in Hl. destruct (Hl _ H).
Qed.
