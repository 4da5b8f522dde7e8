(** Every handler is a sequence of primitive updates.  Used for facts about one table
    across a whole round. *)

From Verif.Model Require Import Base OneToManyDict Allocator Message Sorter Scheduler.
From Verif.Spec Require Import AllocatorSpec SchedulerSpec.
From Verif.Proofs Require Import BaseProofs AllocatorProofs SchedWp SchedCount SchedHold.

Section prim.
(** What a round may do to the function cache, to the balancing counters and to the
    heartbeat times. *)
Context (add : bytes → bytes → bytes → Prop) (del : bytes → Prop) (bal beat : Prop).

Definition not_input (e : entry) : Prop :=
  match e with LIn _ _ | LCrash _ => False | LSend _ (MBalanceRequest _) => bal | _ => True end.
Inductive prim : sched → sched → Prop :=
| p_codes f s : prim s (set_codes f s)
| p_emit e s : not_input e → prim s (logged e s)
| p_fn_touch f i s : s_funcs s !! f = Some i → prim s (set_funcs (<[f := FuncInfo (fi_name i) (fi_content i) (s_now s)]>) s)
| p_fn_new f n c s : s_funcs s !! f = None → add f n c → prim s (set_funcs (<[f := FuncInfo n c (s_now s)]>) s)
| p_fn_del f s : del f → prim s (set_funcs (delete f) s)
| p_ftasks d s : prim s (set_ftasks (λ _, d) s)
| p_clients d s : prim s (set_clients (λ _, d) s)
| p_tasks f s : prim s (set_tasks f s)
| p_unassigned f s : prim s (set_unassigned f s)
| p_running f s : prim s (set_running f s)
| p_n1 f s : prim s (set_nsuccess f s)
| p_n2 f s : prim s (set_nfailed f s)
| p_n3 f s : prim s (set_ncanceled f s)
| p_n4 f s : prim s (set_nnotfound f s)
| p_limbo f s : prim s (set_limbo f s)
| p_alive_del w s : prim s (set_alive (delete w) s)
| p_alive w h s : beat → prim s (set_alive (<[w := (s_now s, h)]>) s)
| p_alloc f s : prim s (set_alloc f s)
| p_advice f s : bal → prim s (set_last_advice f s)
| p_same f s : bal → prim s (set_same f s)
| p_gqueue f s : prim s (set_gqueue f s)
| p_graphs f s : prim s (set_graphs f s)
| p_t2g f s : prim s (set_t2g f s).
Notation path := (rtc prim).
Lemma path_step s0 s s' : path s0 s → prim s s' → path s0 s'.
Proof. intros. eapply rtc_r; eauto. Qed.
Ltac pp :=
  repeat match goal with
  | H : rtc prim ?a ?b |- rtc prim ?a ?b => exact H
  | |- rtc prim _ (set_codes _ _) => eapply path_step; [|apply p_codes]
  | |- rtc prim _ (set_log (λ l, l ++ [_]) _) => eapply path_step; [|apply p_emit; first [exact I|assumption]]
  | H : s_funcs _ !! ?f = Some ?i |- rtc prim _ (set_funcs (<[?f := FuncInfo (fi_name ?i) (fi_content ?i) _]>) _) =>
      eapply path_step; [|eapply p_fn_touch; exact H]
  | H : s_funcs _ !! ?f = None |- rtc prim _ (set_funcs (<[?f := FuncInfo _ _ _]>) _) =>
      eapply path_step; [|apply p_fn_new; [exact H|auto]]
  | |- rtc prim _ (set_funcs (delete _) _) => eapply path_step; [|apply p_fn_del; auto]
  | |- rtc prim _ (set_ftasks _ _) => eapply path_step; [|apply p_ftasks]
  | |- rtc prim _ (set_clients _ _) => eapply path_step; [|apply p_clients]
  | |- rtc prim _ (set_tasks _ _) => eapply path_step; [|apply p_tasks]
  | |- rtc prim _ (set_unassigned _ _) => eapply path_step; [|apply p_unassigned]
  | |- rtc prim _ (set_running _ _) => eapply path_step; [|apply p_running]
  | |- rtc prim _ (set_nsuccess _ _) => eapply path_step; [|apply p_n1]
  | |- rtc prim _ (set_nfailed _ _) => eapply path_step; [|apply p_n2]
  | |- rtc prim _ (set_ncanceled _ _) => eapply path_step; [|apply p_n3]
  | |- rtc prim _ (set_nnotfound _ _) => eapply path_step; [|apply p_n4]
  | |- rtc prim _ (set_limbo _ _) => eapply path_step; [|apply p_limbo]
  | |- rtc prim _ (set_alive (delete _) _) => eapply path_step; [|apply p_alive_del]
  | |- rtc prim _ (set_alive _ _) => eapply path_step; [|eapply p_alive; assumption]
  | |- rtc prim _ (set_alloc _ _) => eapply path_step; [|apply p_alloc]
  | |- rtc prim _ (set_last_advice _ _) => eapply path_step; [|apply p_advice; assumption]
  | |- rtc prim _ (set_same _ _) => eapply path_step; [|apply p_same; assumption]
  | |- rtc prim _ (set_gqueue _ _) => eapply path_step; [|apply p_gqueue]
  | |- rtc prim _ (set_graphs _ _) => eapply path_step; [|apply p_graphs]
  | |- rtc prim _ (set_t2g _ _) => eapply path_step; [|apply p_t2g]
  end.
Definition goes {A} (m : M A) : Prop := ∀ s0 s, path s0 s → wp m (λ _ s', path s0 s') (λ _ s', path s0 s') s.

Ltac go1 :=
  first
    [ wstep
    | match goal with |- wp ?m _ (λ _ s', rtc prim ?s0 s') ?s =>
        let H := fresh in assert (H : goes m) by (solve [auto with goes]); eapply wp_mono; [apply (H s0 s); pp| |]; clear H;
        [cbv beta; intros ? ? ?|cbv beta; intros ? ? ?] end
    | match goal with |- wp (foreach _ _) _ (λ _ s', rtc prim ?s0 s') _ =>
        apply (wp_mono _ (λ _ s', path s0 s') _ (λ _ s', path s0 s')); [apply (wp_foreach _ (λ _ s', path s0 s')); [pp|intros ? ? ? ?]|cbv beta; intros ? ? ?|auto] end ].
Ltac go := let s0 := fresh "s0" in let s := fresh "s" in let H := fresh "Hpath" in intros s0 s H; repeat (go1; cbv beta zeta); pp.

Lemma go_use t f : goes (fm_use t f).
Proof.
  intros s0 s H. unfold fm_use. wstep. wstep. wstep. wstep; [|assumption]. wsteps.
  - ss. destruct (s_funcs s !! f) eqn:E; [|discriminate]. injection Hok as <-. pp.
  - ss. destruct (s_funcs s !! f) eqn:E; [|discriminate]. injection Hok as <-. pp.
Qed.
Lemma go_done t : goes (fm_done t). Proof. unfold fm_done. go. Qed.
Lemma go_monitor t st : goes (tm_monitor t st). Proof. unfold tm_monitor, fm_get_name. go. Qed.
Lemma go_put t : goes (tm_put t). Proof. unfold tm_put. go. Qed.
Lemma go_cm_new c t : goes (cm_new c t). Proof. unfold cm_new. go. Qed.
Lemma go_cm_done t : goes (cm_done t). Proof. unfold cm_done. go. Qed.
Lemma go_available : goes wm_has_available. Proof. unfold wm_has_available. go. Qed.
Lemma go_wcancel t : goes (wm_cancel t). Proof. unfold wm_cancel. go. Qed.
Local Hint Resolve go_use go_done go_monitor go_put go_cm_new go_cm_done go_available go_wcancel : goes.
Lemma go_tm_new c t : goes (tm_new c t).
Proof. unfold tm_new, fm_has_function. go. Qed.
Lemma go_reroute t : goes (tm_reroute t). Proof. unfold tm_reroute. go. Qed.
Lemma go_count st : goes (tm_count st). Proof. unfold tm_count. go. Qed.
Local Hint Resolve go_tm_new go_reroute go_count : goes.
Lemma go_forget r : goes (tm_forget r). Proof. unfold tm_forget. go. Qed.
Lemma go_graph g : goes (gm_graph g). Proof. unfold gm_graph. go. Qed.
Lemma go_store g i : goes (gm_store g i). Proof. unfold gm_store. go. Qed.
Local Hint Resolve go_forget go_graph go_store : goes.
Lemma go_cancel done t : (∀ r, goes (done r)) → goes (tm_cancel done t).
Proof. intros Hd. unfold tm_cancel. go. Qed.
Lemma go_clean_nodes cancel ids : (∀ t, goes (cancel t)) → ∀ nodes, goes (gm_clean_nodes cancel ids nodes).
Proof. intros Hc. induction ids as [|t ids IH]; intros nodes; cbn [gm_clean_nodes]; go. Qed.
Local Hint Resolve go_cancel go_clean_nodes : goes.
Lemma go_clean cancel g : (∀ t, goes (cancel t)) → goes (gm_clean cancel g).
Proof. intros Hc. unfold gm_clean. go. Qed.
Lemma go_mark g r : goes (gm_mark g r). Proof. unfold gm_mark. go. Qed.
Lemma go_task_result g t a : goes (gm_task_result g t a). Proof. unfold gm_task_result. go. Qed.
Local Hint Resolve go_clean go_mark go_task_result : goes.
Lemma go_arguments g t args : goes (gm_arguments g t args).
Proof. induction args as [|[]]; cbn [gm_arguments]; go. Qed.
Local Hint Resolve go_arguments : goes.
Lemma go_start g t : goes (gm_start g t). Proof. unfold gm_start. go. Qed.
Local Hint Resolve go_start : goes.
Lemma go_check cancel g : (∀ t, goes (cancel t)) → goes (gm_check cancel g).
Proof. intros Hc. unfold gm_check. go. Qed.
Local Hint Resolve go_check : goes.
Lemma go_gm_done cancel r : (∀ t, goes (cancel t)) → goes (gm_done cancel r).
Proof. intros Hc. unfold gm_done. go. Qed.
Local Hint Resolve go_gm_done : goes.
Lemma go_done_fuel n r : goes (tm_done_fuel n r).
Proof. revert r; induction n as [|n IH]; intros r; cbn [tm_done_fuel]; go. Qed.
Local Hint Resolve go_done_fuel : goes.
Lemma go_tm_done r : goes (tm_done r). Proof. unfold tm_done. go. Qed.
Local Hint Resolve go_tm_done : goes.
Lemma go_cancel_any t : goes (tm_cancel_any t). Proof. unfold tm_cancel_any. auto with goes. Qed.
Local Hint Resolve go_cancel_any : goes.
Lemma go_nodes g targets ts nodes deps gr : goes (gm_nodes g targets ts nodes deps gr).
Proof. revert nodes deps gr; induction ts as [|t ts IH]; intros nodes deps gr; cbn [gm_nodes]; go. Qed.
Local Hint Resolve go_nodes : goes.
Lemma go_match t : goes (tm_match t). Proof. unfold tm_match. go. Qed.
Local Hint Resolve go_match : goes.
Lemma go_tm_routine : goes tm_routine. Proof. unfold tm_routine. go. Qed.
Lemma go_wm_done r : goes (wm_done r). Proof. unfold wm_done. go. Qed.
Lemma go_take_back ids : goes (wm_take_back ids).
Proof. induction ids as [|t ids IH]; cbn [wm_take_back]; go. Qed.
Local Hint Resolve go_take_back : goes.
Lemma go_balance_response ids : goes (wm_balance_response ids). Proof. unfold wm_balance_response. go. Qed.
Lemma go_heartbeat w h : beat → goes (wm_heartbeat w h). Proof. intros Hb. unfold wm_heartbeat. go. Qed.
Lemma go_drop w : goes (wm_drop w). Proof. unfold wm_drop. go. Qed.
Local Hint Resolve go_drop : goes.
Lemma go_disconnect c w : goes (wm_disconnect c w). Proof. unfold wm_disconnect. go. Qed.
Lemma go_wm_clean : goes wm_clean. Proof. unfold wm_clean. go. Qed.
Local Hint Resolve go_wm_clean : goes.
Lemma go_status : goes st_routine. Proof. unfold st_routine. go. Qed.
Lemma go_balance : bal → goes wm_balance. Proof. intros Hbal. unfold wm_balance. go. Qed.
Lemma go_delete_function f : goes (wm_delete_function f). Proof. unfold wm_delete_function. go. Qed.
Local Hint Resolve go_delete_function : goes.
Lemma go_fm_add c f n ct : add f n ct → goes (fm_on_function c FnAdd f n ct).
Proof. intros Hadd. cbn. unfold fm_add, fm_respond. go. Qed.
Lemma go_fm_other c ty f n ct : ty ≠ FnAdd → ty ≠ FnDelete ∨ del f → goes (fm_on_function c ty f n ct).
Proof.
  intros H1 H2. destruct ty; try done; cbn; unfold fm_check, fm_request, fm_delete, fm_respond, fm_has_function; try (go; fail).
  destruct H2 as [?|H2]; [done|]. go.
Qed.
Lemma go_fm_routine : (∀ f, del f) → goes fm_routine.
Proof. intros Hd. unfold fm_routine. go. Qed.
Lemma go_gm_add c gt : (∀ f n ct, (f, (n, ct)) ∈ gt_functions gt → add f n ct) → goes (gm_add c gt).
Proof.
  intros Hadd s0 s H. unfold gm_add. wstep.
  apply (wp_mono _ (λ _ s', path s0 s') _ (λ _ s', path s0 s')); [|clear s H|auto].
  { assert (Hl : ∀ l s, (∀ f n ct, (f, (n, ct)) ∈ l → add f n ct) → path s0 s →
       wp (foreach l (λ p, fm_on_function c FnAdd p.1 p.2.1 p.2.2)) (λ _ s', path s0 s') (λ _ s', path s0 s') s).
    { induction l as [|[f [n ct]] l IH]; intros s1 Hl H1; cbn [foreach]; [exact H1|]. wstep.
      eapply wp_mono; [apply go_fm_add; [apply Hl; set_solver|exact H1]| |auto]. cbv beta. intros u s2 H2. apply IH; [|exact H2].
      intros. apply Hl. set_solver. }
    apply Hl; assumption. }
  intros u. revert s0. cut (goes (do* cm_new c (gt_id gt) in let* p := gm_nodes (gt_id gt) (gt_targets gt) (gt_graph gt) ∅ ∅ [] in
     let '(nodes, deps, gr) := p in let* so := lift (so_prepare gr (so_of_graph gr)) in
     do* gm_store (gt_id gt) (Graph (gt_targets gt) (list_to_set (task_id <$> gt_graph gt)) so nodes deps c) in gm_check tm_cancel_any (gt_id gt))).
  { intros Hg s0 s H. apply Hg, H. }
  go.
Qed.
Lemma go_wm_routine : bal → goes wm_routine.
Proof. intros Hb. pose proof (go_balance Hb). unfold wm_routine. go. Qed.

(** The whole round. *)
Definition round_adds (s : sched) (e : event) : Prop :=
  match e with
  | ERecv _ (MFunctionRequest FnAdd f n c) => add f n c
  | ERecv _ (MHeartbeat _) => beat
  | ERecv _ (MFunctionRequest FnDelete f _ _) => del f
  | EGraph => match s_gqueue s with (_, gt) :: _ => ∀ f n ct, (f, (n, ct)) ∈ gt_functions gt → add f n ct | [] => True end
  | EFunctions => ∀ f, del f
  | EWorkers => bal
  | _ => True
  end.
Lemma go_handle s e : round_adds s e → wp (handle e) (λ _ s', path s s') (λ _ s', path s s') s.
Proof.
  intros Ha. assert (path s s) as Hp by apply rtc_refl.
  destruct e as [src m| | | | |]; cbn [handle].
  - destruct m; cbn [on_receive]; try (wsteps; pp; fail).
    + apply go_tm_new, Hp.
    + apply go_cancel_any, Hp.
    + apply go_wm_done, Hp.
    + wstep. eapply wp_mono; [apply go_clean; [apply go_cancel_any|exact Hp]|cbv beta; intros; wsteps; assumption|auto].
    + apply go_balance_response, Hp.
    + apply go_heartbeat; [exact Ha|exact Hp].
    + match goal with |- wp (fm_on_function _ ?ty _ _ _) _ _ _ => destruct ty end; cbn in Ha.
      * apply go_fm_other; [discriminate|left; discriminate|exact Hp].
      * apply go_fm_add; [exact Ha|exact Hp].
      * apply go_fm_other; [discriminate|left; discriminate|exact Hp].
      * apply go_fm_other; [discriminate|right; exact Ha|exact Hp].
    + apply go_disconnect, Hp.
  - unfold gm_routine. wstep. wstep. cbn in Ha. destruct (s_gqueue s) as [|[c gt] q]; [wsteps; exact Hp|].
    wsteps. apply go_gm_add; [exact Ha|pp].
  - apply go_tm_routine, Hp.
  - apply go_fm_routine; [exact Ha|exact Hp].
  - apply go_wm_routine; [exact Ha|exact Hp].
  - apply go_status, Hp.
Qed.
End prim.
