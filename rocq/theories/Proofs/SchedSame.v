(** * Settings the scheduler cannot tell apart *)

From Verif.Model Require Import Base Message Sorter Scheduler.

Definition set_cfg (c : config) (s : sched) : sched :=
  Sched c (s_now s) (s_codes s) (s_log s) (s_dead s) (s_funcs s) (s_ftasks s) (s_clients s)
    (s_tasks s) (s_unassigned s) (s_running s) (s_nsuccess s) (s_nfailed s) (s_ncanceled s) (s_nnotfound s) (s_limbo s)
    (s_alive s) (s_alloc s) (s_last_advice s) (s_same s) (s_gqueue s) (s_graphs s) (s_t2g s).

Section same.
  Context (c c' : config).
  Hypothesis Hqs : c_queue_size c = c_queue_size c'.
  Hypothesis Hto : c_timeout c = c_timeout c'.
  Hypothesis Hre : c_retention c = c_retention c'.
  Hypothesis Hlt : c_lb_times c = c_lb_times c'.
  Hypothesis Hmw : c_max_waiting c = c_max_waiting c' ∨ (c_max_waiting c < 0 ∧ c_max_waiting c' < 0).
  Hypothesis Hls : 0 < c_lb_seconds c ↔ 0 < c_lb_seconds c'.

  Definition com {A} (m : M A) : Prop :=
    ∀ s, s_cfg s = c → s_cfg (m s).1 = c ∧ m (set_cfg c' s) = (set_cfg c' (m s).1, (m s).2).

  Lemma com_ret {A} (a : A) : com (ret a). Proof. done. Qed.
  Lemma com_throw {A} e : com (@throw A e). Proof. done. Qed.
  Lemma com_lift {A} (r : res A) : com (lift r). Proof. done. Qed.
  Lemma com_gets {A} (f : sched → A) : (∀ s, s_cfg s = c → f (set_cfg c' s) = f s) → com (gets f).
  Proof. intros H s Hs. split; [done|]. unfold gets. by rewrite H. Qed.
  Lemma com_modify f : (∀ s, s_cfg (f s) = s_cfg s ∧ f (set_cfg c' s) = set_cfg c' (f s)) → com (modify f).
  Proof. intros H s Hs. unfold modify. cbn. destruct (H s) as [-> ->]. done. Qed.
  Lemma com_bind {A B} (m : M A) (k : A → M B) : com m → (∀ a, com (k a)) → com (bind m k).
  Proof.
    intros Hm Hk s Hs. unfold bind. destruct (Hm s Hs) as [E1 E2]. rewrite E2.
    destruct (m s) as [s1 [a|e]]; cbn in *; [apply Hk; done|done].
  Qed.
  Lemma com_bind_gets {A B} (f : sched → A) (k : A → M B) :
    (∀ s, s_cfg s = c → s_cfg (k (f s) s).1 = c ∧ k (f (set_cfg c' s)) (set_cfg c' s) = (set_cfg c' (k (f s) s).1, (k (f s) s).2)) →
    com (bind (gets f) k).
  Proof. intros H s Hs. exact (H s Hs). Qed.
  Lemma com_foreach {A} (l : list A) f : (∀ a, com (f a)) → com (foreach l f).
  Proof. intros H. induction l; [apply com_ret|]. apply com_bind; auto. Qed.
  Lemma com_emit e : com (emit e). Proof. by apply com_modify. Qed.
  Lemma com_when b m : com m → com (when b m). Proof. intros. destruct b; [done|apply com_ret]. Qed.

  Ltac com :=
    repeat first
      [ assumption
      | apply com_ret | apply com_throw | apply com_lift | apply com_emit | apply com_when | apply com_foreach; intros
      | apply com_modify; intros; split; reflexivity
      | apply com_gets; intros; reflexivity
      | apply com_bind; [|intros]
      | match goal with
        | |- com (match ?x with _ => _ end) => destruct x
        | |- com ?t => let h := head t in unfold h
        end ]
  with head t := lazymatch t with ?f _ => head f | _ => t end.

  Lemma com_order {A} (l : list A) : com (in_some_order l). Proof. unfold in_some_order. com. Qed.
  Lemma com_send w m : com (send w m). Proof. apply com_emit. Qed.
  Lemma com_monitor m : com (send_monitor m). Proof. apply com_emit. Qed.

  Lemma com_fm_use t f : com (fm_use t f). Proof. unfold fm_use. com. Qed.
  Lemma com_fm_done t : com (fm_done t). Proof. unfold fm_done. com. Qed.
  Lemma com_fm_name t : com (fm_get_name t). Proof. unfold fm_get_name. com. Qed.
  Lemma com_fm_has t : com (fm_has_function t). Proof. unfold fm_has_function. com. Qed.
  Lemma com_fm_on f ty i n k : com (fm_on_function f ty i n k).
  Proof. destruct ty; unfold fm_on_function, fm_check, fm_add, fm_request, fm_delete, fm_respond, fm_has_function, send; com. Qed.
  Lemma com_cm_new a t : com (cm_new a t). Proof. unfold cm_new. com. Qed.
  Lemma com_cm_done t : com (cm_done t). Proof. unfold cm_done. com. Qed.
  Lemma com_available : com wm_has_available. Proof. unfold wm_has_available. com. Qed.
  Lemma com_tm_monitor t st : com (tm_monitor t st).
  Proof. unfold tm_monitor, send_monitor. com; apply com_fm_name || com. Qed.
  Lemma com_tm_put t : com (tm_put t). Proof. unfold tm_put. com. Qed.

  Lemma limits (n : Z) : 0 <= n → ((0 <=? c_max_waiting c') && (c_max_waiting c' <=? n)) = ((0 <=? c_max_waiting c) && (c_max_waiting c <=? n)).
  Proof. intros Hn. destruct Hmw as [->|[H1 H2]]; [done|]. by rewrite (proj2 (Z.leb_gt _ _) H1), (proj2 (Z.leb_gt _ _) H2). Qed.

  Lemma com_test {A B C} (f : sched → A) (g : sched → B) (P : A → B → bool) (m1 m2 : M C) :
    (∀ s, s_cfg s = c → P (f (set_cfg c' s)) (g (set_cfg c' s)) = P (f s) (g s)) → com m1 → com m2 →
    com (let* a := gets f in let* b := gets g in if P a b then m1 else m2).
  Proof. intros H H1 H2 s Hs. unfold bind, gets. rewrite H by done. destruct (P _ _); auto. Qed.

  Lemma com_tm_new src k : com (tm_new src k).
  Proof.
    unfold tm_new. apply com_bind; [apply com_fm_has|]. intros known. destruct known; [|com; apply com_send].
    cbn [negb]. apply com_bind; [apply com_available|]. intros av.
    refine (com_test _ _ (λ limit waiting, negb av && ((0 <=? limit) && (limit <=? waiting))) _ _ _ _ _).
    - intros s Hs. f_equal. rewrite Hs. apply limits. ss. lia.
    - apply com_send.
    - apply com_bind; [apply com_send|intros _]. apply com_bind; [apply com_fm_use|intros _]. apply com_bind; [apply com_cm_new|intros _].
      apply com_bind; [com|intros _]. apply com_bind; [apply com_tm_put|intros _]. apply com_tm_monitor.
  Qed.

  Ltac known := first [apply com_order|apply com_send|apply com_monitor|apply com_fm_use|apply com_fm_done|apply com_fm_name|apply com_fm_has
    |apply com_fm_on|apply com_cm_new|apply com_cm_done|apply com_available|apply com_tm_monitor|apply com_tm_put|apply com_tm_new].
  Ltac go :=
    repeat first
      [ assumption | known
      | simple apply com_ret | simple apply com_throw | simple apply com_lift | simple apply com_emit | simple apply com_when | simple apply com_foreach; intros
      | simple apply com_modify; intros; split; reflexivity
      | simple apply com_gets; intros; reflexivity
      | simple apply com_bind; [|intros]
      | match goal with
        | |- com (match ?x with _ => _ end) => destruct x
        end ].

  Lemma com_reroute t : com (tm_reroute t). Proof. unfold tm_reroute. go. Qed.
  Lemma com_count st : com (tm_count st). Proof. destruct st; unfold tm_count; go. Qed.
  Lemma com_forget r : com (tm_forget r). Proof. unfold tm_forget. apply com_bind; [apply com_count|intros]. go. Qed.
  Lemma com_wm_cancel t : com (wm_cancel t). Proof. unfold wm_cancel. go. Qed.
  Lemma com_tm_cancel done t : (∀ r, com (done r)) → com (tm_cancel done t).
  Proof. intros H. unfold tm_cancel. go; first [apply H|apply com_wm_cancel]. Qed.
  Lemma com_graph g : com (gm_graph g). Proof. unfold gm_graph. go. Qed.
  Lemma com_store g i : com (gm_store g i). Proof. unfold gm_store. go. Qed.
  Lemma com_clean_nodes cancel ids ns : (∀ t, com (cancel t)) → com (gm_clean_nodes cancel ids ns).
  Proof.
    intros H. revert ns. induction ids as [|t ids IH]; intros ns; cbn [gm_clean_nodes]; [go|]. destruct (ns !! t); [|apply IH].
    apply com_bind; [destruct (ni_state _); go; apply H|intros]. apply com_bind; [go|intros; apply IH].
  Qed.
  Lemma com_clean cancel g : (∀ t, com (cancel t)) → com (gm_clean cancel g).
  Proof.
    intros H. unfold gm_clean. apply com_bind; [go|intros]. apply com_bind; [apply com_graph|intros]. apply com_bind; [go|intros].
    apply com_bind; [go|intros]. apply com_bind; [by apply com_clean_nodes|intros]. go.
  Qed.
  Lemma com_mark g r : com (gm_mark g r).
  Proof. unfold gm_mark. apply com_bind; [apply com_graph|intros]. go; apply com_store. Qed.
  Lemma com_task_result g t a : com (gm_task_result g t a).
  Proof.
    unfold gm_task_result. apply com_bind; [apply com_graph|intros]. apply com_bind; [go|intros]. apply com_bind; [apply com_store|intros].
    go; apply com_store.
  Qed.
  Lemma com_arguments g t args : com (gm_arguments g t args).
  Proof.
    induction args as [|[d|a] args IH]; cbn [gm_arguments]; [go| |].
    - apply com_bind; [apply IH|intros; go].
    - apply com_bind; [apply com_task_result|intros]. apply com_bind; [apply IH|intros; go].
  Qed.
  Lemma com_start g t : com (gm_start g t).
  Proof.
    unfold gm_start. apply com_bind; [apply com_graph|intros]. apply com_bind; [go|intros]. apply com_bind; [apply com_arguments|intros].
    apply com_bind; [apply com_graph|intros]. apply com_bind; [apply com_store|intros]. go.
  Qed.
  Lemma com_check cancel g : (∀ t, com (cancel t)) → com (gm_check cancel g).
  Proof.
    intros H. unfold gm_check. apply com_bind; [apply com_graph|intros]. destruct (negb _).
    - apply com_bind; [go|intros]. apply com_bind; [by apply com_clean|intros]. go.
    - destruct (so_get_ready _). apply com_bind; [apply com_store|intros]. apply com_foreach. intros. apply com_start.
  Qed.
  Lemma com_gm_done cancel r : (∀ t, com (cancel t)) → com (gm_done cancel r).
  Proof.
    intros H. unfold gm_done. apply com_bind; [go|intros]. destruct a; [|go]. apply com_bind; [apply com_mark|intros].
    destruct (r_status r); (apply com_bind; [by first [apply com_check|apply com_clean]|intros; go]).
  Qed.
  Lemma com_done_fuel n r : com (tm_done_fuel n r).
  Proof.
    revert r. induction n as [|n IH]; intros r; cbn [tm_done_fuel]; [go|]. apply com_bind; [apply com_forget|intros].
    apply com_bind; [apply com_gm_done; intros; apply com_tm_cancel, IH|intros]. go.
  Qed.
  Lemma com_tm_done r : com (tm_done r).
  Proof. unfold tm_done. apply com_bind; [go|intros; apply com_done_fuel]. Qed.
  Lemma com_cancel_any t : com (tm_cancel_any t).
  Proof. apply com_tm_cancel, com_tm_done. Qed.
  Lemma com_nodes g ts l a b d : com (gm_nodes g ts l a b d).
  Proof. revert a b d. induction l as [|t l IH]; intros a b d; cbn [gm_nodes]; go; apply IH. Qed.
  Lemma com_gm_add cl gt : com (gm_add cl gt).
  Proof.
    unfold gm_add. apply com_bind; [go|intros]. apply com_bind; [go|intros]. apply com_bind; [apply com_nodes|intros [[??]?]].
    apply com_bind; [go|intros]. apply com_bind; [apply com_store|intros]. apply com_check, com_cancel_any.
  Qed.
  Lemma com_gm_routine : com gm_routine.
  Proof. unfold gm_routine. go. apply com_gm_add. Qed.
  Lemma com_match k : com (tm_match k). Proof. unfold tm_match. go. Qed.
  Lemma com_tm_routine : com tm_routine.
  Proof. unfold tm_routine. go; apply com_match. Qed.
  Lemma com_wm_done r : com (wm_done r).
  Proof. unfold wm_done. go. apply com_tm_done. Qed.
  Lemma com_take_back ids : com (wm_take_back ids).
  Proof. induction ids; cbn [wm_take_back]; go. Qed.
  Lemma com_balance_response ids : com (wm_balance_response ids).
  Proof. unfold wm_balance_response. apply com_bind; [apply com_take_back|intros]. apply com_foreach, com_reroute. Qed.
  Lemma com_heartbeat w h : com (wm_heartbeat w h).
  Proof. unfold wm_heartbeat. go. Qed.
  Lemma com_drop w : com (wm_drop w).
  Proof. unfold wm_drop. go; apply com_reroute. Qed.
  Lemma com_disconnect a w : com (wm_disconnect a w).
  Proof. unfold wm_disconnect. apply com_bind; [apply com_drop|intros]. go. Qed.

  (** The two places that look at the settings besides the submission limit. *)
  Lemma com_cfg {A} (k : config → M A) : k c' = k c → com (k c) → com (bind (gets s_cfg) k).
  Proof. intros E H s Hs. unfold bind, gets. change (s_cfg (set_cfg c' s)) with c'. rewrite E, Hs. exact (H s Hs). Qed.
  Lemma com_balance : com wm_balance.
  Proof.
    unfold wm_balance. apply com_cfg.
    - rewrite Hlt. assert ((c_lb_seconds c' <=? 0) = (c_lb_seconds c <=? 0)) as ->; [|done].
      apply eq_true_iff_eq. rewrite !Z.leb_le. lia.
    - go.
  Qed.
  Lemma com_wm_clean : com wm_clean.
  Proof.
    unfold wm_clean. apply com_bind.
    - apply com_gets. intros s Hs. f_equal. apply list_filter_iff. intros p. unfold wm_silent. ss. by rewrite Hs, Hto.
    - intros. apply com_bind; [go|intros]. apply com_foreach. intros. apply com_bind; [apply com_drop|intros; go].
  Qed.
  Lemma com_fm_routine : com fm_routine.
  Proof.
    unfold fm_routine. apply com_bind.
    - apply com_gets. intros s Hs. f_equal. apply list_filter_iff. intros p. unfold fm_expired. ss. by rewrite Hs, Hre.
    - intros. apply com_bind; [go|intros]. apply com_foreach. intros. apply com_bind; [go|intros]. unfold wm_delete_function. go.
  Qed.
  Lemma com_status : com st_routine.
  Proof.
    unfold st_routine. intros s Hs.
    match goal with |- context [bind (gets (λ s, s)) ?k] => assert (H : ∀ s0, com (k s0)) by (intros; go); exact (H s s Hs) end.
  Qed.

  Lemma com_handle e : com (handle e).
  Proof.
    destruct e as [src m| | | | |]; cbn [handle].
    - destruct m; cbn [on_receive]; first [apply com_ret|apply com_heartbeat|apply com_balance_response|apply com_tm_new|apply com_cancel_any
        |apply com_wm_done|apply com_fm_on|apply com_disconnect|(apply com_modify; intros; split; reflexivity)|idtac].
      apply com_bind; [apply com_clean, com_cancel_any|intros; apply com_ret].
    - apply com_gm_routine.
    - apply com_tm_routine.
    - apply com_fm_routine.
    - apply com_bind; [apply com_balance|intros; apply com_wm_clean].
    - apply com_status.
  Qed.

  Lemma same_step s r : s_cfg s = c → s_cfg (step s r) = c ∧ step (set_cfg c' s) r = set_cfg c' (step s r).
  Proof.
    intros Hs. unfold step. change (s_dead (set_cfg c' s)) with (s_dead s). destruct (s_dead s); [done|].
    set (s0 := set_log _ (set_now _ (set_codes _ s))).
    change (set_log _ (set_now _ (set_codes _ (set_cfg c' s)))) with (set_cfg c' s0).
    destruct (com_handle (rd_event r) s0 Hs) as [E1 E2]. rewrite E2. destruct (handle (rd_event r) s0) as [s1 [a|e]]; cbn in *; done.
  Qed.
  Lemma same_run rs : s_cfg (run c rs) = c ∧ run c' rs = set_cfg c' (run c rs).
  Proof.
    induction rs as [|r rs [IH1 IH2]] using rev_ind.
    - split; [done|]. unfold run, run_from, start. cbn. by rewrite Hqs.
    - unfold run, run_from. rewrite !foldl_app. cbn [foldl]. fold (run_from (start c) rs) (run_from (start c') rs). fold (run c rs) (run c' rs).
      rewrite IH2. apply same_step, IH1.
  Qed.
End same.

Lemma same_settings c c' rs :
  c_queue_size c = c_queue_size c' → c_timeout c = c_timeout c' → c_retention c = c_retention c' → c_lb_times c = c_lb_times c' →
  (c_max_waiting c = c_max_waiting c' ∨ (c_max_waiting c < 0 ∧ c_max_waiting c' < 0)) → (0 < c_lb_seconds c ↔ 0 < c_lb_seconds c') →
  s_log (run c rs) = s_log (run c' rs).
Proof. intros H1 H2 H3 H4 H5 H6. destruct (same_run c c' H1 H2 H3 H4 H5 H6 rs) as [_ ->]. done. Qed.
