(** Reasoning about the scheduler monad. *)

From Verif.Model Require Import Base OneToManyDict Allocator Message Sorter Scheduler.
From Verif.Proofs Require Import BaseProofs.

(** [wp m Q E s]: running [m] from [s] ends in [Q] on return, in [E] on an exception. *)
Definition wp {A} (m : M A) (Q : A → sched → Prop) (E : exn → sched → Prop) (s : sched) : Prop :=
  match m s with (s', Ok a) => Q a s' | (s', Raise e) => E e s' end.

Lemma wp_ret {A} (a : A) (Q : _ → sched → Prop) (E : exn → sched → Prop) s : Q a s → wp (ret a) Q E s.
Proof. exact id. Qed.
Lemma wp_bind {A B} (m : M A) (k : A → M B) (Q : _ → sched → Prop) (E : exn → sched → Prop) s :
  wp m (λ a s', wp (k a) Q E s') E s → wp (bind m k) Q E s.
Proof. unfold wp, bind. destruct (m s) as [s' [a|e]]; exact id. Qed.
Lemma wp_throw {A} e (Q : _ → sched → Prop) (E : exn → sched → Prop) s : E e s → wp (throw e : M A) Q E s.
Proof. exact id. Qed.
Lemma wp_gets {A} (f : sched → A) (Q : _ → sched → Prop) (E : exn → sched → Prop) s : Q (f s) s → wp (gets f) Q E s.
Proof. exact id. Qed.
Lemma wp_modify f (Q : _ → sched → Prop) (E : exn → sched → Prop) s : Q tt (f s) → wp (modify f) Q E s.
Proof. exact id. Qed.
Lemma wp_lift {A} (r : res A) (Q : A → sched → Prop) (E : exn → sched → Prop) s :
  (∀ a, r = Ok a → Q a s) → (∀ e, r = Raise e → E e s) → wp (lift r) Q E s.
Proof. unfold wp, lift. destruct r; auto. Qed.
Lemma wp_emit e (Q : _ → sched → Prop) (E : exn → sched → Prop) s : Q tt (set_log (λ l, l ++ [e]) s) → wp (emit e) Q E s.
Proof. exact id. Qed.
Lemma wp_when (b : bool) m (Q : _ → sched → Prop) (E : exn → sched → Prop) s : (b = true → wp m Q E s) → (b = false → Q tt s) → wp (when b m) Q E s.
Proof. destruct b; cbn; auto. Qed.
Lemma wp_mono {A} (m : M A) (Q Q' : A → sched → Prop) (E E' : exn → sched → Prop) s :
  wp m Q E s → (∀ a s', Q a s' → Q' a s') → (∀ e s', E e s' → E' e s') → wp m Q' E' s.
Proof. unfold wp. destruct (m s) as [s' [a|e]]; auto. Qed.
Lemma wp_foreach {A} (f : A → M unit) (I : list A → sched → Prop) E l s :
  I l s → (∀ a l s, I (a :: l) s → wp (f a) (λ _ s', I l s') E s) →
  wp (foreach l f) (λ _ s', I [] s') E s.
Proof.
  intros H Hf. revert s H; induction l as [|a l IH]; intros s H; cbn [foreach].
  - exact H.
  - apply wp_bind. eapply wp_mono; [apply Hf; exact H| |auto]. intros u s' H'. apply IH. exact H'.
Qed.
Lemma wp_order {A} (l : list A) (Q : _ → sched → Prop) (E : exn → sched → Prop) s :
  (∀ l', l' ≡ₚ l → Q l' (set_codes (drop 1) s)) → wp (in_some_order l) Q E s.
Proof.
  intros H. unfold in_some_order. apply wp_bind, wp_gets, wp_bind, wp_modify, wp_ret. apply H.
  apply shuffle_perm.
Qed.
Lemma wp_and {A} (m : M A) (Q Q' : A → sched → Prop) (E E' : exn → sched → Prop) s :
  wp m Q E s → wp m Q' E' s → wp m (λ a s, Q a s ∧ Q' a s) (λ e s, E e s ∧ E' e s) s.
Proof. unfold wp. destruct (m s) as [s' [a|e]]; auto. Qed.
Lemma wp_step_intro {A} (m : M A) (Q : _ → sched → Prop) (E : exn → sched → Prop) s s' r : wp m Q E s → m s = (s', r) →
  match r with Ok a => Q a s' | Raise e => E e s' end.
Proof. unfold wp. intros H E'. rewrite E' in H. destruct r; exact H. Qed.

(** One step of symbolic execution. *)
Ltac wstep :=
  match goal with
  | |- wp (bind _ _) _ _ _ => apply wp_bind
  | |- wp (ret _) _ _ _ => apply wp_ret
  | |- wp (throw _) _ _ _ => apply wp_throw
  | |- wp (gets _) _ _ _ => apply wp_gets
  | |- wp (modify _) _ _ _ => apply wp_modify
  | |- wp (lift _) _ _ _ => apply wp_lift; [let H := fresh "Hok" in intros ? H | let H := fresh "Hraise" in intros ? H]
  | |- wp (emit _) _ _ _ => apply wp_emit
  | |- wp (send _ _) _ _ _ => unfold send; apply wp_emit
  | |- wp (send_monitor _) _ _ _ => unfold send_monitor; apply wp_emit
  | |- wp (when _ _) _ _ _ => apply wp_when; let H := fresh "Hb" in intros H
  | |- wp (in_some_order _) _ _ _ => apply wp_order; let H := fresh "Hp" in intros ? H
  | |- wp (match ?x with _ => _ end) _ _ _ => let H := fresh "Hm" in destruct x eqn:H
  end.
Ltac wsteps := repeat (wstep; cbv beta zeta).

(** ** Quiet entries: neither an answer to a submission, nor a task, nor a change of
    the set of workers. *)
Definition quiet (e : entry) : Prop :=
  match e with
  | LSend _ (MTask _ | MTaskEcho _ _ | MTaskResult _ _ _ _ | MGraphTaskResult _ _ _) => False
  | LIn _ _ | LConnected _ | LDisconnected _ | LCrash _ => False
  | _ => True
  end.

(** Only function tables, iteration codes and the graph tables changed. *)
Record same_core (s s' : sched) : Prop := SameCore {
  sc_cfg : s_cfg s' = s_cfg s; sc_now : s_now s' = s_now s; sc_dead : s_dead s' = s_dead s;
  sc_clients : s_clients s' = s_clients s; sc_tasks : s_tasks s' = s_tasks s;
  sc_unassigned : s_unassigned s' = s_unassigned s; sc_running : s_running s' = s_running s;
  sc_limbo : s_limbo s' = s_limbo s; sc_alive : s_alive s' = s_alive s; sc_alloc : s_alloc s' = s_alloc s;
  sc_log : ∃ l, s_log s' = s_log s ++ l ∧ Forall quiet l }.
(** The graph tables did not change either. *)
Record same_graphs (s s' : sched) : Prop := SameGraphs {
  sg_gqueue : s_gqueue s' = s_gqueue s; sg_graphs : s_graphs s' = s_graphs s; sg_t2g : s_t2g s' = s_t2g s }.
(** The function tables did not change. *)
Record same_funcs (s s' : sched) : Prop := SameFuncs {
  sf_funcs : s_funcs s' = s_funcs s; sf_ftasks : s_ftasks s' = s_ftasks s }.

Lemma same_core_refl s : same_core s s.
Proof. split; try reflexivity. exists []. rewrite app_nil_r. auto. Qed.
Lemma same_core_trans s1 s2 s3 : same_core s1 s2 → same_core s2 s3 → same_core s1 s3.
Proof.
  intros [? ? ? ? ? ? ? ? ? ? (l1 & El1 & Q1)] [? ? ? ? ? ? ? ? ? ? (l2 & El2 & Q2)]. split; try congruence.
  exists (l1 ++ l2). rewrite El2, El1, app_assoc. split; [reflexivity|]. apply Forall_app. auto.
Qed.
Lemma same_graphs_refl s : same_graphs s s. Proof. split; reflexivity. Qed.
Lemma same_graphs_trans s1 s2 s3 : same_graphs s1 s2 → same_graphs s2 s3 → same_graphs s1 s3.
Proof. intros [? ? ?] [? ? ?]. split; congruence. Qed.
Lemma same_core_emit s e : quiet e → same_core s (set_log (λ l, l ++ [e]) s).
Proof. intros H. split; try reflexivity. exists [e]. auto. Qed.

Definition fm_same (s s' : sched) : Prop := same_core s s' ∧ same_graphs s s'.
Lemma fm_same_refl s : fm_same s s. Proof. split; [apply same_core_refl|apply same_graphs_refl]. Qed.
Lemma fm_same_trans s1 s2 s3 : fm_same s1 s2 → fm_same s2 s3 → fm_same s1 s3.
Proof. intros [] []. split; [eapply same_core_trans|eapply same_graphs_trans]; eauto. Qed.
Lemma fm_same_emit s s' e : quiet e → fm_same s s' → fm_same s (set_log (λ l, l ++ [e]) s').
Proof.
  intros Hq H. eapply fm_same_trans; [exact H|]. split; [apply same_core_emit; exact Hq|split; reflexivity].
Qed.
Lemma fm_same_fun s s' f : fm_same s s' → fm_same s (set_funcs f s').
Proof. intros H. eapply fm_same_trans; [exact H|]. split; split; try reflexivity. exists []. rewrite app_nil_r. auto. Qed.
Lemma fm_same_ftasks s s' f : fm_same s s' → fm_same s (set_ftasks f s').
Proof. intros H. eapply fm_same_trans; [exact H|]. split; split; try reflexivity. exists []. rewrite app_nil_r. auto. Qed.
Lemma fm_same_codes s s' f : fm_same s s' → fm_same s (set_codes f s').
Proof. intros H. eapply fm_same_trans; [exact H|]. split; split; try reflexivity. exists []. rewrite app_nil_r. auto. Qed.
Global Hint Resolve fm_same_refl fm_same_fun fm_same_ftasks fm_same_codes fm_same_emit : fm.

Global Hint Extern 1 (quiet _) => exact I : fm.
Ltac fms := wsteps; eauto 10 with fm.

Lemma fm_use_same t f s s0 : fm_same s0 s → wp (fm_use t f) (λ _ s', fm_same s0 s') (λ _ s', fm_same s0 s') s.
Proof. intros. unfold fm_use. fms. Qed.
Lemma fm_done_same t s s0 : fm_same s0 s → wp (fm_done t) (λ _ s', fm_same s0 s') (λ _ s', fm_same s0 s') s.
Proof. intros. unfold fm_done. fms. Qed.
Lemma fm_respond_same c f r s s0 : fm_same s0 s → wp (fm_respond c f r) (λ _ s', fm_same s0 s') (λ _ s', fm_same s0 s') s.
Proof. intros. unfold fm_respond. fms. Qed.
Lemma fm_on_function_same src ty f n c s s0 : fm_same s0 s →
  wp (fm_on_function src ty f n c) (λ _ s', fm_same s0 s') (λ _ s', fm_same s0 s') s.
Proof.
  intros. destruct ty; cbn [fm_on_function]; unfold fm_check, fm_add, fm_request, fm_delete, fm_has_function, fm_respond; fms.
Qed.
Lemma wm_delete_function_same f s s0 : fm_same s0 s →
  wp (wm_delete_function f) (λ _ s', fm_same s0 s') (λ _ s', fm_same s0 s') s.
Proof.
  intros. unfold wm_delete_function. wsteps. eapply (wp_foreach _ (λ _ s', fm_same s0 s')); [eauto with fm|].
  intros w l'' s' Hs. fms.
Qed.
Lemma fm_routine_same s s0 : fm_same s0 s → wp fm_routine (λ _ s', fm_same s0 s') (λ _ s', fm_same s0 s') s.
Proof.
  intros. unfold fm_routine. wsteps. eapply (wp_foreach _ (λ _ s', fm_same s0 s')); [eauto with fm|].
  intros w l'' s' Hs. wsteps. apply wm_delete_function_same. eauto with fm.
Qed.
Lemma fm_get_name_same f s s0 : fm_same s0 s → wp (fm_get_name f) (λ _ s', fm_same s0 s') (λ _ s', fm_same s0 s') s.
Proof. intros. unfold fm_get_name. fms. Qed.
Lemma tm_monitor_same t st s s0 : fm_same s0 s → wp (tm_monitor t st) (λ _ s', fm_same s0 s') (λ _ s', fm_same s0 s') s.
Proof.
  intros. unfold tm_monitor, fm_get_name. fms.
Qed.
Lemma wm_cancel_same t s s0 : fm_same s0 s → wp (wm_cancel t) (λ _ s', fm_same s0 s') (λ _ s', fm_same s0 s') s.
Proof. intros. unfold wm_cancel. fms. Qed.
Lemma st_routine_same s s0 : fm_same s0 s → wp st_routine (λ _ s', fm_same s0 s') (λ _ s', fm_same s0 s') s.
Proof. intros. unfold st_routine. fms. Qed.

(** Use an established triple and carry on with its postcondition. *)
Tactic Notation "wuse" constr(L) "as" simple_intropattern(s) simple_intropattern(H) :=
  eapply wp_mono; [eapply L|cbv beta; intros ? s H|cbv beta; auto].

(** ** The history only grows. *)
Definition grows {A} (m : M A) : Prop := ∀ s, ∃ l, s_log (m s).1 = s_log s ++ l.
Lemma grows_ret {A} (a : A) : grows (ret a). Proof. intros s. exists []. rewrite app_nil_r. reflexivity. Qed.
Lemma grows_throw {A} e : grows (throw e : M A). Proof. intros s. exists []. rewrite app_nil_r. reflexivity. Qed.
Lemma grows_gets {A} (f : sched → A) : grows (gets f). Proof. intros s. exists []. rewrite app_nil_r. reflexivity. Qed.
Lemma grows_lift {A} (r : res A) : grows (lift r). Proof. intros s. exists []. rewrite app_nil_r. reflexivity. Qed.
Lemma grows_modify f : (∀ s, s_log (f s) = s_log s) → grows (modify f).
Proof. intros H s. exists []. rewrite app_nil_r. apply H. Qed.
Lemma grows_emit e : grows (emit e). Proof. intros s. exists [e]. reflexivity. Qed.
Lemma grows_send w m : grows (send w m). Proof. apply grows_emit. Qed.
Lemma grows_send_monitor m : grows (send_monitor m). Proof. apply grows_emit. Qed.
Lemma grows_bind {A B} (m : M A) (k : A → M B) : grows m → (∀ a, grows (k a)) → grows (bind m k).
Proof.
  intros Hm Hk s. unfold bind. destruct (Hm s) as [l1 E1]. destruct (m s) as [s1 [a|e]]; [|eauto].
  destruct (Hk a s1) as [l2 E2]. cbn in E1. exists (l1 ++ l2). rewrite E2, E1, app_assoc. reflexivity.
Qed.
Lemma grows_when b m : grows m → grows (when b m).
Proof. intros H. destruct b; [exact H|apply grows_ret]. Qed.
Lemma grows_order {A} (l : list A) : grows (in_some_order l).
Proof. unfold in_some_order. apply grows_bind; [apply grows_gets|]. intros c. apply grows_bind; [apply grows_modify; reflexivity|]. intros. apply grows_ret. Qed.
Lemma grows_foreach {A} (f : A → M unit) l : (∀ a, grows (f a)) → grows (foreach l f).
Proof. intros H. induction l as [|a l IH]; cbn [foreach]; [apply grows_ret|apply grows_bind; auto]. Qed.
Create HintDb grows.
Ltac grow :=
  repeat first
    [ apply grows_bind; [|intros ?] | apply grows_ret | apply grows_throw | apply grows_gets | apply grows_lift
    | apply grows_modify; reflexivity | apply grows_send | apply grows_send_monitor | apply grows_emit | apply grows_when
    | apply grows_order | apply grows_foreach; intros ? | solve [auto with grows]
    | match goal with |- grows (match ?x with _ => _ end) => destruct x end ].

Lemma fm_use_grows t f : grows (fm_use t f). Proof. unfold fm_use. grow. Qed.
Lemma fm_done_grows t : grows (fm_done t). Proof. unfold fm_done. grow. Qed.
Lemma fm_on_function_grows a b c d e : grows (fm_on_function a b c d e).
Proof. destruct b; cbn [fm_on_function]; unfold fm_check, fm_add, fm_request, fm_delete, fm_has_function, fm_respond; grow. Qed.
Lemma cm_new_grows c t : grows (cm_new c t). Proof. unfold cm_new. grow. Qed.
Lemma cm_done_grows t : grows (cm_done t). Proof. unfold cm_done. grow. Qed.
Lemma wm_has_available_grows : grows wm_has_available. Proof. unfold wm_has_available. grow. Qed.
Lemma wm_cancel_grows t : grows (wm_cancel t). Proof. unfold wm_cancel. grow. Qed.
Lemma tm_monitor_grows t st : grows (tm_monitor t st). Proof. unfold tm_monitor, fm_get_name. grow. Qed.
Lemma tm_put_grows t : grows (tm_put t). Proof. unfold tm_put. grow. Qed.
Global Hint Resolve fm_use_grows fm_done_grows fm_on_function_grows cm_new_grows cm_done_grows wm_has_available_grows
  wm_cancel_grows tm_monitor_grows tm_put_grows : grows.
Lemma tm_new_grows c t : grows (tm_new c t). Proof. unfold tm_new, fm_has_function. grow. Qed.
Lemma tm_reroute_grows t : grows (tm_reroute t). Proof. unfold tm_reroute. grow. Qed.
Lemma tm_count_grows t : grows (tm_count t). Proof. unfold tm_count. grow. Qed.
Global Hint Resolve tm_new_grows tm_reroute_grows tm_count_grows : grows.
Lemma tm_forget_grows r : grows (tm_forget r). Proof. unfold tm_forget. grow. Qed.
Lemma gm_graph_grows g : grows (gm_graph g). Proof. unfold gm_graph. grow. Qed.
Lemma gm_store_grows g i : grows (gm_store g i). Proof. unfold gm_store. grow. Qed.
Global Hint Resolve tm_forget_grows gm_graph_grows gm_store_grows : grows.
Lemma tm_cancel_grows done t : (∀ r, grows (done r)) → grows (tm_cancel done t).
Proof. intros H. unfold tm_cancel. grow. Qed.
Lemma gm_clean_nodes_grows cancel ids : (∀ t, grows (cancel t)) → ∀ nodes, grows (gm_clean_nodes cancel ids nodes).
Proof. intros H. induction ids as [|t ids IH]; intros nodes; cbn [gm_clean_nodes]; grow. Qed.
Global Hint Resolve tm_cancel_grows gm_clean_nodes_grows : grows.
Lemma gm_clean_grows cancel g : (∀ t, grows (cancel t)) → grows (gm_clean cancel g).
Proof. intros H. unfold gm_clean. grow. Qed.
Lemma gm_mark_grows g r : grows (gm_mark g r). Proof. unfold gm_mark. grow. Qed.
Lemma gm_task_result_grows g t a : grows (gm_task_result g t a). Proof. unfold gm_task_result. grow. Qed.
Global Hint Resolve gm_clean_grows gm_mark_grows gm_task_result_grows : grows.
Lemma gm_arguments_grows g t args : grows (gm_arguments g t args).
Proof. induction args as [|[]]; cbn [gm_arguments]; grow. Qed.
Global Hint Resolve gm_arguments_grows : grows.
Lemma gm_start_grows g t : grows (gm_start g t). Proof. unfold gm_start. grow. Qed.
Global Hint Resolve gm_start_grows : grows.
Lemma gm_check_grows cancel g : (∀ t, grows (cancel t)) → grows (gm_check cancel g).
Proof. intros H. unfold gm_check. grow. Qed.
Global Hint Resolve gm_check_grows : grows.
Lemma gm_done_grows cancel r : (∀ t, grows (cancel t)) → grows (gm_done cancel r).
Proof. intros H. unfold gm_done. grow. Qed.
Global Hint Resolve gm_done_grows : grows.
Lemma tm_done_fuel_grows n r : grows (tm_done_fuel n r).
Proof. revert r; induction n as [|n IH]; intros r; cbn [tm_done_fuel]; grow. Qed.
Lemma tm_done_grows r : grows (tm_done r).
Proof. unfold tm_done. apply grows_bind; [grow|]. intros. apply tm_done_fuel_grows. Qed.
Global Hint Resolve tm_done_fuel_grows tm_done_grows : grows.
Lemma tm_cancel_any_grows t : grows (tm_cancel_any t). Proof. unfold tm_cancel_any. auto with grows. Qed.
Global Hint Resolve tm_cancel_any_grows : grows.

Lemma wp_grows {A} (m : M A) Q E s : grows m → wp m Q E s →
  wp m (λ a s', Q a s' ∧ ∃ l, s_log s' = s_log s ++ l) E s.
Proof. intros H. destruct (H s) as [l El]. unfold wp. destruct (m s) as [s' [a|e]]; cbn in *; eauto. Qed.
