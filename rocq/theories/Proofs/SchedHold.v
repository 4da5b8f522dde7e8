(** Workers, assignments and the whereabouts of every task: the invariant behind C23-C25. *)

From Verif.Model Require Import Base OneToManyDict Allocator Message Sorter Scheduler.
From Verif.Spec Require Import AllocatorSpec SchedulerSpec.
From Verif.Proofs Require Import BaseProofs AllocatorProofs SchedWp SchedCount.

(** ** The allocator *)
Definition allocd (a : alloc) (g : ledger) : Prop := ∃ mq ml st, al_rep a g mq ml st.

Lemma allocd_ok a g : allocd a g → ledger_ok (al_max a) g.
Proof. intros (mq & ml & st & R). exact (ar_ledger_ok _ _ _ _ _ R). Qed.
Lemma allocd_get a W O t : allocd a (Ledger W O) → al_get_assigned a t = O !! t.
Proof. intros (mq & ml & st & R). unfold al_get_assigned. rewrite (ar_t2w _ _ _ _ _ R). reflexivity. Qed.
Lemma allocd_add a W O w a' b : allocd a (Ledger W O) → al_add_worker a w = (a', b) →
  allocd a' (Ledger ({[w]} ∪ W) O) ∧ al_max a' = al_max a ∧ b = negb (bool_decide (w ∈ W)).
Proof.
  intros (mq & ml & st & R) E. destruct (step_add _ _ _ _ _ R w) as (a1 & b1 & E1 & Hm & H). rewrite E in E1. injection E1 as <- <-.
  cbn in H. destruct (decide (w ∈ W)) as [Hw|Hw].
  - destruct H as [-> ->]. rewrite bool_decide_eq_true_2 by done. split; [|auto]. exists mq, ml, st.
    replace ({[w]} ∪ W) with W by set_solver. exact R.
  - destruct H as (-> & R' & _). rewrite bool_decide_eq_false_2 by done. split; [|auto]. do 3 eexists; exact R'.
Qed.
Lemma allocd_assign a W O t p : allocd a (Ledger W O) → al_assign a t = Ok p →
  al_max p.1 = al_max a ∧
  match p.2 with
  | Assigned w => w ∈ W ∧ (O !! t = None ∨ O !! t = Some w) ∧ allocd p.1 (Ledger W (<[t := w]> O))
  | AllFull => W ≠ ∅ ∧ allocd p.1 (Ledger W O)
  | Waits => W = ∅ ∧ allocd p.1 (Ledger W O)
  end.
Proof.
  intros (mq & ml & st & R) E. destruct p as [a' r]; cbn.
  assert (E' : al_call a (AAssign t) = Ok (a', AResult r)) by (cbn; rewrite E; reflexivity).
  destruct (al_call_weak _ _ _ _ _ _ _ _ R E') as (g' & mq' & ml' & st' & Hd & R' & Hm). split; [exact Hm|].
  inversion Hd; subst; cbn in *; try (split; [assumption|do 3 eexists; exact R']).
  - split; [|split].
    + pose proof (ar_owner _ _ _ _ _ R t w) as Ho. auto.
    + auto.
    + rewrite insert_id by assumption. do 3 eexists; exact R'.
  - split; [assumption|]. split; [auto|]. do 3 eexists; exact R'.
Qed.
Lemma allocd_remove_task a W O t p : allocd a (Ledger W O) → al_remove_task a t = Ok p →
  al_max p.1 = al_max a ∧ p.2 = O !! t ∧ allocd p.1 (Ledger W (delete t O)).
Proof.
  intros (mq & ml & st & R) E. destruct p as [a' r]; cbn.
  assert (E' : al_call a (ARemoveTask t) = Ok (a', AWorker r)) by (cbn; rewrite E; reflexivity).
  destruct (al_call_weak _ _ _ _ _ _ _ _ R E') as (g' & mq' & ml' & st' & Hd & R' & Hm). split; [exact Hm|].
  inversion Hd; subst; cbn in *. split; [reflexivity|]. do 3 eexists; exact R'.
Qed.
Lemma allocd_remove_worker a W O w p : allocd a (Ledger W O) → al_remove_worker a w = Ok p →
  al_max p.1 = al_max a ∧ p.2 = tasks_of (Ledger W O) w ∧ allocd p.1 (Ledger (W ∖ {[w]}) (filter (λ q, q.2 ≠ w) O)).
Proof.
  intros (mq & ml & st & R) E. destruct p as [a' r]; cbn.
  assert (E' : al_call a (ARemoveWorker w) = Ok (a', ATasks r)) by (cbn; rewrite E; reflexivity).
  destruct (al_call_weak _ _ _ _ _ _ _ _ R E') as (g' & mq' & ml' & st' & Hd & R' & Hm). split; [exact Hm|].
  inversion Hd; subst; cbn in *.
  - split; [reflexivity|]. do 3 eexists; exact R'.
  - assert (Hno : ∀ t w', O !! t = Some w' → w' ≠ w).
    { intros t w' Ht ->. apply (ar_owner _ _ _ _ _ R) in Ht. done. }
    split.
    + symmetry. apply leibniz_equiv, elem_of_equiv_empty. intros t Ht. apply elem_of_tasks_of in Ht. eapply Hno; eauto.
    + replace (W ∖ {[w]}) with W by set_solver. rewrite map_filter_id; [do 3 eexists; exact R'|]. intros t w' Ht. cbn. eauto.
Qed.
Lemma allocd_available a g p : allocd a g → al_has_available a = Ok p → allocd p.1 g ∧ al_max p.1 = al_max a.
Proof.
  intros (mq & ml & st & R) E. destruct p as [a' r]; cbn.
  assert (E' : al_call a AHasAvailable = Ok (a', ABool r)) by (cbn; rewrite E; reflexivity).
  destruct (al_call_weak _ _ _ _ _ _ _ _ R E') as (g' & mq' & ml' & st' & Hd & R' & Hm). split; [|exact Hm].
  inversion Hd; subst; cbn in *. do 3 eexists; exact R'.
Qed.

(** ** Replays *)
Lemma registered_snoc h e : registered (h ++ [e]) = reg_step (registered h) e.
Proof. unfold registered. rewrite foldl_app. reflexivity. Qed.
Lemma holder_snoc h e : holder (h ++ [e]) = holder_step (holder h) e.
Proof. unfold holder. rewrite foldl_app. reflexivity. Qed.
Lemma registered_quiet h l : Forall quiet l → registered (h ++ l) = registered h.
Proof.
  intros Hl. revert h; induction Hl as [|e l He Hl IH]; intros h; [rewrite app_nil_r; reflexivity|].
  replace (h ++ e :: l) with ((h ++ [e]) ++ l) by (rewrite <- app_assoc; reflexivity).
  rewrite IH, registered_snoc. destruct e as [? []| | | | | |]; cbn in *; tauto.
Qed.
Lemma holder_quiet h l : Forall quiet l → holder (h ++ l) = holder h.
Proof.
  intros Hl. revert h; induction Hl as [|e l He Hl IH]; intros h; [rewrite app_nil_r; reflexivity|].
  replace (h ++ e :: l) with ((h ++ [e]) ++ l) by (rewrite <- app_assoc; reflexivity).
  rewrite IH, holder_snoc. destruct e as [? []|? []| | | | |]; cbn in *; tauto.
Qed.

(** ** The invariant *)
(** Every dispatch is to a connected worker with room that either does not yet have the
    task while nobody else has it, or already has it. *)
Definition dispatch_ok (q : Z) (before : history) (e : entry) : Prop :=
  match e with
  | LSend w (MTask k) =>
      w ∈ registered before ∧
      (holder before !! task_id k = None ∨ holder before !! task_id k = Some w) ∧
      (0 <= q → outstanding (before ++ [e]) w <= q)
  | _ => True
  end.
Definition dispatches (s : sched) : Prop := always (dispatch_ok (c_queue_size (s_cfg s))) (s_log s).

(** [fl] lists tasks that are momentarily nowhere. *)
Record I2 (fl : list bytes) (s : sched) : Prop := {
  i2_log : dispatches s;
  i2_alloc : allocd (s_alloc s) (Ledger (registered (s_log s)) (holder (s_log s)));
  i2_max : al_max (s_alloc s) = c_queue_size (s_cfg s);
  i2_alive : dom (s_alive s) = registered (s_log s);
  i2_key t k : s_tasks s !! t = Some k → task_id k = t;
  i2_place t : is_Some (s_tasks s !! t) →
    t ∈ s_unassigned s ∨ (∃ k, s_limbo s = Some k ∧ task_id k = t) ∨ is_Some (holder (s_log s) !! t) ∨ t ∈ fl }.

Notation crash2 := (λ (_ : exn) s', dispatches s').

Lemma quiet_dispatch q b e : quiet e → dispatch_ok q b e.
Proof. destruct e as [| ? [] | | | | |]; cbn; tauto. Qed.

Lemma I2_core fl s s' : same_core s s' → I2 fl s → I2 fl s'.
Proof.
  intros [E1 _ _ _ E5 E6 _ E8 E9 E10 (l & El & Ql)] [H1 H2 H3 H4 H5 H6].
  assert (Er : registered (s_log s') = registered (s_log s)) by (rewrite El; apply registered_quiet; exact Ql).
  assert (Eh : holder (s_log s') = holder (s_log s)) by (rewrite El; apply holder_quiet; exact Ql).
  split; rewrite ?Er, ?Eh, ?E5, ?E6, ?E8, ?E9, ?E10, ?E1; auto.
  unfold dispatches. rewrite E1, El. apply always_quiet; [apply quiet_dispatch|exact Ql|exact H1].
Qed.
Lemma dispatches_core s s' : same_core s s' → dispatches s → dispatches s'.
Proof.
  intros [E1 _ _ _ _ _ _ _ _ _ (l & El & Ql)] H. unfold dispatches. rewrite E1, El.
  apply always_quiet; [apply quiet_dispatch|exact Ql|exact H].
Qed.
Lemma I2_weaken fl fl' s : (∀ t, t ∈ fl → t ∈ fl') → I2 fl s → I2 fl' s.
Proof. intros Hs []; split; auto. intros t Ht. destruct (i2_place0 t Ht) as [?|[?|[?|?]]]; auto. Qed.

Definition keeps2 {A} (m : M A) : Prop := ∀ fl s, I2 fl s → wp m (λ _ s', I2 fl s') crash2 s.

Lemma keeps2_frame {A} (m : M A) :
  (∀ s, wp m (λ _ s', fm_same s s') (λ _ s', fm_same s s') s) → keeps2 m.
Proof.
  intros Hm fl s H. eapply wp_mono; [apply Hm| |]; cbv beta.
  - intros a s' [Hs _]. eapply I2_core; eauto.
  - intros e s' [Hs _]. eapply dispatches_core; [exact Hs|apply H].
Qed.
Lemma I2_use t f : keeps2 (fm_use t f). Proof. apply keeps2_frame. intros. apply fm_use_same, fm_same_refl. Qed.
Lemma I2_fdone t : keeps2 (fm_done t). Proof. apply keeps2_frame. intros. apply fm_done_same, fm_same_refl. Qed.
Lemma I2_on_function a b c d e : keeps2 (fm_on_function a b c d e).
Proof. apply keeps2_frame. intros. apply fm_on_function_same, fm_same_refl. Qed.
Lemma I2_fm_routine : keeps2 fm_routine. Proof. apply keeps2_frame. intros. apply fm_routine_same, fm_same_refl. Qed.
Lemma I2_monitor t st : keeps2 (tm_monitor t st). Proof. apply keeps2_frame. intros. apply tm_monitor_same, fm_same_refl. Qed.
Lemma I2_wcancel t : keeps2 (wm_cancel t). Proof. apply keeps2_frame. intros. apply wm_cancel_same, fm_same_refl. Qed.
Lemma I2_status : keeps2 st_routine. Proof. apply keeps2_frame. intros. apply st_routine_same, fm_same_refl. Qed.

Lemma I2_running fl s f : I2 fl s → I2 fl (set_running f s). Proof. intros []; split; auto. Qed.
Lemma I2_codes fl s f : I2 fl s → I2 fl (set_codes f s). Proof. intros []; split; auto. Qed.
Lemma I2_clients fl s f : I2 fl s → I2 fl (set_clients f s). Proof. intros []; split; auto. Qed.
Lemma I2_advice fl s f : I2 fl s → I2 fl (set_last_advice f s). Proof. intros []; split; auto. Qed.
Lemma I2_same_count fl s f : I2 fl s → I2 fl (set_same f s). Proof. intros []; split; auto. Qed.
Lemma I2_now fl s f : I2 fl s → I2 fl (set_now f s). Proof. intros []; split; auto. Qed.
Lemma I2_n1 fl s f : I2 fl s → I2 fl (set_nsuccess f s). Proof. intros []; split; auto. Qed.
Lemma I2_n2 fl s f : I2 fl s → I2 fl (set_nfailed f s). Proof. intros []; split; auto. Qed.
Lemma I2_n3 fl s f : I2 fl s → I2 fl (set_ncanceled f s). Proof. intros []; split; auto. Qed.
Lemma I2_n4 fl s f : I2 fl s → I2 fl (set_nnotfound f s). Proof. intros []; split; auto. Qed.
Lemma I2_graphs fl s f : I2 fl s → I2 fl (set_graphs f s). Proof. intros []; split; auto. Qed.
Lemma I2_t2g fl s f : I2 fl s → I2 fl (set_t2g f s). Proof. intros []; split; auto. Qed.
Lemma I2_gqueue fl s f : I2 fl s → I2 fl (set_gqueue f s). Proof. intros []; split; auto. Qed.

Definition inert2 (e : entry) : Prop :=
  match e with
  | LSend _ (MTask _) | LDisconnected _ => False
  | LIn _ (ERecv _ (MHeartbeat _ | MTaskResult _ _ _ _ | MBalanceResponse _)) => False
  | _ => True
  end.
Lemma I2_emit fl s e : inert2 e → I2 fl s → I2 fl (set_log (λ l, l ++ [e]) s).
Proof.
  intros He [H1 H2 H3 H4 H5 H6].
  assert (Er : registered (s_log s ++ [e]) = registered (s_log s)).
  { rewrite registered_snoc. destruct e as [? [? []| | | | |]| | | | | |]; cbn in *; tauto. }
  assert (Eh : holder (s_log s ++ [e]) = holder (s_log s)).
  { rewrite holder_snoc. destruct e as [? [? []| | | | |]|? []| | | | |]; cbn in *; tauto. }
  split; ss; rewrite ?Er, ?Eh; auto.
  apply always_snoc; [exact H1|]. destruct e as [| ? [] | | | | |]; cbn in *; tauto.
Qed.
Global Hint Resolve I2_running I2_codes I2_clients I2_advice I2_same_count I2_now I2_n1 I2_n2 I2_n3 I2_n4
  I2_graphs I2_t2g I2_gqueue I2_emit i2_log : i2.
Global Hint Extern 1 (inert2 _) => exact I : i2.

(** ** Managers *)
Lemma I2_put t fl s : I2 (t :: fl) s → wp (tm_put t) (λ _ s', I2 fl s') crash2 s.
Proof.
  intros H. unfold tm_put. wsteps; [eauto with i2|]. destruct H as [H1 H2 H3 H4 H5 H6]. split; auto; ss.
  intros x Hx. destruct (H6 x Hx) as [?|[?|[?|Hi]]]; auto; [set_solver|].
  apply elem_of_cons in Hi as [->|Hi]; [set_solver|auto].
Qed.
Lemma I2_has_available : keeps2 wm_has_available.
Proof.
  intros fl s H. unfold wm_has_available. wsteps; [|eauto with i2].
  destruct H as [H1 H2 H3 H4 H5 H6]. destruct (allocd_available _ _ _ H2 Hok) as [Ha Hm]. split; auto; ss. congruence.
Qed.
Lemma I2_cm_new c t : keeps2 (cm_new c t). Proof. intros fl s H. unfold cm_new. wsteps; eauto with i2. Qed.
Lemma I2_cm_done t : keeps2 (cm_done t). Proof. intros fl s H. unfold cm_done. wsteps; eauto with i2. Qed.

Lemma I2_store task fl s : I2 fl s → I2 (task_id task :: fl) (set_tasks (<[task_id task := task]>) s).
Proof.
  intros [H1 H2 H3 H4 H5 H6]. split; auto; ss.
  - intros t k. rewrite lookup_insert_Some. intros [[<- <-]|[_ Hk]]; auto.
  - intros t. destruct (decide (t = task_id task)) as [->|Hne]; [set_solver|].
    rewrite lookup_insert_ne by done. intros Ht. destruct (H6 t Ht) as [?|[?|[?|?]]]; auto. set_solver.
Qed.
Lemma I2_tm_new c task : keeps2 (tm_new c task).
Proof.
  intros fl s H. unfold tm_new, fm_has_function. wstep. wstep. destruct (negb _); [wsteps; eauto with i2|].
  wstep. wuse I2_has_available as s1 H1; [exact H|]. wsteps; [eauto with i2|].
  wuse I2_use as s2 H2; [eauto with i2|]. wstep. wuse I2_cm_new as s3 H3; [exact H2|]. wsteps.
  wuse I2_put as s4 H4; [apply I2_store; exact H3|]. apply I2_monitor. exact H4.
Qed.
Lemma I2_reroute t fl s : I2 (t :: fl) s → wp (tm_reroute t) (λ _ s', I2 fl s') crash2 s.
Proof.
  intros H. unfold tm_reroute. wsteps; eauto with i2. wuse I2_put as s1 H1; [eauto with i2|]. apply I2_monitor. exact H1.
Qed.
Lemma I2_reroutes ids fl s : I2 (ids ++ fl) s → wp (foreach ids tm_reroute) (λ _ s', I2 fl s') crash2 s.
Proof.
  intros H. apply (wp_mono _ (λ _ s', I2 ([] ++ fl) s') _ crash2); [|auto|auto].
  apply (wp_foreach _ (λ l s', I2 (l ++ fl) s')); [exact H|]. intros t l s1 H1. apply I2_reroute. exact H1.
Qed.
Lemma I2_count st : keeps2 (tm_count st). Proof. intros fl s H. unfold tm_count. wsteps; eauto with i2. Qed.
Lemma elem_of_without t q x : x ∈ without t q ↔ x ∈ q ∧ x ≠ t.
Proof.
  unfold without. rewrite !elem_of_list_In, List.filter_In. split; intros [H1 H2]; split; auto.
  - intros ->. rewrite String.eqb_refl in H2. discriminate.
  - destruct (String.eqb_spec x t); [contradiction|reflexivity].
Qed.
Lemma I2_without t fl s : I2 (t :: fl) s → I2 (t :: fl) (set_unassigned (without t) s).
Proof.
  intros [H1 H2 H3 H4 H5 H6]. split; auto; ss. intros x Hx. destruct (H6 x Hx) as [Hi|[?|[?|?]]]; auto.
  destruct (decide (x = t)) as [->|]; [set_solver|]. left. apply elem_of_without. auto.
Qed.
Lemma I2_unstore t fl s : I2 (t :: fl) s → I2 fl (set_tasks (delete t) s).
Proof.
  intros [H1 H2 H3 H4 H5 H6]. split; auto; ss.
  - intros x k [_ Hk]%lookup_delete_Some. auto.
  - intros x [k Hk]. apply lookup_delete_Some in Hk as [Hn Hk].
    destruct (H6 x) as [?|[?|[?|Hi]]]; eauto. apply elem_of_cons in Hi as [->|?]; [done|auto].
Qed.
Lemma I2_forget r fl s : I2 (r_id r :: fl) s → wp (tm_forget r) (λ _ s', I2 fl s') crash2 s.
Proof.
  intros H. unfold tm_forget. wstep. wuse I2_count as s1 H1; [exact H|]. wstep. wstep. wstep.
  apply (wp_mono _ (λ _ s', I2 (r_id r :: fl) s') _ crash2); [case_match; wsteps; eauto using I2_without with i2| |auto].
  intros u s2 H2. wstep. wuse I2_monitor as s3 H3; [exact H2|]. wsteps; [|eauto with i2].
  wuse I2_fdone as s4 H4; [apply I2_unstore; exact H3|]. apply I2_cm_done. exact H4.
Qed.

Lemma I2_clean_nodes cancel ids : (∀ t, keeps2 (cancel t)) → ∀ nodes, keeps2 (gm_clean_nodes cancel ids nodes).
Proof.
  intros Hc. induction ids as [|t ids IH]; intros nodes fl s H; cbn [gm_clean_nodes]; [wsteps; exact H|].
  destruct (nodes !! t) as [n|]; [|apply IH; exact H]. wstep.
  apply (wp_mono _ (λ _ s', I2 fl s') _ crash2).
  - destruct (ni_state n); [apply I2_fdone; exact H|apply Hc; exact H|wsteps; exact H..].
  - intros u s1 H1. wsteps. apply IH. eauto with i2.
  - auto.
Qed.
Lemma I2_clean cancel g : (∀ t, keeps2 (cancel t)) → keeps2 (gm_clean cancel g).
Proof.
  intros Hc fl s H. unfold gm_clean, gm_graph. wstep. wuse I2_cm_done as s1 H1; [exact H|]. wsteps; [|eauto with i2].
  wuse I2_clean_nodes as s2 H2; [exact Hc|eauto with i2|]. wsteps. exact H2.
Qed.
Lemma I2_mark g r : keeps2 (gm_mark g r).
Proof. intros fl s H. unfold gm_mark, gm_graph, gm_store. wsteps; eauto with i2. Qed.
Lemma I2_task_result g t a : keeps2 (gm_task_result g t a).
Proof. intros fl s H. unfold gm_task_result, gm_graph, gm_store. wsteps; eauto with i2. Qed.
Lemma I2_arguments g t args : keeps2 (gm_arguments g t args).
Proof.
  induction args as [|[d|a] args IH]; intros fl s H; cbn [gm_arguments].
  - wsteps. exact H.
  - wstep. wuse IH as s1 H1; [exact H|]. wsteps. exact H1.
  - wstep. wuse I2_task_result as s1 H1; [exact H|]. wstep. wuse IH as s2 H2; [exact H1|]. wsteps. exact H2.
Qed.
Lemma I2_start g t : keeps2 (gm_start g t).
Proof.
  intros fl s H. unfold gm_start, gm_graph, gm_store. wsteps; eauto with i2.
  wuse I2_arguments as s1 H1; [exact H|]. wsteps; eauto with i2. apply I2_tm_new. eauto with i2.
Qed.
Lemma I2_check cancel g : (∀ t, keeps2 (cancel t)) → keeps2 (gm_check cancel g).
Proof.
  intros Hc fl s H. unfold gm_check, gm_graph. wsteps; eauto with i2.
  - wuse (I2_clean cancel g Hc) as s1 H1; [exact H|]. wsteps. eauto with i2.
  - unfold gm_store. wsteps. eapply (wp_foreach _ (λ _ s', I2 fl s')); [eauto with i2|].
    intros t l1 s1 H1. apply I2_start. exact H1.
Qed.
Lemma I2_gm_done cancel r : (∀ t, keeps2 (cancel t)) → keeps2 (gm_done cancel r).
Proof.
  intros Hc fl s H. unfold gm_done. wstep. wstep. destruct (s_t2g s !! r_id r) as [g|] eqn:Et; [|wsteps; exact H].
  wstep. wuse I2_mark as s1 H1; [exact H|].
  assert (Hfail : ∀ st, wp (let* i := gm_clean cancel g in do* send (g_client i) (MGraphTaskResult g st [r_payload r]) in ret true)
       (λ b s', I2 fl s') crash2 s1).
  { intros st. wstep. wuse (I2_clean cancel g Hc) as s2 H2; [exact H1|]. wsteps. eauto with i2. }
  destruct (r_status r); try apply Hfail. wstep. wuse I2_check as s2 H2; [exact Hc|exact H1|]. wsteps. exact H2.
Qed.
Lemma I2_done_fuel n r fl s : I2 (r_id r :: fl) s → wp (tm_done_fuel n r) (λ _ s', I2 fl s') crash2 s.
Proof.
  revert r fl s; induction n as [|n IH]; intros r fl s H; cbn [tm_done_fuel]; [wsteps; eauto with i2|].
  wstep. wuse I2_forget as s1 H1; [exact H|]. wstep.
  wuse I2_gm_done as s2 H2; [|exact H1|wsteps; eauto with i2].
  intros t fl2 s2 H2. unfold tm_cancel. wsteps; eauto with i2.
  - apply IH. cbn. eapply I2_weaken; [|exact H2]. set_solver.
  - wuse I2_wcancel as s3 H3; [exact H2|]. apply I2_monitor. exact H3.
Qed.
Lemma I2_done r fl s : I2 (r_id r :: fl) s → wp (tm_done r) (λ _ s', I2 fl s') crash2 s.
Proof. intros H. unfold tm_done. wstep. wstep. apply I2_done_fuel. exact H. Qed.
Lemma I2_cancel_any t : keeps2 (tm_cancel_any t).
Proof.
  intros fl s H. unfold tm_cancel_any, tm_cancel. wsteps; eauto with i2.
  - apply I2_done. cbn. eapply I2_weaken; [|exact H]. set_solver.
  - wuse I2_wcancel as s3 H3; [exact H|]. apply I2_monitor. exact H3.
Qed.
Lemma I2_nodes g targets ts nodes deps gr : keeps2 (gm_nodes g targets ts nodes deps gr).
Proof.
  revert nodes deps gr; induction ts as [|t ts IH]; intros nodes deps gr fl s H; cbn [gm_nodes]; [wsteps; exact H|].
  wstep. wuse I2_use as s1 H1; [exact H|]. wsteps. apply IH. eauto with i2.
Qed.
Lemma I2_add client gt : keeps2 (gm_add client gt).
Proof.
  intros fl s H. unfold gm_add. wstep.
  apply (wp_mono _ (λ _ s', I2 fl s') _ crash2); [| |auto].
  { apply (wp_foreach _ (λ _ s', I2 fl s')); [exact H|]. intros p l s1 H1. apply I2_on_function. exact H1. }
  intros u s1 H1. wstep. wuse I2_cm_new as s2 H2; [exact H1|]. wstep. wuse I2_nodes as s3 H3; [exact H2|].
  wsteps; [|eauto with i2]. unfold gm_store. wsteps. apply I2_check; [apply I2_cancel_any|eauto with i2].
Qed.
Lemma I2_gm_routine : keeps2 gm_routine.
Proof. intros fl s H. unfold gm_routine. wsteps; eauto with i2. apply I2_add. eauto with i2. Qed.

(** ** Dispatch *)
Lemma outstanding_load h w W : outstanding h w = load (Ledger W (holder h)) w.
Proof. unfold outstanding, load, tasks_of. rewrite size_dom. reflexivity. Qed.

Lemma I2_match task fl s : (s_limbo s = None ∨ s_limbo s = Some task) → I2 (task_id task :: fl) s →
  wp (tm_match task) (λ _ s', I2 fl s') crash2 s.
Proof.
  intros Hl H. unfold tm_match. wstep. wstep. wstep. wstep; [|eauto with i2]. wsteps.
  - (* assigned *)
    apply I2_monitor, I2_running. destruct H as [H1 H2 H3 H4 H5 H6].
    destruct (allocd_assign _ _ _ _ _ H2 Hok) as [Hm' Ha]. rewrite Hm in Ha. destruct Ha as (Hw & Ho & Ha).
    rename w into w0.
    assert (Ehold : holder (s_log s ++ [LSend w0 (MTask task)]) = <[task_id task := w0]> (holder (s_log s))) by (rewrite holder_snoc; reflexivity).
    assert (Ereg : registered (s_log s ++ [LSend w0 (MTask task)]) = registered (s_log s)) by (rewrite registered_snoc; reflexivity).
    split; ss; rewrite ?Ehold, ?Ereg; auto.
    + apply always_snoc; [exact H1|]. cbn. split; [exact Hw|]. split; [exact Ho|]. intros Hq.
      rewrite (outstanding_load _ _ (registered (s_log s))), Ehold. apply allocd_ok in Ha as [_ Hcap].
      rewrite Hm', H3 in Hcap. auto.
    + congruence.
    + intros t Ht. destruct (decide (t = task_id task)) as [->|Hne].
      { right; right; left. rewrite lookup_insert. eauto. }
      rewrite lookup_insert_ne by done. destruct (H6 t Ht) as [?|[[k [Hk Hk2]]|[?|Hi]]]; auto.
      * destruct Hl as [Hl|Hl]; rewrite Hl in Hk; [discriminate|]. injection Hk as <-. subst; done.
      * apply elem_of_cons in Hi as [->|?]; [done|auto].
  - (* all full *)
    apply I2_put. destruct H as [H1 H2 H3 H4 H5 H6].
    destruct (allocd_assign _ _ _ _ _ H2 Hok) as [Hm' Ha]. rewrite Hm in Ha. destruct Ha as [_ Ha].
    split; ss; auto; [congruence|]. intros t Ht. destruct (H6 t Ht) as [?|[[k [Hk Hk2]]|[?|Hi]]]; auto.
    destruct Hl as [Hl|Hl]; rewrite Hl in Hk; [discriminate|]. injection Hk as <-. set_solver.
  - (* no worker *)
    destruct H as [H1 H2 H3 H4 H5 H6].
    destruct (allocd_assign _ _ _ _ _ H2 Hok) as [Hm' Ha]. rewrite Hm in Ha. destruct Ha as [_ Ha].
    split; ss; auto; [congruence|]. intros t Ht. destruct (H6 t Ht) as [?|[[k [Hk Hk2]]|[?|Hi]]]; auto.
    + destruct Hl as [Hl|Hl]; rewrite Hl in Hk; [discriminate|]. injection Hk as <-. eauto.
    + apply elem_of_cons in Hi as [->|?]; eauto.
Qed.
Lemma I2_tm_routine : keeps2 tm_routine.
Proof.
  intros fl s H. unfold tm_routine. wstep. wstep. destruct (s_limbo s) as [task|] eqn:El.
  - apply I2_match; [auto|]. eapply I2_weaken; [|exact H]. set_solver.
  - wstep. wstep. destruct (s_unassigned s) as [|t q] eqn:Eq; [wsteps; exact H|]. wsteps; [|eauto with i2].
    + ss. destruct (s_tasks s !! t) as [k|] eqn:Et; [|discriminate]. injection Hok as <-.
      assert (Ek : task_id k = t) by (eapply i2_key; eauto). apply I2_match; [auto|].
      destruct H as [H1 H2 H3 H4 H5 H6]. split; auto; ss. rewrite Ek. intros x Hx.
      destruct (H6 x Hx) as [Hi|[?|[?|?]]]; auto; [|set_solver]. rewrite Eq in Hi. set_solver.
    + ss. apply (i2_log _ _ H).
Qed.

(** ** Messages from workers *)
Notation logged e s := (set_log (λ l, l ++ [e]) s).

Lemma I2_wm_done now src r fl s : I2 fl s →
  wp (wm_done r) (λ _ s', I2 fl s') crash2 (logged (LIn now (ERecv src (MResult r))) s).
Proof.
  intros [H1 H2 H3 H4 H5 H6]. unfold wm_done.
  assert (Ehold : holder (s_log s ++ [LIn now (ERecv src (MResult r))]) = delete (r_id r) (holder (s_log s))) by (rewrite holder_snoc; reflexivity).
  assert (Ereg : registered (s_log s ++ [LIn now (ERecv src (MResult r))]) = registered (s_log s)) by (rewrite registered_snoc; reflexivity).
  assert (Hd : always (dispatch_ok (c_queue_size (s_cfg s))) (s_log s ++ [LIn now (ERecv src (MResult r))])) by (apply always_snoc; [exact H1|exact I]).
  wsteps; ss; [| |exact Hd].
  - destruct (allocd_remove_task _ _ _ _ _ H2 Hok) as (Em & Eo & Ha).
    apply I2_done. split; ss; rewrite ?Ehold, ?Ereg; auto; [congruence|].
    intros t Ht. destruct (decide (t = r_id r)) as [->|Hne]; [set_solver|].
    rewrite lookup_delete_ne by done. destruct (H6 t Ht) as [?|[?|[?|?]]]; auto. set_solver.
  - destruct (allocd_remove_task _ _ _ _ _ H2 Hok) as (Em & Eo & Ha). rewrite Hm in Eo.
    rewrite delete_notin in Ha, Ehold by auto.
    split; ss; rewrite ?Ehold, ?Ereg; auto. congruence.
Qed.

Lemma take_back_spec ids W O s : allocd (s_alloc s) (Ledger W O) →
  wp (wm_take_back ids)
     (λ rs s', ∃ a', s' = set_alloc (λ _, a') s ∧ allocd a' (Ledger W (foldr delete O ids)) ∧ al_max a' = al_max (s_alloc s)
               ∧ ∀ t, t ∈ ids → is_Some (O !! t) → t ∈ rs)
     (λ _ s', ∃ a', s' = set_alloc (λ _, a') s) s.
Proof.
  intros Ha.
  enough (Hgen : wp (wm_take_back ids)
     (λ rs s', ∃ a', s' = set_alloc (λ _, a') s ∧ allocd a' (Ledger W (foldl (λ O t, delete t O) O ids)) ∧ al_max a' = al_max (s_alloc s)
               ∧ ∀ t, t ∈ ids → is_Some (O !! t) → t ∈ rs)
     (λ _ s', ∃ a', s' = set_alloc (λ _, a') s) s).
  { eapply wp_mono; [exact Hgen| |auto]. cbv beta. intros rs s' (a' & E & H1 & H2 & H3). exists a'. split; [exact E|]. split; [|auto].
    replace (foldr delete O ids) with (foldl (λ O t, delete t O) O ids); [exact H1|].
    clear. assert (Hl : ∀ x, foldl (λ O t, delete t O) O ids !! x = if decide (x ∈ ids) then None else O !! x).
    { revert O; induction ids as [|t ids IH]; intros O x; cbn; [destruct (decide _); [set_solver|reflexivity]|].
      rewrite IH. destruct (decide (x ∈ ids)), (decide (x ∈ t :: ids)); try set_solver.
      - destruct (decide (x = t)) as [->|]; [apply lookup_delete|set_solver].
      - apply lookup_delete_ne. set_solver. }
    apply map_eq. intros x. rewrite Hl. clear Hl. induction ids as [|t ids IH]; cbn; [reflexivity|].
    destruct (decide (x = t)) as [->|Hne].
    - rewrite lookup_delete. rewrite decide_True by set_solver. reflexivity.
    - rewrite lookup_delete_ne by done. rewrite <- IH. destruct (decide (x ∈ ids)), (decide (x ∈ t :: ids)); set_solver. }
  revert O s Ha; induction ids as [|t ids IH]; intros O s Ha; cbn [wm_take_back].
  - wsteps. exists (s_alloc s). split; [destruct s; reflexivity|]. split; [exact Ha|]. split; [reflexivity|]. set_solver.
  - wstep. wstep. wstep. wstep.
    2:{ exists (s_alloc s). destruct s; reflexivity. }
    destruct (allocd_remove_task _ _ _ _ _ Ha Hok) as (Em & Eo & Ha'). wsteps.
    eapply wp_mono; [apply (IH (delete t O)); exact Ha'| |].
    + cbv beta. intros rs s' (a' & -> & H1 & H2 & H3). wsteps. exists a'. split; [reflexivity|]. split; [exact H1|].
      ss. split; [congruence|]. intros x Hx Hs. destruct (decide (x = t)) as [->|Hne].
      * rewrite Eo. destruct (O !! t); [set_solver|]. destruct Hs; discriminate.
      * assert (Hi : x ∈ rs) by (apply H3; [set_solver|rewrite lookup_delete_ne by done; exact Hs]).
        destruct (a.2); set_solver.
    + cbv beta. intros e s' [a' ->]. exists a'. reflexivity.
Qed.

Lemma I2_balance_response now src ids fl s : I2 fl s →
  wp (wm_balance_response ids) (λ _ s', I2 fl s') crash2 (logged (LIn now (ERecv src (MBalanceResponse ids))) s).
Proof.
  intros [H1 H2 H3 H4 H5 H6]. unfold wm_balance_response. set (e := LIn now _).
  assert (Ehold : holder (s_log s ++ [e]) = foldr delete (holder (s_log s)) ids) by (rewrite holder_snoc; reflexivity).
  assert (Ereg : registered (s_log s ++ [e]) = registered (s_log s)) by (rewrite registered_snoc; reflexivity).
  assert (Hd : always (dispatch_ok (c_queue_size (s_cfg s))) (s_log s ++ [e])) by (apply always_snoc; [exact H1|exact I]).
  wstep. eapply wp_mono; [apply (take_back_spec ids (registered (s_log s)) (holder (s_log s)) (logged e s)); exact H2| |].
  - cbv beta. intros rs s' (a' & -> & Ha & Hm & Hin). apply I2_reroutes.
    split; ss; rewrite ?Ehold, ?Ereg; auto; [congruence|].
    intros t Ht. destruct (H6 t Ht) as [?|[?|[Hh|?]]]; auto; [|set_solver].
    destruct (decide (t ∈ ids)) as [Hi|Hi]; [right; right; right; set_solver|]. right; right; left.
    clear -Hh Hi. induction ids as [|y ids IH]; cbn; [exact Hh|]. rewrite lookup_delete_ne by set_solver. apply IH. set_solver.
  - cbv beta. intros ex s' [a' ->]. exact Hd.
Qed.

Lemma I2_heartbeat now w h fl s : I2 fl s →
  wp (wm_heartbeat w h) (λ _ s', I2 fl s') crash2 (logged (LIn now (ERecv w (MHeartbeat h))) s).
Proof.
  intros [H1 H2 H3 H4 H5 H6]. unfold wm_heartbeat. set (e := LIn now _).
  assert (Ehold : holder (s_log s ++ [e]) = holder (s_log s)) by (rewrite holder_snoc; reflexivity).
  assert (Ereg : registered (s_log s ++ [e]) = {[w]} ∪ registered (s_log s)) by (rewrite registered_snoc; reflexivity).
  assert (Hd : always (dispatch_ok (c_queue_size (s_cfg s))) (s_log s ++ [e])) by (apply always_snoc; [exact H1|exact I]).
  wstep. wstep. ss. destruct (al_add_worker (s_alloc s) w) as [a' b] eqn:Ea.
  destruct (allocd_add _ _ _ _ _ _ H2 Ea) as (Ha & Hm & Eb).
  set (s1 := set_alive (<[w := (s_now s, h)]>) (set_alloc (λ _, a') (logged e s))).
  assert (Hs1 : I2 fl s1).
  { subst s1. split; ss; rewrite ?Ehold, ?Ereg; auto; [congruence|]. rewrite dom_insert_L, H4. reflexivity. }
  wsteps.
  - apply (I2_emit fl _ (LConnected w)) in Hs1; [|exact I]. apply (I2_emit fl _ (LSend w MHeartbeatEcho)) in Hs1; [|exact I]. exact Hs1.
  - apply (I2_emit fl _ (LSend w MHeartbeatEcho)) in Hs1; [|exact I]. exact Hs1.
Qed.

Lemma I2_drop w : keeps2 (wm_drop w).
Proof.
  intros fl s [H1 H2 H3 H4 H5 H6]. unfold wm_drop. wstep. wstep.
  destruct (s_alive s !! w) as [x|] eqn:Ew; [|wsteps; split; auto].
  set (e := LDisconnected w).
  assert (Ehold : holder (s_log s ++ [e]) = filter (λ p, p.2 ≠ w) (holder (s_log s))) by (rewrite holder_snoc; reflexivity).
  assert (Ereg : registered (s_log s ++ [e]) = registered (s_log s) ∖ {[w]}) by (rewrite registered_snoc; reflexivity).
  assert (Hd : always (dispatch_ok (c_queue_size (s_cfg s))) (s_log s ++ [e])) by (apply always_snoc; [exact H1|exact I]).
  wsteps; ss; [|exact Hd].
  destruct (allocd_remove_worker _ _ _ _ _ H2 Hok) as (Hm & Ets & Ha).
  wuse (I2_reroutes l' fl) as s2 Hs2; [|wsteps; exact Hs2].
  split; ss; rewrite ?Ehold, ?Ereg; auto; [congruence|rewrite dom_delete_L, H4; reflexivity|].
  intros t Ht. destruct (H6 t Ht) as [?|[?|[[w' Hh]|?]]]; auto; [|set_solver].
  destruct (decide (w' = w)) as [->|Hne].
  - right; right; right. apply elem_of_app. left. rewrite Hp, Ets, elem_of_elements. apply elem_of_tasks_of. exact Hh.
  - right; right; left. exists w'. apply map_filter_lookup_Some. auto.
Qed.
Lemma I2_disconnect src w : keeps2 (wm_disconnect src w).
Proof. intros fl s H. unfold wm_disconnect. wstep. wuse I2_drop as s1 H1; [exact H|]. wsteps; eauto with i2. Qed.
Lemma I2_balance : keeps2 wm_balance.
Proof.
  intros fl s H. unfold wm_balance. wsteps; eauto with i2.
  apply (wp_foreach _ (λ _ s', I2 fl s')); [eauto with i2|]. intros p l s2 H2. wsteps. eauto with i2.
Qed.
Lemma I2_wm_clean : keeps2 wm_clean.
Proof.
  intros fl s H. unfold wm_clean. wsteps.
  apply (wp_foreach _ (λ _ s', I2 fl s')); [eauto with i2|]. intros p l s2 H2. wstep. wuse I2_drop as s3 H3; [exact H2|]. wsteps. exact H3.
Qed.
Lemma I2_wm_routine : keeps2 wm_routine.
Proof. intros fl s H. unfold wm_routine. wstep. wuse I2_balance as s1 H1; [exact H|]. apply I2_wm_clean. exact H1. Qed.

Lemma I2_round now e s : I2 [] s → wp (handle e) (λ _ s', I2 [] s') crash2 (logged (LIn now e) s).
Proof.
  intros H.
  assert (Hi : inert2 (LIn now e) → I2 [] (logged (LIn now e) s)) by (intros; apply I2_emit; assumption).
  destruct e as [src m| | | | |]; cbn [handle].
  - destruct m; cbn [on_receive]; try (wsteps; apply Hi; exact I).
    + apply I2_tm_new, Hi, I.
    + apply I2_cancel_any, Hi, I.
    + match goal with |- wp (wm_done ?r) _ _ _ => apply (I2_wm_done now src r) end. exact H.
    + wsteps. apply I2_gqueue, Hi, I.
    + wstep. wuse (I2_clean tm_cancel_any id I2_cancel_any) as s1 H1; [apply Hi, I|]. wsteps. exact H1.
    + apply I2_balance_response, H.
    + apply I2_heartbeat, H.
    + apply I2_on_function, Hi, I.
    + apply I2_disconnect, Hi, I.
  - apply I2_gm_routine, Hi, I.
  - apply I2_tm_routine, Hi, I.
  - apply I2_fm_routine, Hi, I.
  - apply I2_wm_routine, Hi, I.
  - apply I2_status, Hi, I.
Qed.

Definition Inv2 (s : sched) : Prop := dispatches s ∧ (s_dead s = None → I2 [] s).
Lemma Inv2_start c : Inv2 (start c).
Proof.
  split; [apply always_nil|]. intros _. split; cbn.
  - apply always_nil.
  - do 3 eexists. apply al_rep_init.
  - reflexivity.
  - apply dom_empty_L.
  - intros t k. rewrite lookup_empty. discriminate.
  - intros t [k Hk]. rewrite lookup_empty in Hk. discriminate.
Qed.
Lemma Inv2_step s r : Inv2 s → Inv2 (step s r).
Proof.
  intros [Ha H]. unfold step. destruct (s_dead s) eqn:Ed; [split; [exact Ha|congruence]|].
  specialize (H eq_refl). set (s0 := set_now _ _).
  assert (H0 : I2 [] s0) by (apply I2_now, I2_codes, H).
  pose proof (I2_round (rd_now r) (rd_event r) s0 H0) as Hw. unfold wp in Hw.
  destruct (handle _ _) as [s' [u|e]]; split; auto.
  - apply Hw.
  - ss. apply always_snoc; [exact Hw|exact I].
  - ss. discriminate.
Qed.
Lemma Inv2_run c rs : Inv2 (run c rs).
Proof.
  unfold run, run_from. assert (∀ s, Inv2 s → Inv2 (foldl step s rs)) as H; [|apply H, Inv2_start].
  induction rs as [|r rs IH]; cbn; auto using Inv2_step.
Qed.
