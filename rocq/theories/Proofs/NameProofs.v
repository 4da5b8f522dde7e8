(** * The names and causes of published states (C99) *)

From Verif.Model Require Import Base OneToManyDict PriorityQueue Allocator Message Sorter Scheduler.
From Verif.Spec Require Import AllocatorSpec DictSpec SchedulerSpec StateSpec.
From Verif.Proofs Require Import BaseProofs DictProofs AllocatorProofs SchedWp SchedCount SchedHold SchedContent SchedSend SchedPrim SchedFn SchedGlobal SchedStep SchedRemove SchedPlain SchedPolite.

Notation T := (λ (_ : exn) (_ : sched), True).
Lemma named_app t n h l : named t n h → named t n (h ++ l).
Proof. intros (cl & k & ct & H1 & H2 & H3). exists cl, k, ct. split; [apply received_app, H1|]. split; [done|]. apply function_from_app, H3. Qed.
Lemma caused_app t st h l : caused t st h → caused t st (h ++ l).
Proof.
  intros [H|[H|[(w & d & p & H)|(H & cl & Hr)]]]; [by left|by right; left|right; right; left; exists w, d, p; apply received_app, H|right; right; right; split; [done|]; exists cl; apply received_app, Hr].
Qed.
Record N (s : sched) : Prop := {
  n_t2g : s_t2g s = ∅;
  n_funcs f i : s_funcs s !! f = Some i → ∃ ct, function_from f (fi_name i) ct (s_log s);
  n_tasks t k : s_tasks s !! t = Some k → task_id k = t ∧ ∃ cl, received cl (MTask k) (s_log s);
  n_log t n st : LMonitor (MTaskState t n st) ∈ s_log s → named t n (s_log s) ∧ caused t st (s_log s) }.
Definition keeps {A} (m : M A) : Prop := ∀ s, N s → wp m (λ _ s', N s') T s.

Lemma N_set_running s f : N s → N (set_running f s). Proof. intros []; split; auto. Qed.
Lemma N_set_codes s f : N s → N (set_codes f s). Proof. intros []; split; auto. Qed.
Lemma N_set_clients s f : N s → N (set_clients f s). Proof. intros []; split; auto. Qed.
Lemma N_set_unassigned s f : N s → N (set_unassigned f s). Proof. intros []; split; auto. Qed.
Lemma N_set_limbo s f : N s → N (set_limbo f s). Proof. intros []; split; auto. Qed.
Lemma N_set_alive s f : N s → N (set_alive f s). Proof. intros []; split; auto. Qed.
Lemma N_set_alloc s f : N s → N (set_alloc f s). Proof. intros []; split; auto. Qed.
Lemma N_set_last_advice s f : N s → N (set_last_advice f s). Proof. intros []; split; auto. Qed.
Lemma N_set_same s f : N s → N (set_same f s). Proof. intros []; split; auto. Qed.
Lemma N_set_now s f : N s → N (set_now f s). Proof. intros []; split; auto. Qed.
Lemma N_set_ftasks s f : N s → N (set_ftasks f s). Proof. intros []; split; auto. Qed.
Lemma N_set_nsuccess s f : N s → N (set_nsuccess f s). Proof. intros []; split; auto. Qed.
Lemma N_set_nfailed s f : N s → N (set_nfailed f s). Proof. intros []; split; auto. Qed.
Lemma N_set_ncanceled s f : N s → N (set_ncanceled f s). Proof. intros []; split; auto. Qed.
Lemma N_set_nnotfound s f : N s → N (set_nnotfound f s). Proof. intros []; split; auto. Qed.
Definition silent (e : entry) : Prop := match e with LMonitor (MTaskState _ _ _) => False | _ => True end.
Lemma N_app s e : (∀ t n st, e = LMonitor (MTaskState t n st) → named t n (s_log s) ∧ caused t st (s_log s)) → N s → N (set_log (λ l, l ++ [e]) s).
Proof.
  intros He [H1 H2 H3 H4]; split; ss; auto.
  - intros f i Hi. destruct (H2 f i Hi) as [ct H]. exists ct. apply function_from_app, H.
  - intros t k Hk. destruct (H3 t k Hk) as (E & cl & H). split; [done|]. exists cl. apply received_app, H.
  - intros t n st Hin. apply elem_of_app in Hin as [Hin|Hin].
    + destruct (H4 _ _ _ Hin). split; [apply named_app|apply caused_app]; auto.
    + apply elem_of_list_singleton in Hin. destruct (He t n st (eq_sym Hin)). split; [apply named_app|apply caused_app]; auto.
Qed.
Lemma N_emit e s : silent e → N s → N (set_log (λ l, l ++ [e]) s).
Proof. intros He. apply N_app. intros t n st ->. destruct He. Qed.
Lemma N_touch f i now s : s_funcs s !! f = Some i → N s → N (set_funcs (<[f := FuncInfo (fi_name i) (fi_content i) now]>) s).
Proof.
  intros Hi [H1 H2 H3 H4]; split; ss; auto. intros f' i'. rewrite lookup_insert_Some. intros [[<- <-]|[_ H]]; [|eauto]. cbn [fi_name]. eauto.
Qed.
Lemma N_fn_new f n ct now s : (∃ c, received c (MFunctionRequest FnAdd f n ct) (s_log s)) → N s → N (set_funcs (<[f := FuncInfo n ct now]>) s).
Proof.
  intros Hr [H1 H2 H3 H4]; split; ss; auto. intros f' i'. rewrite lookup_insert_Some. intros [[<- <-]|[_ H]]; [|eauto]. cbn [fi_name]. exists ct. by left.
Qed.
Lemma N_fn_del f s : N s → N (set_funcs (delete f) s).
Proof. intros [H1 H2 H3 H4]; split; ss; auto. intros f' i' [_ H]%lookup_delete_Some. eauto. Qed.
Lemma N_task_del t s : N s → N (set_tasks (delete t) s).
Proof. intros [H1 H2 H3 H4]; split; ss; auto. intros t' k [_ H]%lookup_delete_Some. eauto. Qed.
Local Hint Resolve N_set_running N_set_codes N_set_clients N_set_unassigned N_set_limbo N_set_alive N_set_alloc N_set_last_advice N_set_same N_set_now N_set_ftasks
  N_set_nsuccess N_set_nfailed N_set_ncanceled N_set_nnotfound N_emit N_fn_del N_task_del : n.
Local Hint Extern 1 (silent _) => exact I : n.
Ltac quick := wsteps; try exact I; eauto 8 with n.
Lemma N_foreach {A} (f : A → M unit) l : (∀ a, keeps (f a)) → keeps (foreach l f).
Proof. intros H s Hs. apply (wp_foreach f (λ _ s', N s') T l s Hs). intros a l' s1 H1. apply H, H1. Qed.

Lemma use_N t f : keeps (fm_use t f).
Proof.
  intros s H. unfold fm_use. wsteps; try exact I. ss. destruct (s_funcs s !! f) as [i|] eqn:Ef; [|discriminate]. injection Hok as <-. apply N_set_ftasks, N_touch; auto.
Qed.
Lemma fdone_N t : keeps (fm_done t). Proof. intros s H. unfold fm_done. quick. Qed.
Lemma cnew_N c t : keeps (cm_new c t). Proof. intros s H. unfold cm_new. quick. Qed.
Lemma cdone_N t : keeps (cm_done t). Proof. intros s H. unfold cm_done. quick. Qed.
Lemma available_N : keeps wm_has_available. Proof. intros s H. unfold wm_has_available. quick. Qed.
Lemma wcancel_N t : keeps (wm_cancel t). Proof. intros s H. unfold wm_cancel. quick. Qed.
Lemma beat_N w h : keeps (wm_heartbeat w h). Proof. intros s H. unfold wm_heartbeat. quick. Qed.
Lemma put_N t : keeps (tm_put t). Proof. intros s H. unfold tm_put. quick. Qed.
Lemma count_N st : keeps (tm_count st). Proof. intros s H. unfold tm_count. quick. Qed.
Lemma status_N : keeps st_routine. Proof. intros s H. unfold st_routine. quick. Qed.
Lemma monitor_N t st s : caused t st (s_log s) → N s → wp (tm_monitor t st) (λ _ s', N s') T s.
Proof.
  intros Hc H. unfold tm_monitor, fm_get_name. wsteps; try exact I. ss. destruct (s_tasks s !! t) as [k|] eqn:Ek; [|discriminate]. injection Hok as <-.
  destruct (s_funcs s !! task_function k) as [i|] eqn:Ei; [|discriminate]. injection Hok0 as <-. apply N_app; [|exact H]. intros t' n st' [= <- <- <-]. split; [|exact Hc].
  destruct (n_tasks _ H _ _ Ek) as (E & cl & Hr). destruct (n_funcs _ H _ _ Ei) as [ct Hf]. exists cl, k, ct. auto.
Qed.
Lemma function_N src ty f n ct s : (ty = FnAdd → received src (MFunctionRequest FnAdd f n ct) (s_log s)) → N s → wp (fm_on_function src ty f n ct) (λ _ s', N s') T s.
Proof.
  intros Hr H. unfold fm_on_function, fm_check, fm_add, fm_request, fm_delete, fm_has_function, fm_respond. destruct ty.
  all: wsteps; try exact I; eauto 8 with n; (apply N_emit; [exact I|]).
  - apply N_touch; auto.
  - apply N_fn_new; eauto.
Qed.
Lemma expire_N : keeps fm_routine.
Proof.
  intros s H. unfold fm_routine. wsteps. apply N_foreach; [|eauto with n]. intros f s0 H0. unfold wm_delete_function. wsteps. apply N_foreach; [|eauto with n]. intros w s1 H1. quick.
Qed.
Lemma balance_N : keeps wm_balance.
Proof. intros s H. unfold wm_balance. wsteps; try exact I; eauto 8 with n. apply N_foreach; [|eauto 8 with n]. intros w s1 H1. quick. Qed.
Lemma take_N ids : keeps (wm_take_back ids).
Proof.
  induction ids as [|t ids IH]; intros s H; cbn [wm_take_back]; [apply wp_ret, H|]. wsteps; [|exact I]. eapply wp_mono; [apply IH; eauto with n| |auto]. cbv beta. intros l s' H'. apply wp_ret, H'.
Qed.
Lemma reroute_N t : keeps (tm_reroute t).
Proof. intros s H. unfold tm_reroute. wsteps; try exact I. wuse put_N as s1 H1; [eauto with n|]. apply monitor_N; [by left|exact H1]. Qed.
Lemma drop_N w : keeps (wm_drop w).
Proof.
  intros s H. unfold wm_drop. wsteps; try exact I; eauto with n. eapply wp_mono; [apply (N_foreach tm_reroute)| |auto]; [intros; apply reroute_N|eauto 8 with n|]. cbv beta. intros _ s' H'. exact H'.
Qed.
Lemma clean_N : keeps wm_clean.
Proof. intros s H. unfold wm_clean. wsteps. apply N_foreach; [|eauto with n]. intros w s1 H1. wstep. eapply wp_mono; [apply drop_N, H1| |auto]. cbv beta. intros b s' H'. exact H'. Qed.
Lemma workers_N : keeps wm_routine.
Proof. intros s H. unfold wm_routine. wstep. wuse balance_N as s1 H1; [exact H|]. apply clean_N, H1. Qed.
Lemma response_N ids : keeps (wm_balance_response ids).
Proof. intros s H. unfold wm_balance_response. wstep. eapply wp_mono; [apply take_N, H| |auto]. cbv beta. intros l s1 H1. apply N_foreach; [intros; apply reroute_N|exact H1]. Qed.
Lemma disconnect_N src w : keeps (wm_disconnect src w).
Proof. intros s H. unfold wm_disconnect. wstep. eapply wp_mono; [apply drop_N, H| |auto]. cbv beta. intros b s1 H1. quick. Qed.
Lemma new_N src k s : received src (MTask k) (s_log s) → N s → wp (tm_new src k) (λ _ s', N s') T s.
Proof.
  intros Hk H. unfold tm_new, fm_has_function. wstep. wstep. destruct (negb _); [quick|].
  wstep. eapply wp_mono; [apply wp_grows; [apply wm_has_available_grows|apply available_N; exact H]| |auto].
  cbv beta. intros av s1 [H1 [l1 E1]]. wsteps; [eauto with n|].
  eapply wp_mono; [apply wp_grows; [apply fm_use_grows|apply use_N; eauto with n]| |auto].
  cbv beta. ss. intros u2 s2 [H2 [l2 E2]]. wstep.
  eapply wp_mono; [apply wp_grows; [apply cm_new_grows|apply cnew_N; exact H2]| |auto].
  cbv beta. intros u3 s3 [H3 [l3 E3]]. wsteps.
  wuse put_N as s4 H4; [|apply monitor_N; [by left|exact H4]].
  destruct H3 as [A1 A2 A3 A4]; split; auto; ss. intros t k'. rewrite lookup_insert_Some.
  intros [[<- <-]|[_ Hx]]; [|eauto]. split; [done|]. exists src. rewrite E3, E2, E1. rewrite <- !app_assoc. apply received_app, Hk.
Qed.
Lemma done_N r s : caused (r_id r) (r_status r) (s_log s) → N s → wp (tm_done r) (λ _ s', N s') T s.
Proof.
  intros Hc H. unfold tm_done. wstep. wstep. cbn [tm_done_fuel]. wstep.
  assert (Hf : wp (tm_forget r) (λ _ s', N s') T s).
  { unfold tm_forget. wstep. apply (wp_mono _ (λ _ s', N s' ∧ s_log s' = s_log s) _ T); [unfold tm_count; wsteps; eauto with n| |auto].
    intros u s1 [H1 E1]. wstep. wstep. wstep. apply (wp_mono _ (λ _ s', N s' ∧ s_log s' = s_log s) _ T); [wsteps; eauto with n| |auto].
    intros u2 s2 [H2 E2]. wstep. eapply wp_mono; [apply monitor_N; [rewrite E2; exact Hc|exact H2]| |auto]. cbv beta. intros u3 s3 H3. wsteps; try exact I.
    wuse fdone_N as s4 H4; [eauto with n|]. apply cdone_N, H4. }
  eapply wp_mono; [exact Hf| |auto]. cbv beta. intros c s1 H1. unfold gm_done. wstep. wstep. wstep. rewrite (n_t2g _ H1), lookup_empty. quick.
Qed.
Lemma match_N k : keeps (tm_match k).
Proof.
  intros s H. unfold tm_match, tm_put. wsteps; try exact I; eauto 8 with n.
  apply monitor_N; [right; by left|eauto 8 with n].
Qed.
Lemma routine_N : keeps tm_routine.
Proof. intros s H. unfold tm_routine. wsteps; try exact I; eauto with n; apply match_N; eauto with n. Qed.
Lemma cancel_N t s : (∃ cl, received cl (MTaskCancel t) (s_log s)) → N s → wp (tm_cancel_any t) (λ _ s', N s') T s.
Proof.
  intros Hc H. unfold tm_cancel_any, tm_cancel. wstep. wstep. wstep. wstep. destruct (bool_decide _).
  - apply done_N; [|exact H]. right; right; right. split; [by right|exact Hc].
  - destruct (negb _); [exact H|]. wstep. eapply wp_mono; [apply wp_grows; [apply wm_cancel_grows|apply wcancel_N, H]| |auto]. cbv beta. intros u s1 [H1 [l1 E1]].
    apply monitor_N; [|exact H1]. right; right; right. split; [by left|]. destruct Hc as [cl Hc]. exists cl. rewrite E1. apply received_app, Hc.
Qed.
Lemma result_N r s : (∃ w, received w (MResult r) (s_log s)) → N s → wp (wm_done r) (λ _ s', N s') T s.
Proof.
  intros [w Hr] H. unfold wm_done. wsteps; try exact I; eauto with n. apply done_N; [|eauto with n]. right; right; left. exists w, (r_duration r), (r_payload r). exact Hr.
Qed.

Lemma N_step c rs r : c_max_waiting c < 0 → always (polite utf8) (s_log (run c rs)) → polite utf8 (s_log (run c rs)) (LIn (rd_now r) (rd_event r)) →
  N (run c rs) → s_dead (step (run c rs) r) = None → N (step (run c rs) r).
Proof.
  intros Hw Hp Hr J. pose proof (good_run c rs Hw Hp) as G. pose proof (gd_core _ G) as Hc. pose proof (c_dead _ _ _ _ _ Hc) as Hd. set (s := run c rs) in *.
  pose proof (core_begin _ _ _ _ _ r Hc) as H0.
  assert (J0 : N (begin s r)). { unfold begin. apply N_emit; [exact I|]. eauto with n. }
  pattern (step s r). apply step_wp; [exact Hd|]. set (s0 := begin s r) in *.
  assert (HH : wp (handle (rd_event r)) (λ _ s', N s') T s0).
  { destruct r as [now codes ev]. cbn [rd_event rd_now handle] in *. destruct ev as [src m| | | | |]; cbn [handle].
    - assert (Hrec : received src m (s_log s0)). { exists now. apply elem_of_app. right. left. }
      destruct Hr as (_ & _ & Hm). destruct m; cbn [on_receive]; try exact J0; try (exfalso; exact Hm).
      + apply new_N; auto.
      + apply cancel_N; eauto.
      + apply result_N; eauto.
      + apply response_N, J0.
      + apply beat_N, J0.
      + apply function_N; [|exact J0]. intros ->. exact Hrec.
      + apply disconnect_N, J0.
    - unfold gm_routine. wstep. wstep. rewrite (c_gqueue _ _ _ _ _ H0). exact J0.
    - apply routine_N, J0.
    - apply expire_N, J0.
    - apply workers_N, J0.
    - apply status_N, J0. }
  eapply wp_mono; [exact HH| |]; cbv beta; [auto|]. intros e s' _ Hdead. discriminate.
Qed.
Lemma N_run c rs : c_max_waiting c < 0 → always (polite utf8) (s_log (run c rs)) → N (run c rs).
Proof.
  intros Hw. induction rs as [|r rs IH] using rev_ind; intros Hp.
  { split; [done|intros f i H; cbn in H; rewrite lookup_empty in H; discriminate|intros t k H; cbn in H; rewrite lookup_empty in H; discriminate|intros t n st H; by apply elem_of_nil in H]. }
  pose proof (survives_lemma c _ Hw Hp) as Hd. rewrite run_snoc in *. destruct (step_log (run c rs) r) as (l & El & Hl). rewrite El in Hp.
  assert (Hp' : always (polite utf8) (s_log (run c rs))) by (eapply always_inv, Hp). apply N_step; auto.
  destruct (Hl (survives_lemma c rs Hw Hp')) as [l' ->]. exact (Hp _ _ _ eq_refl).
Qed.
Lemma names_lemma c rs t n st : let h := s_log (run c rs) in c_max_waiting c < 0 → always (polite utf8) h →
  LMonitor (MTaskState t n st) ∈ h → named t n h ∧ caused t st h.
Proof. intros h Hw Hp. exact (n_log _ (N_run c rs Hw Hp) t n st). Qed.
