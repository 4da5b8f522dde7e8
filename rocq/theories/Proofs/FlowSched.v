(** Exact steps of the scheduler in orderly executions: what is sent and how the tables change (C81, C82). *)

From Verif.Model Require Import Base OneToManyDict PriorityQueue Allocator Message Sorter Client Worker Processor Scheduler System.
From Verif.Spec Require Import AllocatorSpec DictSpec SchedulerSpec SystemSpec FlowSpec.
From Verif.Proofs Require Import BaseProofs DictProofs AllocatorProofs SchedWp SchedCount SchedHold SchedContent SchedSend SchedPrim SchedFn SchedGlobal SchedStep SchedRemove SchedPlain SchedPolite.

(** ** What is posted *)
Definition posted (h : list entry) : list (bytes * message) := omap (λ e, match e with LSend j m => Some (j, m) | _ => None end) h.
Definition for_part (i : bytes) (l : list (bytes * message)) : list message := omap (λ p, if String.eqb p.1 i then Some p.2 else None) l.
Lemma posted_app h l : posted (h ++ l) = posted h ++ posted l.
Proof. apply omap_app. Qed.
Lemma for_part_app i l l' : for_part i (l ++ l') = for_part i l ++ for_part i l'.
Proof. apply omap_app. Qed.
Lemma sent_to_posted i h : sent_to i h = for_part i (posted h).
Proof.
  induction h as [|e h IH]; [reflexivity|]. change (e :: h) with ([e] ++ h). rewrite posted_app, for_part_app, <- IH.
  unfold sent_to. rewrite omap_app. f_equal. destruct e as [|j m| | | | |]; cbn; try reflexivity.
Qed.
Lemma elem_of_for_part i l m : m ∈ for_part i l ↔ (i, m) ∈ l.
Proof.
  unfold for_part. rewrite elem_of_list_omap. split.
  - intros ([j m'] & Hi & E). cbn in E. destruct (String.eqb_spec j i) as [->|]; congruence.
  - intros Hi. exists (i, m). split; [exact Hi|]. cbn. rewrite String.eqb_refl. reflexivity.
Qed.

(** ** Entries written by a program *)
Definition logs (I : sched → Prop) (P : entry → Prop) {A} (m : M A) : Prop :=
  ∀ s, I s → I (m s).1 ∧ ∃ l, s_log (m s).1 = s_log s ++ l ∧ Forall P l.
Lemma logs_ret I P {A} (a : A) : logs I P (ret a).
Proof. intros s Hs. split; [exact Hs|]. exists []. rewrite app_nil_r. auto. Qed.
Lemma logs_throw I P {A} e : logs I P (throw e : M A).
Proof. intros s Hs. split; [exact Hs|]. exists []. rewrite app_nil_r. auto. Qed.
Lemma logs_gets I P {A} (f : sched → A) : logs I P (gets f).
Proof. intros s Hs. split; [exact Hs|]. exists []. rewrite app_nil_r. auto. Qed.
Lemma logs_lift I P {A} (r : res A) : logs I P (lift r).
Proof. intros s Hs. split; [destruct r; exact Hs|]. exists []. rewrite app_nil_r. destruct r; auto. Qed.
Lemma logs_modify (I : sched → Prop) P f : (∀ s, I s → I (f s)) → (∀ s, s_log (f s) = s_log s) → logs I P (modify f).
Proof. intros H1 H2 s Hs. split; [apply H1, Hs|]. exists []. rewrite app_nil_r. split; [apply H2|constructor]. Qed.
Lemma logs_emit (I : sched → Prop) (P : entry → Prop) e : (∀ s, I s → I (set_log (λ l, l ++ [e]) s)) → P e → logs I P (emit e).
Proof. intros H1 H2 s Hs. split; [apply H1, Hs|]. exists [e]. split; [reflexivity|]. repeat constructor. exact H2. Qed.
Lemma logs_bind_in I P {A B} (m : M A) (k : A → M B) : logs I P m → (∀ s a, I s → (m s).2 = Ok a → logs I P (k a)) → logs I P (bind m k).
Proof.
  intros Hm Hk s Hs. unfold bind. destruct (Hm s Hs) as [H1 (l & H2 & H3)]. pose proof (Hk s) as Hk'. destruct (m s) as [s1 [a|e]]; cbn in *; [|eauto].
  destruct (Hk' a Hs eq_refl s1 H1) as [H4 (l' & H5 & H6)]. split; [exact H4|]. exists (l ++ l'). rewrite H5, H2, app_assoc. split; [reflexivity|]. apply Forall_app. auto.
Qed.
Lemma logs_bind I P {A B} (m : M A) (k : A → M B) : logs I P m → (∀ a, logs I P (k a)) → logs I P (bind m k).
Proof. intros Hm Hk. apply logs_bind_in; auto. Qed.
Lemma logs_foreach I P {A} (l : list A) (f : A → M unit) : (∀ a, a ∈ l → logs I P (f a)) → logs I P (foreach l f).
Proof.
  induction l as [|a l IH]; intros H; cbn [foreach]; [apply logs_ret|]. apply logs_bind; [apply H; left|]. intros _. apply IH. intros b Hb. apply H. right. exact Hb.
Qed.
Lemma logs_order (I : sched → Prop) P {A} (l : list A) : (∀ s, I s → I (set_codes (drop 1) s)) → logs I P (in_some_order l).
Proof.
  intros H. unfold in_some_order. apply logs_bind; [apply logs_gets|]. intros c. apply logs_bind; [apply logs_modify; [exact H|reflexivity]|]. intros _. apply logs_ret.
Qed.
Lemma order_perm {A} (l l' : list A) s : (in_some_order l s).2 = Ok l' → l' ≡ₚ l.
Proof. pose proof (wp_order l (λ l' _, l' ≡ₚ l) (λ _ _, True) s (λ l' H, H)) as H. unfold wp in H. destruct (in_some_order l s) as [s' [a|e]]; cbn; congruence. Qed.
Lemma logs_wp I P {A} (m : M A) s Q : logs I P m → I s → wp m Q no_exn s → wp m (λ a s', Q a s' ∧ ∃ l, s_log s' = s_log s ++ l ∧ Forall P l) no_exn s.
Proof.
  intros Hm Hs. destruct (Hm s Hs) as [_ H2]. unfold wp. destruct (m s) as [s' [a|e]]; cbn in *; auto.
Qed.
Ltac lg := repeat first [apply logs_ret|apply logs_throw|apply logs_gets|apply logs_lift
  |apply logs_modify; [|reflexivity]|apply logs_order|apply logs_bind; [|intros ?]
  |match goal with |- logs _ _ (match ?x with _ => _ end) => destruct x end].

Definition hushed (e : entry) : Prop := match e with LSend _ _ | LIn _ _ => False | _ => True end.
Lemma hushed_posted l : Forall hushed l → posted l = [].
Proof. induction 1 as [|e l He _ IH]; [reflexivity|]. destruct e; cbn in *; try done. Qed.
Lemma hushed_calm l : Forall hushed l → Forall calm_e l.
Proof. intros H. eapply Forall_impl; [exact H|]. intros []; cbn; auto; done. Qed.
Lemma internal_hushed e : internal e → hushed e.
Proof. destruct e; cbn; auto. Qed.
Lemma tm_reroute_logs s0 t : logs (λ s, s_funcs s = s_funcs s0) hushed (tm_reroute t).
Proof.
  unfold tm_reroute, tm_put, tm_monitor, fm_get_name, send_monitor. lg; auto; apply logs_emit; [auto|exact I].
Qed.
Lemma wm_take_back_logs s0 ids : logs (λ s, s_funcs s = s_funcs s0) hushed (wm_take_back ids).
Proof. induction ids; cbn [wm_take_back]; lg; auto. Qed.
Lemma balance_response_logs' s0 ids : logs (λ s, s_funcs s = s_funcs s0) hushed (wm_balance_response ids).
Proof. unfold wm_balance_response. apply logs_bind; [apply wm_take_back_logs|]. intros l. apply logs_foreach. intros t _. apply tm_reroute_logs. Qed.
Lemma fm_routine_logs a : logs (λ s, s_alloc s = a) (λ e, ∃ w f, w ∈ al_worker_ids a ∧ e = LSend w (MFunctionRequest FnDelete f "" "")) fm_routine.
Proof.
  unfold fm_routine. apply logs_bind; [apply logs_gets|intros dead]. apply logs_bind; [apply logs_order; auto|intros dead']. apply logs_foreach. intros f _.
  apply logs_bind; [apply logs_modify; auto|intros _]. unfold wm_delete_function.
  apply logs_bind_in; [apply logs_gets|]. intros s ws Hs E. injection E as <-. rewrite Hs. apply logs_bind_in; [apply logs_order; auto|]. intros s' l' _ E%order_perm.
  apply logs_foreach. intros w Hw. unfold send. apply logs_emit; [auto|]. exists w, f. split; [|reflexivity]. rewrite E in Hw. apply elem_of_elements, Hw.
Qed.
Lemma wm_balance_logs a : logs (λ s, s_alloc s = a) (λ e, ∃ w n, al_balance a !! w = Some n ∧ e = LSend w (MBalanceRequest n)) wm_balance.
Proof.
  unfold wm_balance. apply logs_bind; [apply logs_gets|]. intros cfg. destruct (_ <=? _); [apply logs_ret|].
  apply logs_bind_in; [apply logs_gets|]. intros s adv Hs E. injection E as <-. rewrite Hs. apply logs_bind; [apply logs_gets|]. intros last.
  destruct (negb _); [apply logs_bind; [apply logs_modify; auto|intros _]; apply logs_modify; auto|]. apply logs_bind; [apply logs_modify; auto|intros _].
  apply logs_bind; [apply logs_gets|]. intros n. destruct (negb _); [apply logs_ret|]. destruct (bool_decide _); [apply logs_ret|].
  apply logs_bind_in; [apply logs_order; auto|]. intros s' l' _ E%order_perm.
  apply logs_foreach. intros [w m] Hw. unfold send. apply logs_emit; [auto|]. exists w, m. split; [|reflexivity]. rewrite E in Hw. apply elem_of_map_to_list, Hw.
Qed.

(** ** The rounds *)
Definition is_ok (p : bytes * message) : bool := match p.2 with MTaskEcho _ SubmitOK => true | _ => false end.
Record moved (xt : ext) (s : sched) (ev : event) (out : list (bytes * message)) (pk : bool) (g : ledger) (s' : sched) : Prop := {
  mv_cfg : s_cfg s' = s_cfg s;
  mv_core : core xt pk g [] s';
  mv_posted : posted (s_log s') = posted (s_log s) ++ out;
  mv_pk : pk = existsb is_ok out || stale ev (s_log s);
  mv_queue : pk = true → s_unassigned s' ≠ [] }.
Lemma step_exact s r (Q : sched → Prop) : s_dead s = None → wp (handle (rd_event r)) (λ _ s', Q s') no_exn (begin s r) → Q (step s r).
Proof. intros Hd H. apply step_wp; [exact Hd|]. eapply wp_mono; [exact H|auto|intros ? ? []]. Qed.
Lemma step_heard s r i : s_dead s = None → heard_from i (s_log (step s r)) =
  heard_from i (s_log s) ++ match rd_event r with ERecv j m => if String.eqb j i then [m] else [] | _ => [] end.
Proof.
  intros Hd. destruct (step_log_inner s r Hd) as (l & -> & Hl). unfold heard_from. rewrite omap_app. f_equal.
  assert (E : omap (λ e, match e with LIn _ (ERecv j m) => if String.eqb j i then Some m else None | _ => None end) l = []).
  { induction Hl as [|e l He _ IH]; [reflexivity|]. cbn. destruct e; try done. }
  cbn. destruct (rd_event r) as [j m| | | | |]; cbn; rewrite ?E; try reflexivity. destruct (String.eqb j i); rewrite ?E; reflexivity.
Qed.
Lemma step_undispatched s r out : s_dead s = None → posted (s_log (step s r)) = posted (s_log s) ++ out →
  undispatched (s_log (step s r)) = existsb is_ok out || stale (rd_event r) (s_log s).
Proof.
  intros Hd. destruct (step_log_inner s r Hd) as (l & -> & Hl). rewrite posted_app. intros E%app_inv_head. change (LIn _ _ :: l) with ([LIn (rd_now r) (rd_event r)] ++ l) in *.
  rewrite app_assoc, posted_app in *. rewrite undispatched_app. destruct (input_quiet (s_log s) (rd_now r) (rd_event r)) as (_ & _ & _ & ->). cbn in E. subst out. clear Hd.
  generalize (stale (rd_event r) (s_log s)). induction Hl as [|e l He _ IH]; intros b; [reflexivity|]. cbn [foldl]. rewrite IH.
  destruct e as [|j m| | | | |]; try done. cbn. unfold is_ok at 2. cbn. destruct m; cbn; try done. destruct status; cbn; try done. rewrite orb_true_r. reflexivity.
Qed.

Lemma known_dom (fs : gmap bytes func_info) f i j : from_option_exn KeyError (fs !! f) = Ok i → dom (<[f := j]> fs) = dom fs.
Proof. destruct (fs !! f) eqn:E; [|discriminate]. intros _. rewrite dom_insert_L. assert (f ∈ dom fs) by (apply elem_of_dom; eauto). set_solver. Qed.

Lemma forget_funcs r s : wp (tm_forget r) (λ _ s', s_funcs s' = s_funcs s ∧ s_t2g s' = s_t2g s) (λ _ _, True) s.
Proof.
  assert (Hc : ∀ st s, wp (tm_count st) (λ _ s', s_funcs s' = s_funcs s ∧ s_t2g s' = s_t2g s) (λ _ _, True) s).
  { intros st s0. destruct st; unfold tm_count; wsteps; split; reflexivity. }
  unfold tm_forget. apply wp_bind. eapply wp_mono; [apply Hc| |auto]. cbv beta. intros _ s1 [F1 G1].
  unfold tm_monitor, fm_get_name, fm_done, cm_done. wsteps; ss; try exact I; auto.
Qed.

Section rounds.
  Context (xt : ext) (s : sched) (pk : bool) (g : ledger) (now : Z) (codes : list (list nat)).
  Hypothesis (Hc : core xt pk g [] s) (Hpk : pk = undispatched (s_log s)) (Hq : pk = true → s_unassigned s ≠ []).
  Let Hd : s_dead s = None := c_dead _ _ _ _ _ Hc.
  Lemma posted_in ev : posted (s_log s ++ [LIn now ev]) = posted (s_log s).
  Proof. rewrite posted_app. cbn. apply app_nil_r. Qed.
  Lemma begin_core ev : core xt pk g [] (begin s (Round now codes ev)).
  Proof. apply core_begin, Hc. Qed.

  (** A task. *)
  Lemma round_task cl k : pk = false → utf8 cl = true → s_tasks s !! task_id k = None → task_id k ∉ x_ids xt → x_inactive xt !! task_id k = None → c_max_waiting (s_cfg s) < 0 →
    let s' := step s (Round now codes (ERecv cl (MTask k))) in
    match s_funcs s !! task_function k with
    | None => moved xt s (ERecv cl (MTask k)) [(cl, MTaskEcho (task_id k) FunctionNotExists)] false g s' ∧
        s_tasks s' = s_tasks s ∧ o_v2k (s_clients s') = o_v2k (s_clients s) ∧ s_funcs s' = s_funcs s
    | Some _ => moved xt s (ERecv cl (MTask k)) [(cl, MTaskEcho (task_id k) SubmitOK)] true g s' ∧
        s_tasks s' = <[task_id k := k]> (s_tasks s) ∧ o_v2k (s_clients s') = <[task_id k := cl]> (o_v2k (s_clients s)) ∧ dom (s_funcs s') = dom (s_funcs s)
    end.
  Proof.
    intros Hf Hcl Hk Hx Hi Hw. cbv zeta. apply step_exact; [exact Hd|]. cbn [handle on_receive rd_event]. pose proof (begin_core (ERecv cl (MTask k))) as H0.
    set (s0 := begin s _) in *.
    assert (Hfn : wp (tm_new cl k) (λ _ s', dom (s_funcs s') = dom (s_funcs s0)) (λ _ _, True) s0).
    { unfold tm_new, fm_has_function, wm_has_available, fm_use, cm_new, tm_put, tm_monitor, fm_get_name. repeat (wstep; cbv beta zeta; try exact I); ss; try reflexivity;
      eapply known_dom; eassumption. }
    pose proof (new_spec xt pk g s0 cl k H0 Hcl Hk Hx (or_introl Hi) Hw) as H1. cbv beta in H1.
    eapply wp_mono; [exact (wp_and _ _ _ _ _ _ H1 Hfn)| |intros ? ? [[] _]]. clear H1. cbv beta. intros _ s' [H1 H2]. change (s_funcs s) with (s_funcs s0).
    destruct (s_funcs s0 !! task_function k) as [i|].
    - rewrite started_none in H1 by exact Hi. destruct H1 as (H3 & H4 & _ & _ & H5 & H6 & _ & H7 & mon & H8 & H9). split; [|auto]. split; auto.
      + rewrite H9, posted_app. subst s0. ss. rewrite posted_in. f_equal. destruct mon; try done.
      + intros _. rewrite H6. destruct (s_unassigned s0); discriminate.
    - subst s'. split; [|auto]. split; auto.
      + rewrite <- Hf. apply core_log, H0.
      + subst s0. ss. rewrite posted_app, posted_in. reflexivity.
      + cbn. congruence.
  Qed.

  (** Functions. *)
  Lemma round_add cl f n ct : utf8 n = true →
    let s' := step s (Round now codes (ERecv cl (MFunctionRequest FnAdd f n ct))) in
    ∃ st, (st = FnOK ∨ st = FnDuplicated) ∧ moved xt s (ERecv cl (MFunctionRequest FnAdd f n ct)) [(cl, MFunctionResponse st f "" "")] pk g s' ∧
      s_tasks s' = s_tasks s ∧ o_v2k (s_clients s') = o_v2k (s_clients s) ∧ dom (s_funcs s') = {[f]} ∪ dom (s_funcs s).
  Proof.
    intros Hn. cbv zeta. apply step_exact; [exact Hd|]. cbn [handle on_receive rd_event]. pose proof (begin_core (ERecv cl (MFunctionRequest FnAdd f n ct))) as H0.
    set (s0 := begin s _) in *. pose proof (function_spec xt pk g s0 cl FnAdd f n ct H0 (λ _, Hn) ltac:(discriminate)) as H1.
    assert (H2 : wp (fm_on_function cl FnAdd f n ct) (λ _ s', s_unassigned s' = s_unassigned s ∧ dom (s_funcs s') = {[f]} ∪ dom (s_funcs s) ∧
       ∃ st, (st = FnOK ∨ st = FnDuplicated) ∧ s_log s' = s_log s0 ++ [LSend cl (MFunctionResponse st f "" "")]) (λ _ _, True) s0).
    { cbn [fm_on_function]. unfold fm_add, fm_respond. wsteps; ss; (split; [reflexivity|split; [apply dom_insert_L|eauto]]). }
    eapply wp_mono; [exact (wp_and _ _ _ _ _ _ H1 H2)| |intros ? ? [[] _]]. cbv beta. intros _ s' [(H3 & C & T) (U & F & st & Hst & L)]. exists st. split; [exact Hst|].
    split; [|split; [exact T|split; [rewrite (cm_clients _ _ C); reflexivity|exact F]]]. split.
    - exact (cm_cfg _ _ C).
    - exact H3.
    - rewrite L, posted_app. subst s0. ss. rewrite posted_in. reflexivity.
    - cbn. exact Hpk.
    - rewrite U. exact Hq.
  Qed.
  Lemma round_request w f n ct : is_Some (s_funcs s !! f) →
    let s' := step s (Round now codes (ERecv w (MFunctionRequest FnRequest f n ct))) in
    ∃ n' ct', moved xt s (ERecv w (MFunctionRequest FnRequest f n ct)) [(w, MFunctionResponse FnOK f n' ct')] pk g s' ∧
      s_tasks s' = s_tasks s ∧ o_v2k (s_clients s') = o_v2k (s_clients s) ∧ dom (s_funcs s') = dom (s_funcs s).
  Proof.
    intros [i Hi]. exists (fi_name i), (fi_content i). apply step_exact; [exact Hd|]. cbn [handle on_receive rd_event fm_on_function]. pose proof (begin_core (ERecv w (MFunctionRequest FnRequest f n ct))) as H0.
    set (s0 := begin s _) in *. unfold fm_request. wgo. change (s_funcs s0) with (s_funcs s). rewrite Hi. wgo. split; [|auto]. split; auto.
    - apply core_log, H0.
    - subst s0. ss. rewrite posted_app, posted_in. reflexivity.
  Qed.

  (** A result. *)
  Lemma round_result w r : pk = false → lg_owner g !! r_id r = Some w → x_t2g xt !! r_id r = None →
    let s' := step s (Round now codes (ERecv w (MResult r))) in
    ∃ cl, o_v2k (s_clients s) !! r_id r = Some cl ∧
      moved xt s (ERecv w (MResult r)) [(cl, MResult r)] false (Ledger (lg_workers g) (delete (r_id r) (lg_owner g))) s' ∧
      s_tasks s' = delete (r_id r) (s_tasks s) ∧ o_v2k (s_clients s') = delete (r_id r) (o_v2k (s_clients s)) ∧ s_funcs s' = s_funcs s ∧ is_Some (s_tasks s !! r_id r).
  Proof.
    intros Hf Ho Ht. cbv zeta. apply step_exact; [exact Hd|]. cbn [handle on_receive rd_event]. pose proof (begin_core (ERecv w (MResult r))) as H0. rewrite Hf in H0.
    set (s0 := begin s _) in *. replace (Result (r_id r) (r_status r) (r_duration r) (r_payload r)) with r by (destruct r; reflexivity).
    pose proof (wm_done_spec xt g s0 r H0 Ht) as H1. rewrite Ho in H1.
    assert (H2 : wp (wm_done r) (λ _ s', s_funcs s' = s_funcs s0) (λ _ _, True) s0).
    { assert (Hn : s_t2g s0 !! r_id r = None) by (rewrite (c_t2g _ _ _ _ _ H0); exact Ht).
      unfold wm_done, tm_done. wsteps; try exact I; try reflexivity. ss. cbn [tm_done_fuel]. apply wp_bind. eapply wp_mono; [apply forget_funcs| |auto]. cbv beta.
      intros cl s9 [F1 G1]. apply wp_bind. unfold gm_done. wgo. ss. rewrite G1. ss. rewrite Hn. wgo. exact F1. }
    eapply wp_mono; [exact (wp_and _ _ _ _ _ _ H1 H2)| |intros ? ? [[] _]]. cbv beta. intros _ s' [(H3 & H4 & _ & H5 & H6 & H7 & _ & mon & cl & H8 & H9 & H10) H11].
    exists cl. split; [exact H9|]. split; [|auto]. split; auto.
    - rewrite H10, posted_app. subst s0. ss. rewrite posted_in. f_equal. destruct mon; try done.
    - cbn. congruence.
  Qed.

  (** A heartbeat, a balance response. *)
  Lemma round_heartbeat w h : pk = false → utf8 w = true →
    let s' := step s (Round now codes (ERecv w (MHeartbeat h))) in
    moved xt s (ERecv w (MHeartbeat h)) [(w, MHeartbeatEcho)] false (Ledger ({[w]} ∪ lg_workers g) (lg_owner g)) s' ∧
      s_tasks s' = s_tasks s ∧ o_v2k (s_clients s') = o_v2k (s_clients s) ∧ s_funcs s' = s_funcs s.
  Proof.
    intros Hf Hw. cbv zeta. apply step_exact; [exact Hd|]. cbn [handle on_receive rd_event]. pose proof (begin_core (ERecv w (MHeartbeat h))) as H0. rewrite Hf in H0.
    set (s0 := begin s _) in *. pose proof (heartbeat_spec xt g s0 w h H0 Hw) as H1.
    assert (H2 : wp (wm_heartbeat w h) (λ _ s', s_funcs s' = s_funcs s ∧ posted (s_log s') = posted (s_log s0) ++ [(w, MHeartbeatEcho)]) (λ _ _, True) s0).
    { unfold wm_heartbeat. wsteps; ss; (split; [reflexivity|]); rewrite ?posted_app, ?app_nil_r; reflexivity. }
    eapply wp_mono; [exact (wp_and _ _ _ _ _ _ H1 H2)| |intros ? ? [[] _]]. cbv beta. intros _ s' [(H3 & C & T) [F L]].
    split; [|split; [exact T|split; [rewrite (cm_clients _ _ C); reflexivity|exact F]]]. split.
    - exact (cm_cfg _ _ C).
    - exact H3.
    - rewrite L. subst s0. ss. rewrite posted_in. reflexivity.
    - cbn. congruence.
    - discriminate.
  Qed.
  Lemma round_balance_response w ids : pk = false →
    let s' := step s (Round now codes (ERecv w (MBalanceResponse ids))) in
    moved xt s (ERecv w (MBalanceResponse ids)) [] false (Ledger (lg_workers g) (foldr delete (lg_owner g) ids)) s' ∧
      s_tasks s' = s_tasks s ∧ o_v2k (s_clients s') = o_v2k (s_clients s) ∧ s_funcs s' = s_funcs s.
  Proof.
    intros Hf. cbv zeta. apply step_exact; [exact Hd|]. cbn [handle on_receive rd_event]. pose proof (begin_core (ERecv w (MBalanceResponse ids))) as H0. rewrite Hf in H0.
    set (s0 := begin s _) in *.
    assert (H1 : wp (wm_balance_response ids) (λ _ s', core xt false (Ledger (lg_workers g) (foldr delete (lg_owner g) ids)) [] s' ∧ calm s0 s' ∧ s_tasks s' = s_tasks s0) no_exn s0).
    { unfold wm_balance_response. wgo. eapply wp_mono; [apply take_back_spec; exact H0| |auto]. cbv beta. intros back s1 (H1 & C1 & T1). rewrite app_nil_r in H1.
      eapply wp_mono; [apply reroutes_core; exact H1| |auto]. cbv beta. intros _ s2 (H2 & C2 & T2). split; [exact H2|]. split; [eapply calm_trans; eassumption|congruence]. }
    apply (logs_wp (λ x, s_funcs x = s_funcs s) hushed) in H1; [|apply balance_response_logs'|reflexivity].
    assert (H2 : wp (wm_balance_response ids) (λ _ s', s_funcs s' = s_funcs s) (λ _ _, True) s0).
    { pose proof (balance_response_logs' s ids s0 eq_refl) as [H _]. unfold wp. destruct (wm_balance_response ids s0) as [s1 [u|e]]; [exact H|exact I]. }
    eapply wp_mono; [exact (wp_and _ _ _ _ _ _ H1 H2)| |intros ? ? [[] _]]. cbv beta. intros _ s' [((H3 & C & T) & l & L & Hl) F].
    split; [|split; [exact T|split; [rewrite (cm_clients _ _ C); reflexivity|exact F]]]. split.
    - exact (cm_cfg _ _ C).
    - exact H3.
    - rewrite L, posted_app, (hushed_posted l Hl). subst s0. ss. rewrite posted_in. reflexivity.
    - cbn. congruence.
    - discriminate.
  Qed.

  (** Dispatching. *)
  Definition waiting_task : option task := match s_limbo s with Some k => Some k | None => match s_unassigned s with t :: _ => s_tasks s !! t | [] => None end end.
  Lemma round_dispatch :
    let s' := step s (Round now codes EDispatch) in
    s_tasks s' = s_tasks s ∧ o_v2k (s_clients s') = o_v2k (s_clients s) ∧ s_funcs s' = s_funcs s ∧
    ((moved xt s EDispatch [] false g s' ∧ (waiting_task = None ∨ lg_workers g = ∅ ∨ ∀ w, w ∈ lg_workers g → load g w = al_max (s_alloc s))) ∨
     ∃ k w, waiting_task = Some k ∧ s_tasks s !! task_id k = Some k ∧ lg_owner g !! task_id k = None ∧ w ∈ lg_workers g ∧
       moved xt s EDispatch [(w, MTask k)] false (Ledger (lg_workers g) (<[task_id k := w]> (lg_owner g))) s').
  Proof.
    cbv zeta. pose proof (begin_core EDispatch) as H0. set (s0 := begin s (Round now codes EDispatch)) in *.
    assert (Hmatch : ∀ k s1, core xt pk g [] (set_limbo (λ _, Some k) s1) → s_log s1 = s_log s0 → s_cfg s1 = s_cfg s → s_tasks s1 = s_tasks s → s_clients s1 = s_clients s →
       s_funcs s1 = s_funcs s → s_alloc s1 = s_alloc s → waiting_task = Some k →
       wp (tm_match k) (λ _ s', s_tasks s' = s_tasks s ∧ o_v2k (s_clients s') = o_v2k (s_clients s) ∧ s_funcs s' = s_funcs s ∧
    ((moved xt s EDispatch [] false g s' ∧ (waiting_task = None ∨ lg_workers g = ∅ ∨ ∀ w, w ∈ lg_workers g → load g w = al_max (s_alloc s))) ∨
     ∃ k w, waiting_task = Some k ∧ s_tasks s !! task_id k = Some k ∧ lg_owner g !! task_id k = None ∧ w ∈ lg_workers g ∧
       moved xt s EDispatch [(w, MTask k)] false (Ledger (lg_workers g) (<[task_id k := w]> (lg_owner g))) s')) no_exn s1).
    { intros k s1 H1 L1 Cf T1 Cl F1 A1 Hwk.
      assert (Hf : wp (tm_match k) (λ _ s', s_funcs s' = s_funcs s1) (λ _ _, True) s1).
      { unfold tm_match, tm_put, tm_monitor, fm_get_name. wsteps; ss; try exact I; reflexivity. }
      eapply wp_mono; [exact (wp_and _ _ _ _ _ _ (match_spec _ _ _ _ _ H1) Hf)| |intros ? ? [[] _]]. cbv beta. intros _ s' [(C & T & D) F].
      split; [congruence|]. split; [rewrite (cm_clients _ _ C); congruence|]. split; [congruence|]. pose proof (cm_cfg _ _ C) as Cf'. rewrite Cf in Cf'.
      assert (Hk : s_tasks s !! task_id k = Some k). { rewrite <- T1. apply (c_limbo _ _ _ _ _ H1 k). reflexivity. }
      destruct D as [(D1 & D2 & D3)|[(D1 & D2 & D3 & D4 & D5 & D6)|(w & mon & D1 & D2 & D3 & D4 & D5 & D6 & D7 & D8)]].
      - left. split; [|auto]. split; auto. rewrite D2. ss. rewrite L1. subst s0. ss. rewrite posted_in, app_nil_r. reflexivity.
      - left. split; [|rewrite A1 in D2; auto]. split; auto. rewrite D3, L1. subst s0. ss. rewrite posted_in, app_nil_r. reflexivity.
      - right. exists k, w. split; [exact Hwk|]. split; [exact Hk|]. split; [|split; [exact D2|]].
        + destruct (lg_owner g !! task_id k) as [w'|] eqn:E; [|reflexivity]. exfalso. assert (Hr : task_id k ∈ s_running (set_limbo (λ _, Some k) s1)). { rewrite (c_running _ _ _ _ _ H1). apply elem_of_union_l, elem_of_dom. eauto. }
          apply (c_disj _ _ _ _ _ H1 (task_id k)); [|exact Hr]. apply elem_of_app. right. unfold lim. ss. left.
        + split; auto. rewrite D5, L1. subst s0. ss. rewrite posted_app, posted_in. f_equal. destruct mon; try done. }
    apply step_exact; [exact Hd|]. cbn [handle rd_event]. unfold tm_routine. fold s0. wgo. change (s_limbo s0) with (s_limbo s). destruct (s_limbo s) as [k|] eqn:El.
    - apply Hmatch; try reflexivity; [|unfold waiting_task; rewrite El; reflexivity]. assert (Es : set_limbo (λ _, Some k) s0 = s0) by (subst s0; clear -El; destruct s; ss; subst; reflexivity). change (core xt pk g [] (set_limbo (λ _, Some k) s0)). rewrite Es. exact H0.
    - wgo. change (s_unassigned s0) with (s_unassigned s). destruct (s_unassigned s) as [|t q] eqn:Eq; wgo.
      + split; [reflexivity|]. split; [reflexivity|]. split; [reflexivity|]. left. split; [|left; unfold waiting_task; rewrite El, Eq; reflexivity]. split; auto.
        * destruct pk; [destruct (Hq eq_refl); reflexivity|exact H0].
        * subst s0. ss. rewrite posted_in, app_nil_r. reflexivity.
      + destruct (core_task _ _ _ _ _ t Hc) as (k & Hk & _). { rewrite Eq. left. left. } change (s_tasks s0) with (s_tasks s). rewrite Hk. cbn [from_option_exn]. apply wp_ok.
        apply Hmatch; try reflexivity; [|unfold waiting_task; rewrite El, Eq; exact Hk]. eapply core_pop; eassumption.
  Qed.

  (** The other loops. *)
  Lemma round_quiet ev : (ev = EGraph ∧ x_queue xt = []) ∨ ev = EStatus →
    let s' := step s (Round now codes ev) in
    moved xt s ev [] pk g s' ∧ s_tasks s' = s_tasks s ∧ o_v2k (s_clients s') = o_v2k (s_clients s) ∧ s_funcs s' = s_funcs s.
  Proof.
    intros Hev. cbv zeta. apply step_exact; [exact Hd|]. pose proof (begin_core ev) as H0. set (s0 := begin s (Round now codes ev)) in *. destruct Hev as [[-> Hx]| ->]; cbn [handle rd_event].
    - unfold gm_routine. wgo. rewrite (c_gqueue _ _ _ _ _ H0), Hx. wgo. split; [|auto]. split; auto. subst s0. ss. rewrite posted_in, app_nil_r. reflexivity.
    - eapply wp_mono; [apply (status_spec xt _ g s0 H0)| |auto]. cbv beta. intros _ s' (rep & _ & E). rewrite E. split; [|auto]. split; auto.
      + apply core_log, core_codes, H0.
      + subst s0. ss. rewrite posted_app, posted_in. reflexivity.
  Qed.
  Lemma round_functions :
    let s' := step s (Round now codes EFunctions) in
    ∃ out, moved xt s EFunctions out pk g s' ∧ (∀ w m, (w, m) ∈ out → w ∈ lg_workers g ∧ ∃ f, m = MFunctionRequest FnDelete f "" "") ∧
      s_tasks s' = s_tasks s ∧ o_v2k (s_clients s') = o_v2k (s_clients s).
  Proof.
    cbv zeta. apply step_exact; [exact Hd|]. pose proof (begin_core EFunctions) as H0. set (s0 := begin s (Round now codes EFunctions)) in *. cbn [handle rd_event].
    eapply wp_mono; [apply (logs_wp _ _ _ _ _ (fm_routine_logs (s_alloc s0)) eq_refl (expiry_spec xt _ g s0 H0))| |auto]. cbv beta.
    intros _ s' ((H1 & C & T & U) & l & L & Hl). exists (posted l).
    assert (Hp : ∀ w m, (w, m) ∈ posted l → w ∈ lg_workers g ∧ ∃ f, m = MFunctionRequest FnDelete f "" "").
    { intros w m Hi. apply elem_of_list_omap in Hi as (e & He & E). rewrite Forall_forall in Hl. destruct (Hl e He) as (w' & f & Hw & ->). injection E as -> <-.
      destruct (c_alloc _ _ _ _ _ H0) as (mq & ml & st & R & _). rewrite (step_ids _ _ _ _ _ R) in Hw. eauto. }
    split; [|split; [exact Hp|split; [exact T|rewrite (cm_clients _ _ C); reflexivity]]]. split.
    - exact (cm_cfg _ _ C).
    - exact H1.
    - rewrite L, posted_app. subst s0. ss. rewrite posted_in. reflexivity.
    - rewrite Hpk. cbn [stale]. replace (existsb is_ok (posted l)) with false; [reflexivity|]. symmetry. apply not_true_iff_false. rewrite existsb_exists. intros ([w m] & Hi & E).
      apply elem_of_list_In, Hp in Hi as (_ & f & ->). discriminate.
    - rewrite U. exact Hq.
  Qed.
  Lemma round_workers : pk = false → (∀ w p, s_alive s !! w = Some p → ¬ c_timeout (s_cfg s) < now - p.1) →
    let s' := step s (Round now codes EWorkers) in
    ∃ out, moved xt s EWorkers out false g s' ∧ (∀ w m, (w, m) ∈ out → w ∈ lg_workers g ∧ ∃ n, 0 <= n ∧ m = MBalanceRequest n) ∧
      s_tasks s' = s_tasks s ∧ o_v2k (s_clients s') = o_v2k (s_clients s) ∧ s_funcs s' = s_funcs s.
  Proof.
    intros Hf Hs. cbv zeta. apply step_exact; [exact Hd|]. pose proof (begin_core EWorkers) as H0. rewrite Hf in H0. set (s0 := begin s (Round now codes EWorkers)) in *. cbn [handle rd_event].
    unfold wm_routine. apply wp_bind. pose proof (logs_wp _ _ _ _ _ (wm_balance_logs (s_alloc s0)) eq_refl (balance_core xt _ g s0 H0)) as H1.
    assert (H2 : wp wm_balance (λ _ s', s_funcs s' = s_funcs s ∧ s_alive s' = s_alive s) (λ _ _, True) s0).
    { unfold wm_balance. wstep. wstep. destruct (_ <=? _); [wstep; auto|]. wstep. wstep. wstep. wstep. destruct (negb _); [wsteps; auto|]. wstep. wstep. wstep. wstep.
      destruct (negb _); [wstep; auto|]. destruct (bool_decide _); [wstep; auto|]. wstep. apply wp_order. intros l' _.
      apply (wp_foreach _ (λ _ x, s_funcs x = s_funcs s ∧ s_alive x = s_alive s)); [auto|]. intros a l x Hx. wstep. exact Hx. }
    eapply wp_mono; [exact (wp_and _ _ _ _ _ _ H1 H2)| |intros ? ? [[] _]]. cbv beta. intros _ s1 [((H3 & C & T) & l & L & Hl) [F A]].
    unfold wm_clean. wgo. rewrite A.
    assert (En : (filter (λ p, wm_silent s1 p = true) (map_to_list (s_alive s))).*1 = []).
    { destruct (filter (λ p, wm_silent s1 p = true) (map_to_list (s_alive s))) as [|[w p] rest] eqn:E; [reflexivity|]. exfalso.
      assert (Hi : (w, p) ∈ filter (λ p, wm_silent s1 p = true) (map_to_list (s_alive s))) by (rewrite E; left). apply elem_of_list_filter in Hi as [H5 H6%elem_of_map_to_list].
      unfold wm_silent in H5. apply Z.ltb_lt in H5. rewrite (cm_cfg _ _ C), (cm_now _ _ C) in H5. exact (Hs _ _ H6 H5). }
    rewrite En. apply wp_order. intros l' ->%Permutation_nil_r. cbn [foreach]. wgo. exists (posted l).
    assert (Hp : ∀ w m, (w, m) ∈ posted l → w ∈ lg_workers g ∧ ∃ n, 0 <= n ∧ m = MBalanceRequest n).
    { intros w m Hi. apply elem_of_list_omap in Hi as (e & He & E). rewrite Forall_forall in Hl. destruct (Hl e He) as (w' & n & Hw & ->). injection E as -> <-.
      destruct (c_alloc _ _ _ _ _ H0) as (mq & ml & st & R & _). pose proof (step_balance _ _ _ _ _ R) as [Hb1 Hb2].
      assert (Hne : al_balance (s_alloc s0) ≠ ∅) by (intros E0; rewrite E0, lookup_empty in Hw; discriminate). destruct (Hb2 (Hb1 Hne)) as [B1 B2].
      destruct (proj1 (B1 w) (mk_is_Some _ _ Hw)) as [B3 B4]. split; [exact B3|]. exists n. split; [|reflexivity]. rewrite (B2 _ _ Hw).
      assert (Hn : 0 < Z.of_nat (size (lg_workers g))). { apply Z.lt_le_trans with 1; [lia|]. assert (size (lg_workers g) ≠ 0%nat); [|lia]. intros E0%size_empty_inv. set_solver. }
      pose proof (Z.div_le_upper_bound (total_load g) (Z.of_nat (size (lg_workers g))) (load g w) Hn). lia. }
    split; [|split; [exact Hp|split; [exact T|split; [ss; rewrite (cm_clients _ _ C); reflexivity|exact F]]]]. split.
    - ss. exact (cm_cfg _ _ C).
    - apply core_codes, H3.
    - ss. rewrite L, posted_app. subst s0. ss. rewrite posted_in. reflexivity.
    - cbn [stale]. replace (existsb is_ok (posted l)) with false; [cbn; congruence|]. symmetry. apply not_true_iff_false. rewrite existsb_exists. intros ([w m] & Hi & E).
      apply elem_of_list_In, Hp in Hi as (_ & n & _ & ->). discriminate.
    - discriminate.
  Qed.
End rounds.
