(** * The published states of tasks (C99) *)

From Verif.Model Require Import Base OneToManyDict PriorityQueue Allocator Message Sorter Scheduler.
From Verif.Spec Require Import AllocatorSpec DictSpec SchedulerSpec StateSpec.
From Verif.Proofs Require Import BaseProofs DictProofs AllocatorProofs SchedWp SchedCount SchedHold SchedContent SchedSend SchedPrim SchedFn SchedGlobal SchedStep SchedRemove SchedPlain SchedPolite.

Definition state_step (t : bytes) (o : option task_status) (e : entry) : option task_status :=
  match e with LMonitor (MTaskState t' _ st) => if String.eqb t' t then Some st else o | _ => o end.
Definition answer_step (t : bytes) (l : list task_status) (e : entry) : list task_status :=
  match e with LSend _ (MTaskResult t' st _ _) => if String.eqb t' t then l ++ [st] else l | _ => l end.
Lemma last_state_snoc t h e : last_state t (h ++ [e]) = state_step t (last_state t h) e.
Proof. unfold last_state. rewrite foldl_app. reflexivity. Qed.
Lemma answers_snoc t h e : statuses_sent t (h ++ [e]) = answer_step t (statuses_sent t h) e.
Proof. unfold statuses_sent. rewrite foldl_app. reflexivity. Qed.

Lemma answers_sent t h st : st ∈ statuses_sent t h → answered t h.
Proof.
  induction h as [|e h IH] using rev_ind; [intros H; apply elem_of_nil in H as []|]. rewrite answers_snoc. intros H.
  assert (Hi : st ∈ statuses_sent t h → answered t (h ++ [e])). { intros H'. destruct (IH H') as (c & st' & d & p & Hin). exists c, st', d, p. apply elem_of_app. auto. }
  destruct e as [| c m| | | | |]; cbn [answer_step] in H; auto. destruct m; cbn [answer_step] in H; auto. destruct (String.eqb_spec id t) as [->|]; [|auto].
  eexists _, _, _, _. apply elem_of_app. right. left.
Qed.
Lemma sent_answers t h c st d p : LSend c (MTaskResult t st d p) ∈ h → st ∈ statuses_sent t h.
Proof.
  induction h as [|e h IH] using rev_ind; [intros H; apply elem_of_nil in H as []|]. rewrite answers_snoc. intros [H|H]%elem_of_app.
  - apply IH in H. destruct e as [| c' m| | | | |]; cbn [answer_step]; auto. destruct m; cbn [answer_step]; auto. destruct (String.eqb _ t); [apply elem_of_app|]; auto.
  - apply elem_of_list_singleton in H as <-. cbn [answer_step]. rewrite String.eqb_refl. apply elem_of_app. right. left.
Qed.

Notation T := (λ (_ : exn) (_ : sched), True).
Record same (s s' : sched) : Prop := Same {
  sa_un : s_unassigned s' = s_unassigned s; sa_lim : s_limbo s' = s_limbo s; sa_run : s_running s' = s_running s; sa_t2g : s_t2g s' = s_t2g s;
  sa_state t : last_state t (s_log s') = last_state t (s_log s);
  sa_answer t : statuses_sent t (s_log s') = statuses_sent t (s_log s) }.
Lemma same_refl s : same s s. Proof. by split. Qed.
Lemma same_trans s s1 s2 : same s s1 → same s1 s2 → same s s2.
Proof. intros [] []. split; congruence || (intros; congruence). Qed.

Record told (s : sched) : Prop := Told {
  to_disj t : t ∈ s_unassigned s ++ lim s → t ∉ s_running s;
  to_wait t : t ∈ s_unassigned s ++ lim s → last_state t (s_log s) = Some Inactive;
  to_run t : t ∈ s_running s → last_state t (s_log s) = Some Running ∨ last_state t (s_log s) = Some Canceling;
  to_out t : t ∉ s_unassigned s ++ lim s → t ∉ s_running s → statuses_sent t (s_log s) = option_list (last_state t (s_log s));
  to_in t : t ∈ s_unassigned s ++ lim s ∨ t ∈ s_running s → statuses_sent t (s_log s) = [] }.
Lemma told_same s s' : same s s' → told s → told s'.
Proof.
  intros [U L R _ S A] [D W Ru O N]. assert (E : s_unassigned s' ++ lim s' = s_unassigned s ++ lim s) by (unfold lim; rewrite U, L; done).
  split; intros t; rewrite ?E, ?R, ?S, ?A; auto.
Qed.
Lemma same_told {A} (m : M A) s : wp m (λ _ s', same s s') T s → told s → wp m (λ _ s', told s') T s.
Proof. intros H J. eapply wp_mono; [exact H| |auto]. intros a s' Hs. exact (told_same _ _ Hs J). Qed.
Lemma same_foreach {A} (f : A → M unit) l s : (∀ a s, wp (f a) (λ _ s', same s s') T s) → wp (foreach l f) (λ _ s', same s s') T s.
Proof.
  intros H. apply (wp_foreach f (λ _ s', same s s') T l s (same_refl s)). intros a l' s1 H1. eapply wp_mono; [apply H| |auto]. intros u s2 H2. exact (same_trans _ _ _ H1 H2).
Qed.
Lemma told_foreach {A} (f : A → M unit) l s : told s → (∀ a s, told s → wp (f a) (λ _ s', told s') T s) → wp (foreach l f) (λ _ s', told s') T s.
Proof. intros J H. apply (wp_foreach f (λ _ s', told s') T l s J). intros a l' s1 H1. apply H, H1. Qed.

Ltac quick := wsteps; ss; try exact I; try (apply Same; ss; try reflexivity; intros; rewrite ?last_state_snoc, ?answers_snoc; reflexivity).

Lemma use_same t f s : wp (fm_use t f) (λ _ s', same s s') T s. Proof. unfold fm_use. quick. Qed.
Lemma fdone_same t s : wp (fm_done t) (λ _ s', same s s') T s. Proof. unfold fm_done. quick. Qed.
Lemma cnew_same c t s : wp (cm_new c t) (λ _ s', same s s') T s. Proof. unfold cm_new. quick. Qed.
Lemma cdone_same t s : wp (cm_done t) (λ _ s', same s s') T s. Proof. unfold cm_done. quick. Qed.
Lemma available_same s : wp wm_has_available (λ _ s', same s s') T s. Proof. unfold wm_has_available. quick. Qed.
Lemma cancel_same t s : wp (wm_cancel t) (λ _ s', same s s') T s. Proof. unfold wm_cancel. quick. Qed.
Lemma beat_same w h s : wp (wm_heartbeat w h) (λ _ s', same s s') T s. Proof. unfold wm_heartbeat. quick. Qed.
Lemma function_same src ty f n ct s : wp (fm_on_function src ty f n ct) (λ _ s', same s s') T s.
Proof. unfold fm_on_function, fm_check, fm_add, fm_request, fm_delete, fm_has_function, fm_respond. destruct ty; quick. Qed.
Lemma expire_same s : wp fm_routine (λ _ s', same s s') T s.
Proof.
  unfold fm_routine. wsteps. eapply wp_mono; [apply same_foreach| |auto].
  - intros f s0. unfold wm_delete_function. wsteps. eapply wp_mono; [apply same_foreach| |auto]; [intros; quick|]. cbv beta. intros _ s' []. by split.
  - cbv beta. intros _ s' []. by split.
Qed.
Lemma balance_same s : wp wm_balance (λ _ s', same s s') T s.
Proof.
  unfold wm_balance. wsteps; ss; try exact I; try (apply Same; ss; reflexivity).
  eapply wp_mono; [apply same_foreach| |auto]; [intros; quick|]. cbv beta. intros _ s' []. by split.
Qed.
Lemma status_same s : wp st_routine (λ _ s', same s s') T s. Proof. unfold st_routine. quick. Qed.
Lemma take_same : ∀ ids s, wp (wm_take_back ids) (λ _ s', same s s') T s.
Proof.
  induction ids as [|t ids IH]; intros s; cbn [wm_take_back]; [apply wp_ret, same_refl|]. wsteps; [|exact I]. eapply wp_mono; [apply IH| |auto]. cbv beta. intros l s' []. apply wp_ret. by split.
Qed.
Lemma wp_monitor t st (Q : unit → sched → Prop) s : (∀ name, Q tt (set_log (λ l, l ++ [LMonitor (MTaskState t name st)]) s)) → wp (tm_monitor t st) Q T s.
Proof. intros H. unfold tm_monitor, fm_get_name. wsteps; try exact I. apply H. Qed.

(** ** The handlers that move tasks *)
Lemma reroute_told t s : told s → wp (tm_reroute t) (λ _ s', told s') T s.
Proof.
  intros [D W R O N]. unfold tm_reroute, tm_put. wstep. wstep. wstep. apply wp_lift; [intros c _|done]. wstep. wstep. destruct (negb (bool_decide (t ∈ s_running s))) eqn:Er; [exact I|].
  apply negb_false_iff, bool_decide_eq_true in Er. wstep. wstep. wstep. wstep. wstep. ss. destruct (bool_decide (t ∈ s_unassigned s)) eqn:Eu; [exact I|]. wstep. apply wp_monitor. intros name.
  apply bool_decide_eq_false in Eu. split; intros x; ss; change (lim _) with (lim s); rewrite ?last_state_snoc, ?answers_snoc; cbn [state_step answer_step]; rewrite ?elem_of_app, ?elem_of_list_singleton in *; intros H.
  - intros Hx. apply elem_of_difference in Hx as [Hx Hn]. destruct H as [[H| ->]|H]; [|set_solver|]; (eapply (D x); [|exact Hx]; apply elem_of_app; auto).
  - destruct (String.eqb_spec t x) as [->|Hn]; [done|]. apply W, elem_of_app. destruct H as [[H| ->]|H]; [auto|done|auto].
  - apply elem_of_difference in H as [H Hn]. destruct (String.eqb_spec t x) as [->|_]; [set_solver|]. apply R, H.
  - intros Hr. destruct (String.eqb_spec t x) as [->|Hn]; [tauto|]. apply O; [rewrite elem_of_app; tauto|set_solver].
  - apply N. rewrite elem_of_app. destruct H as [[[H| ->]|H]|H]; [auto|auto|auto|right; set_solver].
Qed.
Lemma drop_told w s : told s → wp (wm_drop w) (λ _ s', told s') T s.
Proof.
  intros J. unfold wm_drop. wstep. wstep. destruct (s_alive s !! w) as [p|]; [|exact J]. wstep. wstep. wstep. wstep. wstep. wstep. wstep. apply wp_lift; [intros [a ts] _|done]. wstep. wstep. wstep.
  apply wp_order. intros ids _. wstep. eapply wp_mono; [apply told_foreach| |auto].
  - eapply told_same; [|exact J]. apply Same; ss; try reflexivity; intros; rewrite ?last_state_snoc, ?answers_snoc; reflexivity.
  - intros t s1 H1. apply reroute_told, H1.
  - cbv beta. intros _ s' H'. exact H'.
Qed.
Lemma clean_told s : told s → wp wm_clean (λ _ s', told s') T s.
Proof.
  intros J. unfold wm_clean. wstep. wstep. wstep. apply wp_order. intros dead _. apply told_foreach.
  - eapply told_same; [|exact J]. apply Same; ss; reflexivity.
  - intros w s1 H1. wstep. eapply wp_mono; [apply drop_told, H1| |auto]. cbv beta. intros b s' H'. exact H'.
Qed.
Lemma workers_told s : told s → wp wm_routine (λ _ s', told s') T s.
Proof. intros J. unfold wm_routine. wstep. eapply wp_mono; [exact (same_told _ _ (balance_same s) J)| |auto]. cbv beta. intros _ s' H'. apply clean_told, H'. Qed.
Lemma response_told ids s : told s → wp (wm_balance_response ids) (λ _ s', told s') T s.
Proof.
  intros J. unfold wm_balance_response. wstep. eapply wp_mono; [exact (same_told _ _ (take_same ids s) J)| |auto]. cbv beta. intros l s' H'. apply told_foreach; [exact H'|]. intros t s1 H1. apply reroute_told, H1.
Qed.
Lemma disconnect_told src w s : told s → wp (wm_disconnect src w) (λ _ s', told s') T s.
Proof.
  intros J. unfold wm_disconnect. wstep. eapply wp_mono; [apply drop_told, J| |auto]. cbv beta. intros b s' H'. wsteps; [|exact H']. eapply told_same; [|exact H'].
  apply Same; ss; try reflexivity; intros; rewrite ?last_state_snoc, ?answers_snoc; reflexivity.
Qed.

Lemma new_told src k s : told s → task_id k ∉ s_unassigned s ++ lim s → task_id k ∉ s_running s → statuses_sent (task_id k) (s_log s) = [] → wp (tm_new src k) (λ _ s', told s') T s.
Proof.
  intros J Hu Hr Ha. unfold tm_new, fm_has_function. wstep. wstep. destruct (negb _).
  { wstep. eapply told_same; [|exact J]. apply Same; ss; try reflexivity; intros; rewrite ?last_state_snoc, ?answers_snoc; reflexivity. }
  wstep. eapply wp_mono; [apply available_same| |auto]. cbv beta. intros b s1 S1. wstep. wstep. wstep. wstep. destruct (_ && _).
  { wstep. eapply told_same; [|exact J]. eapply same_trans; [exact S1|]. apply Same; ss; try reflexivity; intros; rewrite ?last_state_snoc, ?answers_snoc; reflexivity. }
  wstep. wstep. wstep. eapply wp_mono; [apply use_same| |auto]. cbv beta. intros _ s2 S2. wstep. eapply wp_mono; [apply cnew_same| |auto]. cbv beta. intros _ s3 S3. wstep. wstep.
  assert (S : same s (set_tasks (<[task_id k := k]>) s3)).
  { eapply same_trans; [exact S1|]. eapply same_trans; [|eapply same_trans; [exact S2|eapply same_trans; [exact S3|]]]; apply Same; ss; try reflexivity; intros; rewrite ?last_state_snoc, ?answers_snoc; reflexivity. }
  pose proof (told_same _ _ S J) as [D W R O N]. destruct S as [SU SL SR _ _ SA]. rewrite <- SA in Ha. set (s4 := set_tasks _ s3) in *. clearbody s4.
  assert (SLm : lim s4 = lim s) by (unfold lim; rewrite SL; done). rewrite <- SU, <- SLm in Hu. rewrite <- SR in Hr. clear SU SL SR SA SLm S1 S2 S3 J.
  unfold tm_put. wstep. wstep. wstep. destruct (bool_decide _); [exact I|]. wstep. apply wp_monitor. intros name.
  split; intros x; ss; change (lim (set_log _ _)) with (lim s4); rewrite ?last_state_snoc, ?answers_snoc; cbn [state_step answer_step]; rewrite ?elem_of_app, ?elem_of_list_singleton in *; intros H.
  - intros Hx. destruct H as [[H| ->]|H]; [|done|]; (eapply (D x); [|exact Hx]; apply elem_of_app; auto).
  - destruct (String.eqb_spec (task_id k) x) as [Ex|Hn]; [done|]. apply W, elem_of_app. destruct H as [[H| ->]|H]; [auto|done|auto].
  - destruct (String.eqb_spec (task_id k) x) as [Ex|_]; [subst x; done|]. apply R, H.
  - intros Hx. destruct (String.eqb_spec (task_id k) x) as [Ex|Hn]; [subst x; tauto|]. apply O; [rewrite elem_of_app; tauto|done].
  - destruct (String.eqb_spec (task_id k) x) as [Ex|Hn]; [subst x; exact Ha|]. apply N. rewrite elem_of_app. destruct H as [[[H| ->]|H]|H]; auto; done.
Qed.

Lemma done_told r s : told s → s_t2g s !! r_id r = None → NoDup (s_unassigned s ++ lim s) → r_id r ∉ lim s → r_id r ∈ s_unassigned s ∨ r_id r ∈ s_running s → wp (tm_done r) (λ _ s', told s') T s.
Proof.
  intros J Hg Hnd Hl Hin. unfold tm_done. wstep. wstep. cbn [tm_done_fuel]. wstep. unfold tm_forget. wstep.
  assert (Hc : wp (tm_count (r_status r)) (λ _ s', same s s') T s) by (unfold tm_count; destruct (r_status r); quick).
  eapply wp_mono; [exact Hc| |auto]. cbv beta. intros _ s1 S1. wstep. wstep. wstep.
  pose proof (told_same _ _ S1 J) as [D W R O N]. destruct S1 as [SU SL SR ST _ _]. assert (SLm : lim s1 = lim s) by (unfold lim; rewrite SL; done).
  rewrite <- SU, <- SLm in Hnd. rewrite <- SLm in Hl. rewrite <- SU, <- SR in Hin. rewrite <- ST in Hg. clear SU SL SR ST SLm J Hc.
  set (t := r_id r) in *.
  assert (Hrest : ∀ s2, s_limbo s2 = s_limbo s1 → s_log s2 = s_log s1 → s_t2g s2 = s_t2g s1 →
    (∀ x, x ∈ s_unassigned s2 ↔ x ∈ s_unassigned s1 ∧ x ≠ t) → (∀ x, x ∈ s_running s2 ↔ x ∈ s_running s1 ∧ x ≠ t) →
    wp (do* tm_monitor t (r_status r) in let* o := gets (λ s, s_tasks s !! t) in do* lift (from_option_exn KeyError o) in do* modify (set_tasks (delete t)) in do* fm_done t in cm_done t)
      (λ c s', wp (let* is_node := gm_done (tm_cancel (tm_done_fuel (size (s_graphs s)))) r in if is_node : bool then ret tt else send c (MResult r)) (λ _ s', told s') T s') T s2).
  { intros s2 E1 E2 E3 Hu Hr. wstep. apply wp_monitor. intros name. wstep. wstep. wstep. apply wp_lift; [intros k _|done]. wstep. wstep. wstep.
    eapply wp_mono; [apply fdone_same| |auto]. cbv beta. intros _ s3 S3. eapply wp_mono; [apply cdone_same| |auto]. cbv beta. intros c s4 S4.
    pose proof (same_trans _ _ _ S3 S4) as [SU SL SR ST SS SA]. clear S3 S4. ss. unfold gm_done. wstep. wstep. wstep. fold t. rewrite ST. ss. rewrite E3, Hg. wstep. wstep.
    assert (SLm : lim s4 = lim s1) by (unfold lim; rewrite SL; ss; rewrite E1; done).
    split; intros x; ss; change (lim (set_log _ s4)) with (lim s4); rewrite ?last_state_snoc, ?answers_snoc, ?SS, ?SA, ?SU, ?SR, ?SLm; ss; rewrite ?last_state_snoc, ?answers_snoc, ?E2; cbn [state_step answer_step MResult]; fold t; rewrite ?elem_of_app, ?Hu, ?Hr; intros H.
    - intros [Hx Hn]. eapply (D x); [|exact Hx]. apply elem_of_app. tauto.
    - destruct (String.eqb_spec t x) as [<-|Hn]; [tauto|]. apply W, elem_of_app. tauto.
    - destruct (String.eqb_spec t x) as [<-|_]; [tauto|]. apply R. tauto.
    - intros Hx. destruct (String.eqb_spec t x) as [<-|Hn]; [rewrite (N t); [done|]; rewrite elem_of_app; tauto|]. apply O; [rewrite elem_of_app|]; intros ?; apply H || apply Hx; intuition auto.
    - destruct (String.eqb_spec t x) as [<-|Hn]; [tauto|]. apply N. rewrite elem_of_app. tauto. }
  destruct (bool_decide (t ∈ s_unassigned s1)) eqn:Eu.
  - apply bool_decide_eq_true in Eu. wstep. apply Hrest; ss; try reflexivity; intros x.
    + unfold without. rewrite elem_of_list_In, filter_In, <- elem_of_list_In. destruct (String.eqb_spec x t) as [->|Hn]; cbn [negb]; [split; [intros [_ [=]]|tauto]|tauto].
    + split; [|tauto]. intros Hx. split; [done|]. intros ->. apply (D t); [apply elem_of_app; auto|done].
  - apply bool_decide_eq_false in Eu. wstep. apply Hrest; ss; try reflexivity; intros x.
    + split; [|tauto]. intros Hx. split; [done|]. intros ->. done.
    + set_solver.
Qed.
Lemma match_told k s : (let t := task_id k in t ∉ s_unassigned s ∧ t ∉ s_running s ∧ last_state t (s_log s) = Some Inactive ∧
  (∀ x, x ∈ s_unassigned s → x ∉ s_running s) ∧ (∀ x, x ∈ s_unassigned s → last_state x (s_log s) = Some Inactive) ∧
  (∀ x, x ∈ s_running s → last_state x (s_log s) = Some Running ∨ last_state x (s_log s) = Some Canceling) ∧
  (∀ x, x ≠ t → x ∉ s_unassigned s → x ∉ s_running s → statuses_sent x (s_log s) = option_list (last_state x (s_log s))) ∧
  (∀ x, x = t ∨ x ∈ s_unassigned s ∨ x ∈ s_running s → statuses_sent x (s_log s) = [])) → wp (tm_match k) (λ _ s', told s') T s.
Proof.
  cbv zeta. set (t := task_id k). intros (Hu & Hr & Hi & D & W & R & O & N). unfold tm_match, tm_put. fold t. wstep. wstep. wstep. apply wp_lift; [intros [a p] _|done]. wstep. wstep. cbn [snd]. destruct p as [w| |].
  all: repeat (wstep; cbv beta zeta); ss; try exact I; try (apply wp_monitor; intros name).
  all: split; intros x; unfold lim; ss; cbn [fst]; fold t; rewrite ?last_state_snoc, ?answers_snoc; cbn [state_step answer_step]; rewrite ?app_nil_r, ?elem_of_app, ?elem_of_list_singleton, ?elem_of_union, ?elem_of_singleton.
  all: pose proof (D x) as D'; pose proof (W x) as W'; pose proof (R x) as R'; pose proof (O x) as O'; pose proof (N x) as N'; clear D W R O N; clearbody t.
  all: destruct (String.eqb_spec t x) as [E|Hn]; [subst x|assert (x ≠ t) by congruence]; intuition congruence.
Qed.
Lemma routine_told s : told s → NoDup (s_unassigned s ++ lim s) → (∀ t k, s_tasks s !! t = Some k → task_id k = t) → wp tm_routine (λ _ s', told s') T s.
Proof.
  intros J Hnd Hk. pose proof J as [D W R O N]. unfold tm_routine. wstep. wstep. unfold lim in *. destruct (s_limbo s) as [k|] eqn:El.
  - apply match_told. cbv zeta. assert (Hin : task_id k ∈ s_unassigned s ++ [task_id k]) by (apply elem_of_app; right; left).
    split. { intros Hu. apply NoDup_app in Hnd as (_ & Hd & _). exact (Hd _ Hu (elem_of_list_here _ _)). }
    split; [apply D, Hin|]. split; [apply W, Hin|]. split; [intros x Hx; apply D, elem_of_app; auto|]. split; [intros x Hx; apply W, elem_of_app; auto|]. split; [exact R|].
    split; [intros x Hn Hu Hr; apply O; [|done]; rewrite elem_of_app, elem_of_list_singleton; tauto|]. intros x Hx. apply N. rewrite elem_of_app, elem_of_list_singleton. tauto.
  - rewrite app_nil_r in *. wstep. wstep. destruct (s_unassigned s) as [|t q] eqn:Eu; [exact J|]. wstep. wstep. wstep. wstep. wstep. ss. apply wp_lift; [intros k Hkt|done].
    destruct (s_tasks s !! t) as [k'|] eqn:Et; [injection Hkt as ->|discriminate]. apply Hk in Et. apply match_told. cbv zeta. ss. rewrite Et. apply NoDup_cons in Hnd as [Hq _].
    split; [done|]. split; [apply D; left|]. split; [apply W; left|]. split; [intros x Hx; apply D; by right|]. split; [intros x Hx; apply W; by right|]. split; [exact R|].
    split; [intros x Hn Hu Hr; apply O; [|done]; rewrite elem_of_cons; tauto|]. intros x Hx. apply N. rewrite elem_of_cons. tauto.
Qed.
Lemma cancel_told t s : told s → s_t2g s !! t = None → NoDup (s_unassigned s ++ lim s) → wp (tm_cancel_any t) (λ _ s', told s') T s.
Proof.
  intros J Hg Hnd. unfold tm_cancel_any, tm_cancel. wstep. wstep. wstep. wstep. destruct (bool_decide (t ∈ s_unassigned s)) eqn:Eu.
  - apply bool_decide_eq_true in Eu. apply done_told; auto. cbn. intros Hl. apply NoDup_app in Hnd as (_ & Hd & _). exact (Hd _ Eu Hl).
  - destruct (negb _) eqn:Er; [exact J|]. apply negb_false_iff, bool_decide_eq_true in Er. wstep. eapply wp_mono; [apply cancel_same| |auto]. cbv beta. intros _ s1 S1. apply wp_monitor. intros name.
    pose proof (told_same _ _ S1 J) as [D W R O N]. destruct S1 as [_ _ SR _ _ _]. rewrite <- SR in Er.
    split; intros x; ss; change (lim (set_log _ s1)) with (lim s1); rewrite ?last_state_snoc, ?answers_snoc; cbn [state_step answer_step]; destruct (String.eqb_spec t x) as [E|Hn]; auto; subst x.
    + intros H. destruct (D t H Er).
    + intros H1 H2. done.
Qed.
Lemma result_told r s g : told s → core no_graphs false g [] s → wp (wm_done r) (λ _ s', told s') T s.
Proof.
  intros J H. unfold wm_done. destruct (exact_remove_task _ _ (r_id r) (c_alloc _ _ _ _ _ H)) as (a' & Ea & _). wstep. wstep. wstep. rewrite Ea. apply wp_ok. wstep. wstep. cbn [fst snd].
  assert (S : same s (set_alloc (λ _, a') s)) by (apply Same; reflexivity). pose proof (told_same _ _ S J) as J'. destruct (lg_owner g !! r_id r) as [w|] eqn:Ew; [|exact J'].
  assert (Hr : r_id r ∈ s_running s). { rewrite (c_running _ _ _ _ _ H). apply elem_of_union. left. apply elem_of_dom. eauto. }
  apply done_told; [exact J'| | | |right; exact Hr].
  - ss. rewrite (c_t2g _ _ _ _ _ H). apply lookup_empty.
  - exact (c_nodup _ _ _ _ _ H).
  - intros Hl. apply (c_disj _ _ _ _ _ H (r_id r)); [apply elem_of_app; right; exact Hl|exact Hr].
Qed.

Lemma told_step c rs r : c_max_waiting c < 0 → always (polite utf8) (s_log (run c rs)) → polite utf8 (s_log (run c rs)) (LIn (rd_now r) (rd_event r)) →
  told (run c rs) → s_dead (step (run c rs) r) = None → told (step (run c rs) r).
Proof.
  intros Hw Hp Hr J. pose proof (good_run c rs Hw Hp) as G. pose proof (gd_core _ G) as Hc. pose proof (c_dead _ _ _ _ _ Hc) as Hd. set (s := run c rs) in *.
  pose proof (core_begin _ _ _ _ _ r Hc) as H0. 
  assert (J0 : told (begin s r)). { eapply told_same; [|exact J]. apply Same; ss; try reflexivity; intros; rewrite ?last_state_snoc, ?answers_snoc; reflexivity. }
  pattern (step s r). apply step_wp; [exact Hd|]. set (s0 := begin s r) in *.
  assert (HH : wp (handle (rd_event r)) (λ _ s', told s') T s0).
  { assert (Hnd : NoDup (s_unassigned s0 ++ lim s0)) by exact (c_nodup _ _ _ _ _ H0).
    assert (Hg : ∀ t, s_t2g s0 !! t = None) by (intros t; rewrite (c_t2g _ _ _ _ _ H0); apply lookup_empty).
    destruct r as [now codes ev]. cbn [rd_event rd_now handle] in *. destruct ev as [src m| | | | |]; cbn [handle].
    - destruct Hr as (Hun & _ & Hm). rewrite Hun in H0. destruct m; cbn [on_receive]; try exact J0; try (exfalso; exact Hm).
      + assert (Hn : ∀ x, x ∈ s_unassigned s0 ++ lim s0 ∨ x ∈ s_running s0 → x ≠ task_id t).
        { intros x Hx ->. apply Hm. destruct (core_task _ _ _ _ _ _ H0 Hx) as (k & Hk & _). assert (Ht : is_Some (s_tasks s !! task_id t)) by (exists k; exact Hk).
          apply (unanswered_tasks s _ G) in Ht as [Ht _]. exact Ht. }
        apply new_told; [exact J0|intros Hx; eapply Hn; eauto|intros Hx; eapply Hn; eauto|].
        change (s_log s0) with (s_log s ++ [LIn now (ERecv src (MTask t))]). rewrite answers_snoc. cbn [answer_step]. destruct (statuses_sent (task_id t) (s_log s)) as [|st l] eqn:Ea; [done|]. exfalso. apply Hm, (gd_answered _ G). apply (answers_sent (task_id t) _ st).
        rewrite Ea. left.
      + apply cancel_told; auto.
      + eapply result_told; [exact J0|exact H0].
      + apply response_told, J0.
      + apply (same_told _ _ (beat_same _ _ _) J0).
      + apply (same_told _ _ (function_same _ _ _ _ _ _) J0).
      + apply disconnect_told, J0.
    - unfold gm_routine. wstep. wstep. rewrite (c_gqueue _ _ _ _ _ H0). exact J0.
    - apply routine_told; [exact J0|exact Hnd|exact (c_key _ _ _ _ _ H0)].
    - apply (same_told _ _ (expire_same _) J0).
    - apply workers_told, J0.
    - apply (same_told _ _ (status_same _) J0). }
  eapply wp_mono; [exact HH| |]; cbv beta; [auto|]. intros e s' _ Hdead. discriminate.
Qed.
Lemma told_run c rs : c_max_waiting c < 0 → always (polite utf8) (s_log (run c rs)) → told (run c rs).
Proof.
  intros Hw. induction rs as [|r rs IH] using rev_ind; intros Hp.
  { split; intros t; [intros H; by apply elem_of_nil in H|intros H; by apply elem_of_nil in H|intros H; by apply not_elem_of_empty in H|done|done]. }
  pose proof (survives_lemma c _ Hw Hp) as Hd. rewrite run_snoc in *. destruct (step_log (run c rs) r) as (l & El & Hl). rewrite El in Hp.
  assert (Hp' : always (polite utf8) (s_log (run c rs))) by (eapply always_inv, Hp). apply told_step; auto.
  destruct (Hl (survives_lemma c rs Hw Hp')) as [l' ->]. exact (Hp _ _ _ eq_refl).
Qed.


(** C99 *)
Lemma states_lemma c rs t : let h := s_log (run c rs) in c_max_waiting c < 0 → always (polite utf8) h →
  ((¬ ∃ cl, accepted cl t h) → last_state t h = None) ∧
  (unanswered t h → holder h !! t = None → last_state t h = Some Inactive) ∧
  (∀ w, holder h !! t = Some w → last_state t h = Some Running ∨ last_state t h = Some Canceling) ∧
  (∀ cl st d p, LSend cl (MTaskResult t st d p) ∈ h → last_state t h = Some st).
Proof.
  intros h Hw Hp. pose proof (told_run c rs Hw Hp) as [D W R O N]. pose proof (good_run c rs Hw Hp) as G. pose proof (gd_core _ G) as Hc. fold h in W, R, O, N, G, Hc |- *.
  assert (Hrun : s_running (run c rs) = dom (holder h)). { rewrite (c_running _ _ _ _ _ Hc). cbn. fold h. set_solver. }
  assert (Hpl : ∀ x, is_Some (s_tasks (run c rs) !! x) ↔ x ∈ s_unassigned (run c rs) ++ lim (run c rs) ∨ x ∈ s_running (run c rs)).
  { intros x. rewrite <- elem_of_dom, (c_places _ _ _ _ _ Hc), elem_of_union, elem_of_list_to_set. done. }
  pose proof (λ x, unanswered_tasks _ x G) as Hun. fold h in Hun.
  assert (Hout : ¬ unanswered t h → statuses_sent t h = option_list (last_state t h)).
  { intros Hn. rewrite <- Hun, Hpl in Hn. apply O; tauto. }
  split; [|split; [|split]].
  - intros Hn. destruct (last_state t h) as [st|] eqn:El; [|done]. exfalso. apply Hn, (gd_answered _ G), (answers_sent t _ st). fold h. rewrite Hout by (intros [? _]; done). left.
  - intros Hu Hh. apply W. apply Hun, Hpl in Hu as [Hu|Hu]; [done|]. rewrite Hrun in Hu. apply elem_of_dom in Hu as [w Hw']. congruence.
  - intros w Hh. apply R. rewrite Hrun. apply elem_of_dom. eauto.
  - intros cl st d p Hin. apply sent_answers in Hin. assert (Hn : ¬ unanswered t h). { intros [_ Hn]. apply Hn. exact (answers_sent _ _ _ Hin). }
    rewrite (Hout Hn) in Hin. destruct (last_state t h) as [st'|]; cbn in Hin; [|by apply elem_of_nil in Hin]. apply elem_of_list_singleton in Hin as ->. done.
Qed.
