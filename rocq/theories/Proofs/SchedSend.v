(** How often a task is sent to workers: the invariant behind C25 and C31. *)

From Verif.Model Require Import Base OneToManyDict Allocator Message Sorter Scheduler.
From Verif.Spec Require Import AllocatorSpec SchedulerSpec.
From Verif.Proofs Require Import BaseProofs AllocatorProofs SchedWp SchedCount SchedHold SchedContent.

Lemma moments_from_app {E} (p : list E → E → bool) h1 : ∀ b h2, moments_from p b (h1 ++ h2) = (moments_from p b h1 + moments_from p (b ++ h1) h2)%nat.
Proof.
  induction h1 as [|e h1 IH]; intros b h2; cbn; [rewrite app_nil_r; reflexivity|].
  rewrite IH, <- app_assoc. cbn. lia.
Qed.
Lemma moments_snoc {E} (p : list E → E → bool) h e : moments p (h ++ [e]) = (moments p h + if p h e then 1 else 0)%nat.
Proof. unfold moments. rewrite moments_from_app. cbn. lia. Qed.
Lemma occ_snoc {E} (p : E → bool) h e : occurrences p (h ++ [e]) = (occurrences p h + if p e then 1 else 0)%nat.
Proof. unfold occurrences. rewrite List.filter_app, app_length. cbn. destruct (p e); reflexivity. Qed.

Notation cnt t l := (count_occ string_dec l t).
Definition cnt_limbo (t : bytes) (o : option task) : nat :=
  match o with Some k => if decide (task_id k = t) then 1%nat else 0%nat | None => 0%nat end.
Definition used (t : bytes) (h : history) : nat := (occurrences (is_dispatch t) h + moments (own_answer t) h)%nat.
Definition given (t : bytes) (h : history) : nat := (occurrences (is_accept t) h + moments (takes_back t) h)%nat.
Definition send_ok (before : history) (e : entry) : Prop := ∀ t, (used t (before ++ [e]) <= given t (before ++ [e]))%nat.
Definition sends (s : sched) : Prop := always send_ok (s_log s).
Record I4 (ev : option event) (fl : list bytes) (s : sched) : Prop := {
  i4_log : sends s;
  i4_ev : last_input (s_log s) = ev;
  i4_count t : (used t (s_log s) + cnt t (s_unassigned s) + cnt_limbo t (s_limbo s) + cnt t fl <= given t (s_log s))%nat }.
Notation crash4 := (λ (_ : exn) s', sends s').

Lemma used_snoc t h e : used t (h ++ [e]) = (used t h + (if is_dispatch t e then 1 else 0) + (if own_answer t h e then 1 else 0))%nat.
Proof. unfold used. rewrite occ_snoc, moments_snoc. lia. Qed.
Lemma given_snoc t h e : given t (h ++ [e]) = (given t h + (if is_accept t e then 1 else 0) + (if takes_back t h e then 1 else 0))%nat.
Proof. unfold given. rewrite occ_snoc, moments_snoc. lia. Qed.
Lemma quiet_used t h e : quiet e → used t (h ++ [e]) = used t h.
Proof. intros Hq. rewrite used_snoc. destruct e as [| ? [] | | | | |]; cbn in *; tauto || lia. Qed.
Lemma quiet_given t h e : quiet e → given t (h ++ [e]) = given t h.
Proof. intros Hq. rewrite given_snoc. destruct e as [| ? [] | | | | |]; cbn in *; tauto || lia. Qed.
Lemma quiet_last h e : quiet e → last_input (h ++ [e]) = last_input h.
Proof. intros Hq. unfold last_input. rewrite foldl_app. destruct e; cbn in *; tauto. Qed.

Definition balanced (h : history) : Prop := ∀ t, (used t h <= given t h)%nat.
Lemma I4_balanced ev fl s : I4 ev fl s → balanced (s_log s).
Proof. intros H t. pose proof (i4_count _ _ _ H t). lia. Qed.
(** Quiet lines change nothing. *)
Lemma sends_quiet h l : balanced h → always send_ok h → Forall quiet l →
  always send_ok (h ++ l) ∧ last_input (h ++ l) = last_input h ∧
  (∀ t, used t (h ++ l) = used t h) ∧ (∀ t, given t (h ++ l) = given t h).
Proof.
  intros Hb Ha Hl. revert h Hb Ha; induction Hl as [|e l He Hl IH]; intros h Hb Ha; [rewrite app_nil_r; auto|].
  replace (h ++ e :: l) with ((h ++ [e]) ++ l) by (rewrite <- app_assoc; reflexivity).
  assert (Hb' : balanced (h ++ [e])) by (intros t; rewrite quiet_used, quiet_given by done; apply Hb).
  destruct (IH (h ++ [e])) as (A & B & C & D); [exact Hb'|apply always_snoc; [exact Ha|exact Hb']|].
  split; [exact A|]. split; [rewrite B; apply quiet_last; exact He|].
  split; intros t; [rewrite C; apply quiet_used|rewrite D; apply quiet_given]; exact He.
Qed.
Lemma I4_core ev fl s s' : same_core s s' → I4 ev fl s → I4 ev fl s'.
Proof.
  intros [E1 _ _ _ E5 E6 _ E8 E9 E10 (l & El & Ql)] H.
  destruct (sends_quiet (s_log s) l (I4_balanced _ _ _ H) (i4_log _ _ _ H) Ql) as (A & B & C & D).
  destruct H as [H1 H2 H3]. split; unfold sends; rewrite ?El, ?B; auto.
  intros t. rewrite C, D, E6, E8. apply H3.
Qed.
Lemma I4_weaken ev fl fl' s : (∀ t, (cnt t fl' <= cnt t fl)%nat) → I4 ev fl s → I4 ev fl' s.
Proof. intros Hs []; split; auto. intros t. specialize (Hs t). specialize (i4_count0 t). lia. Qed.
Lemma I4_tail ev t fl s : I4 ev (t :: fl) s → I4 ev fl s.
Proof. apply I4_weaken. intros x. cbn. destruct (string_dec t x); lia. Qed.

Definition keeps4 {A} (m : M A) : Prop := ∀ ev fl s, I4 ev fl s → wp m (λ _ s', I4 ev fl s') crash4 s.

Lemma keeps4_frame {A} (m : M A) :
  (∀ s, wp m (λ _ s', fm_same s s') (λ _ s', fm_same s s') s) → keeps4 m.
Proof.
  intros Hm ev fl s H. eapply wp_mono; [apply Hm| |]; cbv beta.
  - intros a s' [Hs _]. eapply I4_core; eauto.
  - intros e s' [Hs _]. apply (i4_log ev fl s'). eapply I4_core; eauto.
Qed.
Lemma I4_use t f : keeps4 (fm_use t f). Proof. apply keeps4_frame. intros. apply fm_use_same, fm_same_refl. Qed.
Lemma I4_fdone t : keeps4 (fm_done t). Proof. apply keeps4_frame. intros. apply fm_done_same, fm_same_refl. Qed.
Lemma I4_on_function a b c d e : keeps4 (fm_on_function a b c d e).
Proof. apply keeps4_frame. intros. apply fm_on_function_same, fm_same_refl. Qed.
Lemma I4_fm_routine : keeps4 fm_routine. Proof. apply keeps4_frame. intros. apply fm_routine_same, fm_same_refl. Qed.
Lemma I4_monitor t st : keeps4 (tm_monitor t st). Proof. apply keeps4_frame. intros. apply tm_monitor_same, fm_same_refl. Qed.
Lemma I4_wcancel t : keeps4 (wm_cancel t). Proof. apply keeps4_frame. intros. apply wm_cancel_same, fm_same_refl. Qed.
Lemma I4_status : keeps4 st_routine. Proof. apply keeps4_frame. intros. apply st_routine_same, fm_same_refl. Qed.

Lemma I4_set_running ev fl s f : I4 ev fl s → I4 ev fl (set_running f s). Proof. intros []; split; auto. Qed.
Lemma I4_set_codes ev fl s f : I4 ev fl s → I4 ev fl (set_codes f s). Proof. intros []; split; auto. Qed.
Lemma I4_set_clients ev fl s f : I4 ev fl s → I4 ev fl (set_clients f s). Proof. intros []; split; auto. Qed.
Lemma I4_set_tasks ev fl s f : I4 ev fl s → I4 ev fl (set_tasks f s). Proof. intros []; split; auto. Qed.
Lemma I4_set_alive ev fl s f : I4 ev fl s → I4 ev fl (set_alive f s). Proof. intros []; split; auto. Qed.
Lemma I4_set_alloc ev fl s f : I4 ev fl s → I4 ev fl (set_alloc f s). Proof. intros []; split; auto. Qed.
Lemma I4_set_last_advice ev fl s f : I4 ev fl s → I4 ev fl (set_last_advice f s). Proof. intros []; split; auto. Qed.
Lemma I4_set_same ev fl s f : I4 ev fl s → I4 ev fl (set_same f s). Proof. intros []; split; auto. Qed.
Lemma I4_set_now ev fl s f : I4 ev fl s → I4 ev fl (set_now f s). Proof. intros []; split; auto. Qed.
Lemma I4_set_nsuccess ev fl s f : I4 ev fl s → I4 ev fl (set_nsuccess f s). Proof. intros []; split; auto. Qed.
Lemma I4_set_nfailed ev fl s f : I4 ev fl s → I4 ev fl (set_nfailed f s). Proof. intros []; split; auto. Qed.
Lemma I4_set_ncanceled ev fl s f : I4 ev fl s → I4 ev fl (set_ncanceled f s). Proof. intros []; split; auto. Qed.
Lemma I4_set_nnotfound ev fl s f : I4 ev fl s → I4 ev fl (set_nnotfound f s). Proof. intros []; split; auto. Qed.
Lemma I4_set_graphs ev fl s f : I4 ev fl s → I4 ev fl (set_graphs f s). Proof. intros []; split; auto. Qed.
Lemma I4_set_t2g ev fl s f : I4 ev fl s → I4 ev fl (set_t2g f s). Proof. intros []; split; auto. Qed.
Lemma I4_set_gqueue ev fl s f : I4 ev fl s → I4 ev fl (set_gqueue f s). Proof. intros []; split; auto. Qed.

(** Entries that are neither uses nor grants of a task. *)
Definition inert4 (e : entry) : Prop :=
  match e with
  | LSend _ (MTask _ | MTaskResult _ _ _ _) | LDisconnected _ | LIn _ _ => False
  | _ => True
  end.
Lemma I4_emit ev fl s e : inert4 e → I4 ev fl s → I4 ev fl (set_log (λ l, l ++ [e]) s).
Proof.
  intros He H. pose proof (I4_balanced _ _ _ H) as Hb. destruct H as [H1 H2 H3].
  assert (Eu : ∀ t, used t (s_log s ++ [e]) = used t (s_log s)).
  { intros t. rewrite used_snoc. destruct e as [? []|? []| | | | |]; cbn in *; tauto || lia. }
  assert (Eg : ∀ t, (given t (s_log s) <= given t (s_log s ++ [e]))%nat) by (intros t; rewrite given_snoc; lia).
  split; unfold sends; ss.
  - apply always_snoc; [exact H1|]. intros t. rewrite Eu. specialize (Hb t). specialize (Eg t). lia.
  - unfold last_input. rewrite foldl_app. destruct e; cbn in *; tauto.
  - intros t. rewrite Eu. specialize (H3 t). specialize (Eg t). lia.
Qed.
Global Hint Resolve I4_set_running I4_set_codes I4_set_clients I4_set_tasks I4_set_alive I4_set_alloc I4_set_last_advice I4_set_same I4_set_now
  I4_set_nsuccess I4_set_nfailed I4_set_ncanceled I4_set_nnotfound I4_set_graphs I4_set_t2g I4_set_gqueue I4_emit i4_log : i4.
Global Hint Extern 1 (inert4 _) => exact I : i4.

(** ** Managers *)
Lemma I4_put t ev fl s : I4 ev (t :: fl) s → wp (tm_put t) (λ _ s', I4 ev fl s') crash4 s.
Proof.
  intros H. unfold tm_put. wsteps; [eauto with i4|]. destruct H as [H1 H2 H3]. split; auto; ss.
  intros x. specialize (H3 x). rewrite count_occ_app. cbn in *. destruct (string_dec t x); lia.
Qed.
Lemma I4_has_available : keeps4 wm_has_available.
Proof. intros ev fl s H. unfold wm_has_available. wsteps; eauto with i4. Qed.
Lemma I4_cm_new c t : keeps4 (cm_new c t). Proof. intros ev fl s H. unfold cm_new. wsteps; eauto with i4. Qed.
Lemma I4_cm_done t : keeps4 (cm_done t). Proof. intros ev fl s H. unfold cm_done. wsteps; eauto with i4. Qed.
Lemma I4_accept c t ev fl s : I4 ev fl s → I4 ev (t :: fl) (set_log (λ l, l ++ [LSend c (MTaskEcho t SubmitOK)]) s).
Proof.
  intros H. pose proof (I4_balanced _ _ _ H) as Hb. destruct H as [H1 H2 H3].
  split; unfold sends; ss.
  - apply always_snoc; [exact H1|]. intros x. rewrite used_snoc, given_snoc. cbn. specialize (Hb x). lia.
  - unfold last_input. rewrite foldl_app. exact H2.
  - intros x. rewrite used_snoc, given_snoc. cbn. specialize (H3 x).
    destruct (string_dec t x) as [->|Hne]; [rewrite String.eqb_refl; lia|lia].
Qed.
Lemma I4_tm_new c task : keeps4 (tm_new c task).
Proof.
  intros ev fl s H. unfold tm_new, fm_has_function. wstep. wstep. destruct (negb _); [wsteps; eauto with i4|].
  wstep. wuse I4_has_available as s1 H1; [exact H|]. wsteps; [eauto with i4|].
  wuse (I4_use (task_id task) (task_function task) ev (task_id task :: fl)) as s2 H2; [apply I4_accept; exact H1|].
  wstep. wuse I4_cm_new as s3 H3; [exact H2|]. wsteps.
  wuse I4_put as s4 H4; [eauto with i4|]. apply I4_monitor. exact H4.
Qed.
Lemma I4_reroute t ev fl s : I4 ev (t :: fl) s → wp (tm_reroute t) (λ _ s', I4 ev fl s') crash4 s.
Proof.
  intros H. unfold tm_reroute. wsteps; eauto with i4. wuse I4_put as s1 H1; [eauto with i4|]. apply I4_monitor. exact H1.
Qed.
Lemma I4_reroutes ids ev fl s : I4 ev (ids ++ fl) s → wp (foreach ids tm_reroute) (λ _ s', I4 ev fl s') crash4 s.
Proof.
  intros H. apply (wp_mono _ (λ _ s', I4 ev ([] ++ fl) s') _ crash4); [|auto|auto].
  apply (wp_foreach _ (λ l s', I4 ev (l ++ fl) s')); [exact H|]. intros t l s1 H1. apply I4_reroute. exact H1.
Qed.
Lemma I4_count st : keeps4 (tm_count st). Proof. intros ev fl s H. unfold tm_count. wsteps; eauto with i4. Qed.
Lemma cnt_without x t q : cnt x (without t q) = if string_dec t x then 0%nat else cnt x q.
Proof.
  unfold without. induction q as [|y q IH]; cbn; [destruct (string_dec t x); reflexivity|].
  destruct (String.eqb_spec y t) as [->|Hne]; cbn; rewrite IH; repeat (case_match; try congruence).
Qed.
Lemma I4_without t ev fl s : I4 ev fl s → I4 ev fl (set_unassigned (without t) s).
Proof. intros [H1 H2 H3]. split; auto; ss. intros x. specialize (H3 x). rewrite cnt_without. destruct (string_dec t x); lia. Qed.
Lemma I4_without_in t ev fl s : t ∈ s_unassigned s → I4 ev fl s → I4 ev (t :: fl) (set_unassigned (without t) s).
Proof.
  intros Hin [H1 H2 H3]. split; auto; ss. intros x. specialize (H3 x). rewrite cnt_without. cbn.
  destruct (string_dec t x) as [->|]; [|lia].
  apply elem_of_list_In, (count_occ_In string_dec) in Hin. lia.
Qed.
(** Forgetting a task frees one use if the task was still queued. *)
Lemma I4_forget r (b : bool) ev fl s : (b = true → r_id r ∈ s_unassigned s) → I4 ev fl s →
  wp (tm_forget r) (λ _ s', I4 ev (if b then r_id r :: fl else fl) s') crash4 s.
Proof.
  intros Hb H. unfold tm_forget. wstep.
  apply (wp_mono _ (λ _ s', I4 ev fl s' ∧ s_unassigned s' = s_unassigned s) _ crash4);
    [unfold tm_count; wsteps; eauto with i4| |auto].
  intros u s1 [H1 Eq]. wstep. wstep. wstep. set (fl' := if b then _ else _).
  apply (wp_mono _ (λ _ s', I4 ev fl' s') _ crash4).
  { rewrite Eq. destruct b; cbn in fl'; subst fl'.
    - rewrite bool_decide_eq_true_2 by auto. wsteps. apply I4_without_in; [rewrite Eq; auto|exact H1].
    - case_match; wsteps; eauto using I4_without with i4. }
  2: auto.
  intros u' s2 H2. wstep. wuse I4_monitor as s3 H3; [exact H2|]. wsteps; [|eauto with i4].
  wuse I4_fdone as s4 H4; [eauto with i4|]. apply I4_cm_done. exact H4.
Qed.

Lemma I4_clean_nodes cancel ids : (∀ t, keeps4 (cancel t)) → ∀ nodes, keeps4 (gm_clean_nodes cancel ids nodes).
Proof.
  intros Hc. induction ids as [|t ids IH]; intros nodes ev fl s H; cbn [gm_clean_nodes]; [wsteps; exact H|].
  destruct (nodes !! t) as [n|]; [|apply IH; exact H]. wstep.
  apply (wp_mono _ (λ _ s', I4 ev fl s') _ crash4).
  - destruct (ni_state n); [apply I4_fdone; exact H|apply Hc; exact H|wsteps; exact H..].
  - intros u s1 H1. wsteps. apply IH. eauto with i4.
  - auto.
Qed.
Lemma I4_clean cancel g : (∀ t, keeps4 (cancel t)) → keeps4 (gm_clean cancel g).
Proof.
  intros Hc ev fl s H. unfold gm_clean, gm_graph. wstep. wuse I4_cm_done as s1 H1; [exact H|]. wsteps; [|eauto with i4].
  wuse I4_clean_nodes as s2 H2; [exact Hc|eauto with i4|]. wsteps. exact H2.
Qed.
Lemma I4_mark g r : keeps4 (gm_mark g r).
Proof. intros ev fl s H. unfold gm_mark, gm_graph, gm_store. wsteps; eauto with i4. Qed.
Lemma I4_task_result g t a : keeps4 (gm_task_result g t a).
Proof. intros ev fl s H. unfold gm_task_result, gm_graph, gm_store. wsteps; eauto with i4. Qed.
Lemma I4_arguments g t args : keeps4 (gm_arguments g t args).
Proof.
  induction args as [|[d|a] args IH]; intros ev fl s H; cbn [gm_arguments].
  - wsteps. exact H.
  - wstep. wuse IH as s1 H1; [exact H|]. wsteps. exact H1.
  - wstep. wuse I4_task_result as s1 H1; [exact H|]. wstep. wuse IH as s2 H2; [exact H1|]. wsteps. exact H2.
Qed.
Lemma I4_start g t : keeps4 (gm_start g t).
Proof.
  intros ev fl s H. unfold gm_start, gm_graph, gm_store. wsteps; eauto with i4.
  wuse I4_arguments as s1 H1; [exact H|]. wsteps; eauto with i4. apply I4_tm_new. eauto with i4.
Qed.
Lemma I4_check cancel g : (∀ t, keeps4 (cancel t)) → keeps4 (gm_check cancel g).
Proof.
  intros Hc ev fl s H. unfold gm_check, gm_graph. wsteps; eauto with i4.
  - wuse (I4_clean cancel g Hc) as s1 H1; [exact H|]. wsteps. eauto with i4.
  - unfold gm_store. wsteps. eapply (wp_foreach _ (λ _ s', I4 ev fl s')); [eauto with i4|].
    intros t l1 s1 H1. apply I4_start. exact H1.
Qed.
Lemma I4_gm_done cancel r : (∀ t, keeps4 (cancel t)) → keeps4 (gm_done cancel r).
Proof.
  intros Hc ev fl s H. unfold gm_done. wstep. wstep. destruct (s_t2g s !! r_id r) as [g|] eqn:Et; [|wsteps; exact H].
  wstep. wuse I4_mark as s1 H1; [exact H|].
  assert (Hfail : ∀ st, wp (let* i := gm_clean cancel g in do* send (g_client i) (MGraphTaskResult g st [r_payload r]) in ret true)
       (λ b s', I4 ev fl s') crash4 s1).
  { intros st. wstep. wuse (I4_clean cancel g Hc) as s2 H2; [exact H1|]. wsteps. eauto with i4. }
  destruct (r_status r); try apply Hfail. wstep. wuse I4_check as s2 H2; [exact Hc|exact H1|]. wsteps. exact H2.
Qed.

(** Did a worker just report on [t]? *)
Definition reported (ev : option event) (t : bytes) : bool :=
  match ev with Some (ERecv _ (MTaskResult t' _ _ _)) => String.eqb t' t | _ => false end.
Lemma own_answer_reported t h c st d p : own_answer t h (LSend c (MTaskResult t st d p)) = negb (reported (last_input h) t).
Proof.
  cbn. rewrite String.eqb_refl. destruct (last_input h) as [[? []| | | | |]|]; reflexivity.
Qed.
Lemma I4_answer c r ev fl s : I4 ev (if reported ev (r_id r) then fl else r_id r :: fl) s →
  I4 ev fl (set_log (λ l, l ++ [LSend c (MResult r)]) s).
Proof.
  intros [H1 H2 H3]. 
  assert (Eu : ∀ x, used x (s_log s ++ [LSend c (MResult r)]) =
    (used x (s_log s) + if string_dec (r_id r) x then if reported ev x then 0 else 1 else 0)%nat).
  { intros x. rewrite used_snoc. unfold MResult. destruct (string_dec (r_id r) x) as [<-|Hne].
    - rewrite own_answer_reported, H2. cbn. destruct (reported _ _); cbn; lia.
    - cbn. apply String.eqb_neq in Hne. rewrite Hne. cbn. lia. }
  assert (Eg : ∀ x, given x (s_log s ++ [LSend c (MResult r)]) = given x (s_log s)) by (intros x; rewrite given_snoc; cbn; lia).
  assert (Hc : ∀ x, (used x (s_log s ++ [LSend c (MResult r)]) + cnt x (s_unassigned s) + cnt_limbo x (s_limbo s) + cnt x fl
     <= given x (s_log s ++ [LSend c (MResult r)]))%nat).
  { intros x. rewrite Eu, Eg. specialize (H3 x). destruct (string_dec (r_id r) x) as [<-|Hne].
    - destruct (reported ev (r_id r)); cbn in *; [lia|]. destruct (string_dec (r_id r) (r_id r)); [lia|done].
    - destruct (reported ev (r_id r)); cbn in *; [lia|]. destruct (string_dec (r_id r) x); [done|lia]. }
  split; unfold sends; ss.
  - apply always_snoc; [exact H1|]. intros x. specialize (Hc x). lia.
  - unfold last_input. rewrite foldl_app. exact H2.
  - exact Hc.
Qed.
Lemma I4_done_fuel n r ev fl s : reported ev (r_id r) = true ∨ r_id r ∈ s_unassigned s → I4 ev fl s →
  wp (tm_done_fuel n r) (λ _ s', I4 ev fl s') crash4 s.
Proof.
  revert r ev fl s; induction n as [|n IH]; intros r ev fl s Hr H; cbn [tm_done_fuel]; [wsteps; eauto with i4|].
  wstep. wuse (I4_forget r (negb (reported ev (r_id r))) ev fl) as s1 H1.
  { intros Hb. destruct Hr as [Hr|Hr]; [rewrite Hr in Hb; discriminate|exact Hr]. }
  { exact H. }
  wstep. wuse I4_gm_done as s2 H2; [|exact H1|].
  - intros t ev2 fl2 s2 H2. unfold tm_cancel. wsteps; eauto with i4.
    + apply IH; [|exact H2]. right. apply bool_decide_eq_true in Hm. exact Hm.
    + wuse I4_wcancel as s3 H3; [exact H2|]. apply I4_monitor. exact H3.
  - wsteps.
    + destruct (reported ev (r_id r)); cbn in H2; [exact H2|apply I4_tail in H2; exact H2].
    + apply I4_answer. destruct (reported ev (r_id r)); exact H2.
Qed.
Lemma I4_done r ev fl s : reported ev (r_id r) = true ∨ r_id r ∈ s_unassigned s → I4 ev fl s →
  wp (tm_done r) (λ _ s', I4 ev fl s') crash4 s.
Proof. intros Hr H. unfold tm_done. wstep. wstep. apply I4_done_fuel; assumption. Qed.
Lemma I4_cancel_any t : keeps4 (tm_cancel_any t).
Proof.
  intros ev fl s H. unfold tm_cancel_any, tm_cancel. wsteps; eauto with i4.
  - apply I4_done; [|exact H]. right. apply bool_decide_eq_true in Hm. exact Hm.
  - wuse I4_wcancel as s3 H3; [exact H|]. apply I4_monitor. exact H3.
Qed.
Lemma I4_nodes g targets ts nodes deps gr : keeps4 (gm_nodes g targets ts nodes deps gr).
Proof.
  revert nodes deps gr; induction ts as [|t ts IH]; intros nodes deps gr ev fl s H; cbn [gm_nodes]; [wsteps; exact H|].
  wstep. wuse I4_use as s1 H1; [exact H|]. wsteps. apply IH. eauto with i4.
Qed.
Lemma I4_add client gt : keeps4 (gm_add client gt).
Proof.
  intros ev fl s H. unfold gm_add. wstep.
  apply (wp_mono _ (λ _ s', I4 ev fl s') _ crash4); [| |auto].
  { apply (wp_foreach _ (λ _ s', I4 ev fl s')); [exact H|]. intros p l s1 H1. apply I4_on_function. exact H1. }
  intros u s1 H1. wstep. wuse I4_cm_new as s2 H2; [exact H1|]. wstep. wuse I4_nodes as s3 H3; [exact H2|].
  wsteps; [|eauto with i4]. unfold gm_store. wsteps. apply I4_check; [apply I4_cancel_any|eauto with i4].
Qed.
Lemma I4_gm_routine : keeps4 gm_routine.
Proof. intros ev fl s H. unfold gm_routine. wsteps; eauto with i4. apply I4_add. eauto with i4. Qed.

(** ** Dispatch *)
Lemma I4_match task ev fl s : I4 ev (task_id task :: fl) (set_limbo (λ _, None) s) →
  wp (tm_match task) (λ _ s', I4 ev fl s') crash4 s.
Proof.
  intros H. unfold tm_match. wstep. wstep. wstep. wstep; [|exact (i4_log _ _ _ H)]. wsteps.
  - (* assigned *)
    apply I4_monitor, I4_set_running. destruct H as [H1 H2 H3]. ss.
    assert (Hc : ∀ x, (used x (s_log s ++ [LSend w (MTask task)]) + cnt x (s_unassigned s) + cnt x fl
      <= given x (s_log s ++ [LSend w (MTask task)]))%nat).
    { intros x. rewrite used_snoc, given_snoc. specialize (H3 x). cbn in *.
      destruct (string_dec (task_id task) x) as [<-|Hne]; [rewrite String.eqb_refl; lia|].
      apply String.eqb_neq in Hne. rewrite Hne. lia. }
    split; unfold sends; ss.
    + apply always_snoc; [exact H1|]. intros x. specialize (Hc x). lia.
    + unfold last_input. rewrite foldl_app. exact H2.
    + intros x. specialize (Hc x). cbn. lia.
  - (* all full *) apply I4_put. apply I4_set_alloc with (f := λ _, a.1) in H. exact H.
  - (* no worker *)
    destruct H as [H1 H2 H3]. split; ss; auto. intros x. specialize (H3 x). cbn in *.
    destruct (string_dec (task_id task) x) as [<-|Hne]; [rewrite decide_True by done; lia|rewrite decide_False by done; lia].
Qed.
Lemma I4_tm_routine fl2 : ∀ ev fl s, I2 fl2 s → I4 ev fl s → wp tm_routine (λ _ s', I4 ev fl s') crash4 s.
Proof.
  intros ev fl s HI2 H. unfold tm_routine. wstep. wstep. destruct (s_limbo s) as [task|] eqn:El.
  - apply I4_match. destruct H as [H1 H2 H3]. split; ss; auto. intros x. specialize (H3 x). rewrite El in H3. cbn in *.
    destruct (string_dec (task_id task) x) as [<-|Hne]; [rewrite decide_True in H3 by done; lia|rewrite decide_False in H3 by done; lia].
  - wstep. wstep. destruct (s_unassigned s) as [|t q] eqn:Eq; [wsteps; exact H|]. wsteps; [|eauto with i4].
    + ss. destruct (s_tasks s !! t) as [k|] eqn:Et; [|discriminate]. injection Hok as <-.
      assert (Ek : task_id k = t) by (eapply i2_key; eauto). apply I4_match.
      destruct H as [H1 H2 H3]. split; ss; auto. intros x. specialize (H3 x). rewrite El, Eq in H3. rewrite Ek. cbn in *.
      destruct (string_dec t x); lia.
    + ss. apply (i4_log _ _ _ H).
Qed.

(** ** Inputs *)
Lemma last_input_in h now e : last_input (h ++ [LIn now e]) = Some e.
Proof. unfold last_input. rewrite foldl_app. reflexivity. Qed.
Lemma I4_grant now e ev fl gl s :
  (∀ t, cnt t gl = if takes_back t (s_log s) (LIn now e) then 1%nat else 0%nat) → I4 ev fl s →
  I4 (Some e) (gl ++ fl) (logged (LIn now e) s).
Proof.
  intros Hg H. pose proof (I4_balanced _ _ _ H) as Hb. destruct H as [H1 H2 H3].
  assert (Eu : ∀ t, used t (s_log s ++ [LIn now e]) = used t (s_log s)) by (intros t; rewrite used_snoc; cbn; lia).
  assert (Eg : ∀ t, given t (s_log s ++ [LIn now e]) = (given t (s_log s) + cnt t gl)%nat)
    by (intros t; rewrite given_snoc, Hg; cbn; lia).
  split; unfold sends; ss.
  - apply always_snoc; [exact H1|]. intros t. rewrite Eu, Eg. specialize (Hb t). lia.
  - apply last_input_in.
  - intros t. rewrite Eu, Eg, count_occ_app. specialize (H3 t). lia.
Qed.
Lemma I4_input now e ev fl s : (∀ src ids, e ≠ ERecv src (MBalanceResponse ids)) → I4 ev fl s →
  I4 (Some e) fl (logged (LIn now e) s).
Proof.
  intros He. apply (I4_grant now e ev fl []). intros t. destruct e as [src []| | | | |]; cbn; auto.
  exfalso. eapply He; reflexivity.
Qed.

Lemma I4_wm_done r ev fl s : reported ev (r_id r) = true → I4 ev fl s → wp (wm_done r) (λ _ s', I4 ev fl s') crash4 s.
Proof. intros Hr H. unfold wm_done. wsteps; eauto with i4. apply I4_done; [auto|]. eauto with i4. Qed.

Lemma take_back_cnt ids W O s : allocd (s_alloc s) (Ledger W O) →
  wp (wm_take_back ids)
     (λ rs s', (∃ a', s' = set_alloc (λ _, a') s) ∧ NoDup rs ∧ ∀ t, t ∈ rs ↔ t ∈ ids ∧ is_Some (O !! t))
     (λ _ s', ∃ a', s' = set_alloc (λ _, a') s) s.
Proof.
  revert O s; induction ids as [|t ids IH]; intros O s Ha; cbn [wm_take_back].
  - wsteps. split; [exists (s_alloc s); destruct s; reflexivity|]. split; [constructor|]. set_solver.
  - wstep. wstep. wstep. wstep.
    2:{ exists (s_alloc s). destruct s; reflexivity. }
    destruct (allocd_remove_task _ _ _ _ _ Ha Hok) as (Em & Eo & Ha'). wsteps.
    eapply wp_mono; [apply (IH (delete t O)); exact Ha'| |].
    + cbv beta. intros rs s' ([a' ->] & Hnd & Hin). wsteps. split; [exists a'; reflexivity|].
      assert (Hnt : t ∉ rs) by (intros Ht; apply Hin in Ht as [_ Ht]; rewrite lookup_delete in Ht; destruct Ht; discriminate).
      rewrite Eo. destruct (O !! t) as [w|] eqn:Et.
      * split; [constructor; assumption|]. intros x. rewrite elem_of_cons, Hin, elem_of_cons.
        destruct (decide (x = t)) as [->|Hne]; [rewrite Et; naive_solver|]. rewrite lookup_delete_ne by done. naive_solver.
      * split; [assumption|]. intros x. rewrite Hin, elem_of_cons.
        destruct (decide (x = t)) as [->|Hne]; [rewrite Et, lookup_delete; split; intros [_ [? ?]]; discriminate|].
        rewrite lookup_delete_ne by done. naive_solver.
    + cbv beta. intros e s' [a' ->]. exists a'. reflexivity.
Qed.
Lemma cnt_nodup (l : list bytes) x : NoDup l → cnt x l = if decide (x ∈ l) then 1%nat else 0%nat.
Proof.
  induction 1 as [|y l Hy Hl IH]; cbn; [destruct (decide _); [set_solver|reflexivity]|].
  destruct (string_dec y x) as [->|Hne].
  - rewrite IH, decide_False, decide_True by set_solver. reflexivity.
  - rewrite IH. destruct (decide (x ∈ l)), (decide (x ∈ y :: l)); set_solver.
Qed.
Lemma I4_balance_response now src ids fl2 ev fl s : I2 fl2 s → I4 ev fl s →
  wp (wm_balance_response ids) (λ _ s', I4 (Some (ERecv src (MBalanceResponse ids))) fl s') crash4
     (logged (LIn now (ERecv src (MBalanceResponse ids))) s).
Proof.
  intros HI2 H. unfold wm_balance_response. set (e := ERecv src _).
  wstep. eapply wp_mono; [apply (take_back_cnt ids (registered (s_log s)) (holder (s_log s)) (logged (LIn now e) s)); apply HI2| |].
  - cbv beta. intros rs s' ([a' ->] & Hnd & Hin). apply I4_reroutes, I4_set_alloc, (I4_grant now e ev); [|exact H].
    intros t. rewrite (cnt_nodup _ _ Hnd). subst e. cbn. specialize (Hin t).
    destruct (decide (t ∈ rs)) as [Hi|Hi].
    + apply Hin in Hi as [A B]. rewrite !bool_decide_eq_true_2 by assumption. reflexivity.
    + destruct (bool_decide (t ∈ ids)) eqn:E1; [|reflexivity]. destruct (bool_decide (is_Some _)) eqn:E2; [|reflexivity].
      apply bool_decide_eq_true in E1, E2. tauto.
  - cbv beta. intros ex s' [a' ->]. 
    assert (Hs : sends (logged (LIn now e) s)); [|exact Hs].
    unfold sends; ss. apply always_snoc; [apply H|]. intros t. rewrite used_snoc, given_snoc.
    pose proof (I4_balanced _ _ _ H t). cbn. lia.
Qed.
Lemma I4_heartbeat w h : keeps4 (wm_heartbeat w h).
Proof. intros ev fl s H. unfold wm_heartbeat. wsteps; eauto 8 with i4. Qed.
Lemma I4_drop w fl2 ev fl s : I2 fl2 s → I4 ev fl s → wp (wm_drop w) (λ _ s', I4 ev fl s') crash4 s.
Proof.
  intros HI2 H. unfold wm_drop. wstep. wstep.
  destruct (s_alive s !! w) as [x|] eqn:Ew; [|wsteps; exact H].
  set (e := LDisconnected w).
  assert (Hl : ∀ gl, (∀ t, cnt t gl = if takes_back t (s_log s) e then 1%nat else 0%nat) → I4 ev (gl ++ fl) (logged e s)).
  { intros gl Hg. pose proof (I4_balanced _ _ _ H) as Hb. destruct H as [H1 H2 H3].
    assert (Eu : ∀ t, used t (s_log s ++ [e]) = used t (s_log s)) by (intros t; rewrite used_snoc; cbn; lia).
    assert (Eg : ∀ t, given t (s_log s ++ [e]) = (given t (s_log s) + cnt t gl)%nat)
      by (intros t; rewrite given_snoc, Hg; cbn; lia).
    split; unfold sends; ss.
    - apply always_snoc; [exact H1|]. intros t. rewrite Eu, Eg. specialize (Hb t). lia.
    - unfold last_input. rewrite foldl_app. exact H2.
    - intros t. rewrite Eu, Eg, count_occ_app. specialize (H3 t). lia. }
  wsteps; ss.
  - destruct (allocd_remove_worker _ _ _ _ _ (i2_alloc _ _ HI2) Hok) as (Hm & Ets & Ha).
    assert (Hg : ∀ t, cnt t l' = if takes_back t (s_log s) e then 1%nat else 0%nat).
    { intros t. rewrite (cnt_nodup l'); [|rewrite Hp; apply NoDup_elements]. cbn.
      destruct (decide (t ∈ l')) as [Hi|Hi]; rewrite Hp, Ets, elem_of_elements, elem_of_tasks_of in Hi; cbn in Hi.
      - rewrite bool_decide_eq_true_2 by exact Hi. reflexivity.
      - rewrite bool_decide_eq_false_2 by exact Hi. reflexivity. }
    wuse (I4_reroutes l' ev fl) as s2 Hs2; [|wsteps; exact Hs2].
    apply I4_set_codes, I4_set_alloc, I4_set_alive, Hl, Hg.
  - unfold sends; ss. apply always_snoc; [apply H|]. intros t. rewrite used_snoc, given_snoc.
    pose proof (I4_balanced _ _ _ H t). cbn. lia.
Qed.
Lemma I4_disconnect src w fl2 ev fl s : I2 fl2 s → I4 ev fl s → wp (wm_disconnect src w) (λ _ s', I4 ev fl s') crash4 s.
Proof. intros HI2 H. unfold wm_disconnect. wstep. wuse I4_drop as s1 H1; [exact HI2|exact H|]. wsteps; eauto with i4. Qed.
Lemma I4_balance : keeps4 wm_balance.
Proof.
  intros ev fl s H. unfold wm_balance. wsteps; eauto with i4.
  apply (wp_foreach _ (λ _ s', I4 ev fl s')); [eauto with i4|]. intros p l s2 H2. wsteps. eauto with i4.
Qed.
Lemma I4_wm_clean fl2 ev fl s : I2 fl2 s → I4 ev fl s → wp wm_clean (λ _ s', I4 ev fl s') crash4 s.
Proof.
  intros HI2 H. unfold wm_clean. wsteps.
  apply (wp_mono _ (λ _ s', I2 fl2 s' ∧ I4 ev fl s') _ crash4); [|tauto|auto].
  apply (wp_foreach _ (λ _ s', I2 fl2 s' ∧ I4 ev fl s')); [eauto with i2 i4|].
  intros p l s2 [HI H2]. wstep. eapply wp_mono; [apply wp_and; [apply I2_drop; exact HI|eapply I4_drop; [exact HI|exact H2]]| |].
  - cbv beta. intros b s3 H3. wsteps. exact H3.
  - cbv beta. tauto.
Qed.
Lemma I4_wm_routine fl2 ev fl s : I2 fl2 s → I4 ev fl s → wp wm_routine (λ _ s', I4 ev fl s') crash4 s.
Proof.
  intros HI2 H. unfold wm_routine. wstep.
  eapply wp_mono; [apply wp_and; [apply I2_balance; exact HI2|apply I4_balance; exact H]| |].
  - cbv beta. intros b s3 [A B]. eapply I4_wm_clean; eauto.
  - cbv beta. tauto.
Qed.

Lemma I4_round now e ev s : I2 [] s → I4 ev [] s → wp (handle e) (λ _ s', I4 (Some e) [] s') crash4 (logged (LIn now e) s).
Proof.
  intros HI2 H.
  assert (Hi : (∀ src ids, e ≠ ERecv src (MBalanceResponse ids)) → I4 (Some e) [] (logged (LIn now e) s)) by (intros; eapply I4_input; eauto).
  assert (H2 : inert2 (LIn now e) → I2 [] (logged (LIn now e) s)) by (intros; apply I2_emit; assumption).
  destruct e as [src m| | | | |]; cbn [handle].
  - destruct m; cbn [on_receive]; try (wsteps; apply Hi; discriminate).
    + apply I4_tm_new, Hi; discriminate.
    + apply I4_cancel_any, Hi; discriminate.
    + apply I4_wm_done; [cbn; apply String.eqb_refl|]. apply Hi; discriminate.
    + wsteps. apply I4_set_gqueue, Hi; discriminate.
    + wstep. wuse (I4_clean tm_cancel_any id I4_cancel_any) as s1 H1; [apply Hi; discriminate|]. wsteps. exact H1.
    + eapply I4_balance_response; eauto.
    + apply I4_heartbeat, Hi; discriminate.
    + apply I4_on_function, Hi; discriminate.
    + eapply I4_disconnect; [apply H2; exact I|apply Hi; discriminate].
  - apply I4_gm_routine, Hi; discriminate.
  - eapply I4_tm_routine; [apply H2; exact I|apply Hi; discriminate].
  - apply I4_fm_routine, Hi; discriminate.
  - eapply I4_wm_routine; [apply H2; exact I|apply Hi; discriminate].
  - apply I4_status, Hi; discriminate.
Qed.

Definition Inv4 (s : sched) : Prop := sends s ∧ (s_dead s = None → ∃ ev, I4 ev [] s).
Lemma sends_crash s e : sends s → balanced (s_log s) → always send_ok (s_log s ++ [LCrash e]).
Proof. intros H Hb. apply always_snoc; [exact H|]. intros t. rewrite used_snoc, given_snoc. specialize (Hb t). cbn. lia. Qed.
Lemma sends_balanced h : always send_ok h → balanced h.
Proof.
  intros H. destruct h as [|e h' _] using rev_ind; [intros t; cbn; lia|]. apply (H h' e []). reflexivity.
Qed.
Lemma Inv4_start c : Inv4 (start c).
Proof. split; [apply always_nil|]. intros _. exists None. split; cbn; [apply always_nil|reflexivity|intros; lia]. Qed.
Lemma Inv4_step s r : Inv2 s → Inv4 s → Inv4 (step s r).
Proof.
  intros [_ HI2] [Ha H]. unfold step. destruct (s_dead s) eqn:Ed; [split; [exact Ha|congruence]|].
  specialize (H eq_refl) as [ev H]. specialize (HI2 eq_refl). set (s0 := set_now _ _).
  assert (H0 : I4 ev [] s0) by (apply I4_set_now, I4_set_codes, H).
  assert (H1 : I2 [] s0) by (apply I2_now, I2_codes, HI2).
  pose proof (I4_round (rd_now r) (rd_event r) ev s0 H1 H0) as Hw. unfold wp in Hw.
  destruct (handle _ _) as [s' [u|e]]; split; eauto.
  - apply Hw.
  - unfold sends. ss. apply sends_crash; [exact Hw|apply sends_balanced; exact Hw].
  - ss. discriminate.
Qed.
Lemma Inv4_run c rs : Inv4 (run c rs).
Proof.
  unfold run, run_from. assert (∀ s, Inv2 s → Inv4 s → Inv4 (foldl step s rs)) as H; [|apply H; [apply Inv2_start|apply Inv4_start]].
  induction rs as [|r rs IH]; cbn; auto using Inv4_step, Inv2_step.
Qed.
