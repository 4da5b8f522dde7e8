(** Histories of well-behaved traffic: the scheduler never stops and its report is exact (C31, C35-C37). *)

From Verif.Model Require Import Base OneToManyDict PriorityQueue Allocator Message Sorter Scheduler.
From Verif.Spec Require Import AllocatorSpec DictSpec SchedulerSpec.
From Verif.Proofs Require Import BaseProofs DictProofs AllocatorProofs SchedWp SchedCount SchedHold SchedContent SchedSend SchedPrim SchedFn SchedGlobal SchedStep SchedRemove SchedPlain.

Lemma allocd_unique a g g' : allocd a g → allocd a g' → g = g'.
Proof.
  intros (mq & ml & st & R) (mq' & ml' & st' & R'). destruct g as [W O], g' as [W' O'].
  pose proof (ar_t2w _ _ _ _ _ R) as E1. pose proof (ar_t2w _ _ _ _ _ R') as E2. cbn in E1, E2. assert (O = O') as -> by congruence. f_equal.
  transitivity (al_worker_ids a); [symmetry; exact (step_ids _ _ _ _ _ R)|exact (step_ids _ _ _ _ _ R')].
Qed.

(** ** What the entries of one round do to the observed quantities *)
Lemma occ_app {E} (p : E → bool) h l : occurrences p (h ++ l) = (occurrences p h + occurrences p l)%nat.
Proof. unfold occurrences. rewrite List.filter_app, app_length. reflexivity. Qed.
Lemma occ_one {E} (p : E → bool) e : occurrences p [e] = if p e then 1%nat else 0%nat.
Proof. unfold occurrences. cbn. destruct (p e); reflexivity. Qed.
Lemma occ_calm st l : Forall calm_e l → occurrences (is_outcome st) l = 0%nat.
Proof.
  induction 1 as [|e l He _ IH]; [reflexivity|]. unfold occurrences in *. cbn. destruct e as [|? []| | | | |]; cbn in *; auto; done.
Qed.
Lemma outcomes_calm h l : Forall calm_e l → outcomes (h ++ l) = outcomes h.
Proof. intros H. unfold outcomes. rewrite !occ_app, !(occ_calm _ l H), !Nat.add_0_r. reflexivity. Qed.
Lemma outcomes_result h c r : outcomes (h ++ [LSend c (MResult r)]) = bump (r_status r) (outcomes h).
Proof.
  unfold outcomes. rewrite !occ_app, !occ_one. destruct r as [id st d p]; destruct st; cbn -[Z.add]; rewrite ?Nat.add_0_r, ?Nat.add_1_r, ?Nat2Z.inj_succ, <- ?Z.add_1_l; reflexivity.
Qed.
Lemma calm_accepted c t h l : Forall calm_e l → accepted c t (h ++ l) ↔ accepted c t h.
Proof.
  intros H. unfold accepted. rewrite elem_of_app. split; [|auto]. intros [Hi|Hi]; [exact Hi|]. rewrite Forall_forall in H. destruct (H _ Hi).
Qed.
Lemma calm_answered t h l : Forall calm_e l → answered t (h ++ l) ↔ answered t h.
Proof.
  intros H. unfold answered. rewrite Forall_forall in H. split; intros (c & st & d & p & Hi); exists c, st, d, p; [|apply elem_of_app; auto].
  apply elem_of_app in Hi as [Hi|Hi]; [exact Hi|]. destruct (H _ Hi).
Qed.
Lemma undispatched_app h l : undispatched (h ++ l) = foldl (λ b e, match e with LSend _ (MTaskEcho _ SubmitOK) => true | LIn _ EDispatch => false | _ => b end) (undispatched h) l.
Proof. unfold undispatched. rewrite foldl_app. reflexivity. Qed.
Lemma undispatched_calm h l : Forall calm_e l → undispatched (h ++ l) = undispatched h.
Proof.
  rewrite undispatched_app. generalize (undispatched h). intros b H. revert b. induction H as [|e l He _ IH]; intros b; [reflexivity|].
  cbn [foldl]. rewrite IH. destruct e as [|? []| | | | |]; cbn in *; try reflexivity; try done. destruct status; reflexivity || done.
Qed.

(** ** The invariant *)
Record good (s : sched) : Prop := {
  gd_core : core no_graphs (undispatched (s_log s)) (Ledger (registered (s_log s)) (holder (s_log s))) [] s;
  gd_queue : undispatched (s_log s) = true → s_unassigned s ≠ [];
  gd_clients t c : o_v2k (s_clients s) !! t = Some c ↔ accepted c t (s_log s) ∧ ¬ answered t (s_log s);
  gd_answered t : answered t (s_log s) → ∃ c, accepted c t (s_log s);
  gd_counts : counts s = outcomes (s_log s) }.

Notation ledger_of h := (Ledger (registered h) (holder h)).
Lemma good_of (s : sched) : (∃ g, core no_graphs (undispatched (s_log s)) g [] s) → allocd (s_alloc s) (ledger_of (s_log s)) →
  (undispatched (s_log s) = true → s_unassigned s ≠ []) →
  (∀ t c, o_v2k (s_clients s) !! t = Some c ↔ accepted c t (s_log s) ∧ ¬ answered t (s_log s)) →
  (∀ t, answered t (s_log s) → ∃ c, accepted c t (s_log s)) → counts s = outcomes (s_log s) → good s.
Proof.
  intros (g & Hg) Ha H1 H2 H3 H4. split; auto. rewrite <- (allocd_unique _ _ _ (exact_allocd _ _ _ (c_alloc _ _ _ _ _ Hg)) Ha). exact Hg.
Qed.
Definition stale (ev : event) (h : history) : bool := match ev with EDispatch => false | _ => undispatched h end.
Lemma input_quiet h now ev : (∀ t c, accepted c t (h ++ [LIn now ev]) ↔ accepted c t h) ∧ (∀ t, answered t (h ++ [LIn now ev]) ↔ answered t h) ∧
  outcomes (h ++ [LIn now ev]) = outcomes h ∧ undispatched (h ++ [LIn now ev]) = stale ev h.
Proof.
  split; [|split; [|split]].
  - intros t c. unfold accepted. rewrite elem_of_app, elem_of_list_singleton. split; [intros [?|?]; [assumption|discriminate]|auto].
  - intros t. unfold answered. split; intros (c & st & d & p & Hi); exists c, st, d, p; [|apply elem_of_app; auto]. apply elem_of_app in Hi as [Hi|Hi]; [exact Hi|].
    apply elem_of_list_singleton in Hi; discriminate.
  - unfold outcomes. rewrite !occ_app, !occ_one. cbn. rewrite !Nat.add_0_r. reflexivity.
  - rewrite undispatched_app. cbn. destruct ev; reflexivity.
Qed.
(** The state at the beginning of a round. *)
Record begun (s : sched) (now : Z) (ev : event) (s0 : sched) : Prop := {
  bg_log : s_log s0 = s_log s ++ [LIn now ev]; bg_clients : s_clients s0 = s_clients s; bg_counts : counts s0 = counts s;
  bg_tasks : s_tasks s0 = s_tasks s; bg_unassigned : s_unassigned s0 = s_unassigned s; bg_cfg : s_cfg s0 = s_cfg s; bg_funcs : s_funcs s0 = s_funcs s }.
Lemma good_calm s now ev s0 s' : good s → begun s now ev s0 → calm s0 s' → (∃ g, core no_graphs (stale ev (s_log s)) g [] s') →
  (stale ev (s_log s) = true → s_unassigned s' ≠ []) → allocd (s_alloc s') (ledger_of (s_log s')) → good s'.
Proof.
  intros [_ _ G1 G2 G3] [L0 B1 B2 _ _ _ _] [_ _ C1 C2 (l & C3 & C4)] Hc Hq Ha. destruct (input_quiet (s_log s) now ev) as (Q1 & Q2 & Q3 & Q4).
  rewrite L0 in C3. apply good_of; [| exact Ha| | | |]; rewrite C3.
  - rewrite undispatched_calm, Q4 by exact C4. exact Hc.
  - rewrite undispatched_calm, Q4 by exact C4. exact Hq.
  - intros t c. rewrite C2, B1, calm_accepted, calm_answered, Q1, Q2 by exact C4. apply G1.
  - intros t. rewrite calm_answered, Q2 by exact C4. intros Ht. destruct (G2 t Ht) as [c Hct]. exists c. rewrite calm_accepted, Q1 by exact C4. exact Hct.
  - rewrite outcomes_calm, Q3, C1, B2 by exact C4. exact G3.
Qed.
Lemma good_result s now ev s' res mon cl : good s → stale ev (s_log s) = false → internal mon → o_v2k (s_clients s) !! r_id res = Some cl →
  s_log s' = (s_log s ++ [LIn now ev]) ++ [mon; LSend cl (MResult res)] → o_v2k (s_clients s') = delete (r_id res) (o_v2k (s_clients s)) →
  counts s' = bump (r_status res) (counts s) → (∃ g, core no_graphs false g [] s') → allocd (s_alloc s') (ledger_of (s_log s')) → good s'.
Proof.
  intros [_ _ G1 G2 G3] Hs Hmon Hcl Hl Hv Hn Hc Ha. destruct (input_quiet (s_log s) now ev) as (Q1 & Q2 & Q3 & Q4).
  assert (M1 : Forall calm_e [mon]) by (constructor; [apply internal_calm, Hmon|constructor]).
  assert (Hu : undispatched (s_log s') = false).
  { rewrite Hl. change ([mon; LSend cl (MResult res)]) with ([mon] ++ [LSend cl (MResult res)]). rewrite app_assoc, undispatched_app. cbn. rewrite undispatched_calm, Q4 by exact M1. exact Hs. }
  assert (Ha1 : ∀ t c, accepted c t (s_log s') ↔ accepted c t (s_log s)).
  { intros t c. rewrite Hl. change ([mon; LSend cl (MResult res)]) with ([mon] ++ [LSend cl (MResult res)]). rewrite app_assoc. unfold accepted. rewrite elem_of_app, elem_of_list_singleton.
    fold (accepted c t ((s_log s ++ [LIn now ev]) ++ [mon])). rewrite calm_accepted, Q1 by exact M1. split; [intros [?|?]; [assumption|discriminate]|auto]. }
  assert (Ha2 : ∀ t, answered t (s_log s') ↔ answered t (s_log s) ∨ t = r_id res).
  { intros t. rewrite Hl. change ([mon; LSend cl (MResult res)]) with ([mon] ++ [LSend cl (MResult res)]). rewrite app_assoc. unfold answered. split.
    - intros (c & st & d & p & Hi). apply elem_of_app in Hi as [Hi|Hi].
      + left. apply (proj1 (Q2 t)). apply (proj1 (calm_answered t _ _ M1)). exists c, st, d, p. exact Hi.
      + apply elem_of_list_singleton in Hi. injection Hi as <- -> -> -> ->. auto.
    - intros [Ht| ->].
      + apply (proj2 (Q2 t)) in Ht. apply (proj2 (calm_answered t _ _ M1)) in Ht as (c & st & d & p & Hi). exists c, st, d, p. apply elem_of_app. auto.
      + exists cl, (r_status res), (r_duration res), (r_payload res). apply elem_of_app. right. left. }
  apply good_of; [rewrite Hu; exact Hc|exact Ha|rewrite Hu; discriminate| | |].
  - intros t c. rewrite Hv, Ha1, Ha2, lookup_delete_Some, G1. split; [intros (Hne & H1 & H2); split; [exact H1|]; intros [|]; auto|intros (H1 & H2); split; [|split]; auto].
  - intros t. rewrite Ha2. intros [Ht| ->].
    + destruct (G2 t Ht) as [c Hc1]. exists c. apply Ha1, Hc1.
    + exists cl. apply Ha1. apply G1 in Hcl. tauto.
  - rewrite Hn, Hl. change ([mon; LSend cl (MResult res)]) with ([mon] ++ [LSend cl (MResult res)]). rewrite app_assoc, outcomes_result, outcomes_calm, Q3, G3 by exact M1. reflexivity.
Qed.
Lemma good_accept s now ev s' t cl mon : good s → internal mon → (¬ ∃ c, accepted c t (s_log s)) →
  s_log s' = (s_log s ++ [LIn now ev]) ++ [LSend cl (MTaskEcho t SubmitOK); mon] → o_v2k (s_clients s') = <[t := cl]> (o_v2k (s_clients s)) →
  counts s' = counts s → s_unassigned s' ≠ [] → (∃ g, core no_graphs true g [] s') → allocd (s_alloc s') (ledger_of (s_log s')) → good s'.
Proof.
  intros [_ _ G1 G2 G3] Hmon Hnew Hl Hv Hn Hq Hc Ha. destruct (input_quiet (s_log s) now ev) as (Q1 & Q2 & Q3 & Q4).
  assert (M1 : Forall calm_e [mon]) by (constructor; [apply internal_calm, Hmon|constructor]).
  change ([LSend cl (MTaskEcho t SubmitOK); mon]) with ([LSend cl (MTaskEcho t SubmitOK)] ++ [mon]) in Hl. rewrite app_assoc in Hl.
  assert (Hu : undispatched (s_log s') = true).
  { rewrite Hl, undispatched_calm, undispatched_app by exact M1. reflexivity. }
  assert (Ha1 : ∀ t' c, accepted c t' (s_log s') ↔ accepted c t' (s_log s) ∨ (c = cl ∧ t' = t)).
  { intros t' c. rewrite Hl, calm_accepted by exact M1. unfold accepted. rewrite elem_of_app, elem_of_list_singleton.
    fold (accepted c t' (s_log s ++ [LIn now ev])). rewrite Q1. split; (intros [|H]; [auto|right]); [injection H as -> ->; auto|destruct H as [-> ->]; auto]. }
  assert (Ha2 : ∀ t', answered t' (s_log s') ↔ answered t' (s_log s)).
  { intros t'. rewrite Hl, calm_answered by exact M1. rewrite <- Q2. unfold answered. split; intros (c & st & d & p & Hi); exists c, st, d, p; [|apply elem_of_app; auto].
    apply elem_of_app in Hi as [Hi|Hi]; [exact Hi|]. apply elem_of_list_singleton in Hi; discriminate. }
  apply good_of; [rewrite Hu; exact Hc|exact Ha|auto| | |].
  - intros t' c. rewrite Hv, Ha1, Ha2, lookup_insert_Some, G1. split.
    + intros [[<- <-]|(Hne & H1 & H2)]; [|auto]. split; [auto|]. intros H2. apply Hnew, G2, H2.
    + intros [[H1|[-> ->]] H2]; [right|auto]. split; [|auto]. intros <-. apply Hnew. eauto.
  - intros t'. rewrite Ha2. intros Ht. destruct (G2 t' Ht) as [c Hc1]. exists c. apply Ha1. auto.
  - rewrite Hn, Hl, outcomes_calm by exact M1. unfold outcomes in *. rewrite !(occ_app _ (s_log s ++ _)), !(occ_one _ (LSend _ _)). cbn.
    rewrite !Nat.add_0_r, G3. symmetry. exact Q3.
Qed.

(** ** Every round of polite traffic *)
Notation keeps_good := (λ (_ : unit) s', s_dead s' = None ∧ (allocd (s_alloc s') (ledger_of (s_log s')) → good s')).
Lemma calm_handler s now ev s0 (m : M unit) : good s → begun s now ev s0 →
  wp m (λ _ s', (∃ g', core no_graphs (stale ev (s_log s)) g' [] s') ∧ calm s0 s' ∧ (stale ev (s_log s) = true → s_unassigned s' ≠ [])) no_exn s0 → wp m keeps_good no_exn s0.
Proof.
  intros G B H. eapply wp_mono; [exact H| |auto]. cbv beta. intros _ s' (Hx & C & Hq). split; [destruct Hx as [g' Hx]; exact (c_dead _ _ _ _ _ Hx)|]. intros Ha. eapply good_calm; eauto.
Qed.
Lemma good_recv s now src m s0 : c_max_waiting (s_cfg s) < 0 → good s → begun s now (ERecv src m) s0 → polite utf8 (s_log s) (LIn now (ERecv src m)) →
  (∀ pk g, core no_graphs pk g [] s → core no_graphs pk g [] s0) → wp (on_receive src m) keeps_good no_exn s0.
Proof.
  intros Hw G B Hp H0. pose proof (gd_core _ G) as Hc. cbn [polite] in Hp. destruct Hp as (Hun & Hsrc & Hm). rewrite Hun in Hc. apply H0 in Hc. clear H0.
  set (g := ledger_of (s_log s)) in *.
  assert (Hcalm : ∀ m', wp m' (λ _ s', (∃ g', core no_graphs false g' [] s') ∧ calm s0 s' ∧ s_tasks s' = s_tasks s0) no_exn s0 → wp m' keeps_good no_exn s0).
  { intros m' H. apply (calm_handler _ _ _ _ _ G B). eapply wp_mono; [exact H| |auto]. cbv beta. intros _ s' (Hx & C & _). cbn [stale]. rewrite Hun. split; [exact Hx|]. split; [exact C|discriminate]. }
  assert (Hnop : wp (ret tt) keeps_good no_exn s0).
  { apply Hcalm. apply wp_ret. split; [eauto|]. split; [apply calm_refl|reflexivity]. }
  destruct m; cbn [on_receive]; lazymatch goal with |- wp (ret tt) _ _ _ => exact Hnop | _ => idtac end; try (exfalso; exact Hm).
  - (* a task *)
    assert (Hnt : s_tasks s0 !! task_id t = None).
    { destruct (s_tasks s0 !! task_id t) as [k|] eqn:Ek; [|reflexivity]. exfalso. destruct (core_delete_lookup _ _ _ _ _ (task_id t) Hc) as (k' & cl & _ & _ & Hcl & _); [eauto|].
      rewrite (bg_clients _ _ _ _ B) in Hcl. apply (gd_clients _ G) in Hcl as [Hcl _]. apply Hm. eauto. }
    eapply wp_mono; [apply (new_spec no_graphs false g s0 src t Hc Hsrc Hnt); [apply not_elem_of_empty|left; apply lookup_empty|rewrite (bg_cfg _ _ _ _ B); exact Hw]| |auto]. cbv beta. intros _ s' H.
    destruct (s_funcs s0 !! task_function t) as [i|] eqn:Ef.
    + rewrite started_none in H by apply lookup_empty. destruct H as (H1 & _ & _ & H2 & H3 & H4 & _ & H7 & mon & H5 & H6). split; [exact (c_dead _ _ _ _ _ H1)|]. intros Ha.
      rewrite (bg_log _ _ _ _ B) in H6. rewrite (bg_clients _ _ _ _ B) in H7. rewrite (bg_counts _ _ _ _ B) in H2.
      apply (good_accept s now (ERecv src (MTask t)) s' (task_id t) src mon); auto.
      * rewrite H4. destruct (s_unassigned s0); discriminate.
      * eauto.
    + assert (C : calm s0 s') by (rewrite H; calms).
      assert (H1 : core no_graphs false g [] s') by (rewrite H; apply core_log, Hc).
      split; [exact (c_dead _ _ _ _ _ H1)|]. intros Ha. apply (good_calm _ _ _ _ _ G B C); cbn [stale]; rewrite ?Hun; [eauto|discriminate|exact Ha].
  - (* cancel *)
    eapply wp_mono; [apply (cancel_spec no_graphs false g s0 id Hc); apply lookup_empty| |auto]. cbv beta. intros _ s'. destruct (decide (id ∈ s_unassigned s0)) as [Hu|Hu].
    + intros (H1 & _ & _ & H2 & H3 & H4 & H5 & mon & cl & H6 & H7 & H8). split; [exact (c_dead _ _ _ _ _ H1)|]. intros Ha.
      rewrite (bg_log _ _ _ _ B) in H8. rewrite (bg_clients _ _ _ _ B) in H7, H4. rewrite (bg_counts _ _ _ _ B) in H2.
      apply (good_result s now (ERecv src (MTaskCancel id)) s' (Result id Canceled 0 "") mon cl); auto. eauto.
    + intros H. assert (Hx : core no_graphs false g [] s' ∧ calm s0 s').
      { cbn [g lg_owner] in H. destruct (holder (s_log s) !! id) as [w|]; [destruct H as (mon & Hmon & ->)|rewrite H; split; [exact Hc|calms]].
        split; [do 2 apply core_log; exact Hc|]. apply calm_emit; [apply internal_calm, Hmon|]. apply calm_emit; [exact I|calms]. }
      destruct Hx as [H1 C]. split; [exact (c_dead _ _ _ _ _ H1)|]. intros Ha. apply (good_calm _ _ _ _ _ G B C); cbn [stale]; rewrite ?Hun; [eauto|discriminate|exact Ha].
  - (* result *)
    destruct (holder (s_log s) !! id) as [w|] eqn:Ew.
    + eapply wp_mono; [apply (wm_done_spec no_graphs g s0 (Result id status duration result) Hc); apply lookup_empty| |auto]. cbv beta. intros _ s'. cbn [g lg_owner r_id r_status]. rewrite Ew.
      intros (H1 & H2 & H3 & H4 & H5 & H6 & H7 & mon & cl & H8 & H9 & H10). split; [exact (c_dead _ _ _ _ _ H1)|]. intros Ha.
      rewrite (bg_log _ _ _ _ B) in H10. rewrite (bg_clients _ _ _ _ B) in H5, H9. rewrite (bg_counts _ _ _ _ B) in H7.
      apply (good_result s now (ERecv src (MTaskResult id status duration result)) s' (Result id status duration result) mon cl); auto. eauto.
    + unfold wm_done. wgo. destruct (exact_remove_task _ _ id (c_alloc _ _ _ _ _ Hc)) as (a' & Ea & Hm' & Hx). cbn [r_id]. cbn [g lg_owner] in Ea. rewrite Ew in Ea. rewrite Ea. apply wp_ok. wgo.
      assert (H1 : core no_graphs false (Ledger (lg_workers g) (delete id (lg_owner g))) [] (set_alloc (λ _, a') s0)).
      { eapply core_alloc; [exact Hc|exact Hx|reflexivity| | |constructor]; cbn [lg_owner g].
        - rewrite delete_notin by exact Ew. reflexivity.
        - intros t Ht. inversion Ht. }
      split; [exact (c_dead _ _ _ _ _ H1)|]. intros Ha. eapply (good_calm _ _ _ s0 _ G B); cbn [stale]; rewrite ?Hun; [|eauto|discriminate|exact Ha].
      split; auto. exists []. rewrite app_nil_r. auto.
  - (* balance response *)
    apply Hcalm. eapply wp_mono; [apply (balance_response_spec no_graphs ids g s0 Hc)| |auto]. cbv beta. intros _ s' ((O & H1) & C & T). eauto.
  - apply Hcalm. eapply wp_mono; [apply (heartbeat_spec no_graphs g s0 src h Hc Hsrc)| |auto]. cbv beta. intros _ s' (H1 & C & T). eauto.
  - apply Hcalm. eapply wp_mono; [apply (function_spec no_graphs false g s0 src type id name content Hc)| |auto].
    + intros ->. exact Hm.
    + intros ->. exact Hm.
    + cbv beta. intros _ s' (H1 & C & T). eauto.
  - apply Hcalm. exact (disconnect_spec no_graphs g s0 src worker Hc).
Qed.
Lemma good_handle s now ev s0 : c_max_waiting (s_cfg s) < 0 → good s → begun s now ev s0 → polite utf8 (s_log s) (LIn now ev) →
  (∀ pk g, core no_graphs pk g [] s → core no_graphs pk g [] s0) → wp (handle ev) keeps_good no_exn s0.
Proof.
  intros Hw G B Hp H0. destruct ev as [src m| | | | |]; cbn [handle]; [apply (good_recv s now src m s0 Hw G B Hp H0)|..];
    pose proof (gd_core _ G) as Hc; pose proof (gd_queue _ G) as Hq; apply H0 in Hc; clear H0; set (g := ledger_of (s_log s)) in *; apply (calm_handler _ _ _ _ _ G B); cbn [stale].
  - unfold gm_routine. wgo. rewrite (c_gqueue _ _ _ _ _ Hc). wgo. split; [eauto|]. split; [calms|]. rewrite (bg_unassigned _ _ _ _ B). exact Hq.
  - eapply wp_mono; [apply (dispatch_spec no_graphs _ g s0 Hc); rewrite (bg_unassigned _ _ _ _ B); exact Hq| |auto]. cbv beta. intros _ s' (H1 & C & _). split; [exact H1|]. split; [exact C|discriminate].
  - eapply wp_mono; [apply (expiry_spec no_graphs _ g s0 Hc)| |auto]. cbv beta. intros _ s' (H1 & C & _ & U). split; [eauto|]. split; [exact C|]. rewrite U, (bg_unassigned _ _ _ _ B). exact Hq.
  - cbn [polite] in Hp. rewrite Hp in *. unfold wm_routine. wgo. eapply wp_mono; [apply (balance_core no_graphs _ g s0 Hc)| |auto]. cbv beta. intros _ s1 (H1 & C1 & _).
    eapply wp_mono; [apply (clean_core no_graphs g s1 H1)| |auto]. cbv beta. intros _ s' (H2 & C2 & _). split; [exact H2|]. split; [eapply calm_trans; eassumption|discriminate].
  - eapply wp_mono; [apply (status_spec no_graphs _ g s0 Hc)| |auto]. cbv beta. intros _ s' (rep & _ & E). rewrite E. split; [exists g; apply core_log, core_codes, Hc|]. split; [|ss; rewrite (bg_unassigned _ _ _ _ B); exact Hq].
    split; auto. exists [LReport rep]. split; [reflexivity|repeat constructor].
Qed.
Lemma begun_begin s r : begun s (rd_now r) (rd_event r) (begin s r).
Proof. split; reflexivity. Qed.
Lemma core_begin xt pk g fl s r : core xt pk g fl s → core xt pk g fl (begin s r).
Proof. intros []; split; auto. Qed.
Lemma good_step c rs r : c_max_waiting c < 0 → good (run c rs) → polite utf8 (s_log (run c rs)) (LIn (rd_now r) (rd_event r)) → good (step (run c rs) r).
Proof.
  intros Hw G Hp. pose proof (c_dead _ _ _ _ _ (gd_core _ G)) as Hd. pose proof (Inv2_run c (rs ++ [r])) as [_ HI]. rewrite run_snoc in HI.
  assert (Hcfg : s_cfg (run c rs) = c) by apply run_cfg. set (s := run c rs) in *. clearbody s.
  pose proof (good_handle s (rd_now r) (rd_event r) (begin s r) ltac:(rewrite Hcfg; exact Hw) G (begun_begin s r) Hp (λ pk g, core_begin _ pk g [] s r)) as H.
  unfold step in *. rewrite Hd in *. unfold wp in H. destruct (handle _ _) as [s' [u|e]]; [|destruct H]. destruct H as [H1 H2]. apply H2, (i2_alloc _ _ (HI H1)).
Qed.
Lemma core_start c : core no_graphs false lg_empty [] (start c).
Proof.
  split.
  - reflexivity.
  - reflexivity.
  - reflexivity.
  - reflexivity.
  - apply otm_inv_empty.
  - cbn. rewrite !dom_empty_L. set_solver.
  - apply otm_inv_empty.
  - cbn. rewrite fmap_empty, (left_id_L ∅ (∪)). reflexivity.
  - intros t k. cbn. rewrite lookup_empty. discriminate.
  - intros t k. cbn. rewrite lookup_empty. discriminate.
  - discriminate.
  - constructor.
  - intros t Ht. inversion Ht.
  - cbn. rewrite dom_empty_L. set_solver.
  - cbn. rewrite dom_empty_L. set_solver.
  - intros t Ht. inversion Ht.
  - constructor.
  - exists ∅, ∅, ∅. split; [apply al_rep_init|]. split; [|intros d []%not_elem_of_empty]. intros w p. rewrite lookup_empty. discriminate.
  - cbn. apply dom_empty_L.
  - intros w [? H]. cbn in H. rewrite lookup_empty in H. discriminate.
  - intros t k. cbn. rewrite lookup_empty. discriminate.
  - intros t k. cbn. rewrite lookup_empty. discriminate.
  - intros t f. cbn. rewrite lookup_empty. discriminate.
  - intros t Ht. cbn in Ht. apply not_elem_of_empty in Ht. destruct Ht.
Qed.
Lemma good_start c : good (start c).
Proof.
  apply good_of.
  - exists lg_empty. exact (core_start c).
  - apply (exact_allocd _ _ _ (c_alloc _ _ _ _ _ (core_start c))).
  - discriminate.
  - intros t k. cbn. rewrite lookup_empty. split; [discriminate|]. intros [H _]. inversion H.
  - intros t (c' & st & d & p & H). inversion H.
  - reflexivity.
Qed.
Lemma good_run c rs : c_max_waiting c < 0 → always (polite utf8) (s_log (run c rs)) → good (run c rs).
Proof.
  intros Hw. induction rs as [|r rs IH] using rev_ind; intros Hp; [apply good_start|]. rewrite run_snoc in *.
  destruct (step_log (run c rs) r) as (l & El & Hl). rewrite El in Hp.
  assert (G : good (run c rs)) by (apply IH; eapply always_inv, Hp). apply good_step; [exact Hw|exact G|].
  destruct (Hl (c_dead _ _ _ _ _ (gd_core _ G))) as [l' ->]. exact (Hp _ _ _ eq_refl).
Qed.
(** C37 *)
Lemma survives_lemma c rs : c_max_waiting c < 0 → always (polite utf8) (s_log (run c rs)) → s_dead (run c rs) = None.
Proof. intros Hw Hp. exact (c_dead _ _ _ _ _ (gd_core _ (good_run c rs Hw Hp))). Qed.

(** ** The report (C35) *)
Lemma unanswered_tasks s t : good s → is_Some (s_tasks s !! t) ↔ unanswered t (s_log s).
Proof.
  intros G. unfold unanswered. split.
  - intros Ht. destruct (core_delete_lookup _ _ _ _ _ t (gd_core _ G) Ht) as (_ & cl & _ & _ & Hcl & _). apply (gd_clients _ G) in Hcl as [H1 H2]. eauto.
  - intros [[cl H1] H2]. assert (t ∈ dom (o_v2k (s_clients s))) as H. { apply elem_of_dom. exists cl. apply (gd_clients _ G). auto. }
    rewrite (c_cldom _ _ _ _ _ (gd_core _ G)) in H. apply elem_of_union in H as [H|H]; [|cbn in H; apply not_elem_of_empty in H as []]. apply elem_of_dom in H. exact H.
Qed.
Lemma load_out h w : load (ledger_of h) w = outstanding h w.
Proof. unfold load, tasks_of, outstanding. rewrite size_dom. reflexivity. Qed.
Lemma alive_iff c rs w p : s_dead (run c rs) = None → s_alive (run c rs) !! w = Some p ↔ w ∈ registered (s_log (run c rs)) ∧ last_beat w (s_log (run c rs)) = Some p.
Proof.
  intros Hd. destruct (Inv2_run c rs) as [_ H2]. specialize (H2 Hd). split.
  - intros Hp. split; [apply (I2_alive_reg _ w H2); eauto|apply (alive_beat c rs w p Hd Hp)].
  - intros [Hr Hl]. apply (I2_alive_reg _ w H2) in Hr as [p' Hp']. pose proof (alive_beat c rs w p' Hd Hp'). congruence.
Qed.
Lemma report_lemma c rs now codes : let s := run c rs in c_max_waiting c < 0 → always (polite utf8) (s_log s) →
  ∃ r, s_log (step s (Round now codes EStatus)) = s_log s ++ [LIn now EStatus; LReport r] ∧ s_dead (step s (Round now codes EStatus)) = None ∧
   rp_unassigned r = Z.of_nat (length (s_unassigned s)) ∧ rp_running r = number (dom (holder (s_log s))) ∧
   (∀ X : gset bytes, (∀ t, t ∈ X ↔ unanswered t (s_log s)) → number X = rp_unassigned r + (match s_limbo s with Some _ => 1 | None => 0 end) + rp_running r) ∧
   (rp_success r, rp_failed r, rp_canceled r, rp_not_found r) = outcomes (s_log s) ∧
   (∀ cl n, rp_clients r !! cl = Some n → ∀ X : gset bytes, (∀ t, t ∈ X ↔ accepted cl t (s_log s) ∧ ¬ answered t (s_log s)) → n = number X) ∧
   (∀ cl, is_Some (rp_clients r !! cl) ↔ ∃ t, accepted cl t (s_log s) ∧ ¬ answered t (s_log s)) ∧
   (∀ w row, rp_workers r !! w = Some row ↔ w ∈ registered (s_log s) ∧ ∃ last h, last_beat w (s_log s) = Some (last, h) ∧
        row = WorkerRow h (c_queue_size c - outstanding (s_log s) w) (outstanding (s_log s) w) (now - last)).
Proof.
  intros s Hw Hp. pose proof (good_run c rs Hw Hp) as G. fold s in G. pose proof (gd_core _ G) as Hc. pose proof (c_dead _ _ _ _ _ Hc) as Hd.
  pose proof (status_spec no_graphs _ _ _ (core_begin _ _ _ _ _ (Round now codes EStatus) Hc)) as H. set (s0 := begin s (Round now codes EStatus)) in *.
  assert (HS : ∃ r, reports (ledger_of (s_log s)) s0 r ∧ s_log (step s (Round now codes EStatus)) = s_log s ++ [LIn now EStatus; LReport r] ∧ s_dead (step s (Round now codes EStatus)) = None).
  { unfold step. rewrite Hd. cbn [handle rd_event]. unfold wp in H. fold s0. change (set_log (λ l, l ++ [LIn (rd_now (Round now codes EStatus)) EStatus]) _) with s0.
    destruct (st_routine s0) as [s' [u|e]]; [|destruct H]. destruct H as (r & Hr & ->). exists r. split; [exact Hr|]. split; [cbn; rewrite <- app_assoc; reflexivity|exact Hd]. }
  clear H. destruct HS as (r & [R1 R2 R3 R4 R5 R6] & Hl & Hd'). exists r. split; [exact Hl|]. split; [exact Hd'|]. subst s0. ss.
  assert (Hrun : s_running s = dom (holder (s_log s))). { rewrite (c_running _ _ _ _ _ Hc). cbn. set_solver. }
  split; [exact R1|]. split; [rewrite R2, Hrun; reflexivity|]. split; [|split; [|split; [|split]]].
  - intros X HX. assert (X = dom (s_tasks s)) as ->.
    { apply leibniz_equiv. intros t. rewrite HX, <- (unanswered_tasks s t G). symmetry. apply elem_of_dom. }
    rewrite (c_places _ _ _ _ _ Hc). unfold number. rewrite size_union.
    2:{ intros t Ht1 Ht2. apply elem_of_list_to_set in Ht1. exact (c_disj _ _ _ _ _ Hc t Ht1 Ht2). }
    rewrite size_list_to_set by apply (c_nodup _ _ _ _ _ Hc). rewrite app_length, R1, R2. unfold lim. destruct (s_limbo s); cbn; lia.
  - rewrite R3. exact (gd_counts _ G).
  - intros cl n Hn X HX. rewrite R4 in Hn. apply fmap_Some in Hn as (ts & Hts & ->). apply (c_cl _ _ _ _ _ Hc) in Hts as [-> _]. unfold number. do 2 f_equal.
    apply leibniz_equiv. intros t. rewrite HX, <- (gd_clients _ G). apply (elem_of_owned (o_v2k (s_clients s)) cl t).
  - intros cl. rewrite R4. split.
    + intros [n Hn]. apply fmap_Some in Hn as (ts & Hts & _). destruct (otm_k2v_nonempty _ _ _ (c_cl _ _ _ _ _ Hc) Hts) as (t & Ht & _). exists t. apply (gd_clients _ G). exact Ht.
    + intros (t & Ht). apply (gd_clients _ G) in Ht. rewrite fmap_is_Some. exists (owned (o_v2k (s_clients s)) cl). apply (c_cl _ _ _ _ _ Hc). split; [reflexivity|].
      intros E. rewrite owned_empty in E. exact (E t Ht).
  - intros w row. rewrite R6, fmap_Some. destruct (Inv2_run c rs) as [_ H2]. specialize (H2 Hd). fold s in H2.
    assert (Hmax : al_max (s_alloc s) = c_queue_size c). { rewrite (i2_max _ _ H2). unfold s. rewrite run_cfg. reflexivity. }
    rewrite Hmax, load_out. split.
    + intros ([last h] & Hp' & ->). apply (alive_iff c rs w _ Hd) in Hp' as [Hr Hb]. eauto.
    + intros (Hr & last & h & Hb & ->). exists (last, h). split; [|reflexivity]. apply (alive_iff c rs w _ Hd). auto.
Qed.

(** ** Dispatch (C36 and the choice of worker) *)
Lemma dispatch_any c rs now codes xt pk : let s := run c rs in let s' := step s (Round now codes EDispatch) in core xt pk (ledger_of (s_log s)) [] s →
  match next_task s with
  | None => s_log s' = s_log s ++ [LIn now EDispatch]
  | Some t =>
      (registered (s_log s) = ∅ ∧ s_log s' = s_log s ++ [LIn now EDispatch] ∧ next_task s' = Some t) ∨
      (registered (s_log s) ≠ ∅ ∧ (∀ w, w ∈ registered (s_log s) → outstanding (s_log s) w = c_queue_size c) ∧ s_log s' = s_log s ++ [LIn now EDispatch] ∧ last (s_unassigned s') = Some t) ∨
      (∃ w k mon, task_id k = t ∧ internal mon ∧ w ∈ registered (s_log s) ∧ (0 <= c_queue_size c → outstanding (s_log s) w < c_queue_size c) ∧
         (∀ w', w' ∈ registered (s_log s) → outstanding (s_log s) w <= outstanding (s_log s) w') ∧ s_log s' = s_log s ++ [LIn now EDispatch; LSend w (MTask k); mon])
  end.
Proof.
  intros s s' Hc. pose proof (c_dead _ _ _ _ _ Hc) as Hd.
  assert (Hmax : al_max (s_alloc s) = c_queue_size c). { destruct (Inv2_run c rs) as [_ H2]. specialize (H2 Hd). fold s in H2. rewrite (i2_max _ _ H2). unfold s. rewrite run_cfg. reflexivity. }
  subst s'. pattern (step s (Round now codes EDispatch)). apply step_wp; [exact Hd|]. apply (core_begin _ _ _ _ _ (Round now codes EDispatch)) in Hc.
  cbn [handle rd_event] in *. set (s0 := set_log _ _). change (core xt pk (ledger_of (s_log s)) [] s0) in Hc.
  assert (B : s_log s0 = s_log s ++ [LIn now EDispatch] ∧ s_limbo s0 = s_limbo s ∧ s_unassigned s0 = s_unassigned s ∧ s_alloc s0 = s_alloc s) by (repeat split).
  destruct B as (B1 & B2 & B3 & B4). clearbody s0.
  assert (Hfin : ∀ k s1 E, core xt pk (ledger_of (s_log s)) [] (set_limbo (λ _, Some k) s1) → s_log s1 = s_log s0 → s_alloc s1 = s_alloc s0 → next_task s = Some (task_id k) →
    wp (tm_match k) (λ _ s', match next_task s with
      | None => s_log s' = s_log s ++ [LIn now EDispatch]
      | Some t => (registered (s_log s) = ∅ ∧ s_log s' = s_log s ++ [LIn now EDispatch] ∧ next_task s' = Some t) ∨
      (registered (s_log s) ≠ ∅ ∧ (∀ w, w ∈ registered (s_log s) → outstanding (s_log s) w = c_queue_size c) ∧ s_log s' = s_log s ++ [LIn now EDispatch] ∧ last (s_unassigned s') = Some t) ∨
      (∃ w k mon, task_id k = t ∧ internal mon ∧ w ∈ registered (s_log s) ∧ (0 <= c_queue_size c → outstanding (s_log s) w < c_queue_size c) ∧
         (∀ w', w' ∈ registered (s_log s) → outstanding (s_log s) w <= outstanding (s_log s) w') ∧ s_log s' = s_log s ++ [LIn now EDispatch; LSend w (MTask k); mon])
      end) E s1).
  { intros k s1 E H1 L1 A1 Hn. rewrite Hn. eapply wp_mono; [eapply match_spec, H1| |intros ? ? []]. cbv beta. intros _ s' (_ & _ & D). rewrite L1, B1, A1, B4, Hmax in D. cbn [lg_workers] in D.
    destruct D as [(D1 & D2 & _)|[(D1 & D2 & D3 & D4 & D5 & _)|(w & mon & D1 & D2 & D3 & D4 & D5 & _)]].
    - left. split; [exact D1|]. rewrite D2. split; [cbn; rewrite L1; exact B1|reflexivity].
    - right. left. split; [exact D1|]. split; [intros w Hw'; rewrite <- load_out; auto|]. split; [exact D3|]. rewrite D4. apply last_snoc.
    - right. right. exists w, k, mon. split; [reflexivity|]. split; [exact D1|]. split; [exact D2|]. split; [rewrite <- load_out; exact D4|].
      split; [intros w' Hw'; rewrite <- !load_out; auto|]. rewrite D5, <- app_assoc. reflexivity. }
  unfold tm_routine. wgo. unfold next_task in *. rewrite B2 in *. destruct (s_limbo s) as [k|] eqn:El.
  - apply Hfin; try reflexivity. destruct s0; ss; subst; exact Hc.
  - wgo. rewrite B3. destruct (s_unassigned s) as [|t q] eqn:Eq; wgo; [exact B1|].
    destruct (core_task _ _ _ _ _ t Hc) as (k & Hk & Hid). { rewrite B3. left. left. } rewrite Hk. cbn [from_option_exn]. apply wp_ok. apply Hfin; try reflexivity; [|cbn; rewrite Hid; reflexivity].
    eapply core_pop; [exact Hc|exact B2|rewrite B3; reflexivity|exact Hk].
Qed.
Lemma dispatch_lemma c rs now codes : let s := run c rs in let s' := step s (Round now codes EDispatch) in c_max_waiting c < 0 → always (polite utf8) (s_log s) →
  match next_task s with
  | None => s_log s' = s_log s ++ [LIn now EDispatch]
  | Some t =>
      (registered (s_log s) = ∅ ∧ s_log s' = s_log s ++ [LIn now EDispatch] ∧ next_task s' = Some t) ∨
      (registered (s_log s) ≠ ∅ ∧ (∀ w, w ∈ registered (s_log s) → outstanding (s_log s) w = c_queue_size c) ∧ s_log s' = s_log s ++ [LIn now EDispatch] ∧ last (s_unassigned s') = Some t) ∨
      (∃ w k mon, task_id k = t ∧ internal mon ∧ w ∈ registered (s_log s) ∧ (0 <= c_queue_size c → outstanding (s_log s) w < c_queue_size c) ∧
         (∀ w', w' ∈ registered (s_log s) → outstanding (s_log s) w <= outstanding (s_log s) w') ∧ s_log s' = s_log s ++ [LIn now EDispatch; LSend w (MTask k); mon])
  end.
Proof. intros s s' Hw Hp. apply (dispatch_any c rs now codes no_graphs (undispatched (s_log s))). exact (gd_core _ (good_run c rs Hw Hp)). Qed.

(** ** Cancelling (C31) *)
Lemma takes_back_bound t h : (moments (takes_back t) h + (if bool_decide (is_Some (holder h !! t)) then 1 else 0) <= occurrences (is_dispatch t) h)%nat.
Proof.
  induction h as [|e h IH] using rev_ind; [cbn; rewrite bool_decide_eq_false_2; [lia|]; intros [? Hx]; rewrite lookup_empty in Hx; discriminate|].
  rewrite moments_snoc, occ_snoc. unfold holder. rewrite foldl_app. cbn [foldl]. fold (holder h).
  assert (Hsub : ∀ m : gmap bytes bytes, (is_Some (m !! t) → is_Some (holder h !! t)) →
     ((if bool_decide (is_Some (m !! t)) then 1 else 0) <= (if bool_decide (is_Some (holder h !! t)) then 1 else 0))%nat).
  { intros m Hm. destruct (bool_decide_reflect (is_Some (m !! t))) as [H1|H1]; [|lia]. rewrite bool_decide_eq_true_2 by exact (Hm H1). lia. }
  assert (Hdel : ∀ ids, is_Some (foldr delete (holder h) ids !! t) → t ∉ ids ∧ is_Some (holder h !! t)).
  { induction ids as [|x ids IHi]; cbn; [intros H; split; [apply not_elem_of_nil|exact H]|]. intros [v [Hne Hv]%lookup_delete_Some]. destruct IHi as [H1 H2]; [eauto|].
    split; [|exact H2]. rewrite not_elem_of_cons. auto. }
  destruct e as [now ev|w m| | | | |]; try (cbn in *; lia).
  - destruct ev as [src m| | | | |]; try (cbn in *; lia). destruct m; try (cbn in *; lia).
    + cbn -[bool_decide]. specialize (Hsub (delete id (holder h))). assert (is_Some (delete id (holder h) !! t) → is_Some (holder h !! t)) as Hx.
      { intros [v [_ Hv]%lookup_delete_Some]. eauto. } specialize (Hsub Hx). lia.
    + cbn -[bool_decide]. destruct (bool_decide_reflect (t ∈ ids)) as [Ht|Ht]; cbn [andb].
      * rewrite (bool_decide_eq_false_2 (is_Some (foldr delete (holder h) ids !! t))) by (intros Hx; apply Hdel in Hx as [Hx _]; exact (Hx Ht)). destruct (bool_decide (is_Some (holder h !! t))); lia.
      * specialize (Hsub (foldr delete (holder h) ids) ltac:(intros Hx; apply Hdel in Hx; tauto)). lia.
  - destruct m; try (cbn in *; lia). cbn -[bool_decide]. destruct (String.eqb_spec (task_id t0) t) as [<-|Hne].
    + rewrite bool_decide_eq_true_2 by (rewrite lookup_insert; eauto). destruct (bool_decide (is_Some (holder h !! task_id t0))); lia.
    + rewrite lookup_insert_ne by exact Hne. lia.
  - cbn -[bool_decide]. destruct (bool_decide_reflect (holder h !! t = Some w)) as [Hw|Hw].
    + rewrite bool_decide_eq_true_2 in IH by eauto. rewrite bool_decide_eq_false_2; [lia|]. intros [v Hv]. apply map_filter_lookup_Some in Hv as [Hv Hn]. cbn in Hn. congruence.
    + match goal with |- context [filter ?P ?m] => specialize (Hsub (filter P m)) end. cbn in Hsub.
      match type of Hsub with ?A → _ => assert A as Hx end. { intros [v Hv]. apply map_filter_lookup_Some in Hv as [Hv _]. eauto. } specialize (Hsub Hx). lia.
Qed.
Lemma cancelled_lemma c rs t before w k after : s_log (run c rs) = before ++ LSend w (MTask k) :: after → task_id k = t →
  (moments (own_answer t) before < occurrences (is_accept t) before)%nat.
Proof.
  intros E <-. destruct (Inv4_run c rs) as [H _]. specialize (H before _ after E (task_id k)). unfold used, given in H. rewrite !occ_snoc, !moments_snoc in H. cbn in H.
  rewrite String.eqb_refl in H. pose proof (takes_back_bound (task_id k) before) as Hb. destruct (bool_decide _); lia.
Qed.
Lemma cancel_lemma c rs now codes src t : let s := run c rs in let s' := step s (Round now codes (ERecv src (MTaskCancel t))) in
  c_max_waiting c < 0 → always (polite utf8) (s_log s') →
  (t ∈ s_unassigned s → ∃ cl mon, accepted cl t (s_log s) ∧ ¬ answered t (s_log s) ∧ internal mon ∧ s_log s' = s_log s ++ [LIn now (ERecv src (MTaskCancel t)); mon; LSend cl (MTaskResult t Canceled 0 "")] ∧ t ∉ s_unassigned s') ∧
  (∀ w, holder (s_log s) !! t = Some w → ∃ mon, internal mon ∧ s_log s' = s_log s ++ [LIn now (ERecv src (MTaskCancel t)); LSend w (MTaskCancel t); mon] ∧ untouched s s') ∧
  (¬ unanswered t (s_log s) → s_log s' = s_log s ++ [LIn now (ERecv src (MTaskCancel t))] ∧ untouched s s').
Proof.
  intros s s' Hw Hp. destruct (step_log s (Round now codes (ERecv src (MTaskCancel t)))) as (l & El & Hl). fold s' in El. rewrite El in Hp.
  pose proof (good_run c rs Hw (always_inv _ _ _ Hp)) as G. fold s in G. pose proof (gd_core _ G) as Hc. pose proof (c_dead _ _ _ _ _ Hc) as Hd.
  destruct (Hl Hd) as [l' ->]. clear El Hl. specialize (Hp _ _ _ eq_refl). cbn [polite rd_now rd_event] in Hp. destruct Hp as [Hun _]. rewrite Hun in Hc.
  pose proof (core_begin _ _ _ _ _ (Round now codes (ERecv src (MTaskCancel t))) Hc) as Hc0.
  subst s'. pattern (step s (Round now codes (ERecv src (MTaskCancel t)))). apply step_wp; [exact Hd|]. cbn [handle on_receive rd_event rd_now rd_codes].
  eapply wp_mono; [apply (cancel_spec no_graphs _ _ _ t Hc0); apply lookup_empty| |intros ? ? []]. cbv beta. intros _ s'. ss. destruct (decide (t ∈ s_unassigned s)) as [Hu|Hu].
  - intros (H1 & _ & _ & H2 & H3 & H4 & H5 & mon & cl & H6 & H7 & H8). apply (gd_clients _ G) in H7. split; [|split].
    + intros _. exists cl, mon. split; [tauto|]. split; [tauto|]. split; [exact H6|]. split; [rewrite H8, <- app_assoc; reflexivity|].
      intros Hi. assert (Ht : t ∈ dom (s_tasks s')) by (rewrite (c_places _ _ _ _ _ H1); apply elem_of_union_l, elem_of_list_to_set, elem_of_app; auto).
      rewrite H3, dom_delete_L in Ht. apply elem_of_difference in Ht as [_ Ht]. apply Ht, elem_of_singleton. reflexivity.
    + intros w Hh. exfalso. apply (c_disj _ _ _ _ _ Hc t); [apply elem_of_app; auto|]. rewrite (c_running _ _ _ _ _ Hc). apply elem_of_union_l, elem_of_dom. eauto.
    + intros Hn. destruct Hn. split; [exists cl|]; tauto.
  - cbn [lg_owner]. intros H. split; [done|]. split.
    + intros w Hh. rewrite Hh in H. destruct H as (mon & Hmon & ->). exists mon. split; [exact Hmon|]. split; [cbn; rewrite <- !app_assoc; reflexivity|split; reflexivity].
    + intros Hn. destruct (holder (s_log s) !! t) as [w|] eqn:Eh; [|rewrite H; split; [reflexivity|split; reflexivity]].
      destruct Hn. apply (unanswered_tasks s t G). apply elem_of_dom. rewrite (c_places _ _ _ _ _ Hc), (c_running _ _ _ _ _ Hc). apply elem_of_union_r, elem_of_union_l, elem_of_dom. eauto.
Qed.

(** ** Users of a function (C28) *)
Lemma polite_no_graph c g fs ts ns h : always (polite utf8) h → ¬ received c (MGraphTask g fs ts ns) h.
Proof. intros Hp [now Hi]. apply elem_of_list_split in Hi as (l1 & l2 & E). destruct (Hp _ _ _ E) as (_ & _ & []). Qed.
Lemma users_lemma c rs f t : let s := run c rs in c_max_waiting c < 0 → always (polite utf8) (s_log s) →
  (t ∈ users s f → unanswered t (s_log s) ∧ ∃ cl k, received cl (MTask k) (s_log s) ∧ accepted cl t (s_log s) ∧ task_id k = t ∧ task_function k = f) ∧
  (unanswered t (s_log s) → (∀ cl k, received cl (MTask k) (s_log s) → task_id k = t → task_function k = f) → t ∈ users s f).
Proof.
  intros s Hw Hp. pose proof (good_run c rs Hw Hp) as Hg. fold s in Hg. unfold users. rewrite elem_of_owned, (c_ftv _ _ _ _ _ (gd_core _ Hg)). cbn [x_inactive no_graphs]. rewrite (right_id_L ∅ (∪)), lookup_fmap.
  assert (Hc : ∀ k, s_tasks s !! t = Some k → ∃ cl, received cl (MTask k) (s_log s) ∧ accepted cl t (s_log s) ∧ task_id k = t).
  { intros k Hk. destruct (Inv3_run c rs) as [_ H3]. destruct (H3 (c_dead _ _ _ _ _ (gd_core _ Hg))) as [ev H3'].
    pose proof (c_key _ _ _ _ _ (gd_core _ Hg) _ _ Hk) as Hid.
    destruct (i3_tasks _ _ _ H3' _ _ Hk) as (cl & [Hs|(g & fs & ts & ns & n & Hr & _)] & Ha); [|destruct (polite_no_graph _ _ _ _ _ _ Hp Hr)].
    exists cl. rewrite Hid in Ha. auto. }
  rewrite <- (unanswered_tasks _ t Hg). split.
  - destruct (s_tasks s !! t) as [k|]; [|discriminate]. cbn. intros [= <-]. split; [eauto|]. destruct (Hc k eq_refl) as (cl & ? & ? & ?). eauto 10.
  - intros [k Hk] Hf. destruct (Hc k Hk) as (cl & Hr & _ & Hid). rewrite Hk. cbn. rewrite (Hf _ _ Hr Hid). reflexivity.
Qed.
