(** What the scheduler does when it gives up workers, exactly (C94). *)

From Verif.Model Require Import Base OneToManyDict PriorityQueue Allocator Message Sorter Client Worker Processor Scheduler System.
From Verif.Spec Require Import AllocatorSpec DictSpec SchedulerSpec SystemSpec FlowSpec.
From Verif.Proofs Require Import BaseProofs DictProofs AllocatorProofs SchedWp SchedCount SchedHold SchedContent SchedSend SchedPrim SchedFn SchedGlobal SchedStep SchedRemove SchedPlain SchedPolite FlowSched.

(** [g'] is [g] without the workers [ws], and nobody holds what they held. *)
Definition without (ws : list bytes) (g g' : ledger) : Prop :=
  lg_workers g' = lg_workers g ∖ list_to_set ws ∧ ∀ t w, lg_owner g' !! t = Some w ↔ lg_owner g !! t = Some w ∧ w ∉ ws.
Lemma without_nil g : without [] g g.
Proof. split; [cbn; set_solver|]. intros t w. split; [intros E; split; [exact E|apply not_elem_of_nil]|tauto]. Qed.
Lemma without_cons w ws g g1 g2 : without [w] g g1 → without ws g1 g2 → without (w :: ws) g g2.
Proof.
  intros [A1 A2] [B1 B2]. split; [rewrite B1, A1; cbn; set_solver|]. intros t i. rewrite B2, A2, !not_elem_of_cons. pose proof (not_elem_of_nil i). tauto.
Qed.

Lemma drop_exact xt g s w : core xt false g [] s → w ∈ lg_workers g →
  wp (wm_drop w) (λ _ s', ∃ g', without [w] g g' ∧ core xt false g' [] s' ∧ calm s s' ∧ s_tasks s' = s_tasks s ∧ s_funcs s' = s_funcs s ∧
    ∃ l, s_log s' = s_log s ++ l ∧ Forall hushed l ∧ LDisconnected w ∈ l) no_exn s.
Proof.
  intros H Hw. unfold wm_drop. wgo. assert (is_Some (s_alive s !! w)) as [p Ea]. { apply elem_of_dom. rewrite (c_alive _ _ _ _ _ H). exact Hw. } rewrite Ea.
  wgo. destruct (exact_remove_worker _ _ w (c_alloc _ _ _ _ _ H) Hw) as (a' & Er & Hm & Hx). rewrite Er. apply wp_ok. wgo. apply wp_order. intros ids Hp.
  match goal with |- wp _ _ _ ?s => set (s1 := s) end.
  assert (Hids : ∀ t, t ∈ ids ↔ lg_owner g !! t = Some w).
  { intros t. rewrite Hp, elem_of_elements. unfold tasks_of. rewrite elem_of_dom. split.
    - intros [y Hy]. apply map_filter_lookup_Some in Hy as [Hy E]. cbn in E. congruence.
    - intros Hy. exists w. apply map_filter_lookup_Some. auto. }
  set (g' := Ledger (lg_workers g ∖ {[w]}) (filter (λ p, p.2 ≠ w) (lg_owner g))) in *.
  assert (H1 : core xt false g' ids s1).
  { pose proof H as [H1 H2 H3 H4 H5 H6 H7 H8 H9 H10 H11 H12 H13 H14 H15 H16 H17 H18 H19 H20 H21 H22 H23 H24]. subst s1 g'. split; ss; auto; cbn [lg_owner lg_workers].
    - rewrite H15. rewrite dom_filter_back by exact Hids. clear. set_solver.
    - intros t Ht. apply map_filter_lookup_None. right. intros y Hy. apply Hids in Ht. cbn. intros E. apply E. congruence.
    - rewrite Hp. apply NoDup_elements.
    - rewrite dom_delete_L. congruence.
    - intros w' Hw'. apply H20. destruct Hw' as [y Hy]. apply lookup_delete_Some in Hy as [_ Hy]. eauto. }
  assert (Hl : logs (λ x, s_funcs x = s_funcs s) hushed (foreach ids tm_reroute)) by (apply logs_foreach; intros t _; apply tm_reroute_logs).
  pose proof (logs_wp _ _ _ s1 _ Hl eq_refl (reroutes_core xt false g' ids s1 H1)) as H2.
  assert (H3 : wp (foreach ids tm_reroute) (λ _ s', s_funcs s' = s_funcs s) (λ _ _, True) s1).
  { destruct (Hl s1 eq_refl) as [HI _]. unfold wp. destruct (foreach ids tm_reroute s1) as [s2 [u|e]]; [exact HI|exact I]. }
  apply wp_bind. eapply wp_mono; [exact (wp_and _ _ _ _ _ _ H2 H3)| |intros ? ? [[] _]]. cbv beta. intros _ s2 [((H4 & C2 & T2) & l & L & Hh) F]. wgo.
  exists g'. split; [|split; [exact H4|split; [|split; [exact T2|split; [exact F|]]]]].
  - split; [cbn; set_solver|]. intros t w'. cbn [lg_owner g']. unfold g'. cbn [lg_owner]. rewrite map_filter_lookup_Some. cbn. rewrite elem_of_list_singleton. reflexivity.
  - eapply calm_trans; [|exact C2]. split; auto. exists [LDisconnected w]. split; [reflexivity|repeat constructor].
  - exists (LDisconnected w :: l). split; [rewrite L; subst s1; ss; rewrite <- app_assoc; reflexivity|]. split; [constructor; [exact I|exact Hh]|left].
Qed.
Lemma drops_exact xt ws : ∀ g s, core xt false g [] s → NoDup ws → (∀ w, w ∈ ws → w ∈ lg_workers g) →
  wp (foreach ws (λ w, do* wm_drop w in ret tt)) (λ _ s', ∃ g', without ws g g' ∧ core xt false g' [] s' ∧ calm s s' ∧ s_tasks s' = s_tasks s ∧ s_funcs s' = s_funcs s ∧
    ∃ l, s_log s' = s_log s ++ l ∧ Forall hushed l ∧ ∀ w, w ∈ ws → LDisconnected w ∈ l) no_exn s.
Proof.
  induction ws as [|w ws IH]; intros g s H Hnd Hw; cbn [foreach].
  - exists g. split; [apply without_nil|]. split; [exact H|]. split; [calms|]. split; [reflexivity|]. split; [reflexivity|]. exists []. rewrite app_nil_r. split; [reflexivity|]. split; [constructor|]. intros w Hi. by apply elem_of_nil in Hi.
  - apply NoDup_cons in Hnd as [Hn Hnd]. wgo. eapply wp_mono; [apply (drop_exact xt g s w H); apply Hw; left| |auto]. cbv beta. intros _ s1 (g1 & W1 & H1 & C1 & T1 & F1 & l1 & L1 & Hh1 & D1). wgo.
    eapply wp_mono; [apply (IH g1 s1 H1 Hnd)| |auto].
    + intros i Hi. rewrite (proj1 W1), elem_of_difference. split; [apply Hw; right; exact Hi|]. cbn. intros E. assert (i = w) as -> by set_solver. done.
    + cbv beta. intros _ s2 (g2 & W2 & H2 & C2 & T2 & F2 & l2 & L2 & Hh2 & D2). exists g2. split; [eapply without_cons; eassumption|]. split; [exact H2|]. split; [eapply calm_trans; eassumption|].
      split; [congruence|]. split; [congruence|]. exists (l1 ++ l2). rewrite L2, L1, app_assoc. split; [reflexivity|]. split; [by apply Forall_app|].
      intros i [->|Hi]%elem_of_cons; apply elem_of_app; auto.
Qed.

Section crash_rounds.
  Context (xt : ext) (s : sched) (g : ledger) (now : Z) (codes : list (list nat)).
  Context (H : core xt false g [] s) (Hpk : undispatched (s_log s) = false).
  (** The check of the workers gives up the silent ones. *)
  Lemma round_removal :
    let s' := step s (Round now codes EWorkers) in
    ∃ ws g' out, moved xt s EWorkers out false g' s' ∧ without ws g g' ∧
      (∀ w, w ∈ ws ↔ ∃ p, s_alive s !! w = Some p ∧ c_timeout (s_cfg s) < now - p.1) ∧
      (∀ w m, (w, m) ∈ out → w ∈ lg_workers g ∧ ∃ n, 0 <= n ∧ m = MBalanceRequest n) ∧
      s_tasks s' = s_tasks s ∧ o_v2k (s_clients s') = o_v2k (s_clients s) ∧ s_funcs s' = s_funcs s ∧ ∀ w, w ∈ ws → LDisconnected w ∈ s_log s'.
  Proof.
    cbv zeta. pose proof (c_dead _ _ _ _ _ H) as Hd. apply step_exact; [exact Hd|].
    pose proof (begin_core xt s false g now codes H EWorkers) as H0. set (s0 := begin s (Round now codes EWorkers)) in *. cbn [handle rd_event].
    unfold wm_routine. apply wp_bind. pose proof (logs_wp _ _ _ _ _ (wm_balance_logs (s_alloc s0)) eq_refl (balance_core xt _ g s0 H0)) as H1.
    assert (H2 : wp wm_balance (λ _ s', s_funcs s' = s_funcs s ∧ s_alive s' = s_alive s) (λ _ _, True) s0).
    { unfold wm_balance. wstep. wstep. destruct (_ <=? _); [wstep; auto|]. wstep. wstep. wstep. wstep. destruct (negb _); [wsteps; auto|]. wstep. wstep. wstep. wstep.
      destruct (negb _); [wstep; auto|]. destruct (bool_decide _); [wstep; auto|]. wstep. apply wp_order. intros l' _.
      apply (wp_foreach _ (λ _ x, s_funcs x = s_funcs s ∧ s_alive x = s_alive s)); [auto|]. intros a l x Hx. wstep. exact Hx. }
    eapply wp_mono; [exact (wp_and _ _ _ _ _ _ H1 H2)| |intros ? ? [[] _]]. cbv beta. intros _ s1 [((H3 & C & T) & l & L & Hl) [F A]].
    unfold wm_clean. wgo. apply wp_order. intros ws Hp. rewrite A in Hp.
    assert (Hws : ∀ w, w ∈ ws ↔ ∃ p, s_alive s !! w = Some p ∧ c_timeout (s_cfg s) < now - p.1).
    { intros w. rewrite Hp, elem_of_list_fmap. split.
      - intros ([w' p] & -> & Hi). apply elem_of_list_filter in Hi as [Hs Hi]. apply elem_of_map_to_list in Hi. unfold wm_silent in Hs. apply Z.ltb_lt in Hs. rewrite (cm_cfg _ _ C), (cm_now _ _ C) in Hs. exists p. split; [exact Hi|exact Hs].
      - intros (p & Hi & Hs). exists (w, p). split; [reflexivity|]. apply elem_of_list_filter. split; [|apply elem_of_map_to_list; exact Hi]. apply Z.ltb_lt. rewrite (cm_cfg _ _ C), (cm_now _ _ C). exact Hs. }
    assert (Hnd : NoDup ws) by (rewrite Hp; apply NoDup_fst_filter).
    apply (core_codes _ _ _ _ _ (drop 1)) in H3.
    eapply wp_mono; [apply (drops_exact xt ws g _ H3 Hnd)| |auto].
    { intros w Hi. apply Hws in Hi as (p & Hi & _). rewrite <- (c_alive _ _ _ _ _ H). apply elem_of_dom. eauto. }
    cbv beta. intros _ s2 (g' & W & H4 & C4 & T4 & F4 & l4 & L4 & Hh4 & D4). ss. exists ws, g', (posted l).
    assert (Ho : ∀ w m, (w, m) ∈ posted l → w ∈ lg_workers g ∧ ∃ n, 0 <= n ∧ m = MBalanceRequest n).
    { intros w m Hi. apply elem_of_list_omap in Hi as (e & He & E). rewrite Forall_forall in Hl. destruct (Hl e He) as (w' & n & Hw & ->). injection E as -> <-.
      destruct (c_alloc _ _ _ _ _ H0) as (mq & ml & st & R & _). pose proof (step_balance _ _ _ _ _ R) as [Hb1 Hb2].
      assert (Hne : al_balance (s_alloc s0) ≠ ∅) by (intros E0; rewrite E0, lookup_empty in Hw; discriminate). destruct (Hb2 (Hb1 Hne)) as [B1 B2].
      destruct (proj1 (B1 w) (mk_is_Some _ _ Hw)) as [B3 B4]. split; [exact B3|]. exists n. split; [|reflexivity]. rewrite (B2 _ _ Hw).
      assert (Hn : 0 < Z.of_nat (size (lg_workers g))). { apply Z.lt_le_trans with 1; [lia|]. assert (size (lg_workers g) ≠ 0%nat); [|lia]. intros E0%size_empty_inv. set_solver. }
      pose proof (Z.div_le_upper_bound (total_load g) (Z.of_nat (size (lg_workers g))) (load g w) Hn). lia. }
    split; [|split; [exact W|split; [exact Hws|split; [exact Ho|split; [rewrite T4, T; reflexivity|split; [|split; [congruence|]]]]]]].
    - split.
      + rewrite (cm_cfg _ _ C4). exact (cm_cfg _ _ C).
      + exact H4.
      + rewrite L4, posted_app, (hushed_posted _ Hh4), app_nil_r, L, posted_app. subst s0. ss. rewrite posted_app. cbn. rewrite app_nil_r. reflexivity.
      + cbn [stale]. rewrite Hpk. replace (existsb is_ok (posted l)) with false; [reflexivity|]. symmetry. apply not_true_iff_false. rewrite existsb_exists. intros ([w m] & Hi & E).
        apply elem_of_list_In, Ho in Hi as (_ & n & _ & ->). discriminate.
      + discriminate.
    - rewrite (cm_clients _ _ C4). ss. rewrite (cm_clients _ _ C). reflexivity.
    - intros w Hi. rewrite L4. apply elem_of_app. right. exact (D4 w Hi).
  Qed.
End crash_rounds.
