(** Proofs about the allocator: the ledger specification in every history
    (without exactness) and in every disciplined history (exactly). *)

From Verif.Model Require Import Base Heapq PriorityQueue OneToManyDict Allocator.
From Verif.Spec Require Import PriorityQueueSpec DictSpec AllocatorSpec.
From Verif.Proofs Require Import BaseProofs HeapqProofs PriorityQueueProofs DictProofs.

Lemma elem_of_tasks_of g w t : t ∈ tasks_of g w ↔ lg_owner g !! t = Some w.
Proof. apply (elem_of_owned (lg_owner g) w t). Qed.

Lemma tasks_of_assign g t w w' : lg_owner g !! t = None →
  tasks_of (Ledger (lg_workers g) (<[t := w]> (lg_owner g))) w'
  = if decide (w' = w) then {[t]} ∪ tasks_of g w else tasks_of g w'.
Proof. intros Ht. apply (owned_insert (lg_owner g) w t w'). auto. Qed.

Lemma load_assign g t w w' : lg_owner g !! t = None →
  load (Ledger (lg_workers g) (<[t := w]> (lg_owner g))) w'
  = if decide (w' = w) then load g w + 1 else load g w'.
Proof.
  intros Ht. unfold load. rewrite tasks_of_assign by exact Ht.
  destruct (decide (w' = w)) as [->|]; [|reflexivity].
  rewrite size_union, size_singleton; [lia|].
  apply disjoint_singleton_l. rewrite elem_of_tasks_of. congruence.
Qed.

Lemma tasks_of_delete W f t w' :
  tasks_of (Ledger W (delete t f)) w' = tasks_of (Ledger W f) w' ∖ {[t]}.
Proof.
  apply leibniz_equiv. intros x. rewrite elem_of_difference, elem_of_singleton, !elem_of_tasks_of. cbn.
  rewrite lookup_delete_Some. intuition congruence.
Qed.

Lemma load_delete g t w' :
  load (Ledger (lg_workers g) (delete t (lg_owner g))) w'
  = if decide (lg_owner g !! t = Some w') then load g w' - 1 else load g w'.
Proof.
  unfold load. rewrite tasks_of_delete. destruct g as [W f]; cbn.
  destruct (decide (f !! t = Some w')) as [E|E].
  - rewrite size_difference.
    + rewrite size_singleton.
      assert (t ∈ tasks_of (Ledger W f) w') by (apply elem_of_tasks_of; exact E).
      assert (size (tasks_of (Ledger W f) w') ≠ 0%nat).
      { intros Hz. apply size_empty_inv in Hz. set_solver. }
      lia.
    + apply singleton_subseteq_l. apply elem_of_tasks_of. exact E.
  - f_equal. f_equal. apply leibniz_equiv. intros x.
    rewrite elem_of_difference, elem_of_singleton, !elem_of_tasks_of. cbn. split; [tauto|].
    intros H. split; [exact H|]. intros ->. congruence.
Qed.

Lemma tasks_of_remove_worker g w w' :
  tasks_of (Ledger (lg_workers g ∖ {[w]}) (filter (λ p, p.2 ≠ w) (lg_owner g))) w'
  = if decide (w' = w) then ∅ else tasks_of g w'.
Proof.
  apply leibniz_equiv. intros t. rewrite elem_of_tasks_of. cbn. rewrite map_filter_lookup_Some. cbn.
  destruct (decide (w' = w)) as [->|?].
  - split; [intros [_ ?]; done|]. intros H. apply elem_of_empty in H as [].
  - rewrite elem_of_tasks_of. intuition congruence.
Qed.

Lemma load_nonneg g w : 0 <= load g w.
Proof. unfold load. lia. Qed.

Lemma pop_tasks_eq (m : gmap bytes bytes) ts : pop_tasks m ts = pop_all m ts.
Proof.
  revert m; induction ts as [|t ts IH]; intros m; cbn; [reflexivity|].
  destruct (m !! t); [apply IH|reflexivity].
Qed.

Record al_rep (a : alloc) (g : ledger) (mq ml : gmap bytes Z) (st : gset bytes) : Prop := ALRep {
  ar_pq    : pq_rep (al_pq a) mq ml st;
  ar_t2w   : al_t2w a = lg_owner g;
  ar_w2t   : ∀ w ts, al_w2t a !! w = Some ts ↔ w ∈ lg_workers g ∧ ts = tasks_of g w;
  ar_mq    : ∀ w, is_Some (mq !! w) ↔ w ∈ lg_workers g;
  ar_owner : ∀ t w, lg_owner g !! t = Some w → w ∈ lg_workers g;
  ar_ml    : ∀ w p, ml !! w = Some p → load g w <= p;
  ar_max   : 0 <= al_max a → ∀ w p, mq !! w = Some p → p <= al_max a }.

Section step.
Context (a : alloc) (g : ledger) (mq ml : gmap bytes Z) (st : gset bytes) (R : al_rep a g mq ml st).

Lemma ar_mq_load w p : mq !! w = Some p → load g w <= p.
Proof.
  intros Hp. destruct (proj2 (pq_rep_ml_dom _ _ _ _ w (ar_pq _ _ _ _ _ R))) as [p' Hp']; [eauto|].
  pose proof (ar_ml _ _ _ _ _ R w p' Hp'). pose proof (pr_le _ _ _ _ (ar_pq _ _ _ _ _ R) w p' p Hp' Hp). lia.
Qed.

Lemma ar_mq_pos w p : mq !! w = Some p → 0 <= p.
Proof. intros Hp. pose proof (ar_mq_load w p Hp). pose proof (load_nonneg g w). lia. Qed.

Lemma load_zero_out w : w ∉ lg_workers g → load g w = 0.
Proof.
  intros Hw. unfold load. assert (tasks_of g w = ∅) as ->; [|reflexivity].
  apply leibniz_equiv, elem_of_equiv_empty. intros t Ht. apply elem_of_tasks_of in Ht.
  apply Hw. eapply ar_owner; eauto.
Qed.

Lemma ar_ledger_ok : ledger_ok (al_max a) g.
Proof.
  split; [apply (ar_owner _ _ _ _ _ R)|]. intros Hm w.
  destruct (decide (w ∈ lg_workers g)) as [Hw|Hw].
  - apply (ar_mq _ _ _ _ _ R) in Hw as [p Hp].
    pose proof (ar_mq_load w p Hp). pose proof (ar_max _ _ _ _ _ R Hm w p Hp). lia.
  - rewrite load_zero_out by exact Hw. exact Hm.
Qed.

Lemma ar_queue_nil : pq_queue (al_pq a) = [] ↔ lg_workers g = ∅.
Proof.
  rewrite (pq_rep_nil _ _ _ _ (ar_pq _ _ _ _ _ R)). split.
  - intros E. apply leibniz_equiv, elem_of_equiv_empty. intros w Hw.
    apply (ar_mq _ _ _ _ _ R) in Hw as [p Hp]. rewrite E, lookup_empty in Hp. discriminate.
  - intros E. apply map_empty. intros w. destruct (mq !! w) as [p|] eqn:Ep; [|reflexivity].
    assert (Hw : w ∈ lg_workers g) by (apply (ar_mq _ _ _ _ _ R); eauto).
    rewrite E in Hw. apply elem_of_empty in Hw as [].
Qed.

Lemma step_add w :
  ∃ a' b, al_add_worker a w = (a', b) ∧ al_max a' = al_max a ∧
  if decide (w ∈ lg_workers g) then b = false ∧ a' = a
  else b = true ∧
       al_rep a' (Ledger ({[w]} ∪ lg_workers g) (lg_owner g)) (<[w := 0]> mq) (<[w := 0]> ml) st ∧
       load g w = 0.
Proof.
  unfold al_add_worker. destruct (decide (w ∈ lg_workers g)) as [Hw|Hw].
  - assert (al_w2t a !! w = Some (tasks_of g w)) as -> by (apply (ar_w2t _ _ _ _ _ R); auto).
    eauto 10.
  - assert (al_w2t a !! w = None) as ->.
    { destruct (al_w2t a !! w) eqn:E; [|reflexivity]. apply (ar_w2t _ _ _ _ _ R) in E as [? _]. done. }
    eexists _, true. split; [reflexivity|]. split; [reflexivity|]. split; [reflexivity|].
    split; [|apply load_zero_out; exact Hw].
    assert (Hn : mq !! w = None).
    { destruct (mq !! w) eqn:E; [|reflexivity]. exfalso. apply Hw, (ar_mq _ _ _ _ _ R). eauto. }
    split; cbn.
    + apply pq_put_rep; [apply (ar_pq _ _ _ _ _ R)|exact Hn].
    + apply (ar_t2w _ _ _ _ _ R).
    + intros w' ts. rewrite lookup_insert_Some, (ar_w2t _ _ _ _ _ R), elem_of_union, elem_of_singleton.
      assert (Ht : tasks_of (Ledger ({[w]} ∪ lg_workers g) (lg_owner g)) w' = tasks_of g w') by reflexivity.
      rewrite Ht. assert (He : w' = w → tasks_of g w' = ∅).
      { intros ->. pose proof (load_zero_out w Hw) as Hl. unfold load in Hl.
        apply leibniz_equiv, size_empty_inv. lia. }
      split.
      * intros [[<- <-]|[Hne [H1 H2]]]; [rewrite He by reflexivity; auto|auto].
      * intros [[->|H1] ->]; [left; rewrite He by reflexivity; auto|]. right. split; [|auto].
        intros ->. done.
    + intros w'. rewrite elem_of_union, elem_of_singleton, lookup_insert_is_Some, (ar_mq _ _ _ _ _ R).
      destruct (decide (w = w')); intuition congruence.
    + intros t w' Ht. apply elem_of_union. right. eapply ar_owner; eauto.
    + intros w' p. rewrite lookup_insert_Some. intros [[<- <-]|[_ H]].
      * pose proof (load_zero_out w Hw) as Hl. unfold load in *. change (tasks_of (Ledger ({[w]} ∪ lg_workers g) (lg_owner g)) w) with (tasks_of g w). lia.
      * apply (ar_ml _ _ _ _ _ R w' p H).
    + intros Hm w' p. rewrite lookup_insert_Some. intros [[<- <-]|[_ H]]; [lia|].
      eapply ar_max; eauto.
Qed.

Lemma step_assign t :
  match pq_queue (al_pq a) with
  | [] => lg_workers g = ∅ ∧ al_assign a t = Ok (a, Waits)
  | _ => ∃ a' r p d, al_assign a t = Ok (a', r) ∧ al_max a' = al_max a ∧
         mq !! d = Some p ∧ (∀ p' d', mq !! d' = Some p' → entry_le (p, d) (p', d')) ∧
         if decide (p = al_max a) then r = AllFull ∧ al_rep a' g mq (<[d := p]> ml) (st ∖ {[d]})
         else match lg_owner g !! t with
              | Some w => r = Assigned w ∧ al_rep a' g mq (<[d := p]> ml) (st ∖ {[d]})
              | None => r = Assigned d ∧
                  al_rep a' (Ledger (lg_workers g) (<[t := d]> (lg_owner g)))
                         (<[d := p + 1]> mq) (<[d := p + 1]> ml) (st ∖ {[d]})
              end
  end.
Proof.
  destruct (pq_queue (al_pq a)) as [|x xs] eqn:Eq.
  - split; [apply ar_queue_nil; exact Eq|]. unfold al_assign. rewrite Eq. reflexivity.
  - destruct (pq_get_rep _ _ _ _ (ar_pq _ _ _ _ _ R)) as (q' & p & d & Hget & Hd & Hmin & R');
      [rewrite Eq; discriminate|].
    assert (Hput : ∀ k, pq_rep (pq_put q' (k, d)) (<[d := k]> mq) (<[d := k]> ml) (st ∖ {[d]})).
    { intros k. pose proof (pq_put_rep _ _ _ _ k d R' (lookup_delete mq d)) as H.
      rewrite !insert_delete_insert in H. exact H. }
    assert (Hsame : al_rep (set_pq a (pq_put q' (p, d))) g mq (<[d := p]> ml) (st ∖ {[d]})).
    { split; cbn; try (apply R).
      - specialize (Hput p). rewrite (insert_id mq) in Hput by exact Hd. exact Hput.
      - intros w k. rewrite lookup_insert_Some. intros [[<- <-]|[_ H]].
        + apply ar_mq_load. exact Hd.
        + eapply ar_ml; eauto. }
    assert (Hw : d ∈ lg_workers g) by (apply (ar_mq _ _ _ _ _ R); eauto).
    unfold al_assign. rewrite Eq, Hget. cbn.
    destruct (Z.eqb_spec p (al_max a)) as [Ep|Ep].
    + eexists _, _, p, d. split; [reflexivity|]. split; [reflexivity|]. split; [exact Hd|]. split; [exact Hmin|].
      rewrite decide_True by exact Ep. auto.
    + rewrite (ar_t2w _ _ _ _ _ R). destruct (lg_owner g !! t) as [w|] eqn:Et.
      * eexists _, _, p, d. split; [reflexivity|]. split; [reflexivity|]. split; [exact Hd|]. split; [exact Hmin|].
        rewrite decide_False by exact Ep. auto.
      * assert (al_w2t a !! d = Some (tasks_of g d)) as -> by (apply (ar_w2t _ _ _ _ _ R); auto).
        eexists _, _, p, d. split; [reflexivity|]. split; [reflexivity|]. split; [exact Hd|]. split; [exact Hmin|].
        rewrite decide_False by exact Ep. split; [reflexivity|].
        split; cbn.
        -- apply Hput.
        -- reflexivity.
        -- intros w' ts. rewrite lookup_insert_Some, (ar_w2t _ _ _ _ _ R), tasks_of_assign by exact Et.
           destruct (decide (w' = d)) as [->|Hne].
           ++ split; [intros [[_ <-]|[? _]]; [auto|congruence]|]. intros [_ ->]. auto.
           ++ split; [intros [[? _]|[_ ?]]; [congruence|auto]|]. intros [? ->]. auto.
        -- intros w'. rewrite lookup_insert_is_Some, (ar_mq _ _ _ _ _ R).
           destruct (decide (d = w')) as [<-|]; intuition congruence.
        -- intros t' w'. rewrite lookup_insert_Some. intros [[_ <-]|[_ H]]; [exact Hw|].
           eapply ar_owner; eauto.
        -- intros w' k. rewrite load_assign by exact Et. rewrite lookup_insert_Some.
           destruct (decide (w' = d)) as [->|Hne].
           ++ intros [[_ <-]|[? _]]; [|congruence]. pose proof (ar_mq_load d p Hd). lia.
           ++ intros [[? _]|[_ H]]; [congruence|]. exact (ar_ml _ _ _ _ _ R w' k H).
        -- intros Hm w' k. rewrite lookup_insert_Some. intros [[_ <-]|[_ H]].
           ++ pose proof (ar_max _ _ _ _ _ R Hm d p Hd). lia.
           ++ eapply ar_max; eauto.
Qed.

Lemma step_remove_task t :
  match lg_owner g !! t with
  | None => al_remove_task a t = Ok (a, None)
  | Some w => ∃ p p', mq !! w = Some p ∧ ml !! w = Some p' ∧
      let g' := Ledger (lg_workers g) (delete t (lg_owner g)) in
      if decide (w ∈ st) then
        if decide (p' = p) then
          ∃ a', al_remove_task a t = Ok (a', Some w) ∧ al_max a' = al_max a ∧
                al_rep a' g' mq (<[w := p - 1]> ml) st
        else al_remove_task a t = Raise ValueError
      else ∃ a', al_remove_task a t = Ok (a', Some w) ∧ al_max a' = al_max a ∧
                 al_rep a' g' (<[w := p - 1]> mq) (<[w := p - 1]> ml) st
  end.
Proof.
  unfold al_remove_task. rewrite (ar_t2w _ _ _ _ _ R).
  destruct (lg_owner g !! t) as [w|] eqn:Et; [|reflexivity].
  assert (Hw : w ∈ lg_workers g) by (eapply ar_owner; eauto).
  destruct (proj2 (ar_mq _ _ _ _ _ R w) Hw) as [p Hp].
  destruct (proj2 (pq_rep_ml_dom _ _ _ _ w (ar_pq _ _ _ _ _ R))) as [p' Hp']; [eauto|].
  exists p, p'. split; [exact Hp|]. split; [exact Hp'|]. cbn zeta.
  assert (al_w2t a !! w = Some (tasks_of g w)) as -> by (apply (ar_w2t _ _ _ _ _ R); auto).
  rewrite bool_decide_eq_true_2 by (apply elem_of_tasks_of; exact Et).
  assert (Hgo : ∀ q mq', pq_rep q mq' (<[w := p' - 1]> ml) st →
     (∀ w', is_Some (mq' !! w') ↔ w' ∈ lg_workers g) →
     (0 <= al_max a → ∀ w' k, mq' !! w' = Some k → k <= al_max a) →
     al_rep (Alloc (al_max a) (<[w := tasks_of g w ∖ {[t]}]> (al_w2t a)) (delete t (lg_owner g)) q)
            (Ledger (lg_workers g) (delete t (lg_owner g))) mq' (<[w := p' - 1]> ml) st).
  { intros q mq' Rq Hd Hmx. split; cbn; auto.
    - intros w' ts. rewrite tasks_of_delete. rewrite lookup_insert_Some, (ar_w2t _ _ _ _ _ R).
      replace (tasks_of (Ledger (lg_workers g) (lg_owner g)) w') with (tasks_of g w') by reflexivity.
      destruct (decide (w' = w)) as [->|Hne].
      + split; [intros [[_ <-]|[? _]]; [auto|congruence]|]. intros [_ ->]. auto.
      + assert (Hnt : tasks_of g w' ∖ {[t]} = tasks_of g w').
        { apply leibniz_equiv. intros x. rewrite elem_of_difference, elem_of_singleton, elem_of_tasks_of.
          intuition congruence. }
        rewrite Hnt. split; [intros [[? _]|[_ ?]]; [congruence|auto]|]. intros [? ->]. auto.
    - intros t' w' H. apply lookup_delete_Some in H as [_ H]. eapply ar_owner; eauto.
    - intros w' k. rewrite load_delete. rewrite lookup_insert_Some.
      destruct (decide (lg_owner g !! t = Some w')) as [E|E].
      + rewrite Et in E. injection E as <-. intros [[_ <-]|[? _]]; [|congruence].
        pose proof (ar_ml _ _ _ _ _ R w p' Hp'). lia.
      + intros [[<- _]|[_ H]]; [congruence|]. eapply ar_ml; eauto. }
  destruct (decide (w ∈ st)) as [Hst|Hst].
  - pose proof (pq_decrease_stale _ _ _ _ w p p' (ar_pq _ _ _ _ _ R) Hp Hp' Hst) as H.
    destruct (decide (p' = p)) as [->|Hne].
    + destruct H as (q' & -> & Rq). eexists; split; [reflexivity|]. split; [reflexivity|].
      apply Hgo; [exact Rq|apply (ar_mq _ _ _ _ _ R)|apply (ar_max _ _ _ _ _ R)].
    + rewrite H. reflexivity.
  - pose proof (pq_rep_fresh_eq _ _ _ _ w (ar_pq _ _ _ _ _ R) Hst) as Heq.
    assert (p' = p) as -> by congruence.
    destruct (pq_decrease_fresh _ _ _ _ w p (ar_pq _ _ _ _ _ R) Hp Hst) as (q' & -> & Rq).
    eexists; split; [reflexivity|]. split; [reflexivity|]. apply Hgo; [exact Rq| |].
    + intros w'. rewrite lookup_insert_is_Some, (ar_mq _ _ _ _ _ R).
      destruct (decide (w = w')) as [<-|]; intuition congruence.
    + intros Hm w' k. rewrite lookup_insert_Some. intros [[_ <-]|[_ H]].
      * pose proof (ar_max _ _ _ _ _ R Hm w p Hp). lia.
      * eapply ar_max; eauto.
Qed.

Lemma step_remove_worker w :
  if decide (w ∈ lg_workers g) then
    if decide (w ∈ st) then ∃ e, al_remove_worker a w = Raise e
    else ∃ a', al_remove_worker a w = Ok (a', tasks_of g w) ∧ al_max a' = al_max a ∧
               al_rep a' (Ledger (lg_workers g ∖ {[w]}) (filter (λ p, p.2 ≠ w) (lg_owner g)))
                      (delete w mq) (delete w ml) st
  else al_remove_worker a w = Ok (a, ∅).
Proof.
  unfold al_remove_worker. destruct (decide (w ∈ lg_workers g)) as [Hw|Hw].
  2:{ destruct (al_w2t a !! w) eqn:E; [|reflexivity]. apply (ar_w2t _ _ _ _ _ R) in E as [? _]. done. }
  assert (al_w2t a !! w = Some (tasks_of g w)) as -> by (apply (ar_w2t _ _ _ _ _ R); auto).
  destruct (decide (w ∈ st)) as [Hst|Hst].
  - destruct (pq_remove_stale _ _ _ _ w (ar_pq _ _ _ _ _ R) Hst) as [e ->]; [apply ar_mq_pos|].
    exists e. reflexivity.
  - destruct (pq_remove_fresh _ _ _ _ w (ar_pq _ _ _ _ _ R)) as (q' & -> & Rq);
      [apply (ar_mq _ _ _ _ _ R); exact Hw|exact Hst|apply ar_mq_pos|].
    cbn. rewrite pop_tasks_eq, (ar_t2w _ _ _ _ _ R), pop_all_spec; [|apply NoDup_elements|].
    2:{ intros t Ht. apply elem_of_elements, elem_of_tasks_of in Ht. eauto. }
    cbn.
    assert (Hf : filter (λ p, p.1 ∉ elements (tasks_of g w)) (lg_owner g)
                 = filter (λ p, p.2 ≠ w) (lg_owner g)).
    { apply map_filter_ext. intros t w' Ht. cbn. rewrite elem_of_elements, elem_of_tasks_of, Ht.
      split; congruence. }
    rewrite Hf. eexists; split; [reflexivity|]. split; [reflexivity|].
    split; cbn; auto.
    + intros w' ts. rewrite lookup_delete_Some, (ar_w2t _ _ _ _ _ R), tasks_of_remove_worker.
      rewrite elem_of_difference, elem_of_singleton.
      destruct (decide (w' = w)) as [->|Hne]; intuition congruence.
    + intros w'. rewrite elem_of_difference, elem_of_singleton, <- (ar_mq _ _ _ _ _ R).
      rewrite lookup_delete_is_Some. intuition congruence.
    + intros t w' Ht. apply map_filter_lookup_Some in Ht as [Ht Hne]. cbn in Hne.
      apply elem_of_difference. split; [eapply ar_owner; eauto|]. rewrite elem_of_singleton. exact Hne.
    + intros w' p Hp. apply lookup_delete_Some in Hp as [Hne Hp].
      unfold load. rewrite tasks_of_remove_worker. rewrite decide_False by congruence.
      apply (ar_ml _ _ _ _ _ R w' p Hp).
    + intros Hm w' p Hp. apply lookup_delete_Some in Hp as [_ Hp]. eapply ar_max; eauto.
Qed.

Lemma step_available :
  match pq_queue (al_pq a) with
  | [] => lg_workers g = ∅ ∧ al_has_available a = Ok (a, false)
  | _ => ∃ a' p d, al_has_available a = Ok (a', negb (p =? al_max a)) ∧ al_max a' = al_max a ∧
         mq !! d = Some p ∧ (∀ p' d', mq !! d' = Some p' → entry_le (p, d) (p', d')) ∧
         al_rep a' g mq ml (st ∪ {[d]})
  end.
Proof.
  destruct (pq_queue (al_pq a)) as [|x xs] eqn:Eq.
  - split; [apply ar_queue_nil; exact Eq|]. unfold al_has_available. rewrite Eq. reflexivity.
  - destruct (pq_max_rep _ _ _ _ (ar_pq _ _ _ _ _ R)) as (q' & p & d & Hmax & Hd & Hmin & R');
      [rewrite Eq; discriminate|].
    unfold al_has_available. rewrite Eq, Hmax. cbn.
    eexists _, p, d. split; [reflexivity|]. split; [reflexivity|]. split; [exact Hd|]. split; [exact Hmin|].
    split; cbn; try (apply R). exact R'.
Qed.

Lemma step_stats w f s :
  al_statistics a !! w = Some (f, s) ↔ w ∈ lg_workers g ∧ s = load g w ∧ f = al_max a - s.
Proof.
  unfold al_statistics. rewrite lookup_fmap, fmap_Some. split.
  - intros (ts & Hts & E). apply (ar_w2t _ _ _ _ _ R) in Hts as [Hw ->]. injection E as -> ->. auto.
  - intros (Hw & -> & ->). exists (tasks_of g w). split; [apply (ar_w2t _ _ _ _ _ R); auto|]. reflexivity.
Qed.

Lemma step_ids : al_worker_ids a = lg_workers g.
Proof.
  unfold al_worker_ids. apply leibniz_equiv. intros w. rewrite elem_of_dom. split.
  - intros [ts Hts]. apply (ar_w2t _ _ _ _ _ R) in Hts as [? _]. assumption.
  - intros Hw. exists (tasks_of g w). apply (ar_w2t _ _ _ _ _ R). auto.
Qed.

(** balance *)
Lemma sum_loads ws : NoDup ws →
  foldr Z.add 0 (load g <$> ws)
  = Z.of_nat (size (dom (filter (λ p, p.2 ∈ ws) (lg_owner g)))).
Proof.
  induction ws as [|w ws IH]; intros Hnd; cbn [fmap list_fmap foldr].
  - assert (dom (filter (λ p : bytes * bytes, p.2 ∈ []) (lg_owner g)) = ∅) as ->; [|reflexivity].
    apply leibniz_equiv, elem_of_equiv_empty. intros t Ht. apply elem_of_dom in Ht as [w Hw].
    apply map_filter_lookup_Some in Hw as [_ Hw]. inversion Hw.
  - apply NoDup_cons in Hnd as [Hw Hnd]. rewrite IH by exact Hnd.
    assert (E : dom (filter (λ p : bytes * bytes, p.2 ∈ w :: ws) (lg_owner g))
                = tasks_of g w ∪ dom (filter (λ p : bytes * bytes, p.2 ∈ ws) (lg_owner g))).
    { apply leibniz_equiv. intros t. rewrite elem_of_union, elem_of_tasks_of, !elem_of_dom.
      unfold is_Some. setoid_rewrite map_filter_lookup_Some. cbn. setoid_rewrite elem_of_cons.
      split.
      - intros (w' & H1 & [->|H2]); [auto|]. right. eauto.
      - intros [H|(w' & H1 & H2)]; eauto. }
    rewrite E, size_union; [unfold load; lia|].
    intros t H1 H2. apply elem_of_tasks_of in H1. apply elem_of_dom in H2 as [w' H2].
    apply map_filter_lookup_Some in H2 as [H2 H3]. cbn in H3. congruence.
Qed.

Lemma step_balance : advice_ok g (al_balance a).
Proof.
  set (counts := (λ ts : gset bytes, Z.of_nat (size ts)) <$> al_w2t a : gmap bytes Z).
  assert (Hc : ∀ w c, counts !! w = Some c ↔ w ∈ lg_workers g ∧ c = load g w).
  { intros w c. unfold counts. rewrite lookup_fmap, fmap_Some. split.
    - intros (ts & Hts & ->). apply (ar_w2t _ _ _ _ _ R) in Hts as [Hw ->]. auto.
    - intros [Hw ->]. exists (tasks_of g w). split; [apply (ar_w2t _ _ _ _ _ R); auto|reflexivity]. }
  set (ws := (map_to_list counts).*1).
  assert (Hws : ∀ w, w ∈ ws ↔ w ∈ lg_workers g).
  { intros w. unfold ws. rewrite elem_of_list_fmap. split.
    - intros ([w' c] & -> & Hin). apply elem_of_map_to_list, Hc in Hin as [? _]. assumption.
    - intros Hw. exists (w, load g w). split; [reflexivity|]. apply elem_of_map_to_list, Hc. auto. }
  assert (Hnd : NoDup ws) by apply NoDup_fst_map_to_list.
  assert (Hv : (map_to_list counts).*2 = load g <$> ws).
  { unfold ws. rewrite <- list_fmap_compose. apply list_fmap_ext. intros i [w c] Hi. cbn.
    apply elem_of_list_lookup_2, elem_of_map_to_list, Hc in Hi as [_ ->]. reflexivity. }
  assert (Hlen : length (load g <$> ws) = size (lg_workers g)).
  { rewrite fmap_length. rewrite <- (size_list_to_set (C := gset bytes)) by exact Hnd. f_equal.
    apply leibniz_equiv. intros w. rewrite elem_of_list_to_set. apply Hws. }
  assert (Hsum : foldr Z.add 0 (load g <$> ws) = total_load g).
  { rewrite sum_loads by exact Hnd. unfold total_load. rewrite size_dom. do 2 f_equal.
    apply map_filter_id. intros t w Ht. cbn. apply Hws. eapply ar_owner; eauto. }
  assert (Hbusy : existsb (λ c, negb (c =? 0)) (load g <$> ws) = true ↔
                  ∃ w, w ∈ lg_workers g ∧ 0 < load g w).
  { rewrite existsb_exists. split.
    - intros (c & Hin & Hne). apply elem_of_list_In, elem_of_list_fmap in Hin as (w & -> & Hw).
      exists w. split; [apply Hws; exact Hw|]. pose proof (load_nonneg g w). lia.
    - intros (w & Hw & Hl). exists (load g w). split; [|lia].
      apply elem_of_list_In, elem_of_list_fmap. exists w. split; [reflexivity|]. apply Hws. exact Hw. }
  assert (Hidle : negb (forallb (λ c, negb (c =? 0)) (load g <$> ws)) = true ↔
                  ∃ w, w ∈ lg_workers g ∧ load g w = 0).
  { rewrite negb_true_iff. split.
    - intros Hf. destruct (Exists_dec (λ c, c = 0) (load g <$> ws)) as [He|He].
      + apply Exists_exists in He as (c & Hin & ->). apply elem_of_list_fmap in Hin as (w & Hl & Hw).
        exists w. split; [apply Hws; exact Hw|congruence].
      + exfalso. assert (forallb (λ c, negb (c =? 0)) (load g <$> ws) = true); [|congruence].
        apply forallb_forall. intros c Hin. apply negb_true_iff, Z.eqb_neq. intros ->.
        apply He, Exists_exists. exists 0. split; [apply elem_of_list_In; exact Hin|reflexivity].
    - intros (w & Hw & Hl). destruct (forallb _ _) eqn:Ef; [|reflexivity].
      rewrite forallb_forall in Ef. specialize (Ef (load g w)).
      rewrite Hl in Ef. cbn in Ef. assert (false = true); [|congruence]. apply Ef.
      apply elem_of_list_In, elem_of_list_fmap. exists w. split; [congruence|]. apply Hws. exact Hw. }
  unfold al_balance. fold counts. rewrite Hv. rewrite Hsum, Hlen.
  destruct (existsb _ _) eqn:Eb; cbn [negb].
  2:{ split; [intros H; done|]. intros [_ H]. apply Hbusy in H. discriminate. }
  destruct (negb (forallb _ _)) eqn:Ei; cbn [negb].
  2:{ split; [intros H; done|]. intros [H _]. apply Hidle in H. discriminate. }
  assert (Hn : 0 < Z.of_nat (size (lg_workers g))).
  { destruct (proj1 Hbusy eq_refl) as (w & Hw & _).
    assert (size (lg_workers g) ≠ 0%nat); [|lia]. intros E. apply size_empty_inv in E. set_solver. }
  split.
  - intros _. split; [apply Hidle|apply Hbusy]; reflexivity.
  - intros _. split.
    + intros w. unfold is_Some. setoid_rewrite lookup_omap_Some. split.
      * intros (k & c & Hk & Hcc). apply Hc in Hcc as [Hw ->].
        destruct (_ >? _) eqn:E; [|discriminate]. apply Z.gtb_lt in E. split; [exact Hw|]. lia.
      * intros [Hw Hgt]. eexists _, (load g w). split; [|apply Hc; auto].
        destruct (_ >? _) eqn:E; [reflexivity|]. rewrite Z.gtb_ltb in E. apply Z.ltb_ge in E. lia.
    + intros w k Hk. apply lookup_omap_Some in Hk as (c & Hk & Hcc). apply Hc in Hcc as [Hw ->].
      destruct (_ >? _) eqn:E; [|discriminate]. injection Hk as <-. unfold ceil_div.
      set (n := Z.of_nat (size (lg_workers g))) in *.
      replace (- (load g w * n - total_load g)) with (total_load g + (- load g w) * n) by ring.
      rewrite Z.div_add by lia. ring.
Qed.

End step.

(** Every call, in any state. *)
Lemma al_call_weak a g mq ml st o a' r :
  al_rep a g mq ml st → al_call a o = Ok (a', r) →
  ∃ g' mq' ml' st', al_does false (al_max a) g o g' r ∧ al_rep a' g' mq' ml' st' ∧ al_max a' = al_max a.
Proof.
  intros R. destruct o as [w|w|t|t|t| | | |]; cbn [al_call].
  - destruct (step_add _ _ _ _ _ R w) as (a1 & b & -> & Hmax & H).
    destruct (decide (w ∈ lg_workers g)) as [Hw|Hw].
    + destruct H as [-> ->]. intros [= <- <-]. exists g, mq, ml, st. split; [constructor; exact Hw|]. auto.
    + destruct H as (-> & R' & _). intros [= <- <-]. eexists _, _, _, _. split; [constructor; exact Hw|]. eauto.
  - pose proof (step_remove_worker _ _ _ _ _ R w) as H. destruct (decide (w ∈ lg_workers g)) as [Hw|Hw].
    + destruct (decide (w ∈ st)) as [Hst|Hst].
      * destruct H as [e ->]. discriminate.
      * destruct H as (a1 & -> & Hmax & R'). cbn. intros [= <- <-]. eexists _, _, _, _.
        split; [constructor; exact Hw|]. eauto.
    + rewrite H. cbn. intros [= <- <-]. exists g, mq, ml, st. split; [constructor; exact Hw|]. auto.
  - pose proof (step_assign _ _ _ _ _ R t) as H. pose proof (ar_queue_nil _ _ _ _ _ R) as Hnil.
    destruct (pq_queue (al_pq a)) as [|x xs].
    + destruct H as [Hw ->]. cbn. intros [= <- <-]. exists g, mq, ml, st. split; [constructor; exact Hw|]. auto.
    + destruct H as (a1 & r1 & p & d & -> & Hmax & Hd & Hmin & H). cbn. intros [= <- <-].
      assert (Hne : lg_workers g ≠ ∅) by (intros E; apply Hnil in E; discriminate).
      assert (Hw : d ∈ lg_workers g) by (apply (ar_mq _ _ _ _ _ R); eauto).
      destruct (decide (p = al_max a)) as [Ep|Ep].
      * destruct H as [-> R']. eexists _, _, _, _. split; [constructor; [exact Hne|discriminate]|]. eauto.
      * destruct (lg_owner g !! t) as [w|] eqn:Et.
        -- destruct H as [-> R']. eexists _, _, _, _. split; [apply ad_assign_again; exact Et|]. eauto.
        -- destruct H as [-> R']. eexists _, _, _, _. split; [apply ad_assign; [exact Et|exact Hw| |discriminate]|]; eauto.
           intros Hm. pose proof (ar_max _ _ _ _ _ R Hm d p Hd).
           pose proof (ar_mq_load _ _ _ _ _ R d p Hd). lia.
  - pose proof (step_remove_task _ _ _ _ _ R t) as H.
    destruct (lg_owner g !! t) as [w|] eqn:Et.
    + destruct H as (p & p' & Hp & Hp' & H). cbn zeta in H. destruct (decide (w ∈ st)).
      * destruct (decide (p' = p)).
        -- destruct H as (a1 & -> & Hmax & R'). cbn. intros [= <- <-]. eexists _, _, _, _.
           split; [rewrite <- Et; constructor|]. eauto.
        -- rewrite H. discriminate.
      * destruct H as (a1 & -> & Hmax & R'). cbn. intros [= <- <-]. eexists _, _, _, _.
        split; [rewrite <- Et; constructor|]. eauto.
    + rewrite H. cbn. intros [= <- <-]. exists g, mq, ml, st. split; [|auto].
      rewrite <- Et. pose proof (ad_remove_task false (al_max a) g t) as Hd.
      rewrite (delete_notin _ _ Et) in Hd. destruct g; exact Hd.
  - intros [= <- <-]. exists g, mq, ml, st. unfold al_get_assigned. rewrite (ar_t2w _ _ _ _ _ R).
    split; [constructor|auto].
  - pose proof (step_available _ _ _ _ _ R) as H. destruct (pq_queue (al_pq a)) as [|x xs].
    + destruct H as [Hw ->]. cbn. intros [= <- <-]. exists g, mq, ml, st. split; [|auto].
      constructor; [discriminate|discriminate].
    + destruct H as (a1 & p & d & -> & Hmax & Hd & Hmin & R'). cbn. intros [= <- <-].
      eexists _, _, _, _. split; [|eauto]. constructor; [|discriminate].
      intros E. apply negb_true_iff, Z.eqb_neq in E. exists d.
      split; [apply (ar_mq _ _ _ _ _ R); eauto|].
      pose proof (ar_mq_load _ _ _ _ _ R d p Hd). pose proof (load_nonneg g d).
      destruct (decide (0 <= al_max a)) as [Hm|Hm].
      * pose proof (ar_max _ _ _ _ _ R Hm d p Hd). lia.
      * lia.
  - intros [= <- <-]. exists g, mq, ml, st. rewrite (step_ids _ _ _ _ _ R). split; [constructor|auto].
  - intros [= <- <-]. exists g, mq, ml, st. split; [constructor; exact (step_balance _ _ _ _ _ R)|auto].
  - intros [= <- <-]. exists g, mq, ml, st. split; [constructor; exact (step_stats _ _ _ _ _ R)|auto].
Qed.

Lemma al_rep_init max : al_rep (al_init max) lg_empty ∅ ∅ ∅.
Proof.
  split; cbn.
  - apply pq_rep_empty.
  - reflexivity.
  - intros w ts. split; [intros H; simplify_map_eq|intros [H _]; set_solver].
  - intros w. split; [intros [? H]; simplify_map_eq|set_solver].
  - intros t w H. simplify_map_eq.
  - intros w p H. simplify_map_eq.
  - intros _ w p H. simplify_map_eq.
Qed.

Lemma al_run_weak os a g mq ml st :
  al_rep a g mq ml st → al_conforms false (al_max a) g os (al_run a os).1.
Proof.
  revert a g mq ml st; induction os as [|o os IH]; intros a g mq ml st R.
  - cbn. split; [apply (ar_ledger_ok _ _ _ _ _ R)|exact I].
  - cbn [al_run]. destruct (al_call a o) as [[a' r]|e] eqn:E.
    + destruct (al_call_weak _ _ _ _ _ _ _ _ R E) as (g' & mq' & ml' & st' & Hd & R' & Hmax).
      specialize (IH a' g' mq' ml' st' R'). destruct (al_run a' os) as [rs e]; cbn in *.
      split; [apply (ar_ledger_ok _ _ _ _ _ R)|]. exists g'. rewrite <- Hmax at 2. auto.
    + cbn. split; [apply (ar_ledger_ok _ _ _ _ _ R)|exact I].
Qed.

Lemma al_every_history max os : al_conforms false max lg_empty os (al_run (al_init max) os).1.
Proof. exact (al_run_weak os _ _ _ _ _ (al_rep_init max)). Qed.

(** Exactness under discipline. *)
Definition al_exact (g : ledger) (mq : gmap bytes Z) (st : gset bytes) (peeked : bool) : Prop :=
  (∀ w p, mq !! w = Some p → p = load g w) ∧
  (∀ d, d ∈ st → peeked = true ∧
     ∀ p p' d', mq !! d = Some p → mq !! d' = Some p' → entry_le (p, d) (p', d')).

Lemma entry_le_antisym a b : entry_le a b → entry_le b a → a = b.
Proof.
  unfold entry_le. destruct a as [p d], b as [p' d']; cbn.
  intros [H1|[H1 [H2|H2]]] [H3|[H3 [H4|H4]]]; subst; try lia; try reflexivity.
  apply bytes_ltb_asym in H2. congruence.
Qed.

Lemma al_call_exact a g mq ml st pk o os :
  al_rep a g mq ml st → al_exact g mq st pk → disciplined pk (o :: os) = true →
  ∃ a' r g' mq' ml' st' pk', al_call a o = Ok (a', r) ∧ al_does true (al_max a) g o g' r ∧
    al_rep a' g' mq' ml' st' ∧ al_max a' = al_max a ∧ al_exact g' mq' st' pk' ∧ disciplined pk' os = true.
Proof.
  intros R [Hx Hst] D.
  assert (Hclean : pk = false → st = ∅).
  { intros ->. apply leibniz_equiv, elem_of_equiv_empty. intros d Hd. destruct (Hst d Hd). discriminate. }
  destruct o as [w|w|t|t|t| | | |]; cbn [al_call]; cbn [disciplined reads] in D.
  - apply andb_true_iff in D as [Dp D]. assert (pk = false) as -> by (destruct pk; [discriminate|reflexivity]).
    specialize (Hclean eq_refl).
    destruct (step_add _ _ _ _ _ R w) as (a1 & b & -> & Hmax & H).
    destruct (decide (w ∈ lg_workers g)) as [Hw|Hw].
    + destruct H as [-> ->]. eexists _, _, g, mq, ml, st, false. split; [reflexivity|].
      split; [constructor; exact Hw|]. split; [exact R|]. split; [reflexivity|]. split; [split; [exact Hx|exact Hst]|exact D].
    + destruct H as (-> & R' & Hl). eexists _, _, _, _, _, _, false. split; [reflexivity|].
      split; [constructor; exact Hw|]. split; [exact R'|]. split; [exact Hmax|]. split; [|exact D].
      split; [|rewrite Hclean; set_solver].
      intros w' p. rewrite lookup_insert_Some. intros [[<- <-]|[_ H]].
      * symmetry. exact Hl.
      * apply (Hx w' p H).
  - apply andb_true_iff in D as [Dp D]. assert (pk = false) as -> by (destruct pk; [discriminate|reflexivity]).
    specialize (Hclean eq_refl). subst st.
    pose proof (step_remove_worker _ _ _ _ _ R w) as H. destruct (decide (w ∈ lg_workers g)) as [Hw|Hw].
    + rewrite decide_False in H by set_solver. destruct H as (a1 & -> & Hmax & R'). cbn.
      eexists _, _, _, _, _, _, false. split; [reflexivity|]. split; [constructor; exact Hw|].
      split; [exact R'|]. split; [exact Hmax|]. split; [|exact D]. split; [|set_solver].
      intros w' p Hp. apply lookup_delete_Some in Hp as [Hne Hp].
      unfold load. rewrite tasks_of_remove_worker, decide_False by congruence. apply (Hx w' p Hp).
    + rewrite H. cbn. eexists _, _, g, mq, ml, ∅, false. split; [reflexivity|].
      split; [constructor; exact Hw|]. split; [exact R|]. split; [reflexivity|]. split; [split; [exact Hx|set_solver]|exact D].
  - pose proof (step_assign _ _ _ _ _ R t) as H. pose proof (ar_queue_nil _ _ _ _ _ R) as Hnil.
    destruct (pq_queue (al_pq a)) as [|x xs].
    + destruct H as [Hw ->]. cbn. eexists _, _, g, mq, ml, st, false. split; [reflexivity|].
      split; [constructor; exact Hw|]. split; [exact R|]. split; [reflexivity|]. split; [|exact D].
      split; [exact Hx|]. intros d Hd. exfalso.
      destruct (pr_st _ _ _ _ (ar_pq _ _ _ _ _ R) d Hd) as [p Hp].
      assert (Hdw : d ∈ lg_workers g) by (apply (ar_mq _ _ _ _ _ R); eauto). rewrite Hw in Hdw. set_solver.
    + destruct H as (a1 & r1 & p & d & -> & Hmax & Hd & Hmin & H). cbn.
      assert (Hne : lg_workers g ≠ ∅) by (intros E; apply Hnil in E; discriminate).
      assert (Hw : d ∈ lg_workers g) by (apply (ar_mq _ _ _ _ _ R); eauto).
      assert (Hst' : st ∖ {[d]} = ∅).
      { apply leibniz_equiv, elem_of_equiv_empty. intros d' Hd'. apply elem_of_difference in Hd' as [Hd' Hne'].
        rewrite elem_of_singleton in Hne'. apply Hne'.
        destruct (Hst d' Hd') as [_ Hmin']. destruct (pr_st _ _ _ _ (ar_pq _ _ _ _ _ R) d' Hd') as [p' Hp'].
        pose proof (entry_le_antisym _ _ (Hmin' p' p d Hp' Hd) (Hmin p' d' Hp')) as E. congruence. }
      rewrite Hst' in H.
      assert (Hle : ∀ w', w' ∈ lg_workers g → load g d <= load g w').
      { intros w' Hw'. apply (ar_mq _ _ _ _ _ R) in Hw' as [p' Hp'].
        rewrite <- (Hx d p Hd), <- (Hx w' p' Hp'). specialize (Hmin p' w' Hp').
        unfold entry_le in Hmin; cbn in Hmin. lia. }
      destruct (decide (p = al_max a)) as [Ep|Ep].
      * destruct H as [-> R']. eexists _, _, g, mq, _, ∅, false. split; [reflexivity|].
        split.
        { apply ad_assign_full; [exact Hne|]. intros _ w' Hw'.
          pose proof (Hle w' Hw') as Hle'. rewrite <- (Hx d p Hd) in Hle'.
          apply (ar_mq _ _ _ _ _ R) in Hw' as [p' Hp']. rewrite <- (Hx w' p' Hp') in *.
          pose proof (ar_mq_pos _ _ _ _ _ R d p Hd).
          pose proof (ar_max _ _ _ _ _ R ltac:(lia) w' p' Hp'). lia. }
        split; [exact R'|]. split; [exact Hmax|]. split; [|exact D]. split; [exact Hx|set_solver].
      * destruct (lg_owner g !! t) as [w|] eqn:Et.
        -- destruct H as [-> R']. eexists _, _, g, mq, _, ∅, false. split; [reflexivity|].
           split; [apply ad_assign_again; exact Et|]. split; [exact R'|]. split; [exact Hmax|].
           split; [|exact D]. split; [exact Hx|set_solver].
        -- destruct H as [-> R']. eexists _, _, _, _, _, ∅, false. split; [reflexivity|].
           split.
           { apply ad_assign; [exact Et|exact Hw| |].
             - intros Hm. pose proof (ar_max _ _ _ _ _ R Hm d p Hd). rewrite <- (Hx d p Hd). lia.
             - intros _. exact Hle. }
           split; [exact R'|]. split; [exact Hmax|]. split; [|exact D]. split; [|set_solver].
           intros w' k. rewrite lookup_insert_Some, load_assign by exact Et.
           intros [[<- <-]|[Hn Hk]].
           ++ rewrite decide_True by reflexivity. rewrite <- (Hx d p Hd). reflexivity.
           ++ rewrite decide_False by congruence. apply Hx. exact Hk.
  - apply andb_true_iff in D as [Dp D]. assert (pk = false) as -> by (destruct pk; [discriminate|reflexivity]).
    specialize (Hclean eq_refl). subst st.
    pose proof (step_remove_task _ _ _ _ _ R t) as H.
    destruct (lg_owner g !! t) as [w|] eqn:Et.
    + destruct H as (p & p' & Hp & Hp' & H). cbn zeta in H. rewrite decide_False in H by set_solver.
      destruct H as (a1 & -> & Hmax & R'). cbn. eexists _, _, _, _, _, ∅, false. split; [reflexivity|].
      split; [rewrite <- Et; constructor|]. split; [exact R'|]. split; [exact Hmax|]. split; [|exact D].
      split; [|set_solver]. intros w' k. rewrite lookup_insert_Some, load_delete.
      intros [[<- <-]|[Hn Hk]].
      * rewrite decide_True by exact Et. rewrite <- (Hx w p Hp). reflexivity.
      * rewrite decide_False by congruence. apply Hx. exact Hk.
    + rewrite H. cbn. eexists _, _, g, mq, ml, ∅, false. split; [reflexivity|].
      split; [|split; [exact R|split; [reflexivity|split; [split; [exact Hx|set_solver]|exact D]]]].
      rewrite <- Et. pose proof (ad_remove_task true (al_max a) g t) as Hd.
      rewrite (delete_notin _ _ Et) in Hd. destruct g; exact Hd.
  - apply andb_true_iff in D as [_ D]. eexists _, _, g, mq, ml, st, pk. split; [reflexivity|].
    unfold al_get_assigned. rewrite (ar_t2w _ _ _ _ _ R).
    split; [constructor|]. split; [exact R|]. split; [reflexivity|]. split; [split; [exact Hx|exact Hst]|exact D].
  - pose proof (step_available _ _ _ _ _ R) as H. destruct (pq_queue (al_pq a)) as [|x xs].
    + destruct H as [Hw ->]. cbn. eexists _, _, g, mq, ml, st, true. split; [reflexivity|].
      split; [|split; [exact R|split; [reflexivity|split; [|exact D]]]].
      * constructor; [discriminate|]. intros _ _ w Hww. rewrite Hw in Hww. set_solver.
      * split; [exact Hx|]. intros d Hd. split; [reflexivity|]. apply (Hst d Hd).
    + destruct H as (a1 & p & d & -> & Hmax & Hd & Hmin & R'). cbn.
      eexists _, _, g, mq, ml, _, true. split; [reflexivity|].
      assert (Hw : d ∈ lg_workers g) by (apply (ar_mq _ _ _ _ _ R); eauto).
      split; [|split; [exact R'|split; [exact Hmax|split; [|exact D]]]].
      * constructor.
        -- intros E. apply negb_true_iff, Z.eqb_neq in E. exists d. split; [exact Hw|].
           rewrite <- (Hx d p Hd). split; [exact E|]. intros Hm.
           pose proof (ar_max _ _ _ _ _ R Hm d p Hd). lia.
        -- intros _ E w' Hw'. apply negb_false_iff, Z.eqb_eq in E.
           apply (ar_mq _ _ _ _ _ R) in Hw' as [p' Hp']. rewrite <- (Hx w' p' Hp').
           specialize (Hmin p' w' Hp'). unfold entry_le in Hmin; cbn in Hmin.
           pose proof (ar_mq_pos _ _ _ _ _ R d p Hd).
           pose proof (ar_max _ _ _ _ _ R ltac:(lia) w' p' Hp'). lia.
      * split; [exact Hx|]. intros d' Hd'. split; [reflexivity|].
        apply elem_of_union in Hd' as [Hd'|Hd'].
        -- apply (Hst d' Hd').
        -- apply elem_of_singleton in Hd'. subst d'. intros p0 p' d' Hp0 Hp'.
           assert (p0 = p) as -> by congruence. apply Hmin. exact Hp'.
  - apply andb_true_iff in D as [_ D]. eexists _, _, g, mq, ml, st, pk. split; [reflexivity|].
    rewrite (step_ids _ _ _ _ _ R).
    split; [constructor|]. split; [exact R|]. split; [reflexivity|]. split; [split; [exact Hx|exact Hst]|exact D].
  - apply andb_true_iff in D as [_ D]. eexists _, _, g, mq, ml, st, pk. split; [reflexivity|].
    split; [constructor; exact (step_balance _ _ _ _ _ R)|].
    split; [exact R|]. split; [reflexivity|]. split; [split; [exact Hx|exact Hst]|exact D].
  - apply andb_true_iff in D as [_ D]. eexists _, _, g, mq, ml, st, pk. split; [reflexivity|].
    split; [constructor; exact (step_stats _ _ _ _ _ R)|].
    split; [exact R|]. split; [reflexivity|]. split; [split; [exact Hx|exact Hst]|exact D].
Qed.

Lemma al_run_exact os a g mq ml st pk :
  al_rep a g mq ml st → al_exact g mq st pk → disciplined pk os = true →
  al_conforms true (al_max a) g os (al_run a os).1 ∧ (al_run a os).2 = None ∧
  length (al_run a os).1 = length os.
Proof.
  revert a g mq ml st pk; induction os as [|o os IH]; intros a g mq ml st pk R X D.
  - cbn. split; [split; [apply (ar_ledger_ok _ _ _ _ _ R)|exact I]|]. auto.
  - destruct (al_call_exact _ _ _ _ _ _ _ _ R X D)
      as (a' & r & g' & mq' & ml' & st' & pk' & E & Hd & R' & Hmax & X' & D').
    cbn [al_run]. rewrite E. destruct (IH _ _ _ _ _ _ R' X' D') as (H1 & H2 & H3).
    destruct (al_run a' os) as [rs e]; cbn in *. split; [|split; [exact H2|lia]].
    split; [apply (ar_ledger_ok _ _ _ _ _ R)|]. exists g'. rewrite <- Hmax at 2. auto.
Qed.

Lemma al_disciplined_history max os : disciplined false os = true →
  al_conforms true max lg_empty os (al_run (al_init max) os).1 ∧
  (al_run (al_init max) os).2 = None ∧ length (al_run (al_init max) os).1 = length os.
Proof.
  intros D. apply (al_run_exact os (al_init max) lg_empty ∅ ∅ ∅ false); [apply al_rep_init| |exact D].
  split; [intros w p H; simplify_map_eq|set_solver].
Qed.

(** The ledger of the specification is the one an observer computes. *)
Lemma al_does_seen exact max g o g' r :
  (∀ t w, lg_owner g !! t = Some w → w ∈ lg_workers g) →
  al_does exact max g o g' r → g' = seen g o r.
Proof.
  intros Ho. destruct 1; cbn; try reflexivity.
  - destruct g as [W f]; cbn in *. f_equal.
    + apply leibniz_equiv. intros x. rewrite elem_of_difference, elem_of_singleton. intuition congruence.
    + symmetry. apply map_filter_id. intros t w' Ht. cbn. intros ->. eauto.
  - destruct g as [W f]; cbn in *. rewrite insert_id; auto.
Qed.

Lemma al_conforms_after exact max os : ∀ g rs o os' r rs',
  al_conforms exact max g (os ++ o :: os') (rs ++ r :: rs') → length rs = length os →
  al_does exact max (ledger_after g os rs) o (seen (ledger_after g os rs) o r) r ∧
  ledger_ok max (ledger_after g os rs).
Proof.
  induction os as [|o1 os IH]; intros g rs o os' r rs'; destruct rs as [|r1 rs]; try discriminate; cbn.
  - intros [Hok (g' & Hd & _)] _. split; [|exact Hok].
    rewrite <- (al_does_seen exact max g o g' r) by (apply Hok || exact Hd). exact Hd.
  - intros [Hok (g' & Hd & Hc)] Hl. injection Hl as Hl.
    rewrite (al_does_seen exact max g o1 g' r1) in Hc by (apply Hok || exact Hd). eauto.
Qed.

Lemma al_conforms_ok exact max os : ∀ g rs,
  al_conforms exact max g os rs → length rs = length os → ledger_ok max (ledger_after g os rs).
Proof.
  induction os as [|o1 os IH]; intros g rs; destruct rs as [|r1 rs]; try discriminate; cbn.
  - intros [Hok _] _. exact Hok.
  - intros [Hok (g' & Hd & Hc)] Hl. injection Hl as Hl.
    rewrite (al_does_seen exact max g o1 g' r1) in Hc by (apply Hok || exact Hd). eauto.
Qed.

Lemma al_run_length os : ∀ a rs, al_run a os = (rs, None) → length rs = length os.
Proof.
  induction os as [|o os IH]; intros a rs; cbn.
  - intros [= <-]. reflexivity.
  - destruct (al_call a o) as [[a' r]|e]; [|discriminate].
    destruct (al_run a' os) as [rs' e] eqn:E. intros [= <- ->]. cbn. f_equal. eapply IH; eauto.
Qed.

Lemma al_history_weak max os rs : al_run (al_init max) os = (rs, None) →
  ledger_ok max (ledger_after lg_empty os rs).
Proof.
  intros E. apply (al_conforms_ok false max); [|eapply al_run_length; eauto].
  pose proof (al_every_history max os) as H. rewrite E in H. exact H.
Qed.

Lemma al_last_weak max os o rs r : al_run (al_init max) (os ++ [o]) = (rs ++ [r], None) →
  al_does false max (ledger_after lg_empty os rs) o (seen (ledger_after lg_empty os rs) o r) r.
Proof.
  intros E. eapply (al_conforms_after false max os lg_empty rs o [] r []).
  - pose proof (al_every_history max (os ++ [o])) as H. rewrite E in H. exact H.
  - apply al_run_length in E. rewrite !app_length in E. cbn in E. lia.
Qed.

Lemma al_last_exact max os o : disciplined false (os ++ [o]) = true →
  ∃ rs r, al_run (al_init max) (os ++ [o]) = (rs ++ [r], None) ∧ length rs = length os ∧
  al_does true max (ledger_after lg_empty os rs) o (seen (ledger_after lg_empty os rs) o r) r.
Proof.
  intros D. destruct (al_disciplined_history max _ D) as (Hc & He & Hl).
  destruct (al_run (al_init max) (os ++ [o])) as [rs0 e]; cbn in *. subst e.
  destruct rs0 as [|r rs _] using rev_ind; [rewrite app_length in Hl; cbn in Hl; lia|].
  rewrite !app_length in Hl; cbn in Hl. exists rs, r. split; [reflexivity|]. split; [lia|].
  eapply (al_conforms_after true max os lg_empty rs o [] r []); [exact Hc|lia].
Qed.

Lemma tasks_at_one_worker g t w w' : t ∈ tasks_of g w → t ∈ tasks_of g w' → w = w'.
Proof. rewrite !elem_of_tasks_of. congruence. Qed.

Lemma allocator_capacity_lemma max os rs w :
  0 <= max → al_run (al_init max) os = (rs, None) → load (ledger_after lg_empty os rs) w <= max.
Proof. intros Hm E. apply (proj2 (al_history_weak max os rs E) Hm). Qed.

Lemma allocator_views_lemma max os t rs r :
  al_run (al_init max) (os ++ [AGetAssigned t]) = (rs ++ [r], None) →
  r = AWorker (lg_owner (ledger_after lg_empty os rs) !! t) ∧
  (∀ w, r = AWorker (Some w) → w ∈ lg_workers (ledger_after lg_empty os rs)).
Proof.
  intros E. pose proof (al_last_weak _ _ _ _ _ E) as H.
  assert (Hr : r = AWorker (lg_owner (ledger_after lg_empty os rs) !! t)) by (inversion H; auto).
  split; [exact Hr|]. intros w Hw.
  assert (Hl : length rs = length os).
  { apply al_run_length in E. rewrite !app_length in E. cbn in E. lia. }
  pose proof (al_every_history max (os ++ [AGetAssigned t])) as Hc. rewrite E in Hc.
  destruct (al_conforms_after false max os lg_empty rs _ [] r [] Hc Hl) as [_ [Hok _]].
  apply (Hok t). congruence.
Qed.

Lemma allocator_remove_worker_lemma max os w rs r :
  al_run (al_init max) (os ++ [ARemoveWorker w]) = (rs ++ [r], None) →
  r = ATasks (tasks_of (ledger_after lg_empty os rs) w).
Proof.
  intros E. pose proof (al_last_weak _ _ _ _ _ E) as H.
  assert (Hl : length rs = length os).
  { apply al_run_length in E. rewrite !app_length in E. cbn in E. lia. }
  pose proof (al_every_history max (os ++ [ARemoveWorker w])) as Hc. rewrite E in Hc.
  destruct (al_conforms_after false max os lg_empty rs _ [] r [] Hc Hl) as [_ [Hok _]].
  inversion H; subst; [reflexivity|]. f_equal. symmetry. apply leibniz_equiv, elem_of_equiv_empty.
  intros t Ht. apply elem_of_tasks_of in Ht. eauto.
Qed.

Lemma allocator_advice_lemma max os rs r :
  al_run (al_init max) (os ++ [ABalance]) = (rs ++ [r], None) →
  ∃ m, r = AAdvice m ∧ advice_ok (ledger_after lg_empty os rs) m.
Proof. intros E. pose proof (al_last_weak _ _ _ _ _ E) as H. inversion H; subst; eauto. Qed.

Lemma allocator_stats_lemma max os rs r :
  al_run (al_init max) (os ++ [AStatistics]) = (rs ++ [r], None) →
  ∃ m, r = AStats m ∧
    ∀ w f s, m !! w = Some (f, s) ↔
      w ∈ lg_workers (ledger_after lg_empty os rs) ∧
      s = load (ledger_after lg_empty os rs) w ∧ f = max - s.
Proof. intros E. pose proof (al_last_weak _ _ _ _ _ E) as H. inversion H; subst; eauto. Qed.

Lemma allocator_least_loaded_lemma max os t :
  disciplined false (os ++ [AAssign t]) = true →
  ∃ rs r, al_run (al_init max) (os ++ [AAssign t]) = (rs ++ [AResult r], None) ∧
    let g := ledger_after lg_empty os rs in
    match r with
    | Waits => lg_workers g = ∅
    | AllFull => lg_workers g ≠ ∅ ∧ ∀ w, w ∈ lg_workers g → load g w = max
    | Assigned w =>
        lg_owner g !! t = Some w ∨
        (lg_owner g !! t = None ∧ w ∈ lg_workers g ∧ (0 <= max → load g w < max) ∧
         ∀ w', w' ∈ lg_workers g → load g w <= load g w')
    end.
Proof.
  intros D. destruct (al_last_exact max os _ D) as (rs & r & E & _ & H).
  inversion H; subst; eexists rs, _; (split; [exact E|]); cbn; auto.
  right. auto.
Qed.

Lemma allocator_available_sound_lemma max os rs :
  al_run (al_init max) (os ++ [AHasAvailable]) = (rs ++ [ABool true], None) →
  let g := ledger_after lg_empty os rs in
  ∃ w, w ∈ lg_workers g ∧ load g w ≠ max ∧ (0 <= max → load g w < max).
Proof. intros E. pose proof (al_last_weak _ _ _ _ _ E) as H. inversion H; subst; auto. Qed.

Lemma allocator_available_exact_lemma max os :
  disciplined false (os ++ [AHasAvailable]) = true →
  ∃ rs b, al_run (al_init max) (os ++ [AHasAvailable]) = (rs ++ [ABool b], None) ∧
    let g := ledger_after lg_empty os rs in
    b = true ↔ ∃ w, w ∈ lg_workers g ∧ load g w ≠ max.
Proof.
  intros D. destruct (al_last_exact max os _ D) as (rs & r & E & _ & H).
  inversion H as [ | | | | | | | | | | b H1 H2 | | | ]; subst. exists rs, b. split; [exact E|]. cbn. split.
  - intros Hb. destruct (H1 Hb) as (w & ? & ? & _). eauto.
  - intros (w & Hw & Hne). destruct b; [reflexivity|]. exfalso. apply Hne, H2; auto.
Qed.
