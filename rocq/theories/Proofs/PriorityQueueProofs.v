(** Proofs about the priority queue with mutable, possibly stale entries. *)

From Verif.Model Require Import Base Heapq PriorityQueue.
From Verif.Spec Require Import PriorityQueueSpec.
From Verif.Proofs Require Import BaseProofs HeapqProofs.

Lemma entry_le_alt a b : entry_ltb b a = false ↔ entry_le a b.
Proof.
  unfold entry_ltb, entry_le. rewrite orb_false_iff, andb_false_iff, Z.ltb_ge, Z.eqb_neq.
  split.
  - intros [H1 H2]. destruct (decide (a.1 = b.1)) as [E|]; [|lia]. right. split; [exact E|].
    destruct H2 as [H2|H2]; [lia|]. destruct (bytes_ltb a.2 b.2) eqn:E'; [auto|].
    left. apply bytes_ltb_total; assumption.
  - intros [H1|[H1 [H2|H2]]]; split; try lia.
    + right. rewrite H2. apply bytes_ltb_irrefl.
    + right. apply bytes_ltb_asym. exact H2.
Qed.

Lemma entry_le_refl a : entry_le a a.
Proof. right. auto. Qed.

Lemma entry_le_trans a b c : entry_le a b → entry_le b c → entry_le a c.
Proof.
  unfold entry_le. intros [H1|[H1 [H2|H2]]] [H3|[H3 [H4|H4]]]; try (left; lia).
  - right. split; [congruence|]. left. congruence.
  - right. split; [congruence|]. right. rewrite H2. exact H4.
  - right. split; [congruence|]. right. rewrite <- H4. exact H2.
  - right. split; [congruence|]. right. eapply bytes_ltb_trans; eassumption.
Qed.

Lemma entry_ltb_asym a b : entry_ltb a b = true → entry_ltb b a = false.
Proof.
  intros H. apply entry_le_alt. unfold entry_ltb in H.
  apply orb_true_iff in H as [H|H]; [left; lia|].
  apply andb_true_iff in H as [H1 H2]. right. split; [lia|]. auto.
Qed.

Section refs.
Context (cells : gmap nat entry).
Lemma ref_asym a b : ref_ltb cells a b = true → ref_ltb cells b a = false.
Proof. apply entry_ltb_asym. Qed.
Lemma ref_trans a b c : hle (ref_ltb cells) a b → hle (ref_ltb cells) b c → hle (ref_ltb cells) a c.
Proof. unfold hle, ref_ltb. rewrite !entry_le_alt. apply entry_le_trans. Qed.
Lemma ref_hle a b : hle (ref_ltb cells) a b ↔ entry_le (cell cells a) (cell cells b).
Proof. unfold hle, ref_ltb. apply entry_le_alt. Qed.
End refs.

Lemma heap_ok_ext {A} (f g : A → A → bool) h :
  (∀ a b, a ∈ h → b ∈ h → f a b = g a b) → heap_ok f h → heap_ok g h.
Proof.
  intros E Hok i c x y Hc Hx Hy. unfold hle. rewrite <- E; [apply (Hok i c); auto| |];
  eapply elem_of_list_lookup_2; eassumption.
Qed.

Lemma cell_insert_ne cells l l' e : l ≠ l' → cell (<[l := e]> cells) l' = cell cells l'.
Proof. intros Hne. unfold cell. rewrite lookup_insert_ne by exact Hne. reflexivity. Qed.

Lemma cell_insert cells l e : cell (<[l := e]> cells) l = e.
Proof. unfold cell. rewrite lookup_insert. reflexivity. Qed.

(** Abstract view: [mq] priorities held by the heap, [ml] priorities held by the
    locator's entries, [st] the data whose locator entry is not the one in the heap. *)
Record pq_rep (q : pq) (mq ml : gmap bytes Z) (st : gset bytes) : Prop := PQRep {
  pr_nodup : NoDup (pq_queue q);
  pr_lt    : ∀ l, l ∈ pq_queue q → (l < pq_fresh q)%nat;
  pr_llt   : ∀ d l, pq_locator q !! d = Some l → (l < pq_fresh q)%nat;
  pr_data  : ∀ l l', l ∈ pq_queue q → l' ∈ pq_queue q →
               (cell (pq_cells q) l).2 = (cell (pq_cells q) l').2 → l = l';
  pr_mq    : ∀ d p, mq !! d = Some p ↔ ∃ l, l ∈ pq_queue q ∧ cell (pq_cells q) l = (p, d);
  pr_heap  : heap_ok (ref_ltb (pq_cells q)) (pq_queue q);
  pr_ml    : ∀ d p, ml !! d = Some p ↔ ∃ l, pq_locator q !! d = Some l ∧ cell (pq_cells q) l = (p, d);
  pr_loc   : ∀ d l, pq_locator q !! d = Some l →
               (cell (pq_cells q) l).2 = d ∧ (d ∈ st ↔ l ∉ pq_queue q) ∧ is_Some (mq !! d);
  pr_dom   : ∀ d, is_Some (mq !! d) → is_Some (pq_locator q !! d);
  pr_st    : ∀ d, d ∈ st → is_Some (mq !! d);
  pr_le    : ∀ d p p', ml !! d = Some p → mq !! d = Some p' → p <= p' }.

Lemma pq_rep_empty : pq_rep pq_empty ∅ ∅ ∅.
Proof.
  split; cbn.
  - constructor.
  - intros l Hl. inversion Hl.
  - intros d l Hl. simplify_map_eq.
  - intros l l' Hl. inversion Hl.
  - intros d p. rewrite lookup_empty. split; [discriminate|]. intros (l & Hl & _). inversion Hl.
  - apply heap_ok_nil.
  - intros d p. split; [intros Hl|intros (l & Hl & _)]; simplify_map_eq.
  - intros d l Hl. simplify_map_eq.
  - intros d [p Hp]. rewrite lookup_empty in Hp. discriminate.
  - intros d Hd. apply elem_of_empty in Hd as [].
  - intros d p p' Hp. rewrite lookup_empty in Hp. discriminate.
Qed.

(** Without staleness both views coincide. *)
Lemma pq_rep_fresh_eq q mq ml st d : pq_rep q mq ml st → d ∉ st → ml !! d = mq !! d.
Proof.
  intros R Hd. destruct (ml !! d) as [p|] eqn:E.
  - symmetry. apply (pr_ml _ _ _ _ R) in E as (l & Hl & Hc).
    apply (pr_mq _ _ _ _ R). exists l. split; [|exact Hc].
    destruct (pr_loc _ _ _ _ R d l Hl) as (_ & Hst & _).
    destruct (decide (l ∈ pq_queue q)); [assumption|]. exfalso. apply Hd, Hst. assumption.
  - destruct (mq !! d) as [p|] eqn:E'; [|reflexivity].
    destruct (pr_dom _ _ _ _ R d) as [l Hl]; [eauto|].
    destruct (pr_loc _ _ _ _ R d l Hl) as (Hd2 & _ & _).
    assert (ml !! d = Some (cell (pq_cells q) l).1).
    { apply (pr_ml _ _ _ _ R). exists l. split; [exact Hl|].
      destruct (cell (pq_cells q) l) as [p' d']; cbn in *. congruence. }
    congruence.
Qed.

Lemma pq_rep_ml_dom q mq ml st d : pq_rep q mq ml st → is_Some (ml !! d) ↔ is_Some (mq !! d).
Proof.
  intros R. split.
  - intros [p Hp]. apply (pr_ml _ _ _ _ R) in Hp as (l & Hl & _).
    destruct (pr_loc _ _ _ _ R d l Hl) as (_ & _ & H). exact H.
  - intros H. destruct (pr_dom _ _ _ _ R d H) as [l Hl].
    destruct (pr_loc _ _ _ _ R d l Hl) as (Hd2 & _ & _).
    exists (cell (pq_cells q) l).1. apply (pr_ml _ _ _ _ R). exists l. split; [exact Hl|].
    destruct (cell (pq_cells q) l) as [p' d']; cbn in *. congruence.
Qed.

(** put *)
Lemma pq_put_rep q mq ml st p d :
  pq_rep q mq ml st → mq !! d = None →
  pq_rep (pq_put q (p, d)) (<[d := p]> mq) (<[d := p]> ml) st.
Proof.
  intros R Hd. unfold pq_put; cbn.
  set (f := pq_fresh q). set (cells := <[f := (p, d)]> (pq_cells q)).
  assert (Hperm : heappush (ref_ltb cells) (pq_queue q) f ≡ₚ f :: pq_queue q)
    by (apply heappush_perm; [apply ref_asym|apply ref_trans]).
  assert (Hin : ∀ l, l ∈ heappush (ref_ltb cells) (pq_queue q) f ↔ l = f ∨ l ∈ pq_queue q)
    by (intros l; rewrite Hperm; apply elem_of_cons).
  assert (Hcell : ∀ l, (l < f)%nat → cell cells l = cell (pq_cells q) l)
    by (intros l Hl; apply cell_insert_ne; lia).
  assert (Hf : f ∉ pq_queue q) by (intros H; apply (pr_lt _ _ _ _ R) in H; unfold f in H; lia).
  assert (Hfc : cell cells f = (p, d)) by apply cell_insert.
  assert (Hndd : ∀ l, l ∈ pq_queue q → (cell (pq_cells q) l).2 ≠ d).
  { intros l Hl E. assert (mq !! d = Some (cell (pq_cells q) l).1); [|congruence].
    apply (pr_mq _ _ _ _ R). exists l. split; [exact Hl|]. destruct (cell _ l); cbn in *; congruence. }
  assert (Hdl : pq_locator q !! d = None).
  { destruct (pq_locator q !! d) as [l|] eqn:E; [|reflexivity].
    destruct (pr_loc _ _ _ _ R d l E) as (_ & _ & [? ?]). congruence. }
  assert (Hq : ∀ l, l ∈ pq_queue q → cell cells l = cell (pq_cells q) l)
    by (intros l Hl; apply Hcell; apply (pr_lt _ _ _ _ R); exact Hl).
  split; cbn.
  - rewrite Hperm. apply NoDup_cons. split; [exact Hf|apply (pr_nodup _ _ _ _ R)].
  - intros l Hl. apply Hin in Hl as [->|Hl]; [lia|]. apply (pr_lt _ _ _ _ R) in Hl. unfold f. lia.
  - intros d' l Hl. apply lookup_insert_Some in Hl as [[_ <-]|[_ Hl]]; [lia|].
    apply (pr_llt _ _ _ _ R) in Hl. unfold f. lia.
  - intros l l' Hl Hl'. apply Hin in Hl, Hl'. destruct Hl as [->|Hl], Hl' as [->|Hl'].
    + reflexivity.
    + rewrite Hfc, (Hq l' Hl'). cbn. intros E. exfalso. apply (Hndd l' Hl'). congruence.
    + rewrite Hfc, (Hq l Hl). cbn. intros E. exfalso. apply (Hndd l Hl). congruence.
    + rewrite (Hq l Hl), (Hq l' Hl'). apply (pr_data _ _ _ _ R); assumption.
  - intros d' p'. rewrite lookup_insert_Some. split.
    + intros [[<- <-]|[Hne Hp]].
      * exists f. split; [apply Hin; auto|exact Hfc].
      * apply (pr_mq _ _ _ _ R) in Hp as (l & Hl & Hc). exists l.
        split; [apply Hin; auto|]. rewrite (Hq l Hl). exact Hc.
    + intros (l & Hl & Hc). apply Hin in Hl as [->|Hl].
      * rewrite Hfc in Hc. injection Hc as <- <-. auto.
      * rewrite (Hq l Hl) in Hc. right. split.
        -- intros <-. apply (Hndd l Hl). rewrite Hc. reflexivity.
        -- apply (pr_mq _ _ _ _ R). eauto.
  - apply heappush_ok; [apply ref_asym|apply ref_trans|].
    eapply heap_ok_ext; [|apply (pr_heap _ _ _ _ R)].
    intros a b Ha Hb. unfold ref_ltb. rewrite (Hq a Ha), (Hq b Hb). reflexivity.
  - intros d' p'. rewrite lookup_insert_Some. split.
    + intros [[<- <-]|[Hne Hp]].
      * exists f. split; [apply lookup_insert|exact Hfc].
      * apply (pr_ml _ _ _ _ R) in Hp as (l & Hl & Hc). exists l.
        split; [rewrite lookup_insert_ne by exact Hne; exact Hl|].
        rewrite Hcell; [exact Hc|]. apply (pr_llt _ _ _ _ R) in Hl. exact Hl.
    + intros (l & Hl & Hc). apply lookup_insert_Some in Hl as [[<- <-]|[Hne Hl]].
      * rewrite Hfc in Hc. injection Hc as <-. auto.
      * right. split; [exact Hne|]. apply (pr_ml _ _ _ _ R). exists l. split; [exact Hl|].
        rewrite Hcell in Hc; [exact Hc|]. apply (pr_llt _ _ _ _ R) in Hl. exact Hl.
  - intros d' l Hl. apply lookup_insert_Some in Hl as [[<- <-]|[Hne Hl]].
    + rewrite Hfc. cbn. split; [reflexivity|]. split; [|rewrite lookup_insert; eauto].
      split.
      * intros Hst. apply (pr_st _ _ _ _ R) in Hst as [? ?]. congruence.
      * intros H. exfalso. apply H, Hin. auto.
    + apply (pr_llt _ _ _ _ R) in Hl as Hlt.
      rewrite Hcell by exact Hlt. destruct (pr_loc _ _ _ _ R d' l Hl) as (H1 & H2 & H3).
      split; [exact H1|]. split.
      * rewrite H2, Hin. split; [|tauto]. intros Hn [->|?]; [unfold f in Hlt; lia|tauto].
      * rewrite lookup_insert_ne by exact Hne. exact H3.
  - intros d' Hs. destruct (decide (d = d')) as [<-|Hne].
    + rewrite lookup_insert. eauto.
    + rewrite lookup_insert_ne in Hs by exact Hne. rewrite lookup_insert_ne by exact Hne.
      apply (pr_dom _ _ _ _ R). exact Hs.
  - intros d' Hs. apply (pr_st _ _ _ _ R) in Hs. destruct (decide (d = d')) as [<-|Hne].
    + rewrite lookup_insert. eauto.
    + rewrite lookup_insert_ne by exact Hne. exact Hs.
  - intros d' p1 p2. rewrite !lookup_insert_Some. intros [[<- <-]|[Hne H1]] [[? <-]|[Hne' H2]]; try lia; try congruence.
    apply (pr_le _ _ _ _ R d'); assumption.
Qed.

(** popping the top, shared by get, max_priority and remove *)
Lemma pq_pop_rep q mq ml st :
  pq_rep q mq ml st → pq_queue q ≠ [] →
  ∃ l queue p d,
    heappop (ref_ltb (pq_cells q)) (pq_queue q) = Ok (l, queue) ∧
    cell (pq_cells q) l = (p, d) ∧ l ∈ pq_queue q ∧
    mq !! d = Some p ∧
    (∀ p' d', mq !! d' = Some p' → entry_le (p, d) (p', d')) ∧
    pq_queue q ≡ₚ l :: queue ∧ heap_ok (ref_ltb (pq_cells q)) queue.
Proof.
  intros R Hne.
  destruct (heappop_spec _ (ref_asym (pq_cells q)) (ref_trans (pq_cells q)) _ Hne)
    as (l & queue & Hpop & H0 & Hp & Hok).
  destruct (Hok (pr_heap _ _ _ _ R)) as [Hok' Hmin].
  destruct (cell (pq_cells q) l) as [p d] eqn:Ec.
  assert (Hl : l ∈ pq_queue q) by (rewrite Hp; left).
  exists l, queue, p, d. repeat split; auto.
  - apply (pr_mq _ _ _ _ R). eauto.
  - intros p' d' Hp'. apply (pr_mq _ _ _ _ R) in Hp' as (l' & Hl' & Hc').
    specialize (Hmin l' Hl'). apply ref_hle in Hmin. rewrite Ec, Hc' in Hmin. exact Hmin.
Qed.

Lemma pq_get_rep q mq ml st :
  pq_rep q mq ml st → pq_queue q ≠ [] →
  ∃ q' p d, pq_get q = Ok (q', (p, d)) ∧ mq !! d = Some p ∧
    (∀ p' d', mq !! d' = Some p' → entry_le (p, d) (p', d')) ∧
    pq_rep q' (delete d mq) (delete d ml) (st ∖ {[d]}).
Proof.
  intros R Hne. destruct (pq_pop_rep _ _ _ _ R Hne) as (l & queue & p & d & Hpop & Hc & Hl & Hm & Hmin & Hp & Hok).
  unfold pq_get. rewrite Hpop. cbn. rewrite Hc. cbn.
  destruct (pr_dom _ _ _ _ R d) as [ll Hll]; [eauto|]. rewrite Hll.
  eexists _, p, d. split; [reflexivity|]. split; [exact Hm|]. split; [exact Hmin|].
  assert (Hnd : NoDup (l :: queue)) by (rewrite <- Hp; apply (pr_nodup _ _ _ _ R)).
  apply NoDup_cons in Hnd as [Hlq Hnd].
  assert (Hin : ∀ x, x ∈ pq_queue q ↔ x = l ∨ x ∈ queue) by (intros x; rewrite Hp; apply elem_of_cons).
  assert (Hdq : ∀ x, x ∈ queue → (cell (pq_cells q) x).2 ≠ d).
  { intros x Hx E. assert (x = l); [|congruence].
    apply (pr_data _ _ _ _ R); [apply Hin; auto|exact Hl|]. rewrite Hc. exact E. }
  split; cbn.
  - exact Hnd.
  - intros x Hx. apply (pr_lt _ _ _ _ R), Hin. auto.
  - intros d' x Hx. apply lookup_delete_Some in Hx as [_ Hx]. apply (pr_llt _ _ _ _ R) in Hx. exact Hx.
  - intros x y Hx Hy. apply (pr_data _ _ _ _ R); apply Hin; auto.
  - intros d' p'. rewrite lookup_delete_Some, (pr_mq _ _ _ _ R). split.
    + intros [Hdd (x & Hx & Hcx)]. exists x. split; [|exact Hcx].
      apply Hin in Hx as [->|Hx]; [|exact Hx]. congruence.
    + intros (x & Hx & Hcx). split.
      * intros ->. apply (Hdq x Hx). rewrite Hcx. reflexivity.
      * exists x. split; [apply Hin; auto|exact Hcx].
  - exact Hok.
  - intros d' p'. rewrite lookup_delete_Some, (pr_ml _ _ _ _ R).
    setoid_rewrite lookup_delete_Some. split.
    + intros [Hdd (x & Hx & Hcx)]. eauto.
    + intros (x & [Hdd Hx] & Hcx). eauto.
  - intros d' x Hx. apply lookup_delete_Some in Hx as [Hdd Hx].
    destruct (pr_loc _ _ _ _ R d' x Hx) as (H1 & H2 & H3).
    split; [exact H1|]. split.
    + rewrite elem_of_difference, elem_of_singleton, H2, Hin. split; [tauto|].
      intros Hq. split; [|congruence]. intros [->|?]; [|tauto].
      rewrite Hc in H1. cbn in H1. congruence.
    + rewrite lookup_delete_ne by exact Hdd. exact H3.
  - intros d' [p' Hs]. apply lookup_delete_Some in Hs as [Hdd Hs].
    rewrite lookup_delete_ne by exact Hdd. apply (pr_dom _ _ _ _ R). eauto.
  - intros d' Hs. apply elem_of_difference in Hs as [Hs Hdd]. rewrite elem_of_singleton in Hdd.
    rewrite lookup_delete_ne by congruence. apply (pr_st _ _ _ _ R). exact Hs.
  - intros d' p1 p2. rewrite !lookup_delete_Some. intros [_ H1] [_ H2]. apply (pr_le _ _ _ _ R d'); assumption.
Qed.

Lemma pq_max_rep q mq ml st :
  pq_rep q mq ml st → pq_queue q ≠ [] →
  ∃ q' p d, pq_max_priority q = Ok (q', p) ∧ mq !! d = Some p ∧
    (∀ p' d', mq !! d' = Some p' → entry_le (p, d) (p', d')) ∧
    pq_rep q' mq ml (st ∪ {[d]}).
Proof.
  intros R Hne. destruct (pq_pop_rep _ _ _ _ R Hne) as (l & queue & p & d & Hpop & Hc & Hl & Hm & Hmin & Hp & Hok).
  unfold pq_max_priority. rewrite Hpop. cbn. rewrite Hc. cbn.
  eexists _, p, d. split; [reflexivity|]. split; [exact Hm|]. split; [exact Hmin|].
  set (f := pq_fresh q). set (cells := <[f := (p, d)]> (pq_cells q)).
  assert (Hperm : heappush (ref_ltb cells) queue f ≡ₚ f :: queue)
    by (apply heappush_perm; [apply ref_asym|apply ref_trans]).
  assert (Hin' : ∀ x, x ∈ heappush (ref_ltb cells) queue f ↔ x = f ∨ x ∈ queue)
    by (intros x; rewrite Hperm; apply elem_of_cons).
  assert (Hin : ∀ x, x ∈ pq_queue q ↔ x = l ∨ x ∈ queue) by (intros x; rewrite Hp; apply elem_of_cons).
  assert (Hnd : NoDup (l :: queue)) by (rewrite <- Hp; apply (pr_nodup _ _ _ _ R)).
  apply NoDup_cons in Hnd as [Hlq Hnd].
  assert (Hlt : ∀ x, x ∈ queue → (x < f)%nat) by (intros x Hx; apply (pr_lt _ _ _ _ R), Hin; auto).
  assert (Hlf : (l < f)%nat) by (apply (pr_lt _ _ _ _ R), Hl).
  assert (Hq : ∀ x, (x < f)%nat → cell cells x = cell (pq_cells q) x)
    by (intros x Hx; apply cell_insert_ne; lia).
  assert (Hfc : cell cells f = (p, d)) by apply cell_insert.
  assert (Hfq : f ∉ queue) by (intros H; apply Hlt in H; lia).
  assert (Hdq : ∀ x, x ∈ queue → (cell (pq_cells q) x).2 ≠ d).
  { intros x Hx E. assert (x = l); [|congruence].
    apply (pr_data _ _ _ _ R); [apply Hin; auto|exact Hl|]. rewrite Hc. exact E. }
  split; cbn.
  - rewrite Hperm. apply NoDup_cons. auto.
  - intros x Hx. apply Hin' in Hx as [->|Hx]; [lia|]. apply Hlt in Hx. lia.
  - intros d' x Hx. apply (pr_llt _ _ _ _ R) in Hx. unfold f; lia.
  - intros x y Hx Hy. apply Hin' in Hx, Hy. destruct Hx as [->|Hx], Hy as [->|Hy].
    + reflexivity.
    + rewrite Hfc, (Hq y (Hlt y Hy)). cbn. intros E. exfalso. apply (Hdq y Hy). congruence.
    + rewrite Hfc, (Hq x (Hlt x Hx)). cbn. intros E. exfalso. apply (Hdq x Hx). congruence.
    + rewrite (Hq x (Hlt x Hx)), (Hq y (Hlt y Hy)). apply (pr_data _ _ _ _ R); apply Hin; auto.
  - intros d' p'. rewrite (pr_mq _ _ _ _ R). split.
    + intros (x & Hx & Hcx). apply Hin in Hx as [->|Hx].
      * exists f. split; [apply Hin'; auto|]. rewrite Hfc. congruence.
      * exists x. split; [apply Hin'; auto|]. rewrite (Hq x (Hlt x Hx)). exact Hcx.
    + intros (x & Hx & Hcx). apply Hin' in Hx as [->|Hx].
      * exists l. split; [exact Hl|]. congruence.
      * exists x. split; [apply Hin; auto|]. rewrite (Hq x (Hlt x Hx)) in Hcx. exact Hcx.
  - apply heappush_ok; [apply ref_asym|apply ref_trans|].
    eapply heap_ok_ext; [|exact Hok]. intros a b Ha Hb. unfold ref_ltb.
    rewrite (Hq a (Hlt a Ha)), (Hq b (Hlt b Hb)). reflexivity.
  - intros d' p'. rewrite (pr_ml _ _ _ _ R). split; intros (x & Hx & Hcx); exists x; (split; [exact Hx|]);
    apply (pr_llt _ _ _ _ R) in Hx; rewrite (Hq x Hx) in *; exact Hcx.
  - intros d' x Hx. apply (pr_llt _ _ _ _ R) in Hx as Hx'. rewrite (Hq x Hx').
    destruct (pr_loc _ _ _ _ R d' x Hx) as (H1 & H2 & H3).
    split; [exact H1|]. split; [|exact H3].
    rewrite elem_of_union, elem_of_singleton, H2, Hin, Hin'. split.
    + intros [Hn| ->].
      * intros [->|?]; [unfold f in Hx'; lia|tauto].
      * intros [->|Hxq]; [unfold f in Hx'; lia|]. apply (Hdq x Hxq). exact H1.
    + intros Hn. destruct (decide (x = l)) as [->|Hxl].
      * right. rewrite Hc in H1. cbn in H1. congruence.
      * left. tauto.
  - apply (pr_dom _ _ _ _ R).
  - intros d' Hs. apply elem_of_union in Hs as [Hs|Hs]; [apply (pr_st _ _ _ _ R); exact Hs|].
    apply elem_of_singleton in Hs. subst. eauto.
  - apply (pr_le _ _ _ _ R).
Qed.

(** list.index *)
Lemma list_index_Some cells queue e i :
  list_index cells queue e = Some i → ∃ l, queue !! i = Some l ∧ cell cells l = e.
Proof.
  revert i; induction queue as [|l queue IH]; intros i; cbn; [discriminate|].
  destruct (decide _) as [E|E].
  - intros [= <-]. exists l. auto.
  - destruct (list_index cells queue e) as [j|] eqn:Ej; cbn; [|discriminate].
    intros [= <-]. cbn. apply IH. reflexivity.
Qed.

Lemma list_index_None cells queue e :
  list_index cells queue e = None ↔ ∀ l, l ∈ queue → cell cells l ≠ e.
Proof.
  induction queue as [|l queue IH]; cbn.
  - split; [|reflexivity]. intros _ l Hl. inversion Hl.
  - destruct (decide _) as [E|E].
    + split; [discriminate|]. intros H. exfalso. apply (H l); [left|exact E].
    + destruct (list_index cells queue e) as [j|]; cbn.
      * split; [discriminate|]. intros H. exfalso.
        assert (Some j = None); [|discriminate]. apply IH. intros x Hx. apply H. right. exact Hx.
      * split; [|reflexivity]. intros _ x Hx. apply elem_of_cons in Hx as [->|Hx]; [exact E|].
        apply IH; auto.
Qed.

(** Lowering the entry [l] at position [i] and sifting. *)
Lemma lower_ok cells queue i l e :
  heap_ok (ref_ltb cells) queue → NoDup queue → queue !! i = Some l →
  entry_le e (cell cells l) →
  heap_ok (ref_ltb (<[l := e]> cells)) (siftdown (ref_ltb (<[l := e]> cells)) queue i).
Proof.
  intros Hok Hnd Hi Hle.
  apply siftdown_ok; [apply ref_asym|apply ref_trans| |apply lookup_lt_Some in Hi; exact Hi].
  assert (Hne : ∀ j x, queue !! j = Some x → j ≠ i → l ≠ x).
  { intros j x Hj Hji ->. apply Hji. eapply NoDup_lookup; eassumption. }
  split.
  - intros a c x y Hc Hci Hx Hy. apply ref_hle.
    rewrite (cell_insert_ne _ l y) by (eapply Hne; eauto).
    pose proof (Hok a c x y Hc Hx Hy) as H. apply ref_hle in H.
    destruct (decide (a = i)) as [->|Hai].
    + rewrite Hi in Hx. injection Hx as <-. rewrite cell_insert. eapply entry_le_trans; eassumption.
    + rewrite cell_insert_ne by (eapply Hne; eauto). exact H.
  - intros g c x y Hg Hc Hx Hy. apply ref_hle.
    assert (g ≠ i ∧ c ≠ i) as [Hgi Hci] by (unfold child in *; lia).
    rewrite !cell_insert_ne by (eapply Hne; eauto).
    pose proof (Hok g i x l Hg Hx Hi) as H1. pose proof (Hok i c l y Hc Hi Hy) as H2.
    apply ref_hle in H1, H2. eapply entry_le_trans; eassumption.
Qed.

(** decrease_priority on an entry that is in the heap *)
Lemma pq_decrease_fresh q mq ml st d p :
  pq_rep q mq ml st → mq !! d = Some p → d ∉ st →
  ∃ q', pq_decrease q d = Ok q' ∧ pq_rep q' (<[d := p - 1]> mq) (<[d := p - 1]> ml) st.
Proof.
  intros R Hd Hst.
  destruct (pr_dom _ _ _ _ R d) as [l Hl]; [eauto|].
  destruct (pr_loc _ _ _ _ R d l Hl) as (Hd2 & Hq & _).
  assert (Hlq : l ∈ pq_queue q).
  { destruct (decide (l ∈ pq_queue q)); [assumption|]. exfalso. apply Hst, Hq. assumption. }
  assert (Hc : cell (pq_cells q) l = (p, d)).
  { apply (pr_mq _ _ _ _ R) in Hd as (l' & Hl' & Hc').
    assert (l = l') as ->; [|exact Hc']. apply (pr_data _ _ _ _ R); auto. rewrite Hc'. exact Hd2. }
  unfold pq_decrease. rewrite Hl, Hc.
  destruct (list_index (pq_cells q) (pq_queue q) (p, d)) as [i|] eqn:Ei.
  2:{ exfalso. rewrite list_index_None in Ei. apply (Ei l Hlq Hc). }
  apply list_index_Some in Ei as (l' & Hi & Hc').
  assert (l' = l) as ->.
  { apply (pr_data _ _ _ _ R); auto; [eapply elem_of_list_lookup_2; eauto|]. rewrite Hc, Hc'. reflexivity. }
  cbn. eexists; split; [reflexivity|].
  set (cells := <[l := (p - 1, d)]> (pq_cells q)).
  assert (Hperm : siftdown (ref_ltb cells) (pq_queue q) i ≡ₚ pq_queue q)
    by (apply siftdown_perm; [apply ref_asym|apply ref_trans]).
  assert (Hin : ∀ x, x ∈ siftdown (ref_ltb cells) (pq_queue q) i ↔ x ∈ pq_queue q)
    by (intros x; rewrite Hperm; reflexivity).
  assert (Hcl : cell cells l = (p - 1, d)) by apply cell_insert.
  assert (Hcx : ∀ x, x ≠ l → cell cells x = cell (pq_cells q) x) by (intros x Hx; apply cell_insert_ne; congruence).
  assert (Hc2 : ∀ x, (cell cells x).2 = (cell (pq_cells q) x).2).
  { intros x. destruct (decide (x = l)) as [->|Hx]; [rewrite Hcl, Hc; reflexivity|rewrite Hcx by exact Hx; reflexivity]. }
  assert (Hpl : ∀ d' x, pq_locator q !! d' = Some x → x = l → d' = d).
  { intros d' x Hx ->. destruct (pr_loc _ _ _ _ R d' l Hx) as (E & _ & _). congruence. }
  split; cbn.
  - rewrite Hperm. apply (pr_nodup _ _ _ _ R).
  - intros x Hx. apply (pr_lt _ _ _ _ R), Hin. exact Hx.
  - apply (pr_llt _ _ _ _ R).
  - intros x y Hx Hy. rewrite !Hc2. apply (pr_data _ _ _ _ R); apply Hin; assumption.
  - intros d' p'. rewrite lookup_insert_Some, (pr_mq _ _ _ _ R). split.
    + intros [[<- <-]|[Hne (x & Hx & Hcx')]].
      * exists l. split; [apply Hin; exact Hlq|exact Hcl].
      * exists x. split; [apply Hin; exact Hx|]. rewrite Hcx; [exact Hcx'|]. intros ->. congruence.
    + intros (x & Hx & Hcx'). apply Hin in Hx. destruct (decide (x = l)) as [->|Hxl].
      * left. rewrite Hcl in Hcx'. split; congruence.
      * right. rewrite Hcx in Hcx' by exact Hxl. split; [|eauto]. intros <-. apply Hxl.
        apply (pr_data _ _ _ _ R); auto. rewrite Hcx', Hc. reflexivity.
  - apply lower_ok; [apply (pr_heap _ _ _ _ R)|apply (pr_nodup _ _ _ _ R)|exact Hi|].
    rewrite Hc. left. cbn. lia.
  - intros d' p'. rewrite lookup_insert_Some, (pr_ml _ _ _ _ R). split.
    + intros [[<- <-]|[Hne (x & Hx & Hcx')]].
      * exists l. split; [exact Hl|exact Hcl].
      * exists x. split; [exact Hx|]. rewrite Hcx; [exact Hcx'|]. intros ->. congruence.
    + intros (x & Hx & Hcx'). destruct (decide (x = l)) as [->|Hxl].
      * left. rewrite Hcl in Hcx'. split; congruence.
      * right. rewrite Hcx in Hcx' by exact Hxl. split; [|eauto]. intros <-. congruence.
  - intros d' x Hx. rewrite Hc2. destruct (pr_loc _ _ _ _ R d' x Hx) as (H1 & H2 & H3).
    split; [exact H1|]. split; [rewrite H2, Hin; reflexivity|].
    destruct (decide (d = d')) as [<-|Hne]; [rewrite lookup_insert; eauto|].
    rewrite lookup_insert_ne by exact Hne. exact H3.
  - intros d' Hs. apply (pr_dom _ _ _ _ R). destruct (decide (d = d')) as [<-|Hne]; [eauto|].
    rewrite lookup_insert_ne in Hs by exact Hne. exact Hs.
  - intros d' Hs. apply (pr_st _ _ _ _ R) in Hs. destruct (decide (d = d')) as [<-|Hne]; [rewrite lookup_insert; eauto|].
    rewrite lookup_insert_ne by exact Hne. exact Hs.
  - intros d' p1 p2. rewrite !lookup_insert_Some.
    intros [[<- <-]|[Hne H1]] [[? <-]|[Hne' H2]]; try lia; try congruence.
    apply (pr_le _ _ _ _ R d'); assumption.
Qed.

(** decrease_priority on a stale entry: the heap is not touched *)
Lemma pq_decrease_stale q mq ml st d p p' :
  pq_rep q mq ml st → mq !! d = Some p → ml !! d = Some p' → d ∈ st →
  if decide (p' = p)
  then ∃ q', pq_decrease q d = Ok q' ∧ pq_rep q' mq (<[d := p - 1]> ml) st
  else pq_decrease q d = Raise ValueError.
Proof.
  intros R Hd Hd' Hst.
  apply (pr_ml _ _ _ _ R) in Hd' as (l & Hl & Hc).
  destruct (pr_loc _ _ _ _ R d l Hl) as (_ & Hq & _).
  assert (Hlq : l ∉ pq_queue q) by (apply Hq; exact Hst).
  unfold pq_decrease. rewrite Hl, Hc.
  apply (pr_mq _ _ _ _ R) in Hd as Hd''. destruct Hd'' as (l' & Hl' & Hc').
  destruct (decide (p' = p)) as [->|Hne].
  2:{ destruct (list_index _ _ _) as [i|] eqn:Ei; [|reflexivity]. exfalso.
      apply list_index_Some in Ei as (x & Hi & Hcx). apply Hne.
      assert (x = l') as ->.
      { apply (pr_data _ _ _ _ R); auto; [eapply elem_of_list_lookup_2; eauto|]. rewrite Hcx, Hc'. reflexivity. }
      congruence. }
  destruct (list_index _ _ _) as [i|] eqn:Ei.
  2:{ exfalso. rewrite list_index_None in Ei. apply (Ei l' Hl' Hc'). }
  apply list_index_Some in Ei as (x & Hi & _). cbn.
  eexists; split; [reflexivity|].
  set (cells := <[l := (p - 1, d)]> (pq_cells q)).
  assert (Hcq : ∀ x, x ∈ pq_queue q → cell cells x = cell (pq_cells q) x).
  { intros y Hy. apply cell_insert_ne. intros ->. done. }
  assert (Hok : heap_ok (ref_ltb cells) (pq_queue q)).
  { eapply heap_ok_ext; [|apply (pr_heap _ _ _ _ R)]. intros a b Ha Hb. unfold ref_ltb.
    rewrite (Hcq a Ha), (Hcq b Hb). reflexivity. }
  assert (Hperm : siftdown (ref_ltb cells) (pq_queue q) i ≡ₚ pq_queue q)
    by (apply siftdown_perm; [apply ref_asym|apply ref_trans]).
  assert (Hin : ∀ x, x ∈ siftdown (ref_ltb cells) (pq_queue q) i ↔ x ∈ pq_queue q)
    by (intros y; rewrite Hperm; reflexivity).
  assert (Hcl : cell cells l = (p - 1, d)) by apply cell_insert.
  assert (Hcx : ∀ x, x ≠ l → cell cells x = cell (pq_cells q) x) by (intros y Hy; apply cell_insert_ne; congruence).
  split; cbn.
  - rewrite Hperm. apply (pr_nodup _ _ _ _ R).
  - intros y Hy. apply (pr_lt _ _ _ _ R), Hin. exact Hy.
  - apply (pr_llt _ _ _ _ R).
  - intros y z Hy Hz. apply Hin in Hy, Hz. rewrite (Hcq y Hy), (Hcq z Hz). apply (pr_data _ _ _ _ R); assumption.
  - intros d' p'. rewrite (pr_mq _ _ _ _ R). split; intros (y & Hy & Hcy); exists y.
    + split; [apply Hin; exact Hy|]. rewrite Hcq by exact Hy. exact Hcy.
    + apply Hin in Hy. split; [exact Hy|]. rewrite Hcq in Hcy by exact Hy. exact Hcy.
  - apply siftdown_ok; [apply ref_asym|apply ref_trans| |apply lookup_lt_Some in Hi; exact Hi].
    split; [intros ? ? ? ? Hch _; apply Hok; exact Hch|].
    intros g c a b Hg Hch Ha Hb. destruct (pq_queue q !! i) as [m|] eqn:Em; [|discriminate].
    eapply ref_trans; [apply (Hok g i a m)|apply (Hok i c m b)]; auto.
  - intros d' p'. rewrite lookup_insert_Some, (pr_ml _ _ _ _ R). split.
    + intros [[<- <-]|[Hne (y & Hy & Hcy)]].
      * exists l. split; [exact Hl|exact Hcl].
      * exists y. split; [exact Hy|]. rewrite Hcx; [exact Hcy|]. intros ->. congruence.
    + intros (y & Hy & Hcy). destruct (decide (y = l)) as [->|Hyl].
      * left. rewrite Hcl in Hcy. split; congruence.
      * right. rewrite Hcx in Hcy by exact Hyl. split; [|eauto]. intros <-. congruence.
  - intros d' y Hy. destruct (pr_loc _ _ _ _ R d' y Hy) as (H1 & H2 & H3).
    split; [|split; [rewrite H2, Hin; reflexivity|exact H3]].
    destruct (decide (y = l)) as [->|Hyl]; [|rewrite Hcx by exact Hyl; exact H1].
    rewrite Hcl. rewrite Hc in H1. exact H1.
  - apply (pr_dom _ _ _ _ R).
  - apply (pr_st _ _ _ _ R).
  - intros d' p1 p2. rewrite lookup_insert_Some. intros [[<- <-]|[Hne H1]] H2.
    + assert (p2 = p) by congruence. lia.
    + apply (pr_le _ _ _ _ R d'); assumption.
Qed.

Lemma pq_decrease_absent q mq ml st d :
  pq_rep q mq ml st → mq !! d = None → pq_decrease q d = Raise KeyError.
Proof.
  intros R Hd. unfold pq_decrease. destruct (pq_locator q !! d) as [l|] eqn:E; [|reflexivity].
  destruct (pr_loc _ _ _ _ R d l E) as (_ & _ & [? ?]). congruence.
Qed.

Lemma pq_remove_absent q mq ml st d :
  pq_rep q mq ml st → mq !! d = None → pq_remove q d = Raise KeyError.
Proof.
  intros R Hd. unfold pq_remove. destruct (pq_locator q !! d) as [l|] eqn:E; [|reflexivity].
  destruct (pr_loc _ _ _ _ R d l E) as (_ & _ & [? ?]). congruence.
Qed.

Lemma pq_remove_stale q mq ml st d :
  pq_rep q mq ml st → d ∈ st → (∀ d p, mq !! d = Some p → 0 <= p) →
  ∃ e, pq_remove q d = Raise e.
Proof.
  intros R Hst Hpos. destruct (pr_st _ _ _ _ R d Hst) as [p Hd].
  destruct (pr_dom _ _ _ _ R d) as [l Hl]; [eauto|].
  destruct (pr_loc _ _ _ _ R d l Hl) as (Hd2 & Hq & _).
  assert (Hlq : l ∉ pq_queue q) by (apply Hq; exact Hst).
  unfold pq_remove. rewrite Hl.
  destruct (list_index _ _ _) as [i|] eqn:Ei; [|eauto].
  rewrite Hd2. set (cells := <[l := (-1, d)]> (pq_cells q)).
  assert (Hperm : siftdown (ref_ltb cells) (pq_queue q) i ≡ₚ pq_queue q)
    by (apply siftdown_perm; [apply ref_asym|apply ref_trans]).
  destruct (heappop (ref_ltb cells) (siftdown (ref_ltb cells) (pq_queue q) i)) as [[l' queue]|e] eqn:Ep;
    cbn; [|eauto].
  destruct (decide _) as [E|E]; [|eauto]. exfalso.
  assert (Hne : siftdown (ref_ltb cells) (pq_queue q) i ≠ []).
  { intros E'. rewrite E' in Ep. cbn in Ep. discriminate. }
  destruct (heappop_spec _ (ref_asym cells) (ref_trans cells) _ Hne) as (x & h' & E1 & _ & E2 & _).
  rewrite Ep in E1. injection E1 as <- <-.
  assert (Hl' : l' ∈ pq_queue q) by (rewrite <- Hperm, E2; left).
  unfold cells in E. rewrite cell_insert_ne in E by (intros ->; done).
  assert (mq !! d = Some (-1)) by (apply (pr_mq _ _ _ _ R); eauto).
  specialize (Hpos d (-1) H). lia.
Qed.

Lemma pq_remove_fresh q mq ml st d :
  pq_rep q mq ml st → is_Some (mq !! d) → d ∉ st → (∀ d p, mq !! d = Some p → 0 <= p) →
  ∃ q', pq_remove q d = Ok q' ∧ pq_rep q' (delete d mq) (delete d ml) st.
Proof.
  intros R [p Hd] Hst Hpos.
  destruct (pr_dom _ _ _ _ R d) as [l Hl]; [eauto|].
  destruct (pr_loc _ _ _ _ R d l Hl) as (Hd2 & Hq & _).
  assert (Hlq : l ∈ pq_queue q).
  { destruct (decide (l ∈ pq_queue q)); [assumption|]. exfalso. apply Hst, Hq. assumption. }
  assert (Hc : cell (pq_cells q) l = (p, d)).
  { apply (pr_mq _ _ _ _ R) in Hd as (l' & Hl' & Hc').
    assert (l = l') as ->; [|exact Hc']. apply (pr_data _ _ _ _ R); auto. rewrite Hc'. exact Hd2. }
  unfold pq_remove. rewrite Hl, Hc.
  destruct (list_index (pq_cells q) (pq_queue q) (p, d)) as [i|] eqn:Ei.
  2:{ exfalso. rewrite list_index_None in Ei. apply (Ei l Hlq Hc). }
  apply list_index_Some in Ei as (l' & Hi & Hc').
  assert (l' = l) as ->.
  { apply (pr_data _ _ _ _ R); auto; [eapply elem_of_list_lookup_2; eauto|]. rewrite Hc, Hc'. reflexivity. }
  cbn [snd]. set (cells := <[l := (-1, d)]> (pq_cells q)).
  set (queue := siftdown (ref_ltb cells) (pq_queue q) i).
  assert (Hperm : queue ≡ₚ pq_queue q) by (apply siftdown_perm; [apply ref_asym|apply ref_trans]).
  assert (Hcl : cell cells l = (-1, d)) by apply cell_insert.
  assert (Hcx : ∀ x, x ≠ l → cell cells x = cell (pq_cells q) x) by (intros x Hx; apply cell_insert_ne; congruence).
  assert (Hok : heap_ok (ref_ltb cells) queue).
  { apply lower_ok; [apply (pr_heap _ _ _ _ R)|apply (pr_nodup _ _ _ _ R)|exact Hi|].
    rewrite Hc. left. cbn. specialize (Hpos d p Hd). lia. }
  assert (Hne : queue ≠ []).
  { intros E. rewrite E in Hperm. symmetry in Hperm. apply Permutation_nil_r in Hperm. rewrite Hperm in Hlq. inversion Hlq. }
  destruct (heappop_spec _ (ref_asym cells) (ref_trans cells) _ Hne) as (x & h' & Hpop & _ & Hp' & Hmin).
  destruct (Hmin Hok) as [Hok' Hmin']. clear Hmin.
  assert (Hx : x ∈ pq_queue q) by (rewrite <- Hperm, Hp'; left).
  assert (x = l) as ->.
  { destruct (decide (x = l)) as [|Hxl]; [assumption|]. exfalso.
    assert (Hle : hle (ref_ltb cells) x l) by (apply Hmin'; rewrite Hperm; exact Hlq).
    apply ref_hle in Hle. rewrite Hcl, Hcx in Hle by exact Hxl.
    destruct (cell (pq_cells q) x) as [px dx] eqn:Ex.
    assert (mq !! dx = Some px) by (apply (pr_mq _ _ _ _ R); eauto).
    specialize (Hpos dx px H). unfold entry_le in Hle. cbn in Hle. lia. }
  rewrite Hpop. cbn. rewrite Hcl. rewrite decide_True by reflexivity.
  eexists; split; [reflexivity|].
  assert (Hin : ∀ y, y ∈ pq_queue q ↔ y = l ∨ y ∈ h') by (intros y; rewrite <- Hperm, Hp'; apply elem_of_cons).
  assert (Hnd : NoDup (l :: h')) by (rewrite <- Hp', Hperm; apply (pr_nodup _ _ _ _ R)).
  apply NoDup_cons in Hnd as [Hlh Hnd].
  assert (Hch : ∀ y, y ∈ h' → cell cells y = cell (pq_cells q) y) by (intros y Hy; apply Hcx; intros ->; done).
  assert (Hdh : ∀ y, y ∈ h' → (cell (pq_cells q) y).2 ≠ d).
  { intros y Hy E. assert (y = l); [|congruence].
    apply (pr_data _ _ _ _ R); [apply Hin; auto|exact Hlq|]. rewrite Hc. exact E. }
  assert (Hloc : ∀ d' y, d' ≠ d → pq_locator q !! d' = Some y → y ≠ l).
  { intros d' y Hne' Hy ->. destruct (pr_loc _ _ _ _ R d' l Hy) as (E & _). congruence. }
  split; cbn.
  - exact Hnd.
  - intros y Hy. apply (pr_lt _ _ _ _ R), Hin. auto.
  - intros d' y Hy. apply lookup_delete_Some in Hy as [_ Hy]. apply (pr_llt _ _ _ _ R) in Hy. exact Hy.
  - intros y z Hy Hz. rewrite (Hch y Hy), (Hch z Hz). apply (pr_data _ _ _ _ R); apply Hin; auto.
  - intros d' p'. rewrite lookup_delete_Some, (pr_mq _ _ _ _ R). split.
    + intros [Hdd (y & Hy & Hcy)]. exists y. apply Hin in Hy as [->|Hy]; [congruence|].
      split; [exact Hy|]. rewrite Hch by exact Hy. exact Hcy.
    + intros (y & Hy & Hcy). rewrite Hch in Hcy by exact Hy. split.
      * intros <-. apply (Hdh y Hy). rewrite Hcy. reflexivity.
      * exists y. split; [apply Hin; auto|exact Hcy].
  - exact Hok'.
  - intros d' p'. rewrite lookup_delete_Some, (pr_ml _ _ _ _ R). setoid_rewrite lookup_delete_Some. split.
    + intros [Hdd (y & Hy & Hcy)]. exists y. split; [auto|]. rewrite Hcx; [exact Hcy|]. eapply Hloc; eauto.
    + intros (y & [Hdd Hy] & Hcy). split; [exact Hdd|]. exists y. split; [exact Hy|].
      rewrite Hcx in Hcy; [exact Hcy|]. eapply Hloc; eauto.
  - intros d' y Hy. apply lookup_delete_Some in Hy as [Hdd Hy].
    destruct (pr_loc _ _ _ _ R d' y Hy) as (H1 & H2 & H3).
    rewrite Hcx by (eapply Hloc; eauto).
    split; [exact H1|]. split; [|rewrite lookup_delete_ne by exact Hdd; exact H3].
    rewrite H2, Hin. assert (y ≠ l) by (eapply Hloc; eauto). tauto.
  - intros d' [p' Hs]. apply lookup_delete_Some in Hs as [Hdd Hs].
    rewrite lookup_delete_ne by exact Hdd. apply (pr_dom _ _ _ _ R). eauto.
  - intros d' Hs. rewrite lookup_delete_ne by (intros ->; done). apply (pr_st _ _ _ _ R). exact Hs.
  - intros d' p1 p2. rewrite !lookup_delete_Some. intros [_ H1] [_ H2]. apply (pr_le _ _ _ _ R d'); assumption.
Qed.

Lemma pq_rep_len q mq ml st : pq_rep q mq ml st → pq_len q = size mq.
Proof.
  intros R. unfold pq_len.
  rewrite <- (fmap_length (λ l, (cell (pq_cells q) l).2) (pq_queue q)).
  rewrite <- size_dom.
  assert (Hnd : NoDup ((λ l, (cell (pq_cells q) l).2) <$> pq_queue q)).
  { apply NoDup_fmap_2_strong; [|apply (pr_nodup _ _ _ _ R)].
    intros x y Hx Hy. apply (pr_data _ _ _ _ R); assumption. }
  rewrite <- (size_list_to_set (C := gset bytes)) by exact Hnd. f_equal.
  apply leibniz_equiv. intros d. rewrite elem_of_list_to_set, elem_of_dom, elem_of_list_fmap. split.
  - intros (l & -> & Hl). exists (cell (pq_cells q) l).1. apply (pr_mq _ _ _ _ R). exists l.
    split; [exact Hl|]. destruct (cell _ l); reflexivity.
  - intros [p Hp]. apply (pr_mq _ _ _ _ R) in Hp as (l & Hl & Hc). exists l. rewrite Hc. auto.
Qed.

Lemma pq_rep_nil q mq ml st : pq_rep q mq ml st → pq_queue q = [] ↔ mq = ∅.
Proof.
  intros R. pose proof (pq_rep_len _ _ _ _ R) as Hl. unfold pq_len in Hl.
  rewrite <- map_size_empty_iff, <- Hl. destruct (pq_queue q); cbn; split; try reflexivity; try discriminate.
Qed.

(** ** Refinement *)
Lemma pq_call_refines q m st o :
  pq_rep q m m st → (∀ d p, m !! d = Some p → 0 <= p) → pq_contract m st o →
  ∃ m' st', pq_does m st o m' st' (pq_call q o).2 ∧ pq_rep (pq_call q o).1 m' m' st' ∧
        (∀ d p, m' !! d = Some p → 0 <= p).
Proof.
  intros R Hpos C. destruct o as [p d| |d|d| |]; cbn in C.
  - destruct C as [Hp Hd]. eexists _, _. split; [constructor|]. split; [apply pq_put_rep; assumption|].
    intros d' p'. rewrite lookup_insert_Some. intros [[_ <-]|[_ H]]; eauto.
  - cbn [pq_call]. destruct (pq_queue q) as [|x qq] eqn:Eq.
    + exists m, st. split; [constructor; apply (pq_rep_nil _ _ _ _ R); exact Eq|]. auto.
    + destruct (pq_get_rep _ _ _ _ R) as (q' & p & d & -> & Hd & Hmin & R'); [rewrite Eq; discriminate|].
      cbn. exists (delete d m), (st ∖ {[d]}). split; [constructor; split; assumption|]. split; [exact R'|].
      intros d' p'. rewrite lookup_delete_Some. intros [_ ?]; eauto.
  - cbn [pq_call]. destruct (m !! d) as [p|] eqn:Ed.
    + destruct (pq_remove_fresh _ _ _ _ d R) as (q' & -> & R'); [eauto|exact C|exact Hpos|].
      exists (delete d m), st. split; [constructor; eauto|]. split; [exact R'|].
      intros d' p'. rewrite lookup_delete_Some. intros [_ ?]; eauto.
    + rewrite (pq_remove_absent _ _ _ _ _ R Ed). exists m, st. cbn.
      assert (pq_failed_remove q d = q) as ->.
      { unfold pq_failed_remove. destruct (pq_locator q !! d) as [l|] eqn:E; [|reflexivity].
        destruct (pr_loc _ _ _ _ R d l E) as (_ & _ & [? ?]). congruence. }
      split; [constructor; exact Ed|]. auto.
  - cbn [pq_call]. destruct C as [C Hst]. destruct (m !! d) as [p|] eqn:Ed.
    + destruct (pq_decrease_fresh _ _ _ _ d p R Ed) as (q' & -> & R'); [exact Hst|].
      exists (<[d := p - 1]> m), st. split; [constructor; exact Ed|]. split; [exact R'|].
      intros d' p'. rewrite lookup_insert_Some. specialize (C p eq_refl).
      intros [[_ <-]|[_ ?]]; [lia|eauto].
    + rewrite (pq_decrease_absent _ _ _ _ _ R Ed). exists m, st. split; [constructor; exact Ed|]. auto.
  - cbn. exists m, st. rewrite (pq_rep_len _ _ _ _ R). split; [constructor|]. auto.
  - cbn [pq_call]. destruct (decide (pq_queue q = [])) as [Eq|Eq].
    + unfold pq_max_priority. rewrite Eq. cbn. exists m, st.
      split; [constructor; apply (pq_rep_nil _ _ _ _ R); exact Eq|]. auto.
    + destruct (pq_max_rep _ _ _ _ R Eq) as (q' & p & d & -> & Hd & Hmin & R').
      cbn. exists m, (st ∪ {[d]}). split; [constructor; split; assumption|]. auto.
Qed.

Lemma pq_calls_conform os q m st :
  pq_rep q m m st → (∀ d p, m !! d = Some p → 0 <= p) →
  pq_conforms m st os (run_calls pq_call q os).
Proof.
  revert q m st; induction os as [|o os IH]; intros q m st R Hpos; [exact I|].
  cbn [run_calls]. destruct (pq_call q o) as [q' r] eqn:E. cbn [pq_conforms]. intros C.
  destruct (pq_call_refines q m st o R Hpos C) as (m' & st' & Hd & R' & Hpos').
  rewrite E in Hd, R'. cbn in *. exists m', st'. split; [exact Hd|]. apply IH; assumption.
Qed.

Lemma pq_refines os : pq_conforms ∅ ∅ os (run_calls pq_call pq_empty os).
Proof.
  apply pq_calls_conform; [exact pq_rep_empty|]. intros d p. rewrite lookup_empty. discriminate.
Qed.
