(** * The monitor shows the state of the scheduler (C98) *)

From Verif.Model Require Import Base Message SchedulerState Scheduler Counters Formatter Top Published.
From Verif.Spec Require Import SchedulerSpec TopSpec PublishedSpec CountersSpec.
From Verif.Proofs Require Import BaseProofs TopProofs CountersProofs SchedCount SchedHold SchedPrim SchedGlobal SchedStep SchedRemove SchedPlain SchedPolite.

Lemma worker_json_ok value percent w row : fits (wr_info row) → worker_ok (worker_json value percent w row).
Proof.
  intros (H1 & H2 & H3). split; [apply (bool_decide_unpack _); vm_compute; exact I|].
  split_and!; eexists; (split; [cbn; tauto|]);
    [by eexists|by eexists _, _| |by eexists _, _| |by eexists| |by eexists|by eexists|by eexists]; eexists; (split; [reflexivity|done]).
Qed.
Lemma becomes_ok value percent cpu rss st r j : becomes value percent cpu rss st r j →
  (∃ x p, cpu = CFloat x p) → 0 <= rss < 1024 ^ 5 → (∀ w row, rp_workers r !! w = Some row → fits (wr_info row)) → report_ok j.
Proof.
  intros (E & _ & _ & _ & _ & _ & ws & Hp & Hw) Hc Hr Hf. repeat split.
  - rewrite E. apply (bool_decide_unpack _); vm_compute; exact I.
  - rewrite E. exists cpu. split; [left; reflexivity|done].
  - rewrite E. exists (CInt rss). split; [right; left; reflexivity|by exists rss].
  - rewrite Hw. apply Forall_fmap, Forall_forall. intros [w row] Hin. rewrite Hp in Hin. apply elem_of_map_to_list in Hin. apply worker_json_ok, (Hf _ _ Hin).
  - rewrite Hw. intros a b Ha Hb. apply elem_of_list_In, elem_of_list_fmap in Ha as (p & -> & _), Hb as (q & -> & _). reflexivity.
Qed.

Lemma row_tells value percent w row cells : Forall2 (displays (worker_json value percent w row)) (entries (worker_json value percent w row)) cells →
  tells_of percent w (wr_info row) (wr_free row) (wr_sent row) (wr_last row) cells.
Proof.
  intros H.
  assert (E : entries (worker_json value percent w row) = take 9 (worker_json value percent w row) ++ drop 10 (worker_json value percent w row)) by reflexivity.
  rewrite E in H. clear E. remember (displays (worker_json value percent w row)) as D eqn:ED. cbn [worker_json take drop app] in H.
  apply Forall2_cons_inv_l in H as (c1 & l1 & H1 & H & ->). apply Forall2_cons_inv_l in H as (c2 & l2 & H2 & H & ->).
  apply Forall2_cons_inv_l in H as (c3 & l3 & H3 & H & ->). apply Forall2_cons_inv_l in H as (c4 & l4 & H4 & H & ->).
  apply Forall2_cons_inv_l in H as (c5 & l5 & H5 & H & ->). apply Forall2_cons_inv_l in H as (c6 & l6 & H6 & H & ->).
  apply Forall2_cons_inv_l in H as (c7 & l7 & H7 & H & ->). apply Forall2_cons_inv_l in H as (c8 & l8 & H8 & H & ->).
  apply Forall2_cons_inv_l in H as (c9 & l9 & H9 & H & ->). apply Forall2_cons_inv_l in H as (c10 & l10 & H10 & H & ->).
  apply Forall2_nil_inv_l in H as ->. subst D.
  destruct H1 as (? & [= <-] & ->), H2 as (? & ? & [= <- <-] & ->), H3 as (? & s3 & [= <-] & E3 & ->), H4 as (? & ? & [= <- <-] & ->), H5 as (? & s5 & [= <-] & E5 & ->).
  assert (c6 = CInt (wr_free row)) as -> by exact H6. assert (c7 = CInt (wr_sent row)) as -> by exact H7. assert (c8 = CInt (hb_queued (wr_info row))) as -> by exact H8.
  assert (c10 = CText (flag (hb_initialized (wr_info row)) +:+ flag (hb_has_task (wr_info row)) +:+ flag (hb_task_lock (wr_info row)))) as -> by exact H10.
  destruct H9 as (? & s9 & last & [= <-] & E9 & Hl & ->).
  assert (last = wr_last row) as ->.
  { repeat (destruct Hl as [[=]|Hl]; try done). }
  exists s3, s5, s9. done.
Qed.

Lemma fmap_seq {A B} (f : A → B) (d : B) (l : list A) : (λ p, default d (f <$> l !! p)) <$> seq 0 (length l) = f <$> l.
Proof.
  apply list_eq. intros i. rewrite !list_lookup_fmap. destruct (decide (i < length l)%nat) as [Hi|Hi].
  - rewrite lookup_seq_lt by done. cbn. destruct (lookup_lt_is_Some_2 l i Hi) as [x ->]. done.
  - rewrite lookup_seq_ge, (lookup_ge_None_2 l i) by lia. done.
Qed.

Lemma registered_beat c rs w : c_max_waiting c < 0 → always (polite utf8) (s_log (run c rs)) → w ∈ registered (s_log (run c rs)) → ∃ last h, last_beat w (s_log (run c rs)) = Some (last, h).
Proof.
  intros Hw Hp Hr. pose proof (c_dead _ _ _ _ _ (gd_core _ (good_run c rs Hw Hp))) as Hd. destruct (Inv2_run c rs) as [_ H2]. specialize (H2 Hd).
  apply (I2_alive_reg _ w H2) in Hr as [[last h] Hp']. exists last, h. exact (alive_beat c rs w _ Hd Hp').
Qed.

Lemma shown_state c rs now codes : let s := run c rs in
  c_max_waiting c < 0 → always (polite utf8) (s_log s) →
  (∀ w last h, w ∈ registered (s_log s) → last_beat w (s_log s) = Some (last, h) → fits h) →
  ∃ r, s_log (step s (Round now codes EStatus)) = s_log s ++ [LIn now EStatus; LReport r] ∧
  ∀ value percent x p rss st j sort_by, becomes value percent (CFloat x p) rss st r j → 0 <= rss < 1024 ^ 5 → sort_by ∈ columns →
  ∃ t1 t2 texts, status_tables j sort_by = Ok (t1, t2) ∧ screen j sort_by = Ok texts ∧
    line t1 "unassigned" (Z.of_nat (length (s_unassigned s))) ∧ line t1 "running" (number (dom (holder (s_log s)))) ∧
    (∃ success failed canceled not_found, outcomes (s_log s) = (success, failed, canceled, not_found) ∧
      line t1 "success" success ∧ line t1 "failed" failed ∧ line t1 "canceled" canceled ∧ line t1 "not_found" not_found) ∧
    (∀ es xs, socket_run binder_step no_statistics es = (st, xs) → no_failure xs → ∀ t,
      (0 < handed t xs → line t1 (type_name t) (handed t xs)) ∧ (0 < wired t xs → line t1 (type_name t) (wired t xs))) ∧
    (∀ cl (X : gset bytes), (∀ t, t ∈ X ↔ accepted cl t (s_log s) ∧ ¬ answered t (s_log s)) → X ≠ ∅ → shown t2 [CText (truncate cl 18 KeepLeft); CInt (number X)]) ∧
    ∃ order, order ≡ₚ elements (registered (s_log s)) ∧ ∀ i w, order !! i = Some w → ∃ last h cells rest,
      last_beat w (s_log s) = Some (last, h) ∧ t2 !! S i = Some (cells ++ rest) ∧
      tells_of percent w h (c_queue_size c - outstanding (s_log s) w) (outstanding (s_log s) w) (now - last) cells.
Proof.
  intros s Hw Ha Hf. destruct (report_lemma c rs now codes Hw Ha) as (r & E & _ & Hu & Hr & _ & Ho & Hc & Hc' & Hws). fold s in E, Hu, Hr, Ho, Hc, Hc', Hws.
  exists r. split; [exact E|]. intros value percent x p rss st j sort_by Hj Hrss Hcol.
  assert (Hok : report_ok j).
  { apply (becomes_ok _ _ _ _ _ _ _ Hj); [by exists x, p|done|]. intros w row Hrow. apply Hws in Hrow as (Hreg & last & h & Hb & ->). exact (Hf w last h Hreg Hb). }
  destruct (status_ok j sort_by Hok Hcol) as (t1 & t2 & w1 & w2 & Et & _ & _ & Hnum & _ & _ & _ & Hcl & _ & _ & out & (places & Hpl & Hlen & Hout & _) & Hrows).
  destruct (screen_ok j sort_by Hok Hcol) as (t1' & t2' & ps1 & ps2 & _ & _ & _ & Es & _).
  destruct Hj as (_ & Ht & Hsent & Hrecv & Hclj & _ & ws & Hp & Hwj).
  exists t1, t2, (ps1 ++ ps2). split; [done|]. split; [done|].
  assert (Htask : ∀ k n, In (k, CInt n) (tasks_json r) → line t1 k n).
  { intros k n Hin. apply Hnum. rewrite Ht. apply in_or_app. by left. }
  split; [rewrite <- Hu; apply Htask; cbn; tauto|]. split; [rewrite <- Hr; apply Htask; cbn; tauto|].
  split. { exists (rp_success r), (rp_failed r), (rp_canceled r), (rp_not_found r). split; [by rewrite Ho|]. split_and!; apply Htask; cbn; tauto. }
  split.
  { intros es xs Hrun Hno t. destruct (counters_true binder_step binder_counts es st xs Hrun Hno) as [H1 H2]. split; intros Hpos; apply Hnum, elem_of_list_In.
    - apply elem_of_app. right. apply elem_of_app. right. rewrite Hrecv. apply elem_of_list_fmap. exists (type_name t, handed t xs). split; [done|]. apply elem_of_map_to_list, H1. by exists t.
    - apply elem_of_app. right. apply elem_of_app. left. rewrite Hsent. apply elem_of_list_fmap. exists (type_name t, wired t xs). split; [done|]. apply elem_of_map_to_list, H2. by exists t. }
  split.
  { intros cl X HX Hne. apply set_choose_L in Hne as [t Hin]. apply HX in Hin. destruct (proj2 (Hc' cl) (ex_intro _ t Hin)) as [n Hn]. rewrite <- (Hc cl n Hn X HX).
    apply Hcl, elem_of_list_In, elem_of_app. left. rewrite Hclj. apply elem_of_list_fmap. exists (cl, n). split; [done|]. by apply elem_of_map_to_list. }
  assert (Hl : length (r_workers j) = length ws) by (rewrite Hwj; apply fmap_length).
  exists ((λ q, default "" (fst <$> ws !! q)) <$> places). split.
  - rewrite Hpl, Hl, fmap_seq. apply NoDup_Permutation; [|apply NoDup_elements|].
    + rewrite Hp. apply NoDup_fst_map_to_list.
    + intros w. rewrite elem_of_elements, Hp, elem_of_list_fmap. split.
      * intros ([w' row] & -> & Hin). apply elem_of_map_to_list, Hws in Hin. cbn. tauto.
      * intros Hreg. destruct (registered_beat c rs w Hw Ha Hreg) as (last & h & Hb).
        eexists (w, _). split; [done|]. apply elem_of_map_to_list, Hws. split; [done|]. by exists last, h.
  - intros i w Hi. rewrite list_lookup_fmap in Hi. destruct (places !! i) as [q|] eqn:Eq; [|done]. injection Hi as Hi.
    assert (Hq : (q < length ws)%nat). { apply elem_of_list_lookup_2 in Eq. rewrite Hpl, Hl in Eq. apply elem_of_seq in Eq. lia. }
    destruct (lookup_lt_is_Some_2 ws q Hq) as [[w' row] Hrow]. rewrite Hrow in Hi. cbn in Hi. subst w'.
    assert (Hin : rp_workers r !! w = Some row). { apply elem_of_map_to_list. rewrite <- Hp. by apply elem_of_list_lookup_2 in Hrow. }
    apply Hws in Hin as (Hreg & last & h & Hb & ->).
    assert (Ho' : out !! i = Some (worker_json value percent w (WorkerRow h (c_queue_size c - outstanding (s_log s) w) (outstanding (s_log s) w) (now - last)))).
    { rewrite (Hout i q Eq), Hwj, list_lookup_fmap, Hrow. done. }
    destruct (Hrows i _ Ho') as (cells & rest & Ht2 & Hd). exists last, h, cells, rest. split; [done|]. split; [done|]. exact (row_tells _ _ _ _ _ Hd).
Qed.
