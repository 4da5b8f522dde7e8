(** * Orderly executions with graphs can always be finished: the theorem (C87) *)

From Verif.Model Require Import Base OneToManyDict PriorityQueue Allocator Message Sorter Client Worker Processor Scheduler System.
From Verif.Spec Require Import AllocatorSpec DictSpec SchedulerSpec SystemSpec FlowSpec TrafficSpec GraphFlowSpec.
From Verif.Proofs Require SchedContent ClientProofs FlowFinish.
From Verif.Proofs Require Import BaseProofs DictProofs AllocatorProofs SchedWp SchedCount SchedHold SchedGlobal SchedStep SchedRemove SchedPlain SchedPolite SchedLive SchedBegin SchedTraffic SchedFinish SystemParts SystemProofs FlowSched FlowWorker FlowWork FlowClient FlowSystem GraphClient GraphRounds GraphFlow GraphStep GraphFinish GraphDrive GraphEnd GraphTold.
Import FlowFinish(fold_len, fold_len_zero, app_split).

Section told_all.
  Context (cfg : config) (Hmax : c_max_waiting cfg < 0).
  Definition all_told (y : system) : Prop := ∀ c x, y_clients y !! c = Some x → told x.
  (** The scheduler answers only graphs that were sent to it by the same client. *)
  Lemma answer_sent {Gn} X y c g st rs : Gd (Gn:=Gn) cfg X y → LSend c (MGraphTaskResult g st rs) ∈ s_log (y_sched y) → ∃ x fs ts ns, y_clients y !! c = Some x ∧ COut (MGraphTask g fs ts ns) ∈ x.2.
  Proof.
    intros H Hsent. pose proof (gl_answers H _ _ Hsent) as ->. destruct (ok_run _ _ (gl_ok H)) as [rr Hrs]. pose proof Hsent as Hs2. rewrite Hrs in Hs2. apply elem_of_list_split in Hs2 as (before & aft & Eb).
    destruct (SchedContent.Inv3_run cfg rr) as [H3 _]. destruct (H3 _ _ _ Eb) as (fs & ts & ns & Hr & _).
    assert (Hr' : received c (MGraphTask g fs ts ns) (s_log (y_sched y))). { destruct Hr as [now Hr]. exists now. rewrite Hrs, Eb. apply elem_of_app. auto. }
    destruct (graph_sender cfg y (gl_ok H) _ _ _ _ _ Hr') as (x & Hx & Hm). eauto 10.
  Qed.
  Lemma told_client y c x' : all_told y → told x' → all_told (set_client c x' y).
  Proof. intros H Hx i z. cbn. destruct (decide (i = c)) as [->|Hne]; [rewrite lookup_insert; intros [= <-]; exact Hx|rewrite lookup_insert_ne by done; apply H]. Qed.
  Lemma told_act {Gn} X y a : Gd (Gn:=Gn) cfg X y → all_told y → orderly_graphs y a → all_told (act y a).
  Proof.
    intros HG H Ho. destruct a as [i|w death now retention|i e|i m loads|now codes e|from m now codes|w now e|w m now|w m now|w now e|w m loads now]; cbn [act].
    - destruct (unused y i); [|exact H]. apply told_client; [exact H|]. split; cbn; [intros * []%elem_of_nil|intros g []%elem_of_nil].
    - destruct (unused y w); [|exact H]. destruct (w_init w death now) as [a0 h0], (p_init retention) as [p0 out0]. exact H.
    - destruct (y_clients y !! i) as [x|] eqn:Hx; [|exact H]. pose proof (H _ _ Hx) as Hxt. pose proof (gl_graphs HG _ _ Hx) as Hg.
      destruct e as [t f name content args|t|m n|g| |m b|]; cbn [orderly_graphs] in Ho; try (by destruct Ho); try exact H; (apply told_client; [exact H|]).
      + apply told_quiet; [exact I|exact Hxt].
      + apply told_quiet; [exact I|exact Hxt].
      + destruct Ho as (g & fs & ts & ns & -> & -> & _ & Hfree). specialize (Hfree g ltac:(left; reflexivity)). apply told_graph; [| |exact Hxt].
        * intros fs' ts' ns' n' Hi. apply (Hfree i (KGraph (MGraphTask g fs' ts' ns') n') ltac:(eapply history_at; eassumption)). left. reflexivity.
        * intros (st & rs & b & Hr). apply (co_in _ _ _ (ok_client _ _ (gl_ok HG) _ _ Hx)) in Hr. destruct (answer_sent _ _ _ _ _ _ HG Hr) as (x' & fs' & ts' & ns' & Hx' & Hm). rewrite Hx in Hx'. injection Hx' as <-.
          destruct (go_fit _ Hg _ _ _ _ Hm) as (_ & n' & Hi). apply (Hfree i (KGraph (MGraphTask g fs' ts' ns') n') ltac:(eapply history_at; eassumption)). left. reflexivity.
      + apply told_step; assumption.
    - destruct (y_clients y !! i) as [x|] eqn:Hx; [|exact H]. case_bool_decide as Hs; [|exact H]. apply told_client; [exact H|]. pose proof (H _ _ Hx) as Hxt. pose proof (gl_graphs HG _ _ Hx) as Hg.
      destruct Ho as [(Hn & -> & _) Hsend]. specialize (Hsend _ Hx). destruct (gl_client HG i x Hx) as (F & B & A & D & HC).
      destruct m as [| | | | | | |g st rs| | | | | | | | | | | |]; try (apply told_other; [exact I|exact Hxt]); try (apply told_quiet; [exact I|exact Hxt]).
      pose proof (gl_answers HG _ _ Hs) as E. cbn in E. subst st. apply told_result; [exact (ko_up HC)|exact Hg|exact Hsend| |exact Hxt]. intros n. exact (answer_fits cfg X y i x g _ rs n HG Hx Hs).
    - destruct e; exact H.
    - destruct (sent_by y from m); exact H.
    - destruct (y_workers y !! w) as [x|]; [|exact H]. destruct e; exact H.
    - destruct (y_workers y !! w) as [x|]; [|exact H]. case_bool_decide; exact H.
    - destruct (y_workers y !! w) as [x|]; [|exact H]. case_bool_decide; exact H.
    - destruct (y_workers y !! w) as [x|]; [|exact H]. destruct e; exact H.
    - destruct (y_workers y !! w) as [x|]; [|exact H]. case_bool_decide; exact H.
  Qed.
  Lemma told_run acts : orderly_graphs_run cfg acts → all_told (execute cfg acts).
  Proof.
    induction acts as [|a acts IH] using rev_ind; [intros _ c x E; discriminate|]. intros [H Ha]%orderly_graphs_snoc. destruct (gflow_run cfg acts Hmax H) as (X & g & HF). rewrite execute_snoc.
    exact (told_act X _ _ (G_of _ _ _ _ HF) (IH H) Ha).
  Qed.
  (** Clients hear what the scheduler sent them, in order. *)
  Definition in_order (y : system) : Prop := ∀ c x, y_clients y !! c = Some x → client_heard x.2 `prefix_of` sent_to c (s_log (y_sched y)).
  Lemma order_client y c x' : in_order y → client_heard x'.2 `prefix_of` sent_to c (s_log (y_sched y)) → in_order (set_client c x' y).
  Proof. intros H Hx i z. cbn. destruct (decide (i = c)) as [->|Hne]; [rewrite lookup_insert; intros [= <-]; exact Hx|rewrite lookup_insert_ne by done; apply H]. Qed.
  Lemma order_sched {Gn} X y r : Gd (Gn:=Gn) cfg X y → in_order y → in_order (set_sched (step (y_sched y) r) y).
  Proof. intros HG H i z Hz. destruct (step_log cfg X y r HG) as (l & E & _). cbn [y_sched set_sched]. rewrite E. unfold sent_to. rewrite omap_app. apply prefix_app_r, H, Hz. Qed.
  Lemma order_act {Gn} X y a : Gd (Gn:=Gn) cfg X y → in_order y → orderly_graphs y a → in_order (act y a).
  Proof.
    intros HG H Ho. destruct a as [i|w death now retention|i e|i m loads|now codes e|from m now codes|w now e|w m now|w m now|w now e|w m loads now]; cbn [act].
    - destruct (unused y i); [|exact H]. apply order_client; [exact H|]. apply prefix_nil.
    - destruct (unused y w); [|exact H]. destruct (w_init w death now) as [a0 h0], (p_init retention) as [p0 out0]. exact H.
    - destruct (y_clients y !! i) as [x|] eqn:Hx; [|exact H]. destruct (kstep_history x e) as (out & _ & _ & E & _).
      destruct e as [t f name content args|t|m n|g| |m b|]; cbn [orderly_graphs] in Ho; try exact H; (apply order_client; [exact H|]); rewrite E, app_nil_r; exact (H _ _ Hx).
    - destruct (y_clients y !! i) as [x|] eqn:Hx; [|exact H]. case_bool_decide as Hs; [|exact H]. apply order_client; [exact H|]. destruct (kstep_history x (KRecv m loads)) as (out & _ & _ & E & _). rewrite E.
      destruct Ho as [(Hn & _) _]. destruct (H _ _ Hx) as [q Eq]. unfold next, to_client, on_the_way, history_of in Hn. rewrite Hx, Eq, drop_app in Hn. destruct q as [|m' q]; [done|]. cbn in Hn. injection Hn as ->. exists q. rewrite Eq, <- app_assoc. reflexivity.
    - destruct e; try exact H; apply (order_sched X _ _ HG H).
    - destruct (sent_by y from m); [|exact H]. apply (order_sched X _ _ HG H).
    - destruct (y_workers y !! w) as [x|]; [|exact H]. destruct e; exact H.
    - destruct (y_workers y !! w) as [x|]; [|exact H]. case_bool_decide; exact H.
    - destruct (y_workers y !! w) as [x|]; [|exact H]. case_bool_decide; exact H.
    - destruct (y_workers y !! w) as [x|]; [|exact H]. destruct e; exact H.
    - destruct (y_workers y !! w) as [x|]; [|exact H]. case_bool_decide; exact H.
  Qed.
  Lemma order_run acts : orderly_graphs_run cfg acts → in_order (execute cfg acts).
  Proof.
    induction acts as [|a acts IH] using rev_ind; [intros _ c x E; discriminate|]. intros [H Ha]%orderly_graphs_snoc. destruct (gflow_run cfg acts Hmax H) as (X & g & HF). rewrite execute_snoc.
    exact (order_act X _ _ (G_of _ _ _ _ HF) (IH H) Ha).
  Qed.
End told_all.

Section done.
  Context {Gn lost : gset bytes} {HGL : among Gn lost} (cfg : config) (Hmax : c_max_waiting cfg < 0) (Hcap : 1 <= c_queue_size cfg) (verdict : task → outcome) (Hverdict : ∀ k, verdict k ≠ Ended) (X : gset bytes) (Hnodes : ∀ k, task_id k ∈ X → ∃ v, verdict k = Returned v).
  Notation leads := (leads (lost:=lost) verdict).
  Notation G := (Gd (Gn:=Gn) cfg X).
  Notation base := (base (Gn:=Gn) (lost:=lost) cfg X).
  Notation ending := (ending (Gn:=Gn) (lost:=lost) cfg X).

  Lemma drained_settled K W y : base K W y → (∀ c, c ∈ K → drained c y) → settled y.
  Proof.
    intros (H & _ & Hi & HK & _) Hd c x Hx. destruct (Hd c) as [D1 D2]; [rewrite <- HK; apply elem_of_dom; eauto|]. destruct (gl_client H c x Hx) as (F & B & A & D & HC). rewrite D1, D2 in HC.
    split; [exact D1|]. rewrite D2. split; [|reflexivity]. replace (k_buffer x.1) with (∅ : gmap bytes (list task)); [reflexivity|]. symmetry. apply map_empty. intros f. destruct (k_buffer x.1 !! f) as [l|] eqn:E; [|reflexivity].
    exfalso. destruct (ko_pending HC f) as [(n & ct & Hq)|(st & n & ct & Hq)]; [left; eauto|by apply elem_of_nil in Hq..].
  Qed.
  Lemma graphs_end K W y : ending K W y → (∀ c, c ∈ K → to_client y c = []) → all_told y → in_order y → graphs_resolved y.
  Proof.
    intros ((H & Hu & Hi & HK & HW & _) & Hs & HT & HP) Hd Ht Hor c g fs ts ns n i Hin Hlt. unfold history_of in *. destruct (y_clients y !! c) as [x|] eqn:Hx; [|by apply elem_of_nil in Hin].
    destruct (td_graph _ (Ht _ _ Hx) _ _ _ _ _ Hin) as [Hm [[_ Hno]|Hset]]; [|exact (Hset i Hlt)]. exfalso. apply Hno. destruct (Hs c x Hx) as (S1 & _).
    assert (Hr : received c (MGraphTask g fs ts ns) (s_log (y_sched y))).
    { pose proof (heard_sent cfg X _ y H c) as E. rewrite S1, app_nil_r in E. apply sent_in in Hm. unfold sent_by_part in E. rewrite Hx in E. rewrite <- E in Hm. unfold heard_from in Hm. apply elem_of_list_omap in Hm as (e & He & Em).
      destruct e as [now [j m| | | | |]| | | | | |]; try discriminate. destruct (String.eqb_spec j c) as [->|]; [|discriminate]. injection Em as ->. exists now. exact He. }
    destruct (ok_run _ _ (gl_ok H)) as [rr Hrs]. pose proof (gl_polite H) as Hpol. rewrite Hrs in HT, HP, Hpol. pose proof (finished_run cfg Hmax rr Hpol HP HT) as Hdone. rewrite <- Hrs in Hdone.
    destruct (fi_graphs _ Hdone c g) as [(c' & st & rs & Ha)|[c' Hc]]; [red; eauto| |].
    - destruct (answer_sent cfg X y c' g st rs H Ha) as (x' & fs' & ts' & ns' & Hx' & Hm').
      destruct (gl_once H _ _ _ _ _ _ g Hx Hx' Hm Hm' ltac:(eexists; reflexivity) ltac:(eexists; reflexivity) ltac:(left; reflexivity) ltac:(left; reflexivity)) as [<- _].
      assert (Hh : MGraphTaskResult g st rs ∈ client_heard x.2).
      { destruct (Hor _ _ Hx) as [q Eq]. pose proof (Hd c ltac:(rewrite <- HK; apply elem_of_dom; eauto)) as E. unfold to_client, on_the_way, history_of in E. rewrite Hx, Eq, drop_app in E. rewrite E, app_nil_r in Eq. rewrite <- Eq.
        unfold sent_to. apply elem_of_list_omap. eexists. split; [exact Ha|]. cbn. rewrite String.eqb_refl. reflexivity. }
      unfold client_heard in Hh. apply elem_of_list_omap in Hh as (e & He & Em). destruct e as [[| | | | |m b|]| | |]; try discriminate. injection Em as ->. exists st, rs, b. exact He.
    - exfalso. destruct (ok_sent _ _ (gl_ok H) _ _ Hc) as [(x' & Hx' & Hm')|(x' & Hx' & Hm')]; [exact (td_cancel _ (Ht _ _ Hx') _ Hm')|]. exact (sent_by_worker _ _ _ _ _ (gl_ok H) Hx' Hm').
  Qed.
  Lemma prepare y : G y → intact (lost:=lost) X y → ∃ y', leads y y' ∧ base (dom (y_clients y)) (dom (y_workers y)) y' ∧ settled y'.
  Proof.
    intros H Hin. destruct (do_dispatch cfg Hmax verdict X y H) as [L1 H1]. destruct (effect_dispatch cfg X y H) as (out & _ & Hu1 & _). cbv zeta in Hu1. set (y1 := after y EDispatch) in *.
    destruct (end_all_calls cfg Hmax verdict Hverdict X Hnodes y1 H1) as (y2 & L2 & H2 & I2 & S2 & W2 & K2). change (y_workers y1) with (y_workers y) in W2. change (y_clients y1) with (y_clients y) in K2.
    assert (B2 : base (dom (y_clients y)) (dom (y_workers y)) y2). { split; [exact H2|]. split; [unfold calm; rewrite S2; exact Hu1|]. split; [exact I2|]. split; [exact K2|]. split; [rewrite W2; reflexivity|]. unfold intact. rewrite W2. exact Hin. }
    destruct (drain_clients cfg Hmax verdict Hverdict X Hnodes _ _ _ B2) as (y3 & L3 & B3 & D3). exists y3. split; [|split; [exact B3|exact (drained_settled _ _ _ B3 D3)]].
    eapply leads_trans; [exact L1|]. eapply leads_trans; eassumption.
  Qed.
  Lemma finish y w : lost ⊆ Gn → G y → is_Some (y_workers y !! w) → w ∉ lost → intact (lost:=lost) X y → ∃ y' K W, leads y y' ∧ ending K W y' ∧ (∀ c, c ∈ K → to_client y' c = []).
  Proof.
    intros HLG H Hw Hwl Hin. destruct (prepare y H Hin) as (y3 & L3 & B3 & S3).
    destruct (finish_graphs cfg Hmax Hcap verdict Hverdict X Hnodes _ _ w HLG (proj2 (elem_of_dom _ _) Hw) Hwl _ y3 B3 S3 eq_refl) as (y4 & L4 & E4).
    destruct (deliver_all cfg Hmax verdict Hverdict X Hnodes _ _ _ E4) as (y5 & L5 & E5 & D5). eexists y5, _, _. split; [|split; [exact E5|exact D5]].
    eapply leads_trans; [exact L3|]. eapply leads_trans; eassumption.
  Qed.
End done.

Theorem orderly_graphs_finish c acts verdict : c_max_waiting c < 0 → 1 <= c_queue_size c → (∀ k, verdict k ≠ Ended) → orderly_graphs_run c acts → y_workers (execute c acts) ≠ ∅ → nodes_intact (execute c acts) →
  (∀ k, of_graph (execute c acts) (task_id k) → ∃ v, verdict k = Returned v) →
  ∃ more, orderly_graphs_run c (acts ++ more) ∧ Forall no_news more ∧ (∀ before a after, more = before ++ a :: after → as_decided verdict (execute c (acts ++ before)) a) ∧
    all_resolved (execute c (acts ++ more)) ∧ graphs_resolved (execute c (acts ++ more)).
Proof.
  intros Hmax Hcap Hv Ho Hw Hin Hn. destruct (gflow_run c acts Hmax Ho) as (X & g & H). pose proof (G_of _ _ _ _ H) as HG.
  assert (HnX : ∀ k, task_id k ∈ X → ∃ v, verdict k = Returned v) by (intros k Hk; apply Hn, (gl_names H), Hk).
  assert (HinX : intact (lost:=∅) X (execute c acts)).
  { intros w x Hx _. destruct (Hin w x Hx) as [I1 I2]. split.
    - intros t d p Hp Ht. apply (I1 _ _ _ Hp), (gl_names H), Ht.
    - destruct (c_main (n_processor x)); try exact I; intros Hk; apply I2, (gl_names H), Hk. }
  apply map_choose in Hw as (w & x & Hx).
  destruct (finish c Hmax Hcap verdict Hv X HnX _ w (λ _ Hi, Hi) HG (mk_is_Some _ _ Hx) (not_elem_of_empty _) HinX) as (y' & K & W & (more & N & -> & O) & E & D).
  assert (Ho' : orderly_graphs_run c (acts ++ more)).
  { intros before a after [(q & Eq & _)|(q & -> & Eq)]%app_split; [exact (Ho _ _ _ Eq)|]. unfold execute. rewrite foldl_app. exact (proj1 (O _ _ _ Eq)). }
  pose proof (told_run c Hmax _ Ho') as Ht. assert (Ex : execute c (acts ++ more) = foldl act (execute c acts) more) by (unfold execute; apply foldl_app). exists more. split; [exact Ho'|]. split; [exact N|]. split.
  - intros before a after Eq. unfold execute. rewrite foldl_app. exact (proj1 (proj2 (O _ _ _ Eq))).
  - pose proof (order_run c Hmax _ Ho') as Hor. rewrite Ex in *. split; [exact (ending_resolved c verdict Hv X K W _ E D)|exact (graphs_end c Hmax X K W _ E D Ht Hor)].
Qed.
