(** * Every task and graph gets done although workers crashed (C95) *)

From Verif.Model Require Import Base OneToManyDict PriorityQueue Allocator Message Sorter Client Worker Processor Scheduler System.
From Verif.Spec Require Import AllocatorSpec DictSpec SchedulerSpec SystemSpec FlowSpec TrafficSpec GraphFlowSpec CrashSpec CrashGraphSpec.
From Verif.Proofs Require SchedContent ClientProofs FlowFinish CrashFlow.
From Verif.Proofs Require Import BaseProofs DictProofs AllocatorProofs SchedWp SchedCount SchedHold SchedGlobal SchedStep SchedRemove SchedPlain SchedPolite SchedLive SchedBegin SchedTraffic SchedFinish SystemParts SystemProofs FlowSched FlowWorker FlowWork FlowClient FlowSystem GraphClient GraphRounds GraphFlow GraphStep GraphFinish GraphDrive GraphEnd GraphTold GraphDone FlowClock CrashSched CrashGraph.
Import FlowFinish(fold_len, app_split).
Import CrashFlow(act_log, act_workers, acts_workers, died_app, state_app, late_enough).

(** ** Continuations *)
Section goes.
  Context (verdict : task → outcome) (dead : gset bytes).
  Definition goes (y y' : system) : Prop :=
    ∃ more, Forall no_news more ∧ y' = foldl act y more ∧ ∀ before a after, more = before ++ a :: after → orderly_graphs_but dead (foldl act y before) a ∧ as_decided verdict (foldl act y before) a.
  Lemma goes_one y a : orderly_graphs_but dead y a → no_news a → as_decided verdict y a → goes y (act y a).
  Proof. intros Ho Hn Hv. exists [a]. split; [by constructor|]. split; [reflexivity|]. intros [|b [|b' before]] a' after E; injection E as -> E; try discriminate. auto. Qed.
  Lemma goes_refl y : goes y y.
  Proof. exists []. split; [constructor|]. split; [reflexivity|]. intros [|b before] a after E; discriminate. Qed.
  Lemma goes_trans y y' y'' : goes y y' → goes y' y'' → goes y y''.
  Proof.
    intros (m & N & -> & O) (m' & N' & -> & O'). exists (m ++ m'). split; [by apply Forall_app|]. split; [rewrite foldl_app; reflexivity|].
    intros before a after [(q & E & _)|(q & -> & E)]%app_split; [exact (O _ _ _ E)|]. rewrite foldl_app. exact (O' _ _ _ E).
  Qed.
  Lemma leads_goes y y' : (∀ w, w ∈ dead → is_Some (y_workers y !! w)) → leads (lost:=dead) verdict y y' → goes y y'.
  Proof.
    intros Hw (more & N & E & O). exists more. split; [exact N|]. split; [exact E|]. intros before a after Em. destruct (O _ _ _ Em) as (O1 & O2 & O3). split; [|exact O2].
    assert (Hl : ∀ w, worker_of a = Some w → w ∉ dead). { intros w E' Hi. destruct (acts_workers before _ _ (Hw w Hi)) as [x Hx]. exact (O3 w x E' Hx Hi). }
    destruct a as [| | | |now codes e|from m now codes| | | | |]; cbn [orderly_graphs_but]; try exact O1; try (split; [apply Hl; reflexivity|exact O1]).
    - destruct e; try exact O1. destruct O1 as [Hu Hs]. split; [exact Hu|]. intros w Hi. destruct (Hs w Hi).
    - split; [exact O1|]. intros Hi. destruct (Hl _ eq_refl Hi).
  Qed.
End goes.

Lemma gflow_forget cfg Gn Gn' X g y : gflowd cfg Gn X g y → Gn ⊆ Gn' → (∀ w, w ∈ Gn' → w ∉ lg_workers g ∧ is_Some (y_workers y !! w)) → gflowd cfg Gn' X g y.
Proof. intros H HX HG. split; try (destruct H; assumption); auto. intros w x Hx Hw. apply (gl_worker_but H w x Hx). set_solver. Qed.

Section every_task.
  Context (cfg : config) (Hmax : c_max_waiting cfg < 0) (Hcap : 1 <= c_queue_size cfg) (verdict : task → outcome) (Hverdict : ∀ k, verdict k ≠ Ended) (X : gset bytes) (Hnodes : ∀ k, task_id k ∈ X → ∃ v, verdict k = Returned v).
  Context (Gn dead : gset bytes) (HXD : among Gn dead).
  Notation leads := (leads (lost:=dead) verdict).
  Notation goes := (goes verdict dead).
  Notation G := (Gd (Gn:=Gn) cfg X).
  Notation base := (base (Gn:=Gn) (lost:=dead) cfg X).
  Notation log y := (s_log (y_sched y)).
  (** Nothing is on its way between live workers and the scheduler. *)
  Definition ready (w : bytes) (y : system) : Prop := w ∉ dead → ∀ x, y_workers y !! w = Some x → to_scheduler y w = [] ∧ a_sent (n_agent x) = 0.
  Lemma all_ready y : G y → intact (lost:=dead) X y → ∃ y', leads y y' ∧ base (dom (y_clients y)) (dom (y_workers y)) y' ∧ settled y' ∧ ∀ w, ready w y'.
  Proof.
    intros H Hin. destruct (prepare cfg Hmax verdict Hverdict X Hnodes y H Hin) as (y1 & L1 & B1 & S1).
    destruct (drive_all cfg Hmax Hcap verdict Hverdict X Hnodes _ _ (size (ids (log y1))) y1 ∅ B1 S1 ltac:(set_solver) ltac:(set_solver) ltac:(lia)) as (y2 & L2 & B2 & S2 & Q2).
    exists y2. split; [eapply leads_trans; eassumption|]. split; [exact B2|]. split; [exact S2|]. intros w Hn x Hx. destruct (Q2 w Hn x Hx) as (E1 & E2 & _). split; [exact E1|].
    pose proof B2 as (H2 & _). destruct (gl_worker_but H2 w x Hx (alive_in _ Hn)) as (L & qs & _ & HW). rewrite E1, E2 in HW.
    destruct (wo_beat _ _ _ _ _ _ _ HW) as [[_ Hk]|[Hk|(h & Hk)]]; [by apply elem_of_nil in Hk|exact Hk|by apply elem_of_nil in Hk].
  Qed.
  (** A live worker is heard. *)
  Lemma beat_one T K W y w x : dead ⊆ W → base K W y → settled y → w ∉ dead → y_workers y !! w = Some x → ready w y →
    ∃ y' b, goes y y' ∧ base K W y' ∧ settled y' ∧ last_beat w (log y') = Some (T, b) ∧ ∀ j, j ≠ w → last_beat j (log y') = last_beat j (log y) ∧ (ready j y → ready j y').
  Proof.
    intros HDW HB HS Hn Hx Hr. destruct (Hr Hn x Hx) as [EQ Es].
    assert (HR : working (Gn:=Gn) (lost:=dead) cfg X K W (log y) None y) by (split; [exact HB|]; split; [exact HS|]; split; [apply carries_refl|discriminate]).
    destruct (working_agent cfg Hmax verdict X K W (log y) None y w x 1 (WHeartbeat 0 0 0 0) (to_agent y w x) Hn HR Hx eq_refl I) as (a' & out & E & L1 & R1 & G1 & _); [intros ? ? _ [? [=]]|].
    cbv zeta in *. set (x' := Node _ _ _ _ _) in *. set (y1 := set_worker w x' y) in *. cbn in E. unfold wh_routine in E. rewrite Es in E. injection E as _ Eo. rewrite EQ, <- Eo in G1. cbn in G1.
    destruct (to_scheduler y1 w) as [|m []] eqn:EQ1; try discriminate. assert (Em : ∃ b, m = MHeartbeat b) by (injection G1 as ->; eauto). destruct Em as [b ->]. clear G1.
    destruct R1 as ((H1 & Hu1 & Hi1 & HK1 & HW1 & Hin1) & S1 & _). assert (Hx1 : y_workers y1 !! w = Some x') by apply lookup_insert.
    assert (Hs : sent_by y1 w (MHeartbeat b) = true).
    { pose proof (on_the_way_in _ _ _ _ EQ1) as Hi. unfold sent_by_part in Hi. rewrite Hx1, (not_client _ _ _ _ (gl_ok H1) Hx1) in Hi. unfold sent_by. rewrite (not_client _ _ _ _ (gl_ok H1) Hx1), Hx1.
      apply orb_true_iff. right. apply bool_decide_eq_true_2. apply elem_of_list_omap in Hi as (o & Ho & E'). destruct o; try discriminate. injection E' as ->. exact Ho. }
    set (r := Round T [] (ERecv w (MHeartbeat b))). set (y2 := set_sched (step (y_sched y1) r) y1). assert (Ea : act y1 (ToScheduler w (MHeartbeat b) T []) = y2) by (cbn [act]; rewrite Hs; reflexivity).
    assert (Ho : orderly_graphs y1 (ToScheduler w (MHeartbeat b) T [])) by (cbn; unfold next; rewrite EQ1; split; [reflexivity|exact Hu1]).
    destruct (go_on cfg Hmax verdict X y1 _ H1 Ho I I) as [_ H2]; [intros ? z [= <-] _; exact Hn|]. rewrite Ea in H2.
    destruct (gl_fine H1) as (xt & O1 & W0). pose proof O1 as [Hc _]. unfold calm in Hu1. rewrite Hu1 in Hc.
    destruct (round_heartbeat xt (y_sched y1) false _ T [] Hc ltac:(symmetry; exact Hu1) w b eq_refl ltac:(exact (gl_text H1 w (used_worker _ _ _ Hx1)))) as (Hm & _). pose proof (mv_posted _ _ _ _ _ _ _ Hm) as Hpo.
    assert (Hu2 : calm y2). by exact (eq_trans (step_undisp cfg X _ _ _ H1 Hpo) Hu1).
    pose proof (sched_queues cfg X _ _ _ H1 Hpo) as Hq.
    assert (Hnc : ∀ c z, y_clients y1 !! c = Some z → c ≠ w) by (intros c z Hz ->; exact (ok_apart _ _ (gl_ok H1) _ _ _ Hz Hx1)).
    assert (S2 : settled y2).
    { apply (settled_sched cfg X y1 r _ H1 S1 Hq).
      - intros c z Hz. cbn. destruct (String.eqb_spec w c) as [->|]; [destruct (Hnc c z Hz eq_refl)|reflexivity].
      - intros c z Hz. rewrite for_part_one. destruct (String.eqb_spec w c) as [->|]; [destruct (Hnc c z Hz eq_refl)|reflexivity]. }
    exists y2, b. split; [|split; [|split; [exact S2|]]].
    - eapply goes_trans; [|rewrite <- Ea; apply goes_one; [split; [exact Ho|intros Hi; destruct (Hn Hi)]|exact I|exact I]].
      apply leads_goes; [|exact L1]. destruct HB as (_ & _ & _ & _ & <- & _). intros j Hj. apply elem_of_dom, HDW, Hj.
    - split; [exact H2|]. split; [exact Hu2|]. split; [exact Hi1|]. split; [exact HK1|]. split; [exact HW1|exact Hin1].
    - assert (Hd : s_dead (y_sched y1) = None) by exact (c_dead _ _ _ _ _ Hc).
      assert (Hl : ∀ j, last_beat j (log y2) = if String.eqb w j then Some (T, b) else last_beat j (log y)) by (intros j; exact (beat_step_log y1 r j Hd)).
      split; [rewrite Hl, String.eqb_refl; reflexivity|]. intros j Hj. split; [rewrite Hl, eqb_ne by done; reflexivity|]. intros Hrj Hnj z Hz.
      assert (E2 : to_scheduler y2 j = to_scheduler y1 j) by (apply (sched_other y1 r _ j Hq); cbn; rewrite eqb_ne by done; reflexivity). rewrite E2. unfold y1. rewrite queue_other_worker by done.
      apply Hrj; [exact Hnj|]. unfold y2, y1 in Hz. cbn in Hz. rewrite lookup_insert_ne in Hz by done. exact Hz.
  Qed.
  Lemma beat_all T K W l : dead ⊆ W → ∀ y, NoDup l → base K W y → settled y → (∀ w, w ∈ l → w ∉ dead ∧ w ∈ W ∧ ready w y) →
    ∃ y', goes y y' ∧ base K W y' ∧ settled y' ∧ (∀ w, w ∈ l → ∃ b, last_beat w (log y') = Some (T, b)) ∧ ∀ j, j ∉ l → last_beat j (log y') = last_beat j (log y).
  Proof.
    intros HDW. induction l as [|w l IH]; intros y Hnd HB HS Hl.
    - exists y. split; [apply goes_refl|]. split; [exact HB|]. split; [exact HS|]. split; [intros w Hw; by apply elem_of_nil in Hw|auto].
    - apply NoDup_cons in Hnd as [Hw Hnd]. destruct (Hl w ltac:(left)) as (N & Sw & R). pose proof HB as (_ & _ & _ & _ & HW & _). rewrite <- HW in Sw. apply elem_of_dom in Sw as [x Hx].
      destruct (beat_one T K W y w x HDW HB HS N Hx R) as (y1 & b & L1 & B1 & S1 & E1 & O1).
      destruct (IH y1 Hnd B1 S1) as (y2 & L2 & B2 & S2 & E2 & O2).
      { intros j Hj. destruct (Hl j ltac:(right; exact Hj)) as (Nj & Sj & Rj). assert (Hne : j ≠ w) by (intros ->; auto). split; [exact Nj|]. split; [exact Sj|]. apply O1; auto. }
      exists y2. split; [eapply goes_trans; eassumption|]. split; [exact B2|]. split; [exact S2|]. split.
      + intros j [->|Hj]%elem_of_cons; [exists b; rewrite (O2 w Hw); exact E1|auto].
      + intros j [Hne Hj]%not_elem_of_cons. rewrite (O2 j Hj). apply O1, Hne.
  Qed.
  (** The scheduler gives up the dead. *)
  Lemma give_up_dead y : 0 <= c_timeout cfg → G y → (∀ w, w ∈ dead → is_Some (y_workers y !! w)) → intact (lost:=dead) X y →
    ∃ y', goes y y' ∧ Gd (Gn:=dead) cfg X y' ∧ dom (y_workers y') = dom (y_workers y) ∧ intact (lost:=dead) X y'.
  Proof.
    intros Ht H Hdead Hin. destruct (all_ready y H Hin) as (y1 & L1 & B1 & S1 & R1). pose proof (leads_goes _ _ _ _ Hdead L1) as L1'. set (K := dom (y_clients y)) in *. set (W := dom (y_workers y)) in *.
    assert (HDW : dead ⊆ W) by (intros w Hw; apply elem_of_dom, Hdead, Hw).
    destruct (late_enough cfg (log y1) (elements dead)) as [T HT].
    destruct (beat_all T K W (elements (W ∖ dead)) HDW y1) as (y2 & L2 & B2 & S2 & E2 & O2); [apply NoDup_elements|exact B1|exact S1| |].
    { intros w Hw. apply elem_of_elements, elem_of_difference in Hw as [Hw Hn]. split; [exact Hn|]. split; [exact Hw|apply R1]. }
    pose proof B2 as (H2 & Hu2 & _ & _ & HW2 & Hin2).
    destruct (gflow_remove _ Hmax _ _ _ _ H2 T [] Hu2) as (ws & g3 & H3 & HW & Hws & _). cbv zeta in *. set (y3 := act y2 (SchedulerDoes T [] EWorkers)) in *. exists y3.
    assert (Hs : ∀ w, silent (c_timeout cfg) T (log y2) w → w ∈ dead).
    { intros w (Hr & t & b & Hb & Hlt). destruct (decide (w ∈ dead)) as [|Hn]; [assumption|]. exfalso. apply (gflow_alive _ _ _ _ _ H2) in Hr. destruct (gl_known H2 w Hr) as [x Hx].
      destruct (E2 w) as [b' Eb]; [|rewrite Eb in Hb; injection Hb as <- <-; lia]. apply elem_of_elements, elem_of_difference. split; [|exact Hn]. rewrite <- HW2. apply elem_of_dom. eauto. }
    split; [|split; [|split]].
    - eapply goes_trans; [exact L1'|]. eapply goes_trans; [exact L2|]. apply goes_one; [|exact I|exact I]. split; [exact Hu2|]. rewrite (cfg_of _ _ _ _ H2). exact Hs.
    - apply (G_of cfg X g3). eapply gflow_forget; [exact H3| |].
      + intros w [Hw|Hw%elem_of_list_to_set]%elem_of_union; [exact (among_lost _ Hw)|apply Hs, Hws, Hw].
      + intros w Hw. split; [|unfold y3; apply act_workers; apply elem_of_dom; rewrite HW2; apply HDW, Hw]. rewrite (proj1 HW), elem_of_difference, elem_of_list_to_set. intros [Hg Hn]. apply Hn, Hws.
        apply (gflow_alive _ _ _ _ _ H2) in Hg. split; [exact Hg|]. destruct (ok_run _ _ (gl_ok H2)) as [rs Hrs]. destruct (gl_fine H2) as (xt & [Hco _] & _). pose proof (c_dead _ _ _ _ _ Hco) as Hd.
        rewrite Hrs in Hd, Hg. destruct (Inv2_run cfg rs) as [_ I2]. specialize (I2 Hd). apply (I2_alive_reg _ w I2) in Hg as [[t b] Hp]. apply (alive_beat cfg rs w _ Hd) in Hp. rewrite <- Hrs in Hp.
        exists t, b. split; [exact Hp|]. apply (HT w t b); [apply elem_of_elements, Hw|]. rewrite <- O2; [exact Hp|]. rewrite elem_of_elements, elem_of_difference. tauto.
    - exact HW2.
    - exact Hin2.
  Qed.
End every_task.

(** ** What clients were told *)
Lemma crash_told c tr : c_max_waiting c < 0 → crash_graphs_run c tr → all_told (state_after c tr) ∧ in_order (state_after c tr).
Proof.
  intros Hmax. induction tr as [|i tr IH] using rev_ind; intros Hr; [split; intros ? ? E; discriminate|]. apply crash_graphs_snoc in Hr as [Hr Hi]. destruct (IH Hr) as [T1 T2]. destruct (gsurvives_run c tr Hmax Hr) as (Gn & X & g & H & _).
  pose proof (G_of c X g _ H) as HG. rewrite state_app. destruct i as [a|w]; [|split; assumption]. cbn [actions omap list_omap foldl].
  assert (Hgo : orderly_graphs (state_after c tr) a → all_told (act (state_after c tr) a) ∧ in_order (act (state_after c tr) a)) by (intros Ho; split; [exact (told_act c X _ _ HG T1 Ho)|exact (order_act c X _ _ HG T2 Ho)]).
  destruct a as [| | | |now codes e|from m now codes| | | | |]; cbn [orderly_graphs_but] in Hi; try (apply Hgo; exact Hi); try (apply Hgo; exact (proj2 Hi)); try (apply Hgo; exact (proj1 Hi)).
  destruct e; try (apply Hgo; exact Hi). split; [exact T1|]. exact (order_sched c X _ _ HG T2).
Qed.

Theorem crash_graphs_finish c tr verdict w : c_max_waiting c < 0 → 1 <= c_queue_size c → 0 <= c_timeout c → (∀ k, verdict k ≠ Ended) → crash_graphs_run c tr →
  is_Some (y_workers (state_after c tr) !! w) → w ∉ died tr → nodes_intact_but (died tr) (state_after c tr) → (∀ k, of_graph (state_after c tr) (task_id k) → ∃ v, verdict k = Returned v) →
  ∃ more, crash_graphs_run c (tr ++ (Acts <$> more)) ∧ Forall no_news more ∧
    (∀ before a after, more = before ++ a :: after → as_decided verdict (state_after c (tr ++ (Acts <$> before))) a) ∧ all_resolved (state_after c (tr ++ (Acts <$> more))) ∧ graphs_resolved (state_after c (tr ++ (Acts <$> more))).
Proof.
  intros Hmax Hcap Ht Hv Hr Hw Hn Hin Hno. destruct (gsurvives_run c tr Hmax Hr) as (Gn & X & g & H & HX & _ & Hdead). set (dead := died tr) in *. set (y := state_after c tr) in *. pose proof (G_of c X g _ H) as HG.
  assert (HnX : ∀ k, task_id k ∈ X → ∃ v, verdict k = Returned v) by (intros k Hk; apply Hno, (gl_names H), Hk).
  assert (HinX : intact (lost:=dead) X y).
  { intros i x Hx Hi. destruct (Hin i x Hx Hi) as [I1 I2]. split.
    - intros t d p Hp Htx. apply (I1 _ _ _ Hp), (gl_names H), Htx.
    - destruct (c_main (n_processor x)); try exact I; intros Hk; apply I2, (gl_names H), Hk. }
  destruct (give_up_dead c Hmax Hcap verdict Hv X HnX Gn dead HX y Ht HG Hdead HinX) as (y1 & L1 & H1 & D1 & I1).
  assert (Hw1 : is_Some (y_workers y1 !! w)) by (apply elem_of_dom; rewrite D1; apply elem_of_dom, Hw).
  destruct (finish (Gn:=dead) (lost:=dead) c Hmax Hcap verdict Hv X HnX y1 w (λ _ Hi, Hi) H1 Hw1 Hn I1) as (y2 & K & W & L2 & E2 & D2).
  assert (L2' : goes verdict dead y1 y2) by (apply leads_goes; [intros j Hj; apply elem_of_dom; rewrite D1; apply elem_of_dom, Hdead, Hj|exact L2]).
  destruct (goes_trans _ _ _ _ _ L1 L2') as (more & N & E & O). exists more.
  assert (Ea : ∀ l, actions (Acts <$> l) = l). { induction l as [|a l IH]; [reflexivity|]. cbn. f_equal. exact IH. }
  assert (Ed : ∀ l : list action, died (Acts <$> l) = ∅). { induction l as [|a l IH]; [reflexivity|]. exact IH. }
  assert (Es : ∀ l, state_after c (tr ++ (Acts <$> l)) = foldl act y l). { intros l. rewrite state_app, Ea. reflexivity. }
  assert (Hr' : crash_graphs_run c (tr ++ (Acts <$> more))).
  { intros before i after [(q & E' & _)|(q & -> & E')]%app_split; [exact (Hr _ _ _ E')|].
    apply fmap_app_inv in E' as (l1 & l2 & -> & E1 & ->). destruct l2 as [|a l2]; [discriminate|]. cbn in E1. injection E1 as -> _. rewrite died_app, Ed, Es. replace (died tr ∪ ∅) with dead by (unfold dead; set_solver).
    exact (proj1 (O _ _ _ eq_refl)). }
  destruct (crash_told _ _ Hmax Hr') as [T1 T2]. rewrite Es, <- E in T1, T2.
  split; [exact Hr'|split; [exact N|split]].
  - intros before a after E'. rewrite Es. exact (proj2 (O _ _ _ E')).
  - rewrite Es, <- E. split; [exact (ending_resolved c verdict Hv X K W _ E2 D2)|exact (graphs_end c Hmax X K W _ E2 D2 T1 T2)].
Qed.
