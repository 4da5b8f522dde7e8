(** * The system survives crashes of workers (C94) *)

From Verif.Model Require Import Base OneToManyDict PriorityQueue Allocator Message Client Worker Processor Scheduler System.
From Verif.Spec Require Import AllocatorSpec DictSpec SchedulerSpec SystemSpec FlowSpec CrashSpec.
From Verif.Proofs Require Import BaseProofs DictProofs AllocatorProofs SchedWp SchedCount SchedHold SchedStep SchedRemove SchedPlain SchedPolite SchedGlobal SystemProofs FlowSched FlowWorker FlowWork FlowClient FlowSystem FlowFinish FlowClock CrashSched.

(** ** Giving up workers *)
Section removal.
  Context (cfg : config) (X : gset bytes) (g : ledger) (y : system) (H : flow cfg X g y).
  Lemma flow_alive w : w ∈ lg_workers g ↔ w ∈ registered (s_log (y_sched y)).
  Proof.
    destruct (ok_run _ _ (fl_ok H)) as [rs Hrs]. pose proof (c_dead _ _ _ _ _ (fl_core H)) as Hd. rewrite Hrs in Hd. destruct (Inv2_run cfg rs) as [_ H2]. specialize (H2 Hd).
    rewrite <- (c_alive _ _ _ _ _ (fl_core H)), elem_of_dom, Hrs. exact (I2_alive_reg _ w H2).
  Qed.
  Lemma flow_remove now codes : undispatched (s_log (y_sched y)) = false →
    let y' := act y (SchedulerDoes now codes EWorkers) in
    ∃ ws g', flow cfg (X ∪ list_to_set ws) g' y' ∧ without ws g g' ∧ (∀ w, w ∈ ws ↔ silent (c_timeout cfg) now (s_log (y_sched y)) w) ∧ ∀ w, w ∈ ws → LDisconnected w ∈ s_log (y_sched y').
  Proof.
    intros Hu. cbv zeta. pose proof (act_step _ _ _ H (SchedulerDoes now codes EWorkers)) as Hok. cbn [act] in *.
    assert (Hc : core no_graphs false g [] (y_sched y)) by (rewrite <- Hu; exact (fl_core H)).
    destruct (round_removal no_graphs (y_sched y) g now codes Hc Hu) as (ws & g' & out & Hm & HW & Hws & Hout & T & CL & _ & HD). cbv zeta in *. exists ws, g'.
    assert (Hsil : ∀ w, w ∈ ws ↔ silent (c_timeout cfg) now (s_log (y_sched y)) w).
    { intros w. rewrite Hws, (fl_cfg H). destruct (ok_run _ _ (fl_ok H)) as [rs Hrs]. pose proof (silent_iff cfg rs now w) as Hi. rewrite <- Hrs in Hi. apply Hi. exact (c_dead _ _ _ _ _ (fl_core H)). }
    assert (Hin : ∀ w, w ∈ ws → w ∈ lg_workers g) by (intros w Hi; apply flow_alive, Hsil, Hi).
    split; [|split; [exact HW|split; [exact Hsil|exact HD]]]. destruct HW as [W1 W2].
    eapply flow_sched; [exact H|exact Hok|exact Hm|..]; cbn [rd_event rcvd app].
    - discriminate.
    - intros i m [Hi _]%Hout. destruct (fl_known H _ Hi) as [x Hx]. eapply used_worker, Hx.
    - intros w. rewrite W1, elem_of_difference. intros [Hw _]. exact (fl_known H w Hw).
    - intros w [Hw|Hw%elem_of_list_to_set]%elem_of_union; rewrite W1, elem_of_difference.
      + destruct (fl_gone H _ Hw) as (G1 & G2). split; [tauto|exact G2].
      + split; [rewrite elem_of_list_to_set; tauto|]. exact (fl_known H w (Hin w Hw)).
    - intros t c. rewrite CL. exact (fl_cl H t c).
    - intros c x Hx. exists (to_scheduler y c). rewrite CL. split; [reflexivity|].
      assert (E : for_part c out = []). { destruct (for_part c out) as [|m l] eqn:E; [reflexivity|]. assert (Hi : m ∈ for_part c out) by (rewrite E; left). apply elem_of_for_part in Hi. destruct (Hout _ _ Hi) as [Hi' _].
        destruct (fl_known H _ Hi') as [z Hz]. destruct (ok_apart _ _ (fl_ok H) _ _ _ Hx Hz). }
      rewrite E, app_nil_r. exact (fl_client H c x Hx).
    - intros w x Hx [HX Hn]%not_elem_of_union. rewrite elem_of_list_to_set in Hn. exists (to_scheduler y w). rewrite T. split; [reflexivity|].
      eapply effect_none; [exact (fl_worker_but H w x Hx HX)| | |intros t; rewrite W2; tauto|reflexivity].
      + apply Forall_forall. intros m Hi%elem_of_for_part. destruct (Hout _ _ Hi) as (_ & n & Hn0 & ->). exact Hn0.
      + rewrite W1, elem_of_difference, elem_of_list_to_set. tauto.
  Qed.
End removal.

(** ** What stays *)
Lemma act_log y a e : e ∈ s_log (y_sched y) → e ∈ s_log (y_sched (act y a)).
Proof.
  intros He. assert (Hs : ∀ r, e ∈ s_log (step (y_sched y) r)). { intros r. destruct (step_log (y_sched y) r) as (l & -> & _). apply elem_of_app. auto. }
  destruct a; cbn [act]; repeat case_match; try exact He; apply Hs.
Qed.
Lemma act_workers y a w : is_Some (y_workers y !! w) → is_Some (y_workers (act y a) !! w).
Proof.
  intros [x Hx]. assert (Hs : ∀ i z, is_Some (y_workers (set_worker i z y) !! w)). { intros i z. cbn. destruct (decide (i = w)) as [->|Hne]; [rewrite lookup_insert|rewrite lookup_insert_ne by done]; eauto. }
  destruct a; cbn [act]; repeat case_match; try apply Hs; cbn; eauto.
Qed.

(** ** The invariant *)
Definition survives (cfg : config) (dead : gset bytes) (y : system) : Prop :=
  ∃ X g, flow cfg X g y ∧ X ⊆ dead ∧ (∀ w, w ∈ X → LDisconnected w ∈ s_log (y_sched y)) ∧ ∀ w, w ∈ dead → is_Some (y_workers y !! w).
Lemma survives_flow cfg X g y dead a : flow cfg X g y → X ⊆ dead → (∀ w, w ∈ X → LDisconnected w ∈ s_log (y_sched y)) → (∀ w, w ∈ dead → is_Some (y_workers y !! w)) →
  (∃ g', flow cfg X g' (act y a)) → survives cfg dead (act y a).
Proof. intros H HX HD Hw [g' H']. exists X, g'. split; [exact H'|]. split; [exact HX|]. split; [intros w Hi; apply act_log, HD, Hi|intros w Hi; apply act_workers, Hw, Hi]. Qed.
Lemma survives_act cfg dead y a : c_max_waiting cfg < 0 → survives cfg dead y → orderly_but dead y a → survives cfg dead (act y a).
Proof.
  intros Hmax (X & g & H & HX & HD & Hw) Ho.
  assert (Hbut : orderly y a → (∀ w, worker_of a = Some w → w ∉ X) → survives cfg dead (act y a)).
  { intros Ho' Hn. eapply survives_flow; [eassumption..|]. exact (flow_act_but _ _ _ H a Hmax Ho' Hn). }
  assert (Hgo : ∀ w, worker_of a = Some w → w ∉ dead ∧ orderly y a → survives cfg dead (act y a)).
  { intros w E [Hn Ho']. apply Hbut; [exact Ho'|]. intros w' E'. set_solver. }
  destruct a as [c|w death now retention|c e|c m loads|now codes e|from m now codes|w now e|w m now|w m now|w now e|w m loads now]; cbn [orderly_but] in Ho;
    try (apply Hbut; [exact Ho|discriminate]); try exact (Hgo _ eq_refl Ho).
  - destruct e as [i m| | | | |]; try (apply Hbut; [exact Ho|discriminate]). destruct Ho as [Hu Hs]. rewrite (fl_cfg H) in Hs.
    destruct (flow_remove _ _ _ _ H now codes Hu) as (ws & g' & H' & _ & Hws & HD'). cbv zeta in *. eexists _, g'. split; [exact H'|]. split; [|split].
    + intros w [Hi|Hi%elem_of_list_to_set]%elem_of_union; [auto|]. apply Hs, Hws, Hi.
    + intros w [Hi|Hi%elem_of_list_to_set]%elem_of_union; [apply act_log, HD, Hi|auto].
    + intros w Hi. apply act_workers, Hw, Hi.
  - destruct Ho as [Ho Hn]. apply Hbut; [exact Ho|]. cbn. intros w [= <-] Hi. apply Hn; auto.
Qed.
Lemma died_app tr tr' : died (tr ++ tr') = died tr ∪ died tr'.
Proof. unfold died. rewrite omap_app, list_to_set_app_L. reflexivity. Qed.
Lemma state_app c tr tr' : state_after c (tr ++ tr') = foldl act (state_after c tr) (actions tr').
Proof. unfold state_after, actions, execute. rewrite omap_app, foldl_app. reflexivity. Qed.
Lemma crash_run_snoc c tr i : crash_run c (tr ++ [i]) → crash_run c tr ∧ match i with Acts a => orderly_but (died tr) (state_after c tr) a | Dies w => is_Some (y_workers (state_after c tr) !! w) end.
Proof.
  intros H. split; [|exact (H tr i [] eq_refl)]. intros before j after E. apply (H before j (after ++ [i])). rewrite E, <- app_assoc. reflexivity.
Qed.
Theorem survives_run c tr : c_max_waiting c < 0 → crash_run c tr → survives c (died tr) (state_after c tr).
Proof.
  intros Hmax. induction tr as [|i tr IH] using rev_ind; intros Hr.
  - destruct (flow_run c [] Hmax) as [g H]; [intros [|? ?] ? ? E; discriminate|]. exists ∅, g. split; [exact H|]. split; [set_solver|]. split; [set_solver|]. cbn. set_solver.
  - apply crash_run_snoc in Hr as [Hr Hi]. specialize (IH Hr). rewrite died_app, state_app. destruct i as [a|w]; cbn.
    + replace (died tr ∪ ∅) with (died tr) by set_solver. apply survives_act; auto.
    + destruct IH as (X & g & H & HX & HD & Hw). exists X, g. split; [exact H|]. split; [set_solver|]. split; [exact HD|]. intros w' [Hw'|Hw']%elem_of_union; [auto|]. assert (w' = w) as -> by set_solver. exact Hi.
Qed.
Theorem survives_well c dead y : survives c dead y → well_but dead y.
Proof.
  intros (X & g & H & HX & _). split; [exact (c_dead _ _ _ _ _ (fl_core H))|]. split.
  - intros i x Hx. destruct (fl_client H i x Hx) as (F & B & A & D & HC). split; [exact (ko_up HC)|exact (ko_crash HC)].
  - intros w x Hx Hn. destruct (fl_worker_but H w x Hx) as (L & qs & _ & HW); [set_solver|]. split; [exact (wo_alive _ _ _ _ _ _ _ HW)|exact (worker_running _ _ _ _ _ _ _ HW)].
Qed.

(** ** Every task gets done *)
Section goes.
  Context (verdict : task → outcome) (dead : gset bytes).
  Definition goes (y y' : system) : Prop :=
    ∃ more, Forall no_news more ∧ y' = foldl act y more ∧ ∀ before a after, more = before ++ a :: after → orderly_but dead (foldl act y before) a ∧ as_decided verdict (foldl act y before) a.
  Lemma goes_one y a : orderly_but dead y a → no_news a → as_decided verdict y a → goes y (act y a).
  Proof. intros Ho Hn Hv. exists [a]. split; [by constructor|]. split; [reflexivity|]. intros [|b [|b' before]] a' after E; injection E as -> E; try discriminate. auto. Qed.
  Lemma goes_refl y : goes y y.
  Proof. exists []. split; [constructor|]. split; [reflexivity|]. intros [|b before] a after E; discriminate. Qed.
  Lemma goes_trans y y' y'' : goes y y' → goes y' y'' → goes y y''.
  Proof.
    intros (m & N & -> & O) (m' & N' & -> & O'). exists (m ++ m'). split; [by apply Forall_app|]. split; [rewrite foldl_app; reflexivity|].
    intros before a after [(q & E & _)|(q & -> & E)]%app_split; [exact (O _ _ _ E)|]. rewrite foldl_app. exact (O' _ _ _ E).
  Qed.
  Lemma acts_workers acts : ∀ y w, is_Some (y_workers y !! w) → is_Some (y_workers (foldl act y acts) !! w).
  Proof. induction acts as [|a acts IH]; intros y w Hw; [exact Hw|]. cbn. apply IH, act_workers, Hw. Qed.
  Lemma leads_goes y y' : (∀ w, w ∈ dead → is_Some (y_workers y !! w)) → leads verdict dead y y' → goes y y'.
  Proof.
    intros Hw (more & N & E & O). exists more. split; [exact N|]. split; [exact E|]. intros before a after Em. destruct (O _ _ _ Em) as (O1 & O2 & O3). split; [|exact O2].
    assert (Hl : ∀ w, worker_of a = Some w → w ∉ dead). { intros w E' Hi. destruct (acts_workers before _ _ (Hw w Hi)) as [x Hx]. exact (O3 w x E' Hx Hi). }
    destruct a as [| | | |now codes e|from m now codes| | | | |]; cbn [orderly_but]; try exact O1; try (split; [apply Hl; reflexivity|exact O1]).
    - destruct e; try exact O1. destruct O1 as [Hu Hs]. split; [exact Hu|]. intros w Hi. destruct (Hs w Hi).
    - split; [exact O1|]. intros Hi. destruct (Hl _ eq_refl Hi).
  Qed.
End goes.

Section every_task.
  Context (cfg : config) (Hmax : c_max_waiting cfg < 0) (verdict : task → outcome) (Hverdict : ∀ k, verdict k ≠ Ended) (X dead : gset bytes) (HXD : X ⊆ dead).
  Notation leads := (leads verdict dead).
  Notation goes := (goes verdict dead).
  (** Nothing is on its way between live workers and the scheduler. *)
  Definition ready (w : bytes) (y : system) : Prop := w ∉ dead → ∀ x, y_workers y !! w = Some x → to_scheduler y w = [] ∧ a_sent (n_agent x) = 0.
  Lemma all_ready g y : flow cfg X g y → ∃ g' y', leads y y' ∧ flow cfg X g' y' ∧ undispatched (s_log (y_sched y')) = false ∧ ∀ w, ready w y'.
  Proof.
    intros H. destruct (do_dispatch cfg verdict X dead _ _ H) as (g1 & L1 & H1 & Hu1 & C1 & W1 & _). set (y1 := act y (SchedulerDoes 0 [] EDispatch)) in *.
    destruct (end_all_calls cfg Hmax verdict Hverdict X dead HXD _ _ H1) as (y2 & L2 & H2 & I2 & S2 & W2 & K2). set (K := dom (y_clients y2)). set (W := dom (y_workers y2)).
    assert (B2 : base cfg X K W g1 y2). { split; [exact H2|]. split; [unfold calm; rewrite S2; exact Hu1|auto]. }
    destruct (drain_clients cfg Hmax verdict Hverdict X dead HXD _ _ _ _ B2) as (g3 & y3 & L3 & B3 & D3). pose proof (drained_settled cfg X _ _ _ _ B3 D3) as S3.
    destruct (drive_workers cfg Hmax verdict Hverdict X dead HXD K W false ∅ g3 y3) as (g4 & y4 & L4 & (B4 & S4 & _) & Q4); [split; [exact B3|]; split; [exact S3|discriminate]|].
    exists g4, y4. destruct B4 as (H4 & Hu4 & _). split; [|split; [exact H4|split; [exact Hu4|]]].
    { eapply leads_trans; [exact L1|]. eapply leads_trans; [exact L2|]. eapply leads_trans; eassumption. }
    intros w Hn x Hx. destruct (Q4 w Hn x Hx) as (E1 & E2 & _). split; [exact E1|]. destruct (fl_worker_but H4 w x Hx) as (L & qs & _ & HW); [set_solver|]. rewrite E1, E2 in HW.
    destruct (wo_beat _ _ _ _ _ _ _ HW) as [[_ Hk]|[Hk|(h & Hk)]]; [by apply elem_of_nil in Hk|exact Hk|by apply elem_of_nil in Hk].
  Qed.
  (** A live worker is heard. *)
  Lemma beat_one T g y w x : flow cfg X g y → undispatched (s_log (y_sched y)) = false → w ∉ dead → y_workers y !! w = Some x → ready w y →
    ∃ g' y' b, goes y y' ∧ flow cfg X g' y' ∧ undispatched (s_log (y_sched y')) = false ∧ dom (y_workers y') = dom (y_workers y) ∧ last_beat w (s_log (y_sched y')) = Some (T, b) ∧
      ∀ j, j ≠ w → last_beat j (s_log (y_sched y')) = last_beat j (s_log (y_sched y)) ∧ (ready j y → ready j y').
  Proof.
    intros H Hu Hn Hx Hr. destruct (Hr Hn x Hx) as [EQ Es]. assert (HwX : w ∉ X) by set_solver.
    destruct (flow_agent_but _ _ _ H w x 1 (WHeartbeat 0 0 0 0) (to_agent y w x) HwX Hx eq_refl I) as (out & Ea & Eo & H1 & G1 & _). cbv zeta in *.
    destruct (fl_worker_but H w x Hx HwX) as (L & qs & _ & HW). pose proof (wo_alive _ _ _ _ _ _ _ HW) as Hal.
    set (x' := agent_step 1 (WHeartbeat 0 0 0 0) x) in *. set (y1 := set_worker w x' y) in *.
    assert (Eb : ∃ b, out = [MHeartbeat b]).
    { assert (∃ a' b, w_handle 1 (WHeartbeat 0 0 0 0) (n_agent x) = (a', [WOut (MHeartbeat b)], None)) as (a' & b & E) by (cbn [w_handle]; unfold wh_routine; rewrite Es; cbn [Z.eqb negb]; eauto).
      unfold x' in Eo. rewrite (agent_step_eq _ _ _ _ _ Hal E) in Eo by (intros Hi; apply elem_of_list_singleton in Hi; discriminate). cbn [n_history] in Eo. unfold agent_sent in Eo. rewrite omap_app in Eo. apply app_inv_head in Eo. cbn in Eo. subst out. eauto. }
    destruct Eb as [b ->]. rewrite EQ in G1. cbn in G1. assert (Hx1 : y_workers y1 !! w = Some x') by apply lookup_insert.
    pose proof (act_step _ _ _ H1 (ToScheduler w (MHeartbeat b) T [])) as Hok.
    assert (Ea2 : act y1 (ToScheduler w (MHeartbeat b) T []) = set_sched (step (y_sched y1) (Round T [] (ERecv w (MHeartbeat b)))) y1) by (cbn [act]; rewrite (sent_of_worker _ _ _ H1 _ _ _ _ Hx1 G1); reflexivity).
    rewrite Ea2 in Hok. destruct (flow_recv_worker_but _ _ _ T [] H1 Hu w x' _ _ HwX Hx1 G1 Hok) as (g' & HF & Hu' & _ & G2 & _). cbv zeta in *. rewrite <- Ea2 in *. set (y2 := act y1 (ToScheduler w (MHeartbeat b) T [])) in *.
    exists g', y2, b. split; [|split; [exact HF|split; [rewrite Ea2; exact Hu'|]]].
    { eapply goes_trans; [|apply goes_one; [|exact I|exact I]].
      - rewrite <- Ea. apply goes_one; [|exact I|exact I]. split; [exact Hn|exact I].
      - cbn [orderly_but orderly]. split; [|intros Hi; destruct (Hn Hi)]. unfold next. rewrite G1. split; [reflexivity|exact Hu]. }
    assert (Hd : s_dead (y_sched y1) = None) by exact (c_dead _ _ _ _ _ (fl_core H1)).
    assert (Hl : ∀ j, last_beat j (s_log (y_sched y2)) = if String.eqb w j then Some (T, b) else last_beat j (s_log (y_sched y))). { intros j. rewrite Ea2. exact (beat_step_log y1 (Round T [] (ERecv w (MHeartbeat b))) j Hd). }
    split; [|split].
    - rewrite Ea2. cbn. rewrite dom_insert_L. assert (w ∈ dom (y_workers y)) by (apply elem_of_dom; eauto). set_solver.
    - rewrite Hl, String.eqb_refl. reflexivity.
    - intros j Hj. split; [rewrite Hl, eqb_ne by done; reflexivity|]. intros Hrj Hnj z Hz. rewrite (G2 j Hj). unfold y1. rewrite queue_other_worker by done. apply Hrj; [exact Hnj|].
      rewrite Ea2 in Hz. cbn in Hz. rewrite lookup_insert_ne in Hz by done. exact Hz.
  Qed.
  Lemma beat_all T l : ∀ g y, NoDup l → flow cfg X g y → undispatched (s_log (y_sched y)) = false → (∀ w, w ∈ l → w ∉ dead ∧ is_Some (y_workers y !! w) ∧ ready w y) →
    ∃ g' y', goes y y' ∧ flow cfg X g' y' ∧ undispatched (s_log (y_sched y')) = false ∧ dom (y_workers y') = dom (y_workers y) ∧ (∀ w, w ∈ l → ∃ b, last_beat w (s_log (y_sched y')) = Some (T, b)) ∧
      ∀ j, j ∉ l → last_beat j (s_log (y_sched y')) = last_beat j (s_log (y_sched y)).
  Proof.
    induction l as [|w l IH]; intros g y Hnd H Hu Hl.
    - exists g, y. split; [apply goes_refl|]. split; [exact H|]. split; [exact Hu|]. split; [reflexivity|]. split; [intros w Hw; by apply elem_of_nil in Hw|auto].
    - apply NoDup_cons in Hnd as [Hw Hnd]. destruct (Hl w ltac:(left)) as (N & [x Hx] & R). destruct (beat_one T g y w x H Hu N Hx R) as (g1 & y1 & b & L1 & H1 & Hu1 & D1 & B1 & O1).
      destruct (IH g1 y1 Hnd H1 Hu1) as (g2 & y2 & L2 & H2 & Hu2 & D2 & B2 & O2).
      { intros j Hj. destruct (Hl j ltac:(right; exact Hj)) as (Nj & Sj & Rj). assert (Hne : j ≠ w) by (intros ->; auto). split; [exact Nj|]. split; [|apply O1; auto]. apply elem_of_dom. rewrite D1. apply elem_of_dom, Sj. }
      exists g2, y2. split; [eapply goes_trans; eassumption|]. split; [exact H2|]. split; [exact Hu2|]. split; [congruence|]. split.
      + intros j [->|Hj]%elem_of_cons; [exists b; rewrite (O2 w Hw); exact B1|auto].
      + intros j [Hne Hj]%not_elem_of_cons. rewrite (O2 j Hj). apply O1, Hne.
  Qed.
  (** Late enough to give up the dead. *)
  Lemma late_enough (h : history) (l : list bytes) : ∃ T, ∀ w t b, w ∈ l → last_beat w h = Some (t, b) → c_timeout cfg < T - t.
  Proof.
    induction l as [|w l [T IH]]; [exists 0; intros w t b Hw; by apply elem_of_nil in Hw|]. destruct (last_beat w h) as [[t b]|] eqn:E.
    - exists (Z.max T (t + c_timeout cfg + 1)). intros w' t' b' [->|Hw]%elem_of_cons E'; [rewrite E in E'; injection E' as <- <-; lia|specialize (IH _ _ _ Hw E'); lia].
    - exists T. intros w' t' b' [->|Hw]%elem_of_cons E'; [congruence|eauto].
  Qed.
  Lemma give_up_dead g y : 0 <= c_timeout cfg → flow cfg X g y → (∀ w, w ∈ dead → is_Some (y_workers y !! w)) →
    ∃ g' y', goes y y' ∧ flow cfg dead g' y' ∧ dom (y_workers y) ⊆ dom (y_workers y').
  Proof.
    intros Ht H Hdead. destruct (all_ready g y H) as (g1 & y1 & L1 & H1 & Hu1 & R1). pose proof (leads_goes _ _ _ _ Hdead L1) as L1'.
    assert (HW1 : ∀ w, is_Some (y_workers y !! w) → is_Some (y_workers y1 !! w)) by (intros w Hw; destruct L1 as (more & _ & -> & _); apply acts_workers, Hw).
    destruct (late_enough (s_log (y_sched y1)) (elements dead)) as [T HT].
    destruct (beat_all T (elements (dom (y_workers y1) ∖ dead)) g1 y1) as (g2 & y2 & L2 & H2 & Hu2 & D2 & B2 & O2); [apply NoDup_elements|exact H1|exact Hu1| |].
    { intros w Hw. apply elem_of_elements, elem_of_difference in Hw as [Hw Hn]. split; [exact Hn|]. split; [apply elem_of_dom, Hw|apply R1]. }
    destruct (flow_remove _ _ _ _ H2 T [] Hu2) as (ws & g3 & H3 & HW & Hws & _). cbv zeta in *. set (y3 := act y2 (SchedulerDoes T [] EWorkers)) in *. exists g3, y3.
    assert (Hs : ∀ w, silent (c_timeout cfg) T (s_log (y_sched y2)) w → w ∈ dead).
    { intros w (Hr & t & b & Hb & Hlt). destruct (decide (w ∈ dead)) as [|Hn]; [assumption|]. exfalso. apply (flow_alive _ _ _ _ H2) in Hr. destruct (fl_known H2 w Hr) as [x Hx].
      destruct (B2 w) as [b' Eb]; [|rewrite Eb in Hb; injection Hb as <- <-; lia]. apply elem_of_elements, elem_of_difference. split; [|exact Hn]. rewrite <- D2. apply elem_of_dom. eauto. }
    split; [|split].
    - eapply goes_trans; [exact L1'|]. eapply goes_trans; [exact L2|]. apply goes_one; [|exact I|exact I]. split; [exact Hu2|]. rewrite (fl_cfg H2). exact Hs.
    - eapply flow_forget; [exact H3| |].
      + intros w [Hw|Hw%elem_of_list_to_set]%elem_of_union; [auto|apply Hs, Hws, Hw].
      + intros w Hw. split; [|unfold y3; apply act_workers; apply elem_of_dom; rewrite D2; apply elem_of_dom; auto]. rewrite (proj1 HW), elem_of_difference, elem_of_list_to_set. intros [Hg Hn]. apply Hn, Hws.
        apply (flow_alive _ _ _ _ H2) in Hg. split; [exact Hg|]. destruct (ok_run _ _ (fl_ok H2)) as [rs Hrs]. pose proof (c_dead _ _ _ _ _ (fl_core H2)) as Hd.
        rewrite Hrs in Hd, Hg. destruct (Inv2_run cfg rs) as [_ I2]. specialize (I2 Hd). apply (I2_alive_reg _ w I2) in Hg as [[t b] Hp]. apply (alive_beat cfg rs w _ Hd) in Hp. rewrite <- Hrs in Hp.
        exists t, b. split; [exact Hp|]. apply (HT w t b); [apply elem_of_elements, Hw|]. rewrite <- O2; [exact Hp|]. rewrite elem_of_elements, elem_of_difference. tauto.
    - intros w Hw. apply elem_of_dom. unfold y3. apply act_workers, elem_of_dom. rewrite D2. apply elem_of_dom, HW1, elem_of_dom, Hw.
  Qed.
End every_task.

Theorem crash_finish c tr verdict w : c_max_waiting c < 0 → 1 <= c_queue_size c → 0 <= c_timeout c → (∀ k, verdict k ≠ Ended) → crash_run c tr →
  is_Some (y_workers (state_after c tr) !! w) → w ∉ died tr →
  ∃ more, crash_run c (tr ++ (Acts <$> more)) ∧ Forall no_news more ∧
    (∀ before a after, more = before ++ a :: after → as_decided verdict (state_after c (tr ++ (Acts <$> before))) a) ∧ all_resolved (state_after c (tr ++ (Acts <$> more))).
Proof.
  intros Hmax Hcap Ht Hv Hr Hw Hn. destruct (survives_run c tr Hmax Hr) as (X & g & H & HX & _ & Hdead). set (dead := died tr) in *. set (y := state_after c tr) in *.
  destruct (give_up_dead c Hmax verdict Hv X dead HX g y Ht H Hdead) as (g1 & y1 & L1 & H1 & D1).
  assert (Hw1 : is_Some (y_workers y1 !! w)) by (apply elem_of_dom, D1, elem_of_dom, Hw).
  destruct (finish c Hmax verdict Hv dead dead (λ _ Hi, Hi) g1 y1 w (λ _ Hi, Hi) Hcap H1 Hw1 Hn) as (y2 & L2 & Hall).
  assert (L2' : goes verdict dead y1 y2) by (apply leads_goes; [intros j Hj; apply elem_of_dom, D1, elem_of_dom, Hdead, Hj|exact L2]).
  destruct (goes_trans _ _ _ _ _ L1 L2') as (more & N & E & O). exists more.
  assert (Ea : ∀ l, actions (Acts <$> l) = l). { induction l as [|a l IH]; [reflexivity|]. cbn. f_equal. exact IH. }
  assert (Ed : ∀ l : list action, died (Acts <$> l) = ∅). { induction l as [|a l IH]; [reflexivity|]. exact IH. }
  assert (Es : ∀ l, state_after c (tr ++ (Acts <$> l)) = foldl act y l). { intros l. rewrite state_app, Ea. reflexivity. }
  split; [|split; [exact N|split]].
  - intros before i after [(q & E' & _)|(q & -> & E')]%app_split; [exact (Hr _ _ _ E')|].
    apply fmap_app_inv in E' as (l1 & l2 & -> & E1 & ->). destruct l2 as [|a l2]; [discriminate|]. cbn in E1. injection E1 as -> _. rewrite died_app, Ed, Es. replace (died tr ∪ ∅) with dead by (unfold dead; set_solver).
    exact (proj1 (O _ _ _ eq_refl)).
  - intros before a after E'. rewrite Es. exact (proj2 (O _ _ _ E')).
  - rewrite Es, <- E. exact Hall.
Qed.
