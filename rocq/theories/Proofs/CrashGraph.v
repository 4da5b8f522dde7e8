(** * The system survives crashes of workers, with graphs (C95) *)

From Verif.Model Require Import Base OneToManyDict PriorityQueue Allocator Message Sorter Client Worker Processor Scheduler System.
From Verif.Spec Require Import AllocatorSpec DictSpec SchedulerSpec SystemSpec FlowSpec TrafficSpec GraphFlowSpec CrashSpec CrashGraphSpec.
From Verif.Proofs Require Import BaseProofs DictProofs AllocatorProofs SchedWp SchedCount SchedHold SchedGlobal SchedStep SchedRemove SchedPlain SchedPolite SchedLive SchedBegin SchedTraffic SchedFinish SystemParts SystemProofs FlowSched FlowWorker FlowClient FlowSystem GraphClient GraphRounds GraphFlow CrashSched.
From Verif.Proofs Require CrashFlow.
Import CrashFlow(act_log, act_workers, died_app, state_app).

(** ** Giving up workers *)
Section removal.
  Context (cfg : config) (Hmax : c_max_waiting cfg < 0) (Gn X : gset bytes) (g : ledger) (y : system) (H : gflowd cfg Gn X g y).
  Lemma gflow_alive w : w ∈ lg_workers g ↔ w ∈ registered (s_log (y_sched y)).
  Proof.
    destruct (gl_fine H) as (xt & [Hc _] & _). destruct (ok_run _ _ (gl_ok H)) as [rs Hrs]. pose proof (c_dead _ _ _ _ _ Hc) as Hd. rewrite Hrs in Hd. destruct (Inv2_run cfg rs) as [_ H2]. specialize (H2 Hd).
    rewrite <- (c_alive _ _ _ _ _ Hc), elem_of_dom, Hrs. exact (I2_alive_reg _ w H2).
  Qed.
  Lemma gflow_remove now codes : undispatched (s_log (y_sched y)) = false →
    let y' := act y (SchedulerDoes now codes EWorkers) in
    ∃ ws g', gflowd cfg (Gn ∪ list_to_set ws) X g' y' ∧ without ws g g' ∧ (∀ w, w ∈ ws ↔ silent (c_timeout cfg) now (s_log (y_sched y)) w) ∧ ∀ w, w ∈ ws → LDisconnected w ∈ s_log (y_sched y').
  Proof.
    intros Hu. cbv zeta. pose proof (gact_step _ _ _ _ H (SchedulerDoes now codes EWorkers)) as Hok. cbn [act] in *.
    destruct (gl_fine H) as (xt & [Hc0 Hq] & W0). assert (Hc : core xt false g [] (y_sched y)) by (rewrite <- Hu; exact Hc0).
    destruct (round_removal xt (y_sched y) g now codes Hc Hu) as (ws & g' & out & Hm & HW & Hws & Hout & T & CL & _ & HD). cbv zeta in *. exists ws, g'.
    assert (Hsil : ∀ w, w ∈ ws ↔ silent (c_timeout cfg) now (s_log (y_sched y)) w).
    { intros w. rewrite Hws, (cfg_of _ _ _ _ H). destruct (ok_run _ _ (gl_ok H)) as [rs Hrs]. pose proof (silent_iff cfg rs now w) as Hi. rewrite <- Hrs in Hi. apply Hi. exact (c_dead _ _ _ _ _ Hc0). }
    assert (Hin : ∀ w, w ∈ ws → w ∈ lg_workers g) by (intros w Hi; apply gflow_alive, Hsil, Hi).
    split; [|split; [exact HW|split; [exact Hsil|exact HD]]]. destruct HW as [W1 W2].
    destruct (next_fine _ _ _ _ (Round now codes EWorkers) _ _ _ H Hmax Hu (mv_core _ _ _ _ _ _ _ Hm)) as (xt' & O' & W').
    eapply gflow_sched; [exact H|exact Hok|exact Hu|exact O'|exact W'|exact (mv_posted _ _ _ _ _ _ _ Hm)|..]; cbn [rd_event rcvd app].
    - discriminate.
    - intros i m [Hi _]%Hout. destruct (gl_known H _ Hi) as [x Hx]. eapply used_worker, Hx.
    - intros w. rewrite W1, elem_of_difference. intros [Hw _]. exact (gl_known H w Hw).
    - intros w [Hw|Hw%elem_of_list_to_set]%elem_of_union; rewrite W1, elem_of_difference.
      + destruct (gl_gone H _ Hw) as (G1 & G2). split; [tauto|exact G2].
      + split; [rewrite elem_of_list_to_set; tauto|]. exact (gl_known H w (Hin w Hw)).
    - intros t c. rewrite CL. exact (gl_cl H t c).
    - intros c x Hx. exists (to_scheduler y c). rewrite CL. split; [reflexivity|].
      assert (E : for_part c out = []). { apply for_part_nil. intros j m Hi ->. destruct (Hout _ _ Hi) as [Hi' _]. destruct (gl_known H _ Hi') as [z Hz]. destruct (ok_apart _ _ (gl_ok H) _ _ _ Hx Hz). }
      rewrite E. cbn. rewrite app_nil_r. exact (gl_client H c x Hx).
    - intros w x Hx [HX Hn]%not_elem_of_union. rewrite elem_of_list_to_set in Hn. exists (to_scheduler y w). rewrite T. split; [reflexivity|].
      eapply effect_none; [exact (gl_worker_but H w x Hx HX)| | |intros t; rewrite W2; tauto|reflexivity].
      + apply Forall_forall. intros m Hi%elem_of_for_part. destruct (Hout _ _ Hi) as (_ & n & Hn0 & ->). exact Hn0.
      + rewrite W1, elem_of_difference, elem_of_list_to_set. tauto.
    - intros i m Hi. destruct (Hout _ _ Hi) as (_ & n & _ & ->). exact I.
    - intros t i _. rewrite CL. auto.
  Qed.
End removal.

(** ** The invariant *)
Definition gsurvives (cfg : config) (dead : gset bytes) (y : system) : Prop :=
  ∃ Gn X g, gflowd cfg Gn X g y ∧ Gn ⊆ dead ∧ (∀ w, w ∈ Gn → LDisconnected w ∈ s_log (y_sched y)) ∧ ∀ w, w ∈ dead → is_Some (y_workers y !! w).
Lemma gsurvives_act cfg dead y a : c_max_waiting cfg < 0 → gsurvives cfg dead y → orderly_graphs_but dead y a → gsurvives cfg dead (act y a).
Proof.
  intros Hmax (Gn & X & g & H & HX & HD & Hw) Ho.
  assert (Hbut : orderly_graphs y a → (∀ w, worker_of a = Some w → w ∉ Gn) → gsurvives cfg dead (act y a)).
  { intros Ho' Hn. destruct (gflow_act_but _ _ _ _ H a Hmax Ho' Hn) as (X' & g' & H'). exists Gn, X', g'. split; [exact H'|]. split; [exact HX|]. split; [intros w Hi; apply act_log, HD, Hi|intros w Hi; apply act_workers, Hw, Hi]. }
  assert (Hgo : ∀ w, worker_of a = Some w → w ∉ dead ∧ orderly_graphs y a → gsurvives cfg dead (act y a)).
  { intros w E [Hn Ho']. apply Hbut; [exact Ho'|]. intros w' E'. set_solver. }
  destruct a as [c|w death now retention|c e|c m loads|now codes e|from m now codes|w now e|w m now|w m now|w now e|w m loads now]; cbn [orderly_graphs_but] in Ho;
    try (apply Hbut; [exact Ho|discriminate]); try exact (Hgo _ eq_refl Ho).
  - destruct e as [i m| | | | |]; try (apply Hbut; [exact Ho|discriminate]). destruct Ho as [Hu Hs]. rewrite (cfg_of _ _ _ _ H) in Hs.
    destruct (gflow_remove _ Hmax _ _ _ _ H now codes Hu) as (ws & g' & H' & _ & Hws & HD'). cbv zeta in *. eexists _, X, g'. split; [exact H'|]. split; [|split].
    + intros w [Hi|Hi%elem_of_list_to_set]%elem_of_union; [auto|]. apply Hs, Hws, Hi.
    + intros w [Hi|Hi%elem_of_list_to_set]%elem_of_union; [apply act_log, HD, Hi|auto].
    + intros w Hi. apply act_workers, Hw, Hi.
  - destruct Ho as [Ho Hn]. apply Hbut; [exact Ho|]. cbn. intros w [= <-] Hi. apply Hn; auto.
Qed.
Lemma crash_graphs_snoc c tr i : crash_graphs_run c (tr ++ [i]) → crash_graphs_run c tr ∧ match i with Acts a => orderly_graphs_but (died tr) (state_after c tr) a | Dies w => is_Some (y_workers (state_after c tr) !! w) end.
Proof.
  intros H. split; [|exact (H tr i [] eq_refl)]. intros before j after E. apply (H before j (after ++ [i])). rewrite E, <- app_assoc. reflexivity.
Qed.
Theorem gsurvives_run c tr : c_max_waiting c < 0 → crash_graphs_run c tr → gsurvives c (died tr) (state_after c tr).
Proof.
  intros Hmax. induction tr as [|i tr IH] using rev_ind; intros Hr.
  - exists ∅, ∅, lg_empty. split; [apply gflow_boot|]. split; [set_solver|]. split; [set_solver|]. cbn. set_solver.
  - apply crash_graphs_snoc in Hr as [Hr Hi]. specialize (IH Hr). rewrite died_app, state_app. destruct i as [a|w]; cbn.
    + replace (died tr ∪ ∅) with (died tr) by set_solver. apply gsurvives_act; auto.
    + destruct IH as (Gn & X & g & H & HX & HD & Hw). exists Gn, X, g. split; [exact H|]. split; [set_solver|]. split; [exact HD|]. intros w' [Hw'|Hw']%elem_of_union; [auto|]. assert (w' = w) as -> by set_solver. exact Hi.
Qed.
Theorem gsurvives_well c dead y : gsurvives c dead y → well_but dead y.
Proof.
  intros (Gn & X & g & H & HX & _). split; [destruct (gl_fine H) as (xt & [Hc _] & _); exact (c_dead _ _ _ _ _ Hc)|]. split.
  - intros i x Hx. destruct (gl_client H i x Hx) as (F & B & A & D & HC). split; [exact (ko_up HC)|exact (ko_crash HC)].
  - intros w x Hx Hn. destruct (gl_worker_but H w x Hx) as (L & qs & _ & HW); [set_solver|]. split; [exact (wo_alive _ _ _ _ _ _ _ HW)|exact (worker_running _ _ _ _ _ _ _ HW)].
Qed.
