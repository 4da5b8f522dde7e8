(** * Orderly executions with graphs can always be finished: the workers (C87) *)

From Verif.Model Require Import Base OneToManyDict PriorityQueue Allocator Message Sorter Client Worker Processor Scheduler System.
From Verif.Spec Require Import AllocatorSpec DictSpec SchedulerSpec SystemSpec FlowSpec TrafficSpec GraphFlowSpec.
From Verif.Proofs Require SchedContent ClientProofs FlowFinish.
From Verif.Proofs Require Import BaseProofs DictProofs AllocatorProofs SchedWp SchedCount SchedHold SchedGlobal SchedStep SchedRemove SchedPlain SchedPolite SchedLive SchedBegin SchedTraffic SchedFinish SystemParts SystemProofs FlowSched FlowWorker FlowWork FlowClient FlowSystem GraphClient GraphRounds GraphFlow GraphStep GraphFinish.
Import FlowFinish(fold_len).

(** ** Nodes do not fail *)
Section nodes.
  Context {Gn : gset bytes} (verdict : task → outcome) (X : gset bytes) (Hnodes : ∀ k, task_id k ∈ X → ∃ v, verdict k = Returned v).
  Lemma intact_step T L known qs x Qws Qsw now e : worker_ok T L known qs x Qws Qsw → intact_node X x → turn x e →
    (∀ o d k f, e = PRun o d → c_main (n_processor x) = Calling k (Some f) → o = verdict k) → intact_node X (processor_step now e x).
  Proof using Hnodes.
    intros HW [H1 H2] Ht Hv. pose proof (wo_phase _ _ _ _ _ _ _ HW) as Hp. unfold turn in Ht. unfold processor_step, p_step.
    destruct (c_main (n_processor x)) as [|k|k f|] eqn:Em; destruct e as [m loads| |o d| |]; try done; try (destruct f; done); cbn [pr_event pr_now].
    - destruct Ht as [-> Hm]. destruct (to_processor x) as [|m' D] eqn:ED; [discriminate|]. injection Hm as ->.
      destruct (kept_cons m D) as [[(f & n & ct & ->) Hk]|Hk]; rewrite Hk in Hp.
      + cbn. split; cbn; [|rewrite Em; exact I]. intros t d p Hin. rewrite elem_of_app, elem_of_cons in Hin. destruct Hin as [Hin|[Hin|Hin%elem_of_nil]]; [eauto|discriminate|done].
      + destruct (phase_head _ _ _ _ _ _ _ _ _ Hp) as [HD [[k ->]|(f & n & ct & ->)]]; inversion Hp as [| | | | | | k' n' ct'| | |]; subst; cbn [p_receive negb].
        * unfold pc_get. destruct (c_functions (n_processor x) !! task_function k) as [b|] eqn:Eb; split; cbn.
          -- intros t d p Hin. rewrite elem_of_app, elem_of_cons in Hin. destruct Hin as [Hin|[Hin|Hin%elem_of_nil]]; [eauto|discriminate|done].
          -- eauto.
          -- intros t d p Hin. rewrite elem_of_app, !elem_of_cons in Hin. destruct Hin as [Hin|[Hin|[Hin|Hin%elem_of_nil]]]; [eauto|discriminate|discriminate|done].
          -- rewrite Em. exact I.
        * cbn. match goal with E : Some k' = c_task _ |- _ => rewrite <- E end. split; cbn.
          -- intros t d p Hin. rewrite elem_of_app, elem_of_cons in Hin. destruct Hin as [Hin|[Hin|Hin%elem_of_nil]]; [eauto|discriminate|done].
          -- intros _. rewrite lookup_insert. eauto.
    - unfold pc_get. destruct (c_functions (n_processor x) !! task_function k) as [b|] eqn:Eb; split; cbn; auto.
    - unfold p_run. rewrite Em. destruct f as [f|], o as [v|v|]; try done; cbn.
      + split; cbn; [|exact I]. intros t d' p Hin. rewrite elem_of_app, !elem_of_cons in Hin. destruct Hin as [Hin|[Hin|[Hin|Hin%elem_of_nil]]]; [eauto|discriminate|discriminate|done].
      + split; cbn; [|exact I]. intros t d' p Hin. rewrite elem_of_app, !elem_of_cons in Hin. destruct Hin as [Hin|[Hin|[Hin|Hin%elem_of_nil]]]; [eauto|discriminate| |done].
        injection Hin as -> _ _. intros Hx. destruct (Hnodes _ Hx) as [v' Ev]. specialize (Hv _ _ _ _ eq_refl eq_refl). congruence.
      + split; cbn; [|exact I]. intros t d' p Hin. rewrite elem_of_app, !elem_of_cons in Hin. destruct Hin as [Hin|[Hin|Hin%elem_of_nil]]; [eauto| |done].
        injection Hin as -> _ _. intros Hx. destruct (H2 Hx) as [? ?]. discriminate.
  Qed.
  Lemma result_intact cfg y w x m Q : Gd (Gn:=Gn) cfg X y → w ∉ Gn → y_workers y !! w = Some x → intact_node X x → to_scheduler y w = m :: Q →
    match m with MTaskResult t st _ _ => t ∈ X → st = Success | _ => True end.
  Proof.
    intros H HwG Hx [H1 _] HQ. destruct m as [| | |t st d p| | | | | | | | | | | | | | | |]; try exact I. intros Ht.
    destruct (gl_worker_but H w x Hx HwG) as (L & qs & HL & HW). pose proof (wo_ws _ _ _ _ _ _ _ HW) as Hws. rewrite HQ in Hws. apply Forall_cons in Hws as [Hws _]. cbn in Hws. destruct Hws as [->| ->]; [reflexivity|]. exfalso.
    pose proof (on_the_way_in _ _ _ _ HQ) as Hin. unfold sent_by_part in Hin. rewrite Hx, (not_client _ _ _ _ (gl_ok H) Hx) in Hin.
    apply elem_of_list_omap in Hin as (o & Ho & E). destruct o; try discriminate. injection E as ->.
    destruct (sent_by_worker _ _ _ _ _ (gl_ok H) Hx Ho) as [[?|?]|[Hi _]]; [discriminate..|]. apply (wo_inside _ _ _ (ok_worker _ _ (gl_ok H) _ _ Hx)) in Hi. exact (H1 _ _ _ Hi Ht).
  Qed.
End nodes.

Section drive.
  Context {Gn lost : gset bytes} {HGL : among Gn lost} (cfg : config) (Hmax : c_max_waiting cfg < 0) (verdict : task → outcome) (Hverdict : ∀ k, verdict k ≠ Ended) (X : gset bytes) (Hnodes : ∀ k, task_id k ∈ X → ∃ v, verdict k = Returned v).
  Notation leads := (leads (lost:=lost) verdict).
  Notation leads_refl := (leads_refl (lost:=lost) verdict).
  Notation each := (each (lost:=lost) verdict).
  Notation G := (Gd (Gn:=Gn) cfg X).
  Notation base := (base (Gn:=Gn) (lost:=lost) cfg X).
  Notation log y := (s_log (y_sched y)).
  Notation intact := (intact (lost:=lost)).
  Notation go_on := (go_on cfg Hmax verdict X).
  Notation sched_recv := (sched_recv cfg Hmax verdict X).

  Definition settled (y : system) : Prop := ∀ c x, y_clients y !! c = Some x → to_scheduler y c = [] ∧ fold_len (k_buffer x.1) = 0%nat ∧ refused (to_client y c) = [].
  Definition no_balancing (y : system) : Prop := ∀ w x, w ∉ lost → y_workers y !! w = Some x → steady (to_scheduler y w) ∧ steady (to_agent y w x).
  Definition carries (h0 h : history) : Prop := (∃ l, h = h0 ++ l) ∧ ids h = ids h0 ∧ pending_graphs h = pending_graphs h0.
  Definition working (K W : gset bytes) (h0 : history) (O : option (gmap bytes bytes)) (y : system) : Prop :=
    base K W y ∧ settled y ∧ carries h0 (log y) ∧ (∀ o, O = Some o → no_balancing y ∧ holder (log y) = o).
  Definition escaped (K W : gset bytes) (h0 : history) (y : system) : Prop :=
    base K W y ∧ settled y ∧ carries h0 (log y) ∧ ∃ t, t ∈ ids h0 ∧ ¬ TrafficSpec.settled t h0 ∧ TrafficSpec.settled t (log y).
  Definition quiet (w : bytes) (y : system) : Prop := w ∉ lost → ∀ x, y_workers y !! w = Some x → to_scheduler y w = [] ∧ to_agent y w x = [] ∧ ∀ t, holder (log y) !! t ≠ Some w.
  Lemma carries_refl h : carries h h.
  Proof. split; [exists []; by rewrite app_nil_r|auto]. Qed.
  Lemma carries_trans h h1 h2 : carries h h1 → carries h1 h2 → carries h h2.
  Proof. intros ((l & ->) & E1 & E2) ((l' & ->) & E3 & E4). split; [exists (l ++ l'); by rewrite app_assoc|]. split; congruence. Qed.
  Lemma carries_step y r : G y → match rd_event r with ERecv _ m => ids_of m = [] | EGraph => False | _ => True end → carries (log y) (s_log (step (y_sched y) r)).
  Proof.
    intros H Hr. destruct (step_log cfg X y r H) as (l & E & Hl). rewrite E. change (LIn (rd_now r) (rd_event r) :: l) with ([LIn (rd_now r) (rd_event r)] ++ l). split; [eauto|]. split.
    - rewrite !ids_app, (ids_inner l Hl). assert (ids [LIn (rd_now r) (rd_event r)] = ∅) as ->; [|set_solver]. destruct (rd_event r) as [src m| | | | |]; try reflexivity. unfold ids. cbn. rewrite Hr. reflexivity.
    - rewrite app_assoc, pending_inner by exact Hl. rewrite pending_snoc. destruct (rd_event r) as [src m| | | | |]; try reflexivity; [|done]. destruct m; try reflexivity. discriminate.
  Qed.
  Lemma settled_carries t h h' : carries h h' → TrafficSpec.settled t h → TrafficSpec.settled t h'.
  Proof. intros ((l & ->) & _) (b & n & src & st & d & r & a & -> & H). exists b, n, src, st, d, r, (a ++ l). split; [rewrite <- app_assoc; reflexivity|exact H]. Qed.

  (** A worker takes a step. *)
  Lemma working_worker K W h0 O y w x x' out Q : w ∉ lost → working K W h0 O y → y_workers y !! w = Some x → G (set_worker w x' y) → intact_node X x' →
    to_scheduler (set_worker w x' y) w = to_scheduler y w ++ out → to_agent (set_worker w x' y) w x' = Q → (is_Some O → steady out ∧ steady Q) →
    working K W h0 O (set_worker w x' y) ∧ ∀ j, j ≠ w → quiet j y → quiet j (set_worker w x' y).
  Proof.
    intros Hwl ((H & Hu & Hi & HK & HW & Hin) & Hs & Hc & Hb) Hx HF Hx' G1 G2 Hst.
    assert (Hnc : ∀ c z, y_clients y !! c = Some z → c ≠ w) by (intros c z Hz ->; exact (ok_apart _ _ (gl_ok H) _ _ _ Hz Hx)).
    split; [split; [|split; [|split]]|].
    - split; [exact HF|]. split; [exact Hu|]. split; [exact Hi|]. split; [exact HK|]. split; [rewrite (dom_set_worker _ _ _ _ Hx); exact HW|].
      intros j z. cbn. destruct (decide (j = w)) as [->|Hne]; [rewrite lookup_insert; intros [= <-] _; exact Hx'|rewrite lookup_insert_ne by done; apply Hin].
    - intros c z Hz. change (y_clients y !! c = Some z) in Hz. destruct (Hs c z Hz) as (S1 & S2 & S3). rewrite (queue_other_worker y w x' c (Hnc _ _ Hz)). auto.
    - exact Hc.
    - intros o Eb. destruct (Hb _ Eb) as [B1 B2]. destruct (Hst ltac:(eauto)) as [T1 T2]. split; [|exact B2]. intros j z Hjl. cbn. destruct (decide (j = w)) as [->|Hne].
      + rewrite lookup_insert. intros [= <-]. rewrite G1, G2. destruct (B1 w x Hwl Hx). split; [apply Forall_app; auto|exact T2].
      + rewrite lookup_insert_ne by done. intros Hz. rewrite (queue_other_worker y w x' j Hne). exact (B1 j z Hjl Hz).
    - intros j Hne Hq Hjl z. cbn. rewrite lookup_insert_ne by done. intros Hz. rewrite (queue_other_worker y w x' j Hne). exact (Hq Hjl z Hz).
  Qed.
  Lemma working_agent K W h0 O y w x now e Q : w ∉ lost → working K W h0 O y → y_workers y !! w = Some x → to_agent y w x = match e with WExt m => [m] | _ => [] end ++ Q →
    match e with WProc m => head (from_processor x) = Some m | WTimeout => False | _ => True end →
    (∀ a' out, w_handle now e (n_agent x) = (a', out, None) → is_Some O → steady (agent_sent out)) →
    ∃ a' out, let x' := Node a' (n_history x ++ WIn now e :: out) (n_processor x) (n_calls x) (n_retention x) in let y' := set_worker w x' y in
      w_handle now e (n_agent x) = (a', out, None) ∧ leads y y' ∧ working K W h0 O y' ∧ to_scheduler y' w = to_scheduler y w ++ agent_sent out ∧ to_agent y' w x' = Q ∧ ∀ j, j ≠ w → quiet j y → quiet j y'.
  Proof.
    intros Hwl HR Hx HQ He Hst. pose proof HR as ((H & _ & _ & _ & _ & Hin) & _ & _ & Hb).
    set (a := match e with WExt m => ToAgent w m now | WProc m => ToAgentInside w m now | _ => AgentDoes w now e end).
    assert (Ea : act y a = set_worker w (agent_step now e x) y).
    { subst a. destruct e as [m|m| | |]; cbn [act]; rewrite Hx; try reflexivity.
      - rewrite bool_decide_eq_true_2; [reflexivity|]. apply sent_entry. eapply on_the_way_in, HQ.
      - rewrite bool_decide_eq_true_2; [reflexivity|]. apply head_cons in He as [Q' E]. apply on_the_way_in in E. apply elem_of_list_omap in E as (o & Ho & E). destruct o; try discriminate. injection E as ->. exact Ho. }
    destruct (go_on y a H) as [L1 H1].
    { subst a. destruct e as [m|m| | |]; cbn; try done; intros z Hz; rewrite Hx in Hz; injection Hz as <-; [unfold next; rewrite HQ; reflexivity|exact He]. }
    { subst a. by destruct e. } { subst a. by destruct e. } { subst a. intros w' z Ew _. assert (w' = w) as -> by (destruct e; cbn in Ew; congruence). exact Hwl. } rewrite Ea in L1, H1.
    destruct (gl_worker_but H w x Hx (alive_in _ Hwl)) as (L & qs & HL & HW). destruct (gl_worker_but H1 w (agent_step now e x)) as (L' & qs' & HL' & HW'); [cbn; apply lookup_insert|exact (alive_in _ Hwl)|].
    assert (Hc : ∀ t, e ≠ WExt (MTaskCancel t)). { intros t ->. pose proof (wo_sw _ _ _ _ _ _ _ HW) as Hsw. rewrite HQ in Hsw. cbn in Hsw. apply Forall_cons in Hsw as [[] _]. }
    destruct (agent_inv now e x (wo_alive _ _ _ _ _ _ _ HW) (wo_alive _ _ _ _ _ _ _ HW') Hc) as (a' & out & E & Ho & Es). exists a', out. cbv zeta. rewrite Es in L1, H1. set (x' := Node _ _ _ _ _) in *.
    destruct (queue_worker cfg X y w x x' (agent_sent out) (match e with WExt m => [m] | _ => [] end) Q H Hx) as [Q1 Q2]; [| |exact HQ|].
    { subst x'. cbn [n_history]. unfold agent_sent. rewrite omap_app. reflexivity. }
    { subst x'. cbn [n_history]. unfold agent_heard. rewrite omap_app. f_equal. cbn. assert (omap (λ e0, match e0 with WIn _ (WExt m) => Some m | _ => None end) out = []) as E0.
      { clear -Ho. induction Ho as [|o out Ho _ IH]; [reflexivity|]. cbn. rewrite IH. destruct o; try reflexivity. destruct Ho. } destruct e; cbn; rewrite E0; reflexivity. }
    split; [exact E|]. split; [exact L1|].
    destruct (working_worker K W h0 O y w x x' (agent_sent out) Q Hwl HR Hx H1) as [W1 W2]; [exact (Hin w x Hx Hwl)|exact Q1|exact Q2| |auto].
    intros [o Eb]. split; [exact (Hst _ _ E ltac:(eauto))|]. destruct (Hb _ Eb) as [B1 _]. destruct (B1 w x Hwl Hx) as [_ B2]. rewrite HQ in B2. apply Forall_app in B2. tauto.
  Qed.
  Lemma working_processor K W h0 O y w x now e : w ∉ lost → working K W h0 O y → y_workers y !! w = Some x → turn x e → (∀ o d k f, e = PRun o d → c_main (n_processor x) = Calling k (Some f) → o = verdict k) →
    let x' := processor_step now e x in let y' := set_worker w x' y in
    leads y y' ∧ working K W h0 O y' ∧ to_scheduler y' w = to_scheduler y w ∧ to_agent y' w x' = to_agent y w x ∧ ∀ j, j ≠ w → quiet j y → quiet j y'.
  Proof.
    intros Hwl HR Hx Ht Hv. cbv zeta. pose proof HR as ((H & _ & _ & _ & _ & Hin) & _ & _ & Hb).
    assert (He : match e with PRun o _ => o ≠ Ended | PMsg m loads => loads = true ∧ head (to_processor x) = Some m | _ => True end).
    { unfold turn in Ht. destruct (c_main (n_processor x)) as [|?|? []|], e as [| |[]| |]; try done. }
    set (a := match e with PMsg m loads => ToProcessor w m loads now | _ => ProcessorDoes w now e end).
    assert (Ea : act y a = set_worker w (processor_step now e x) y).
    { subst a. destruct e as [m loads| | | |]; cbn [act]; rewrite Hx; try reflexivity. destruct He as [-> He].
      rewrite bool_decide_eq_true_2; [reflexivity|]. apply head_cons in He as [Q' E]. apply on_the_way_in in E. apply elem_of_list_omap in E as (o & Ho & E). destruct o; try discriminate. injection E as ->. exact Ho. }
    destruct (go_on y a H) as [L1 H1].
    { subst a. destruct e as [m loads| |o d| |]; cbn; try done. destruct He as [El Hm]. split; [exact El|]. intros z Hz. rewrite Hx in Hz. injection Hz as <-. exact Hm. }
    { subst a. by destruct e. }
    { subst a. destruct e as [| |o d| |]; try done; cbn; intros z k f Hz; rewrite Hx in Hz; injection Hz as <-; exact (Hv o d k f eq_refl). }
    { subst a. intros w' z Ew _. assert (w' = w) as -> by (destruct e; cbn in Ew; congruence). exact Hwl. }
    rewrite Ea in L1, H1. destruct (gl_worker_but H w x Hx (alive_in _ Hwl)) as (L & qs & HL & HW). destruct (processor_ok _ _ _ qs x _ _ now e HW He) as (E1 & E2 & _). set (x' := processor_step now e x) in *.
    destruct (queue_worker cfg X y w x x' [] [] (to_agent y w x) H Hx) as [Q1 Q2]; [rewrite E2, app_nil_r; reflexivity|rewrite E2, app_nil_r; reflexivity|reflexivity|]. split; [exact L1|].
    destruct (working_worker K W h0 O y w x x' [] (to_agent y w x) Hwl HR Hx H1) as [W1 W2]; [exact (intact_step verdict X Hnodes _ _ _ qs x _ _ now e HW (Hin w x Hx Hwl) Ht Hv)|exact Q1|exact Q2| |rewrite app_nil_r in Q1; auto].
    intros [o Eb]. split; [constructor|]. destruct (Hb _ Eb) as [B1 _]. exact (proj2 (B1 w x Hwl Hx)).
  Qed.
  Lemma settled_sched y r out : G y → settled y → quick y r out → (∀ c x, y_clients y !! c = Some x → rcvd c (rd_event r) = []) → (∀ c x, y_clients y !! c = Some x → refused (for_part c out) = []) →
    settled (set_sched (step (y_sched y) r) y).
  Proof.
    intros H Hs Hq Hr Ho c x Hx. change (y_clients y !! c = Some x) in Hx. destruct (Hs c x Hx) as (S1 & S2 & S3).
    split; [rewrite (sched_other y r out c Hq (Hr c x Hx)); exact S1|]. split; [exact S2|]. rewrite (qk_client _ _ _ Hq c x Hx). unfold refused in *. rewrite omap_app, S3. exact (Ho c x Hx).
  Qed.
  Lemma dispatch_clients y out : G y → (out = [] ∨ ∃ (k : task) w, is_Some (y_workers y !! w) ∧ out = [(w, MTask k)]) → ∀ c x, y_clients y !! c = Some x → for_part c out = [].
  Proof.
    intros H [->|(k & w & [xw Hw] & ->)] c x Hx; [reflexivity|]. apply for_part_nil. intros j' m' [= -> ->]%elem_of_list_singleton <-. exact (ok_apart _ _ (gl_ok H) _ _ _ Hx Hw).
  Qed.
  (** The scheduler dispatches. *)
  Lemma settled_dispatch K W y : base K W y ∨ G y ∧ idle_users y ∧ dom (y_clients y) = K ∧ dom (y_workers y) = W ∧ intact X y → settled y → leads y (after y EDispatch) ∧ base K W (after y EDispatch) ∧ settled (after y EDispatch) ∧ carries (log y) (log (after y EDispatch)).
  Proof.
    intros HB Hs. assert (Hb : G y ∧ idle_users y ∧ dom (y_clients y) = K ∧ dom (y_workers y) = W ∧ intact X y) by (destruct HB as [(A & _ & B)|B]; auto). clear HB. destruct Hb as (H & Hb).
    destruct (do_dispatch cfg Hmax verdict X y H) as [L1 H1]. destruct (effect_dispatch cfg X y H) as (out & Hq & Hu & _ & _ & _ & Hd). cbv zeta in *. split; [exact L1|]. split; [split; [exact H1|split; [exact Hu|exact Hb]]|].
    split; [|apply carries_step; [exact H|exact I]]. apply (settled_sched y _ out H Hs Hq); [reflexivity|]. intros c x Hx. rewrite (dispatch_clients y out H ltac:(destruct Hd as [[-> _]|(k & w & A & -> & _)]; eauto 6) c x Hx). reflexivity.
  Qed.
  Lemma working_scheduler K W h0 O y w x m Q : w ∉ lost → working K W h0 O y → y_workers y !! w = Some x → to_scheduler y w = m :: Q →
    ∃ y', leads y y' ∧ (escaped K W h0 y' ∨ working K W h0 O y' ∧ y_workers y' = y_workers y ∧ to_scheduler y' w = Q ∧
      (∃ a, to_agent y' w x = to_agent y w x ++ a ∧ (sum_list_with work_sw a < work_ws m)%nat) ∧
      (match m with MHeartbeat _ => registered (log y') = {[w]} ∪ registered (log y) ∧ holder (log y') = holder (log y) | _ => True end) ∧ ∀ j, j ≠ w → quiet j y → quiet j y').
  Proof.
    intros Hwl HR Hx EQ. pose proof HR as (HB & Hs & Hc & Hb). pose proof HB as (H & Hu & Hi & HK & HW & Hin).
    pose proof (result_intact X cfg y w x m Q H (alive_in _ Hwl) Hx (Hin w x Hx Hwl) EQ) as Hm. destruct (sched_recv y w m Q H Hu (λ _ _, Hwl) EQ Hm) as [L1 H1].
    destruct (effect_worker cfg Hmax X y w x m Q H Hu (alive_in _ Hwl) Hx EQ Hm) as (out & Hq & Ho & Hcl & He). cbv zeta in He. set (y1 := after y (ERecv w m)) in *.
    assert (Hnc : ∀ c z, y_clients y !! c = Some z → rcvd c (ERecv w m) = []). { intros c z Hz. cbn. destruct (String.eqb_spec w c) as [->|]; [|reflexivity]. destruct (ok_apart _ _ (gl_ok H) _ _ _ Hz Hx). }
    pose proof (settled_sched y _ out H Hs Hq Hnc Hcl) as Hs1. change (settled y1) in Hs1.
    assert (Hoth : ∀ j, j ≠ w → to_scheduler y1 j = to_scheduler y j). { intros j Hne. apply (sched_other y _ out j Hq). cbn. destruct (String.eqb_spec w j); congruence. }
    assert (Eq1 : to_scheduler y1 w = Q) by (apply (qk_in _ _ _ Hq); cbn; rewrite String.eqb_refl; exact EQ).
    assert (Ea1 : ∀ j z, y_workers y !! j = Some z → to_agent y1 j z = to_agent y j z ++ for_part j out) by exact (qk_agent _ _ _ Hq).
    assert (Hc1 : ids_of m = [] → carries (log y) (log y1)) by (intros E; apply (carries_step y (Round 0 [] (ERecv w m))); [exact H|exact E]).
    (* everything but a result *)
    assert (Hgo : ∀ g' a, calm y1 → ids_of m = [] → ledger_of (log y1) = g' → (∀ t j, lg_owner g' !! t = Some j → holder (log y) !! t = Some j) → (is_Some O → lg_owner g' = holder (log y)) → for_part w out = a → (sum_list_with work_sw a < work_ws m)%nat → steady a →
      match m with MHeartbeat _ => g' = Ledger ({[w]} ∪ registered (log y)) (holder (log y)) | _ => True end →
      working K W h0 O y1 ∧ y_workers y1 = y_workers y ∧ to_scheduler y1 w = Q ∧ (∃ a, to_agent y1 w x = to_agent y w x ++ a ∧ (sum_list_with work_sw a < work_ws m)%nat) ∧
      (match m with MHeartbeat _ => registered (log y1) = {[w]} ∪ registered (log y) ∧ holder (log y1) = holder (log y) | _ => True end) ∧ ∀ j, j ≠ w → quiet j y → quiet j y1).
    { intros g' a Hu1 Hid Eg Hown Hsame Ea Hlt Hst Hhb. split; [|split; [reflexivity|split; [exact Eq1|split; [|split]]]].
      - split; [|split; [exact Hs1|split; [eapply carries_trans; eauto|]]]. { split; [exact H1|]. split; [exact Hu1|]. auto. }
        intros o Eb. destruct (Hb _ Eb) as [B1 B2]. split; [|rewrite <- B2, <- (Hsame ltac:(eauto)), <- Eg; reflexivity]. intros j z Hjl Hz. change (y_workers y !! j = Some z) in Hz. destruct (B1 j z Hjl Hz) as [B3 B4]. destruct (decide (j = w)) as [->|Hne].
        + assert (z = x) as -> by congruence. rewrite Eq1, (Ea1 w x Hx), Ea. rewrite EQ in B3. apply Forall_cons in B3 as [_ B3]. split; [exact B3|]. apply Forall_app. auto.
        + rewrite (Hoth j Hne), (Ea1 j z Hz), (Ho j z Hne Hz), app_nil_r. auto.
      - exists a. rewrite (Ea1 w x Hx), Ea. auto.
      - destruct m; try exact I. rewrite Hhb in Eg. injection Eg as E1 E2. split; [exact E1|exact E2].
      - intros j Hne Hqt Hjl z Hz. change (y_workers y !! j = Some z) in Hz. destruct (Hqt Hjl z Hz) as (Q1 & Q2 & Q3). rewrite (Hoth j Hne), (Ea1 j z Hz), (Ho j z Hne Hz), app_nil_r. split; [exact Q1|]. split; [exact Q2|].
        intros t Ht. apply (Q3 t), Hown. rewrite <- Eg. exact Ht. }
    destruct m as [| | |t st d p| | | | | |idl|hb| |ty f nm ct| | | | | | |]; try done.
    - destruct He as [_ Hh]. assert (Hb1 : G y1 ∧ idle_users y1 ∧ dom (y_clients y1) = K ∧ dom (y_workers y1) = W ∧ intact X y1) by auto.
      destruct (settled_dispatch K W y1 (or_intror Hb1) Hs1) as (L2 & B2 & S2 & C2). exists (after y1 EDispatch). split; [eapply leads_trans; eassumption|]. left.
      split; [exact B2|]. split; [exact S2|]. split; [eapply carries_trans; [exact Hc|]; eapply carries_trans; [apply Hc1; reflexivity|exact C2]|].
      destruct (gl_fine H) as (xt & [Hco _] & Wd). exists t.
      assert (Hk : is_Some (s_tasks (y_sched y) !! t)). { apply elem_of_dom. rewrite (c_places _ _ _ _ _ Hco), (c_running _ _ _ _ _ Hco). apply elem_of_union_r, elem_of_union_l, elem_of_dom. cbn. eauto. }
      split; [|split].
      + destruct Hc as (_ & <- & _). apply ids_seen, (wd_seen _ _ _ _ Wd). left. left. exact Hk.
      + intros Hs0. apply (settled_carries _ _ _ Hc) in Hs0. destruct (wd_settled _ _ _ _ Wd _ Hs0) as (_ & E & _). destruct Hk as [? Hk]. congruence.
      + apply (settled_carries _ _ _ C2). destruct (step_log cfg X y (Round 0 [] (ERecv w (MTaskResult t st d p))) H) as (l & E & _). change (log y1) with (s_log (step (y_sched y) (Round 0 [] (ERecv w (MTaskResult t st d p))))). rewrite E.
        eexists _, _, _, _, _, _, _. split; [reflexivity|]. eauto.
    - destruct He as (Ef & Hu1 & Eg & _). exists y1. split; [exact L1|]. right. apply (Hgo _ [] Hu1 eq_refl Eg).
      + intros t j Ht. by apply lookup_deletes in Ht as [_ Ht].
      + intros [o Eb]. exfalso. destruct (Hb _ Eb) as [B1 _]. destruct (B1 w x Hwl Hx) as [B3 _]. rewrite EQ in B3. apply Forall_cons in B3 as [B3 _]. apply B3. exact I.
      + exact Ef.
      + cbn. lia.
      + constructor.
      + exact I.
    - destruct He as (Ef & Hu1 & Eg & _). exists y1. split; [exact L1|]. right. apply (Hgo _ [MHeartbeatEcho] Hu1 eq_refl Eg); [auto|reflexivity|exact Ef|cbn; lia|repeat constructor; tauto|reflexivity].
    - destruct He as ((n & c2 & Ef) & Hu1 & Eg & _). exists y1. split; [exact L1|]. right. apply (Hgo _ (for_part w out) Hu1 eq_refl Eg); [auto|reflexivity|reflexivity|rewrite Ef; cbn; lia|rewrite Ef; repeat constructor; tauto|exact I].
  Qed.

  Lemma worker_moves K W h0 O y w x : w ∉ lost → working K W h0 O y → y_workers y !! w = Some x →
    quiet w y ∨ ∃ y', leads y y' ∧ (escaped K W h0 y' ∨ ∃ x', working K W h0 O y' ∧ y_workers y' !! w = Some x' ∧ (work x' (to_scheduler y' w) (to_agent y' w x') < work x (to_scheduler y w) (to_agent y w x))%nat ∧
      ∀ j, j ≠ w → quiet j y → quiet j y').
  Proof.
    intros Hwl HR Hx. pose proof HR as ((H & _) & _ & _ & Hb). destruct (gl_worker_but H w x Hx (alive_in _ Hwl)) as (L & qs & HL & HW).
    assert (Hag : ∀ e Q, to_agent y w x = match e with WExt m => [m] | _ => [] end ++ Q →
      match e with WExt _ => True | WProc m => head (from_processor x) = Some m | WLoop => loop_ready (n_agent x) | _ => False end →
      ∃ y', leads y y' ∧ (escaped K W h0 y' ∨ ∃ x', working K W h0 O y' ∧ y_workers y' !! w = Some x' ∧ (work x' (to_scheduler y' w) (to_agent y' w x') < work x (to_scheduler y w) (to_agent y w x))%nat ∧ ∀ j, j ≠ w → quiet j y → quiet j y')).
    { intros e Q EQ He. destruct (working_agent K W h0 O y w x 0 e Q Hwl HR Hx EQ) as (a' & out & E & L1 & R1 & G1 & G2 & G3).
      - destruct e; tauto.
      - intros a' out E [o Eb]. destruct (agent_less _ _ _ qs x _ _ Q 0 e a' out HW EQ E He) as [_ Hs]. apply Hs. destruct (Hb _ Eb) as [B1 _]. exact (proj2 (B1 w x Hwl Hx)).
      - eexists. split; [exact L1|]. right. eexists. split; [exact R1|]. split; [cbn; apply lookup_insert|]. split; [|exact G3]. rewrite G1, G2. exact (proj1 (agent_less _ _ _ qs x _ _ Q 0 e a' out HW EQ E He)). }
    destruct (to_agent y w x) as [|m Q] eqn:EA; [|right; exact (Hag (WExt m) Q eq_refl I)].
    destruct (to_scheduler y w) as [|m Q] eqn:ES.
    2:{ right. destruct (working_scheduler K W h0 O y w x m Q Hwl HR Hx ES) as (y' & L1 & [Hesc|(R1 & Ew & G1 & (a & G2 & G3) & _ & G4)]); exists y'; (split; [exact L1|]); [left; exact Hesc|]. right. exists x. split; [exact R1|]. split; [rewrite Ew; exact Hx|].
        split; [|exact G4]. rewrite G1, G2, EA. unfold work. cbn [sum_list_with app]. lia. }
    destruct (from_processor x) as [|m Q] eqn:EU; [|right; exact (Hag (WProc m) [] eq_refl eq_refl)].
    assert (Hpr : ∀ e, turn x e → (∀ o d k f, e = PRun o d → c_main (n_processor x) = Calling k (Some f) → o = verdict k) →
      ∃ y', leads y y' ∧ (escaped K W h0 y' ∨ ∃ x', working K W h0 O y' ∧ y_workers y' !! w = Some x' ∧ (work x' (to_scheduler y' w) (to_agent y' w x') < work x [] [])%nat ∧ ∀ j, j ≠ w → quiet j y → quiet j y')).
    { intros e Ht Hv. destruct (working_processor K W h0 O y w x 0 e Hwl HR Hx Ht Hv) as (L1 & R1 & G1 & G2 & G3). eexists. split; [exact L1|]. right. eexists. split; [exact R1|]. split; [cbn; apply lookup_insert|]. split; [|exact G3].
      rewrite G1, G2, ES, EA. eapply processor_less; eassumption. }
    destruct (c_main (n_processor x)) as [|k|k f|] eqn:Em.
    - destruct (to_processor x) as [|m Q] eqn:ED; [|right; apply (Hpr (PMsg m true)); [unfold turn; rewrite Em, ED; auto|discriminate]].
      assert (Hd : loop_ready (n_agent x) ∨ ¬ loop_ready (n_agent x)). { unfold loop_ready. destruct (a_loop (n_agent x)); [destruct (a_ids (n_agent x)); [right|left; discriminate]; auto|destruct (a_lock (n_agent x)); auto|destruct (a_init (n_agent x)); auto]. }
      destruct Hd as [Hl|Hl]; [right; exact (Hag WLoop [] eq_refl Hl)|]. left. intros _ z Hz. assert (z = x) as -> by congruence. split; [exact ES|]. split; [exact EA|].
      intros t Ht. apply HL in Ht. rewrite (worker_stuck _ _ _ _ _ HW EU ED Em Hl) in Ht. by apply elem_of_nil in Ht.
    - right. apply (Hpr PLook); [unfold turn; rewrite Em; exact I|discriminate].
    - right. destruct f as [f|]; [apply (Hpr (PRun (verdict k) 0))|apply (Hpr (PRun (Raised "") 0))]; unfold turn; rewrite ?Em; try done; intros o d k' f' [= <- <-] [= <- <-]; reflexivity.
    - exfalso. exact (worker_running _ _ _ _ _ _ _ HW Em).
  Qed.
  Lemma drive_worker K W h0 O w : w ∉ lost → ∀ n y x, working K W h0 O y → y_workers y !! w = Some x → (work x (to_scheduler y w) (to_agent y w x) <= n)%nat →
    ∃ y', leads y y' ∧ (escaped K W h0 y' ∨ working K W h0 O y' ∧ quiet w y' ∧ ∀ j, j ≠ w → quiet j y → quiet j y').
  Proof.
    intros Hwl n. induction n as [n IH] using lt_wf_ind. intros y x HR Hx Hn. destruct (worker_moves K W h0 O y w x Hwl HR Hx) as [Hq|(y1 & L1 & [He|(x1 & R1 & Hx1 & Hw & O1)])].
    - exists y. split; [apply leads_refl|auto].
    - exists y1. auto.
    - destruct (IH _ (Nat.lt_le_trans _ _ _ Hw Hn) y1 x1 R1 Hx1 (le_n _)) as (y2 & L2 & [E2|(R2 & Q2 & O2)]); exists y2; (split; [eapply leads_trans; eassumption|]); [auto|]. right. split; [exact R2|]. split; [exact Q2|]. auto.
  Qed.
  Lemma drive_workers K W h0 O y : working K W h0 O y → ∃ y', leads y y' ∧ (escaped K W h0 y' ∨ working K W h0 O y' ∧ ∀ w, quiet w y').
  Proof.
    intros HR. destruct (each (working K W h0 O) (escaped K W h0) quiet) with (l := elements W) (y := y) as (y' & L & [E|[R' P]]).
    - intros w y1 R1. destruct (decide (w ∈ lost)) as [Hwl|Hwl]; [exists y1; split; [apply leads_refl|]; right; split; [exact R1|]; split; [intros []; exact Hwl|auto]|]. destruct (y_workers y1 !! w) as [x|] eqn:Hx.
      + destruct (drive_worker K W h0 O w Hwl _ y1 x R1 Hx (le_n _)) as (y2 & L2 & [E2|(R2 & Q2 & O2)]); exists y2; (split; [exact L2|]); [auto|]. right. split; [exact R2|]. split; [exact Q2|]. intros j Hj. destruct (decide (j = w)) as [->|Hne]; auto.
      + exists y1. split; [apply leads_refl|]. right. split; [exact R1|]. split; [intros _ x Hx'; congruence|auto].
    - exact HR.
    - exists y'. auto.
    - exists y'. split; [exact L|]. right. split; [exact R'|]. intros w Hwl x Hx. apply (P w); [|exact Hwl|exact Hx]. apply elem_of_elements. destruct R' as ((_ & _ & _ & _ & <- & _) & _). apply elem_of_dom. eauto.
  Qed.
  Lemma quiet_holder y : lost ⊆ Gn → G y → (∀ w, quiet w y) → holder (log y) = ∅.
  Proof.
    intros HLG H Hq. apply map_empty. intros t. destruct (holder (log y) !! t) as [w|] eqn:E; [|reflexivity]. exfalso. destruct (gl_fine H) as (xt & [Hc _] & _). destruct (c_alloc _ _ _ _ _ Hc) as (mq & ml & st & R & _). pose proof (ar_owner _ _ _ _ _ R _ _ E) as Hw.
    destruct (gl_known H w Hw) as [x Hx]. destruct (Hq w) with x as (_ & _ & Ho); [intros Hl; exact (proj1 (gl_gone H w (HLG _ Hl)) Hw)|exact Hx|exact (Ho t E)].
  Qed.
  Lemma quiet_steady y : (∀ w, quiet w y) → no_balancing y.
  Proof. intros Hq w x Hwl Hx. destruct (Hq w Hwl x Hx) as (-> & -> & _). split; constructor. Qed.
End drive.
