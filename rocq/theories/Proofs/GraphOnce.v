(** * Orderly executions with graphs: every task and every node is run at most once (C88) *)

From Verif.Model Require Import Base OneToManyDict PriorityQueue Allocator Message Sorter Client Worker Processor Scheduler System.
From Verif.Spec Require Import AllocatorSpec DictSpec SchedulerSpec SystemSpec FlowSpec TrafficSpec OnceSpec GraphFlowSpec.
From Verif.Spec Require ProcessorSpec.
From Verif.Proofs Require SchedContent ClientProofs FlowFinish.
From Verif.Proofs Require Import BaseProofs DictProofs AllocatorProofs SchedWp SchedCount SchedHold SchedGlobal SchedStep SchedRemove SchedPlain SchedPolite SchedLive SchedBegin SchedTraffic SchedFinish SystemParts SystemProofs FlowSched FlowWorker FlowWork FlowClient FlowSystem FlowOnce GraphClient GraphRounds GraphFlow GraphStep.

Notation log y := (s_log (y_sched y)).

(** A task handed to a processor is still with its worker, is on its way back, or has come
    back to the scheduler; workers in [Gn] have been given up. *)
Record gonce (Gn : gset bytes) (y : system) : Prop := {
  go_worker w x : y_workers y !! w = Some x → worker_once x;
  go_one w w' x x' t : w ∉ Gn → w' ∉ Gn → y_workers y !! w = Some x → y_workers y !! w' = Some x' → t ∈ handed_ids x → t ∈ handed_ids x' → w = w';
  go_where w x t : w ∉ Gn → y_workers y !! w = Some x → t ∈ handed_ids x → (∃ k, a_task (n_agent x) = Some k ∧ task_id k = t) ∨ t ∈ results (to_scheduler y w) ∨ settled t (log y) }.

Lemma gonce_same Gn y y' : gonce Gn y → y_workers y' = y_workers y → (∀ w x, y_workers y !! w = Some x → to_scheduler y' w = to_scheduler y w) → (∀ t, settled t (log y) → settled t (log y')) → gonce Gn y'.
Proof.
  intros H E HQ He. split; rewrite E.
  - exact (go_worker _ _ H).
  - exact (go_one _ _ H).
  - intros w x t Nw Hx Ht. rewrite (HQ w x Hx). destruct (go_where _ _ H w x t Nw Hx Ht) as [|[|]]; auto.
Qed.

Section steps.
  Context (Gn : gset bytes) (cfg : config) (X : gset bytes) (y : system) (H : Gd (Gn:=Gn) cfg X y) (HO : gonce Gn y).

  Lemma gended_gone t : settled t (log y) → s_tasks (y_sched y) !! t = None.
  Proof. intros Ht. destruct (gl_fine H) as (xt & _ & W). destruct (wd_settled _ _ _ _ W _ Ht) as (_ & E & _). exact E. Qed.

  Lemma gfresh_hand w x k : w ∉ Gn → y_workers y !! w = Some x → a_loop (n_agent x) = LInit k → a_task (n_agent x) = None →
    ∀ w' x', w' ∉ Gn → y_workers y !! w' = Some x' → task_id k ∉ handed_ids x'.
  Proof.
    intros Nw Hx El Et w' x' Nw' Hx' Hi. destruct (gl_worker_but H w x Hx Nw) as (L & qs & HL & HW). destruct (gl_worker_but H w' x' Hx' Nw') as (L' & qs' & HL' & HW').
    assert (Hk : k ∈ held (to_agent y w x) qs (n_agent x)) by (unfold held; rewrite El; cbn; set_solver).
    pose proof (wo_all _ _ _ _ _ _ _ HW) as Ha. pose proof (wo_all _ _ _ _ _ _ _ HW') as Ha'.
    assert (HkL : task_id k ∈ L) by (rewrite Ha; apply elem_of_app; left; apply elem_of_list_fmap_1, Hk).
    assert (Hgo : task_id k ∈ L' → w' = w). { intros Hl%HL'. apply HL in HkL. congruence. }
    destruct (go_where _ _ HO w' x' _ Nw' Hx' Hi) as [(k' & Ek & Eid)|[Hr|He]].
    - assert (w' = w) as ->. { apply Hgo. rewrite Ha', <- Eid. apply elem_of_app. left. apply elem_of_list_fmap_1. unfold held. rewrite Ek. cbn. set_solver. }
      rewrite Hx in Hx'. injection Hx' as <-. congruence.
    - apply results_back in Hr. assert (w' = w) as ->. { apply Hgo. rewrite Ha'. apply elem_of_app. auto. }
      rewrite Hx in Hx'. injection Hx' as <-. pose proof (wo_nodup _ _ _ _ _ _ _ HW) as Hn. rewrite Ha in Hn. apply NoDup_app in Hn as (_ & Hn & _). apply (Hn (task_id k)); [apply elem_of_list_fmap_1, Hk|exact Hr].
    - apply gended_gone in He. rewrite (wo_tasks _ _ _ _ _ _ _ HW k Hk) in He. discriminate.
  Qed.

  Lemma gonce_agent w x now e Q : w ∉ Gn → y_workers y !! w = Some x → to_agent y w x = match e with WExt m => [m] | _ => [] end ++ Q →
    match e with WProc m => head (from_processor x) = Some m | WTimeout => now - a_seen (n_agent x) < a_death (n_agent x) | _ => True end →
    gonce Gn (set_worker w (agent_step now e x) y).
  Proof.
    intros Nw Hx HQ He. pose proof (agent_moves_but _ _ _ _ H w x now e Q Nw Hx HQ He) as HF.
    assert (Ea : act y (match e with WExt m => ToAgent w m now | WProc m => ToAgentInside w m now | _ => AgentDoes w now e end) = set_worker w (agent_step now e x) y).
    { destruct e as [m|m| | |]; cbn [act]; rewrite Hx; try reflexivity.
      - rewrite bool_decide_eq_true_2; [reflexivity|]. apply sent_entry. eapply on_the_way_in, HQ.
      - rewrite bool_decide_eq_true_2; [reflexivity|]. apply head_cons in He as [Q' E]. apply on_the_way_in in E. apply elem_of_list_omap in E as (o & Ho & E). destruct o; try discriminate. injection E as ->. exact Ho. }
    rewrite Ea in HF. clear Ea. destruct (gl_worker_but H w x Hx Nw) as (L & qs & HL & HW).
    assert (Hw' : y_workers (set_worker w (agent_step now e x) y) !! w = Some (agent_step now e x)) by (cbn; apply lookup_insert).
    destruct (gl_worker_but HF w _ Hw' Nw) as (L' & qs' & _ & HW').
    assert (Hnc : ∀ t, e ≠ WExt (MTaskCancel t)). { intros t ->. pose proof (wo_sw _ _ _ _ _ _ _ HW) as Hsw. rewrite HQ in Hsw. cbn in Hsw. apply Forall_cons in Hsw as [[] _]. }
    destruct (agent_inv now e x (wo_alive _ _ _ _ _ _ _ HW) (wo_alive _ _ _ _ _ _ _ HW') Hnc) as (a' & out' & E & Hout & Ea).
    assert (Eq : to_scheduler (set_worker w (agent_step now e x) y) w = to_scheduler y w ++ agent_sent out').
    { refine (proj1 (queue_worker cfg X y w x _ (agent_sent out') (match e with WExt m => [m] | _ => [] end) Q H Hx _ _ HQ)); rewrite Ea; cbn [n_history].
      - unfold agent_sent. rewrite omap_app. reflexivity.
      - unfold agent_heard. rewrite omap_app. f_equal. cbn. assert (omap (λ e0, match e0 with WIn _ (WExt m) => Some m | _ => None end) out' = []) as E0.
        { clear -Hout. induction Hout as [|o out Ho _ IH]; [reflexivity|]. cbn. rewrite IH. destruct o; try reflexivity. destruct Ho. } destruct e; cbn; rewrite E0; reflexivity. }
    destruct (go_worker _ _ HO w x Hx) as [N1 N2 N3].
    assert (Eh : agent_handed (n_history (agent_step now e x)) = agent_handed (n_history x) ++ agent_handed out') by (rewrite Ea; cbn [n_history]; unfold agent_handed; rewrite omap_app; reflexivity).
    assert (En : n_agent (agent_step now e x) = a' ∧ n_processor (agent_step now e x) = n_processor x ∧ n_calls (agent_step now e x) = n_calls x) by (rewrite Ea; auto). destruct En as (En1 & En2 & En3).
    assert (Hids : handed_ids (agent_step now e x) = handed_ids x ++ (task_id <$> tasks_in (agent_handed out'))) by (unfold handed_ids; rewrite Eh, tasks_in_app, fmap_app; reflexivity).
    assert (Hpre : processor_heard (n_calls x) = take (length (processor_heard (n_calls x))) (agent_handed (n_history (agent_step now e x)))).
    { rewrite Eh, take_app_le; [exact N2|exact (wo_dlen _ _ _ _ _ _ _ HW)]. }
    set (x' := agent_step now e x) in *. clearbody x'.
    destruct (agent_cases _ _ _ qs x _ _ Q now e a' out' HW HQ E) as [[Hn Ht]|(k & El & Et & Et' & Hk)]; [destruct e; tauto|..].
    - rewrite Hn, app_nil_r in Hids. split.
      + intros i z. cbn. destruct (decide (i = w)) as [->|Hne]; [rewrite lookup_insert; intros [= <-]|rewrite lookup_insert_ne by done; exact (go_worker _ _ HO i z)].
        split; rewrite ?En2, ?En3, ?Hids; assumption.
      + intros i j z z' t Ni Nj. cbn. destruct (decide (i = w)) as [->|Hi], (decide (j = w)) as [->|Hj]; rewrite ?lookup_insert, ?lookup_insert_ne by done; auto.
        * intros [= <-] Hz'. rewrite Hids. exact (go_one _ _ HO w j x z' t Ni Nj Hx Hz').
        * intros Hz [= <-]. rewrite Hids. exact (go_one _ _ HO i w z x t Ni Nj Hz Hx).
        * exact (go_one _ _ HO i j z z' t Ni Nj).
      + intros i z t Ni. cbn [y_workers set_worker y_sched]. destruct (decide (i = w)) as [->|Hi].
        * rewrite lookup_insert. intros [= <-]. rewrite Hids, Eq, En1, results_app, elem_of_app. intros Hi. destruct (go_where _ _ HO w x t Nw Hx Hi) as [(k & Ek & Eid)|[Hr|Hr]]; auto.
          destruct Ht as [Ht|(k' & Ek' & Hr)]; [left; exists k; rewrite Ht; auto|]. rewrite Ek in Ek'. injection Ek' as <-. rewrite Eid in Hr. auto.
        * rewrite lookup_insert_ne by done. intros Hz Hh. rewrite (queue_other_worker y w x' i Hi). exact (go_where _ _ HO i z t Ni Hz Hh).
    - rewrite Hk in Hids. cbn in Hids. pose proof (gfresh_hand w x k Nw Hx El Et) as Hfr. split.
      + intros i z. cbn. destruct (decide (i = w)) as [->|Hne]; [rewrite lookup_insert; intros [= <-]|rewrite lookup_insert_ne by done; exact (go_worker _ _ HO i z)].
        split; rewrite ?En2, ?En3; try assumption. rewrite Hids. apply NoDup_app. split; [exact N3|]. split; [|apply NoDup_singleton]. intros t Ht ->%elem_of_list_singleton. exact (Hfr _ _ Nw Hx Ht).
      + intros i j z z' t Ni Nj. cbn. destruct (decide (i = w)) as [->|Hi], (decide (j = w)) as [->|Hj]; rewrite ?lookup_insert, ?lookup_insert_ne by done; auto.
        * intros [= <-] Hz'. rewrite Hids, elem_of_app, elem_of_list_singleton. intros [Ht| ->] Ht'; [exact (go_one _ _ HO w j x z' t Ni Nj Hx Hz' Ht Ht')|]. destruct (Hfr _ _ Nj Hz' Ht').
        * intros Hz [= <-]. rewrite Hids, elem_of_app, elem_of_list_singleton. intros Ht' [Ht| ->]; [exact (go_one _ _ HO i w z x t Ni Nj Hz Hx Ht' Ht)|]. destruct (Hfr _ _ Ni Hz Ht').
        * exact (go_one _ _ HO i j z z' t Ni Nj).
      + intros i z t Ni. cbn [y_workers set_worker y_sched]. destruct (decide (i = w)) as [->|Hi].
        * rewrite lookup_insert. intros [= <-]. rewrite Hids, Eq, En1, results_app, !elem_of_app, elem_of_list_singleton. intros [Hi| ->]; [|left; eauto].
          destruct (go_where _ _ HO w x t Nw Hx Hi) as [(k' & Ek & Eid)|[Hr|Hr]]; auto. congruence.
        * rewrite lookup_insert_ne by done. intros Hz Hh. rewrite (queue_other_worker y w x' i Hi). exact (go_where _ _ HO i z t Ni Hz Hh).
  Qed.

  Lemma gonce_processor w x now e : w ∉ Gn → y_workers y !! w = Some x →
    match e with PRun o _ => o ≠ Ended | PMsg m loads => loads = true ∧ head (to_processor x) = Some m | _ => True end →
    gonce Gn (set_worker w (processor_step now e x) y).
  Proof.
    intros Nw Hx He. destruct (gl_worker_but H w x Hx Nw) as (L & qs & HL & HW). destruct (processor_ok _ _ _ qs x _ _ now e HW He) as (En & Eh & _).
    destruct (queue_worker cfg X y w x (processor_step now e x) [] [] (to_agent y w x) H Hx) as [Eq _]; [rewrite Eh, app_nil_r; reflexivity|rewrite Eh, app_nil_r; reflexivity|reflexivity|]. rewrite app_nil_r in Eq.
    destruct (go_worker _ _ HO w x Hx) as [N1 N2 N3]. pose proof (fair_step _ _ _ qs x _ _ now e HW He N1) as N1'.
    pose proof (heard_step _ _ _ qs x _ _ now e HW He N2) as N2'.
    set (x' := processor_step now e x) in *. clearbody x'.
    assert (Hids : handed_ids x' = handed_ids x) by (unfold handed_ids; rewrite Eh; reflexivity). split.
    - intros i z. cbn. destruct (decide (i = w)) as [->|Hne]; [rewrite lookup_insert; intros [= <-]|rewrite lookup_insert_ne by done; exact (go_worker _ _ HO i z)].
      split; [exact N1'|rewrite Eh; exact N2'|rewrite Hids; exact N3].
    - intros i j z z' t Ni Nj. cbn. destruct (decide (i = w)) as [->|Hi], (decide (j = w)) as [->|Hj]; rewrite ?lookup_insert, ?lookup_insert_ne by done; auto.
      * intros [= <-] Hz'. rewrite Hids. exact (go_one _ _ HO w j x z' t Ni Nj Hx Hz').
      * intros Hz [= <-]. rewrite Hids. exact (go_one _ _ HO i w z x t Ni Nj Hz Hx).
      * exact (go_one _ _ HO i j z z' t Ni Nj).
    - intros i z t Ni. cbn [y_workers set_worker y_sched]. destruct (decide (i = w)) as [->|Hi].
      * rewrite lookup_insert. intros [= <-]. rewrite Hids, Eq, En. exact (go_where _ _ HO w x t Nw Hx).
      * rewrite lookup_insert_ne by done. intros Hz Hh. rewrite (queue_other_worker y w x' i Hi). exact (go_where _ _ HO i z t Ni Hz Hh).
  Qed.

  Lemma settled_step r t : settled t (log y) → settled t (s_log (step (y_sched y) r)).
  Proof.
    intros Ht. destruct (step_log cfg X y r H) as (l & El & Hl). rewrite El.
    change (LIn (rd_now r) (rd_event r) :: l) with ([LIn (rd_now r) (rd_event r)] ++ l). rewrite app_assoc, (settled_inner t l _ Hl), settled_snoc. auto.
  Qed.
  Lemma sched_in r i Q : to_scheduler y i = rcvd i (rd_event r) ++ Q → to_scheduler (set_sched (step (y_sched y) r) y) i = Q.
  Proof.
    intros E. destruct (gl_fine H) as (xt & [Hc _] & _). pose proof (c_dead _ _ _ _ _ Hc) as Hd. destruct (on_the_way_grow _ _ _ _ [] (gl_heard H i) E) as [_ G2]. rewrite app_nil_r in G2. unfold to_scheduler. cbn [y_sched set_sched].
    assert (Eh : heard_from i (s_log (step (y_sched y) r)) = heard_from i (log y) ++ rcvd i (rd_event r)) by exact (step_heard _ _ i Hd). rewrite Eh. change (sent_by_part (set_sched _ y) i) with (sent_by_part y i). rewrite G2. apply app_nil_r.
  Qed.
  Lemma gonce_sched r : (∀ w x, y_workers y !! w = Some x → rcvd w (rd_event r) = []) → gonce Gn (set_sched (step (y_sched y) r) y).
  Proof. intros HQ. eapply gonce_same; [exact HO|reflexivity| |intros t; exact (settled_step r t)]. intros w x Hx. apply sched_in. rewrite (HQ w x Hx). reflexivity. Qed.
End steps.

Theorem gonce_act Gn cfg X y a : Gd (Gn:=Gn) cfg X y → gonce Gn y → orderly_graphs y a → (∀ w, worker_of a = Some w → w ∉ Gn) → gonce Gn (act y a).
Proof.
  intros H HO Ho HG.
  destruct a as [c|w death now retention|c e|c m loads|now codes e|from m now codes|w now e|w m now|w m now|w now e|w m loads now].
  - cbn [act]. destruct (unused y c) eqn:Eu; [|exact HO]. destruct (ok_unused _ _ _ (gl_ok H) Eu) as [Hc Hw].
    eapply gonce_same; [exact HO|reflexivity| |auto]. intros w x Hx. exact (proj1 (queue_other_client y c _ w ltac:(congruence))).
  - cbn [act]. destruct (unused y w) eqn:Eu; [|exact HO]. destruct (ok_unused _ _ _ (gl_ok H) Eu) as [Hc Hw].
    destruct (w_init w death now) as [a h] eqn:Ew. destruct (p_init retention) as [p out] eqn:Ep. injection Ew as <- <-. injection Ep as <- <-.
    set (x := Node _ _ _ _ retention). assert (Hids : handed_ids x = []) by reflexivity. split.
    + intros i z. cbn. destruct (decide (i = w)) as [->|Hne]; [rewrite lookup_insert; intros [= <-]|rewrite lookup_insert_ne by done; exact (go_worker _ _ HO i z)].
      split; [split; [reflexivity|cbn; lia]|reflexivity|constructor].
    + intros i j z z' t Ni Nj. cbn. destruct (decide (i = w)) as [->|Hi], (decide (j = w)) as [->|Hj]; rewrite ?lookup_insert, ?lookup_insert_ne by done; auto.
      * intros [= <-] _. rewrite Hids. intros []%elem_of_nil.
      * intros _ [= <-]. rewrite Hids. intros _ []%elem_of_nil.
      * exact (go_one _ _ HO i j z z' t Ni Nj).
    + intros i z t Ni. cbn [y_workers set_worker y_sched]. destruct (decide (i = w)) as [->|Hi].
      * rewrite lookup_insert. intros [= <-]. rewrite Hids. intros []%elem_of_nil.
      * rewrite lookup_insert_ne by done. intros Hz Hh. rewrite (queue_other_worker y w x i Hi). exact (go_where _ _ HO i z t Ni Hz Hh).
  - cbn [act]. destruct (y_clients y !! c) as [x|] eqn:Hx; [|exact HO]. pose proof (not_worker _ _ _ _ (gl_ok H) Hx) as Hw.
    assert (Hgo : ∀ x', gonce Gn (set_client c x' y)). { intros x'. eapply gonce_same; [exact HO|reflexivity| |auto]. intros w z Hz. exact (proj1 (queue_other_client y c _ w ltac:(congruence))). }
    destruct e; try exact HO; apply Hgo.
  - cbn [act]. destruct (y_clients y !! c) as [x|] eqn:Hx; [|exact HO]. pose proof (not_worker _ _ _ _ (gl_ok H) Hx) as Hw. destruct (bool_decide _); [|exact HO].
    eapply gonce_same; [exact HO|reflexivity| |auto]. intros w z Hz. exact (proj1 (queue_other_client y c _ w ltac:(congruence))).
  - cbn [act]. destruct e as [i m| | | | |]; [exact HO|..]; (eapply gonce_sched; [exact H|exact HO|]; reflexivity).
  - assert (Ho' : orderly y (ToScheduler from m now codes)) by (destruct m; try exact Ho; exact (proj1 Ho)). destruct Ho' as [Hn Hu]. apply head_cons in Hn as [Q HQ]. cbn [act].
    destruct (sent_by y from m); [|exact HO]. destruct (y_workers y !! from) as [x|] eqn:Hw.
    + assert (Hfrom : to_scheduler (set_sched (step (y_sched y) (Round now codes (ERecv from m))) y) from = Q) by (eapply sched_in; [exact H|]; cbn; rewrite String.eqb_refl; exact HQ).
      assert (Hother : ∀ w, w ≠ from → to_scheduler (set_sched (step (y_sched y) (Round now codes (ERecv from m))) y) w = to_scheduler y w) by (intros w Hne; eapply sched_in; [exact H|]; cbn; rewrite eqb_ne by done; reflexivity).
      split; [exact (go_worker _ _ HO)|exact (go_one _ _ HO)|]. intros w z t Nw Hz Ht. cbn [y_workers set_sched] in Hz.
      destruct (go_where _ _ HO w z t Nw Hz Ht) as [|[Hr|Hr]]; [auto| |right; right; exact (settled_step _ cfg X y H _ t Hr)].
      destruct (decide (w = from)) as [->|Hne]; [|right; left; rewrite Hother by done; exact Hr].
      rewrite Hfrom. rewrite HQ in Hr. destruct m as [| | |t' st d p| | | | | | | | | | | | | | | |]; try (right; left; exact Hr).
      apply elem_of_cons in Hr as [-> |Hr]; [|auto]. right; right. pose proof (gl_worker_but H from x Hw Nw) as HF. rewrite HQ in HF.
      destruct (effect_result _ _ _ _ _ _ _ _ _ _ _ HF) as (Hown & _). cbn [y_sched set_sched].
      destruct (step_log cfg X y (Round now codes (ERecv from (MTaskResult t' st d p))) H) as (l & El & Hl). rewrite El. cbn [rd_now rd_event].
      change (LIn now (ERecv from (MTaskResult t' st d p)) :: l) with ([LIn now (ERecv from (MTaskResult t' st d p))] ++ l). rewrite app_assoc, (settled_inner t' l _ Hl), settled_snoc. right. do 5 eexists. split; [reflexivity|]. exists from. exact Hown.
    + eapply gonce_sched; [exact H|exact HO|]. intros w z Hz. cbn. rewrite eqb_ne; [reflexivity|]. intros ->. congruence.
  - destruct (y_workers y !! w) as [x|] eqn:Hx; [|cbn [act]; rewrite Hx; exact HO]. cbn [act]. rewrite Hx. destruct e as [m|m| | |]; try exact HO.
    + exact (gonce_agent _ _ _ _ H HO w x now WLoop _ (HG _ eq_refl) Hx eq_refl I).
    + exact (gonce_agent _ _ _ _ H HO w x now (WHeartbeat _ _ _ _) _ (HG _ eq_refl) Hx eq_refl I).
    + exact (gonce_agent _ _ _ _ H HO w x now WTimeout _ (HG _ eq_refl) Hx eq_refl (Ho _ Hx)).
  - destruct (y_workers y !! w) as [x|] eqn:Hx; [|cbn [act]; rewrite Hx; exact HO]. cbn in Ho. destruct (head_cons _ _ (Ho _ Hx)) as [Q HQ].
    cbn [act]. rewrite Hx. destruct (bool_decide _); [|exact HO]. exact (gonce_agent _ _ _ _ H HO w x now (WExt m) Q (HG _ eq_refl) Hx HQ I).
  - destruct (y_workers y !! w) as [x|] eqn:Hx; [|cbn [act]; rewrite Hx; exact HO]. cbn in Ho.
    cbn [act]. rewrite Hx. destruct (bool_decide _); [|exact HO]. exact (gonce_agent _ _ _ _ H HO w x now (WProc m) _ (HG _ eq_refl) Hx eq_refl (Ho _ Hx)).
  - destruct (y_workers y !! w) as [x|] eqn:Hx; [|cbn [act]; rewrite Hx; exact HO]. cbn [act]. rewrite Hx. destruct e as [m loads| |o d| |]; [exact HO|..].
    + exact (gonce_processor _ _ _ _ H HO w x now PLook (HG _ eq_refl) Hx I).
    + exact (gonce_processor _ _ _ _ H HO w x now (PRun o d) (HG _ eq_refl) Hx Ho).
    + exact (gonce_processor _ _ _ _ H HO w x now PScan (HG _ eq_refl) Hx I).
    + exact (gonce_processor _ _ _ _ H HO w x now PDelete (HG _ eq_refl) Hx I).
  - destruct (y_workers y !! w) as [x|] eqn:Hx; [|cbn [act]; rewrite Hx; exact HO]. cbn [act]. rewrite Hx. destruct (bool_decide _); [|exact HO]. cbn in Ho.
    destruct Ho as [-> Ho]. exact (gonce_processor _ _ _ _ H HO w x now (PMsg m true) (HG _ eq_refl) Hx (conj eq_refl (Ho _ Hx))).
Qed.

Theorem gonce_run c acts : c_max_waiting c < 0 → orderly_graphs_run c acts → gonce ∅ (execute c acts).
Proof.
  intros Hmax. induction acts as [|a acts IH] using rev_ind; [intros _; split; cbn; intros *; rewrite lookup_empty; discriminate|].
  intros [Hr Ha]%orderly_graphs_snoc. destruct (gflow_run c acts Hmax Hr) as (X & g & HF). rewrite execute_snoc. eapply gonce_act; [exact (G_of _ _ _ _ HF)|exact (IH Hr)|exact Ha|set_solver].
Qed.
Theorem orderly_graphs_once c acts t : c_max_waiting c < 0 → orderly_graphs_run c acts → (total_runs (execute c acts) t <= 1)%nat.
Proof. intros Hm Ho. pose proof (gonce_run c acts Hm Ho) as H. apply total_once; [exact (go_worker _ _ H)|]. intros w w' x x'. exact (go_one _ _ H w w' x x' t (not_elem_of_empty _) (not_elem_of_empty _)). Qed.
