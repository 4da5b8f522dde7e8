(** * When everybody is punctual, nobody is taken for dead, with graphs (C89) *)

From Verif.Model Require Import Base OneToManyDict PriorityQueue Allocator Message Sorter Client Worker Processor Scheduler System.
From Verif.Spec Require Import AllocatorSpec DictSpec SchedulerSpec SystemSpec FlowSpec TrafficSpec GraphFlowSpec PunctualSpec.
From Verif.Proofs Require SchedContent ClientProofs FlowFinish.
From Verif.Proofs Require Import BaseProofs DictProofs AllocatorProofs SchedWp SchedCount SchedHold SchedGlobal SchedStep SchedRemove SchedPlain SchedPolite SchedLive SchedBegin SchedTraffic SchedFinish SystemParts SystemProofs FlowSched FlowWorker FlowWork FlowClient FlowSystem FlowClock GraphClient GraphRounds GraphFlow GraphStep.

(** ** What the scheduler sends to workers *)
Section outs.
  Context (cfg : config) (Hmax : c_max_waiting cfg < 0) (X : gset bytes) (y : system) (now : Z) (codes : list (list nat)).
  Notation log y := (s_log (y_sched y)).
  Lemma loop_out e : G cfg X y → orderly_graphs y (SchedulerDoes now codes e) → match e with ERecv _ _ => False | _ => True end →
    ∃ out, posted (s_log (step (y_sched y) (Round now codes e))) = posted (log y) ++ out ∧ ∀ w x, y_workers y !! w = Some x → echoes (for_part w out) = [].
  Proof.
    intros H Ho Hm. destruct (gl_fine H) as (xt & O & W). pose proof O as [Hc Hq]. destruct e as [i m| | | | |]; [done|..].
    - destruct (x_queue xt) as [|[c gt] Q] eqn:EQ.
      + destruct (round_quiet xt (y_sched y) _ _ now codes Hc eq_refl Hq EGraph ltac:(auto)) as (Hv & _). exists []. split; [exact (mv_posted _ _ _ _ _ _ _ Hv)|reflexivity].
      + destruct (round_begin xt _ (y_sched y) now codes O W ltac:(rewrite (cfg_of _ _ _ _ H); exact Hmax) c gt Q EQ) as (_ & out & Hns).
        pose proof (ns_out _ _ _ _ _ _ Hns) as Hout. exists out. split; [exact (ns_posted _ _ _ _ _ _ Hns)|]. intros w x _. apply for_part_echoes. intros v m Hi. rewrite Forall_forall in Hout. destruct (Hout _ Hi) as [_ Hg]. cbn in Hg. intros ->. done.
    - destruct (round_dispatch xt (y_sched y) _ _ now codes Hc eq_refl Hq) as (_ & _ & _ & [(Hv & _)|(k & v & _ & _ & _ & _ & Hv)]); (eexists; split; [exact (mv_posted _ _ _ _ _ _ _ Hv)|]); intros w x _; apply for_part_echoes.
      + intros ? ? []%elem_of_nil.
      + intros ? ? [= -> ->]%elem_of_list_singleton. discriminate.
    - destruct (round_functions xt (y_sched y) _ _ now codes Hc eq_refl Hq) as (out & Hv & Hout & _). exists out. split; [exact (mv_posted _ _ _ _ _ _ _ Hv)|]. intros w x _. apply for_part_echoes. intros v m (_ & f & ->)%Hout. discriminate.
    - destruct Ho as [Hu Ho]. rewrite (cfg_of _ _ _ _ H) in Ho. destruct (ok_run _ _ (gl_ok H)) as [rs Hrs].
      destruct (round_workers xt (y_sched y) _ _ now codes Hc eq_refl Hq Hu) as (out & Hv & Hout & _).
      { rewrite (cfg_of _ _ _ _ H). intros w p Hp Ht. apply (Ho w). pose proof (silent_iff cfg rs now w) as Hi. rewrite <- Hrs in Hi. apply Hi; [exact (c_dead _ _ _ _ _ Hc)|eauto]. }
      exists out. split; [exact (mv_posted _ _ _ _ _ _ _ Hv)|]. intros w x _. apply for_part_echoes. intros v m (_ & n & _ & ->)%Hout. discriminate.
    - destruct (round_quiet xt (y_sched y) _ _ now codes Hc eq_refl Hq EStatus ltac:(auto)) as (Hv & _). exists []. split; [exact (mv_posted _ _ _ _ _ _ _ Hv)|reflexivity].
  Qed.
  Lemma recv_out from m Q : G cfg X y → undispatched (log y) = false → to_scheduler y from = m :: Q → match m with MTaskResult t st _ _ => t ∈ X → st = Success | _ => True end →
    ∃ out, posted (s_log (step (y_sched y) (Round now codes (ERecv from m)))) = posted (log y) ++ out ∧
      ∀ w x, y_workers y !! w = Some x → echoes (for_part w out) = match m with MHeartbeat _ => if String.eqb from w then [tt] else [] | _ => [] end.
  Proof.
    intros H Hu HQ HS. destruct (gl_fine H) as (xt & O & W). pose proof O as [Hc Hq]. rewrite Hu in Hc, Hq. assert (Hpk : false = undispatched (log y)) by (symmetry; exact Hu).
    assert (HX : ∀ t, of_graph y t → t ∈ X) by (intros t; apply (gl_names H)).
    assert (Hone : ∀ i a w, a ≠ MHeartbeatEcho → echoes (for_part w [(i, a)]) = []) by (intros i a w Ha; apply for_part_echoes; intros ? ? [= -> ->]%elem_of_list_singleton; exact Ha).
    assert (Hgr : ∀ ids c out w, Forall (graphic ids c) out → echoes (for_part w out) = []).
    { intros ids c out w Hout. apply for_part_echoes. intros v a Hi. rewrite Forall_forall in Hout. destruct (Hout _ Hi) as [_ Hg]. cbn in Hg. intros ->. done. }
    destruct (y_clients y !! from) as [x|] eqn:Hx.
    - pose proof (gl_client H from x Hx) as HF. rewrite HQ in HF. assert (Htext : utf8 from = true) by exact (gl_text H from (used_client _ _ _ Hx)).
      assert (Hms : COut m ∈ x.2). { apply sent_in. pose proof (heard_sent _ _ _ _ H from) as Es. unfold sent_by_part in Es. rewrite Hx, HQ in Es. rewrite <- Es, elem_of_app. right. left. }
      assert (Hcs : (∃ z, m = MTask z) ∨ (∃ f n ct, m = MFunctionRequest FnAdd f n ct ∧ utf8 n = true) ∨ ∃ gid fs ts ns, m = MGraphTask gid fs ts ns).
      { destruct (keeps X m) eqn:Ek.
        - rewrite plain_keep in HF by exact Ek. destruct HF as (F & B & A & D & HF). pose proof (ko_cs HF) as Hcs. apply Forall_cons in Hcs as [Hcs _]. destruct m; try done; [eauto|]. destruct Hcs as [-> Hn]. right. left. eauto 10.
        - pose proof (sent_by_client _ _ _ _ _ (gl_ok H) Hx Hms) as Ho. destruct m; try done. eauto 10. }
      destruct Hcs as [[z ->]|[(f & n & ct & -> & Hn)|(gid & fs & ts & ns & ->)]].
      + destruct (free_task _ _ _ _ H _ _ _ _ Hx HQ) as (HnX & Hno & Hfree).
        assert (Hids : task_id z ∉ x_ids xt) by (intros Hi%(world_ids cfg X y (gl_ok H) HX (gl_graphs H) _ _ W); done).
        assert (HN : x_inactive xt !! task_id z = None).
        { destruct (x_inactive xt !! task_id z) eqn:E; [|reflexivity]. destruct (wd_N _ _ _ _ W (task_id z) ltac:(eauto)) as [gid Eg]. apply (world_t2g cfg X y (gl_ok H) HX (gl_graphs H) _ _ W) in Eg. done. }
        pose proof (round_task xt (y_sched y) false _ now codes Hc Hpk from z eq_refl Htext Hno Hids HN) as HR. rewrite (cfg_of _ _ _ _ H) in HR. specialize (HR Hmax). cbv zeta in HR.
        destruct (s_funcs (y_sched y) !! task_function z); destruct HR as (Hv & _); eexists; (split; [exact (mv_posted _ _ _ _ _ _ _ Hv)|]); intros w x' _; apply Hone; discriminate.
      + destruct (round_add xt (y_sched y) false _ now codes Hc Hpk Hq from f n ct Hn) as (st & Hst & Hv & _). eexists. split; [exact (mv_posted _ _ _ _ _ _ _ Hv)|]. intros w x' _. apply Hone. discriminate.
      + destruct (round_graph xt _ (y_sched y) now codes O W from (MGraphTask gid fs ts ns) ltac:(eauto)) as (_ & Hpo & _). exists []. split; [rewrite app_nil_r; exact Hpo|reflexivity].
    - destruct (y_workers y !! from) as [x|] eqn:Hw.
      2:{ unfold to_scheduler, sent_by_part in HQ. rewrite Hx, Hw in HQ. unfold on_the_way in HQ. rewrite drop_nil in HQ. discriminate. }
      pose proof (gl_worker H from x Hw) as HF. rewrite HQ in HF. assert (Htext : utf8 from = true) by exact (gl_text H from (used_worker _ _ _ Hw)).
      assert (Hws : from_worker m) by (destruct HF as (L & qs & _ & HF); pose proof (wo_ws _ _ _ _ _ _ _ HF) as Hcs; apply Forall_cons in Hcs as [Hcs _]; exact Hcs).
      destruct m as [| | |t st d p| | | | | |ids|h| |ty f n ct| | | | | | |]; cbn in Hws; try done.
      + destruct (effect_result _ _ _ _ _ _ _ _ _ _ _ HF) as (Ho & Hst & HF'). destruct (x_t2g xt !! t) as [gid|] eqn:ET.
        * pose proof (world_t2g cfg X y (gl_ok H) HX (gl_graphs H) _ _ W _ _ ET) as HtX. rewrite (HS HtX) in *.
          destruct (round_node xt _ (y_sched y) now codes O W ltac:(rewrite (cfg_of _ _ _ _ H); exact Hmax) from t d p gid Hu Ho ET) as (_ & i & out & HG & Hti & Hns).
          exists out. split; [exact (ns_posted _ _ _ _ _ _ Hns)|]. intros w x' _. eapply Hgr, (ns_out _ _ _ _ _ _ Hns).
        * destruct (round_result xt (y_sched y) false _ now codes Hc Hpk from (Result t st d p) eq_refl Ho ET) as (cl & Hcl & Hv & _). eexists. split; [exact (mv_posted _ _ _ _ _ _ _ Hv)|]. intros w x' _. apply Hone. discriminate.
      + destruct (round_balance_response xt (y_sched y) false _ now codes Hc Hpk from ids eq_refl) as (Hv & _). eexists. split; [exact (mv_posted _ _ _ _ _ _ _ Hv)|]. reflexivity.
      + destruct (round_heartbeat xt (y_sched y) false _ now codes Hc Hpk from h eq_refl Htext) as (Hv & _). eexists. split; [exact (mv_posted _ _ _ _ _ _ _ Hv)|]. intros w x' _. rewrite for_part_one. destruct (String.eqb from w); reflexivity.
      + destruct (effect_request _ _ _ _ _ _ _ _ _ "" "" _ _ HF) as (-> & (k & Hk1 & Hk2 & Hk3) & _).
        assert (Hfn : is_Some (s_funcs (y_sched y) !! f)) by (rewrite <- Hk3; exact (c_fn _ _ _ _ _ Hc _ _ Hk2)).
        destruct (round_request xt (y_sched y) false _ now codes Hc Hpk Hq from f n ct Hfn) as (n' & ct' & Hv & _). eexists. split; [exact (mv_posted _ _ _ _ _ _ _ Hv)|]. intros w x' _. apply Hone. discriminate.
  Qed.
End outs.

(** ** The steps *)
Section clock.
  Context (d h : Z).
  Section steps.
    Context (cfg : config) (X : gset bytes) (y : system) (before : list action) (H : G cfg X y) (HT : timed d h before y).
    Lemma gtimed_sched a r out : posted (s_log (step (y_sched y) r)) = posted (s_log (y_sched y)) ++ out → (∀ w, rounds w (before ++ [a]) = rounds w before) →
      (∀ w x, y_workers y !! w = Some x → ∃ Q, to_scheduler y w = rcvd w (rd_event r) ++ Q ∧
         ((beats (rcvd w (rd_event r)) = [] ∧ echoes (for_part w out) = []) ∨
          ∃ b, rcvd w (rd_event r) = [MHeartbeat b] ∧ echoes (for_part w out) = [tt] ∧ ∀ b' t, MHeartbeat b' ∈ to_scheduler y w → beat_sent_at (n_history x) = Some t → rd_now r - t <= d)) →
      timed d h (before ++ [a]) (set_sched (step (y_sched y) r) y).
    Proof.
      intros Hpo HR Hw. pose proof (sched_queues cfg X y r out H Hpo) as Hk. destruct (gl_fine H) as (xt & [Hc _] & _). pose proof (c_dead _ _ _ _ _ Hc) as Hd. clear Hc xt. split; cbn [y_workers set_sched]; intros w x Hx.
      - destruct (Hw w x Hx) as (Q & EQ & HQ). rewrite HR, (qk_in _ _ _ Hk w Q EQ), (qk_agent _ _ _ Hk w x Hx). cbn [y_sched set_sched]. rewrite (beat_step_log y r w Hd).
        pose proof (tm_heart _ _ _ _ HT w x Hx) as HH. rewrite EQ in HH. destruct HQ as [[Hb He]|(b & Hb & He & Hp)].
        + eapply heart_same; [exact HH|split; reflexivity|auto|reflexivity|rewrite beats_app, Hb; reflexivity|rewrite echoes_app, He, app_nil_r; reflexivity|].
          unfold rcvd in Hb. destruct (rd_event r) as [v m| | | | |]; try reflexivity. destruct (String.eqb v w); [|destruct m; reflexivity]. destruct m; try reflexivity. discriminate.
        + rewrite EQ in Hp. rewrite Hb in HH, Hp. assert (Ev : rd_event r = ERecv w (MHeartbeat b)).
          { unfold rcvd in Hb. destruct (rd_event r) as [v m| | | | |]; try discriminate. destruct (String.eqb_spec v w) as [->|]; [|discriminate]. injection Hb as ->. reflexivity. }
          rewrite Ev, String.eqb_refl. destruct HH as [_ Hn _ _ _|b' H1 H2 H3 H4 H5 _|t b' _ Hn _ _ _]; try discriminate.
          cbn in H4. injection H4 as -> H4. eapply coming; [exact H1|exact H4|rewrite echoes_app, H5, He; reflexivity|reflexivity|].
          specialize (Hp b' (a_sent (n_agent x)) ltac:(cbn; left) H2). lia.
      - destruct (tm_start _ _ _ _ HT w x Hx) as (de & n & r' & Hi). exists de, n, r'. apply elem_of_app. auto.
      - exact (tm_death _ _ _ _ HT w x Hx).
    Qed.

    Lemma gtimed_agent w x now e Q a : y_workers y !! w = Some x → to_agent y w x = match e with WExt m => [m] | _ => [] end ++ Q →
      match e with WProc m => head (from_processor x) = Some m | WTimeout => now - a_seen (n_agent x) < a_death (n_agent x) | _ => True end →
      0 < now → (∀ t, t ∈ rounds w before → t <= now) → (∃ t, t ∈ rounds w before ∧ now - t <= h) →
      (∀ b t, MHeartbeatEcho ∈ to_agent y w x → last_beat w (s_log (y_sched y)) = Some (t, b) → now - t <= d) →
      (∀ v, rounds v (before ++ [a]) = match e with WHeartbeat _ _ _ _ => if String.eqb w v then rounds v before ++ [now] else rounds v before | _ => rounds v before end) →
      timed d h (before ++ [a]) (set_worker w (agent_step now e x) y).
    Proof.
      intros Hx HQ He Hnow Hcl Hp1 Hp2 HR. pose proof (agent_moves _ _ _ _ H w x now e Q Hx HQ He) as HF.
      assert (Ea0 : act y (match e with WExt m => ToAgent w m now | WProc m => ToAgentInside w m now | _ => AgentDoes w now e end) = set_worker w (agent_step now e x) y).
      { destruct e as [m|m| | |]; cbn [act]; rewrite Hx; try reflexivity.
        - rewrite bool_decide_eq_true_2; [reflexivity|]. apply sent_entry. eapply on_the_way_in, HQ.
        - rewrite bool_decide_eq_true_2; [reflexivity|]. apply head_cons in He as [Q' E]. apply on_the_way_in in E. apply elem_of_list_omap in E as (o & Ho & E). destruct o; try discriminate. injection E as ->. exact Ho. }
      rewrite Ea0 in HF. clear Ea0. destruct (gl_worker H w x Hx) as (L & qs & HL & HW).
      assert (Hw' : y_workers (set_worker w (agent_step now e x) y) !! w = Some (agent_step now e x)) by (cbn; apply lookup_insert).
      destruct (gl_worker HF w _ Hw') as (L' & qs' & _ & HW').
      assert (Hnc : ∀ t, e ≠ WExt (MTaskCancel t)). { intros t ->. pose proof (wo_sw _ _ _ _ _ _ _ HW) as Hsw. rewrite HQ in Hsw. cbn in Hsw. apply Forall_cons in Hsw as [[] _]. }
      destruct (agent_inv now e x (wo_alive _ _ _ _ _ _ _ HW) (wo_alive _ _ _ _ _ _ _ HW') Hnc) as (a' & out' & E & Hout & Ea).
      destruct (queue_worker cfg X y w x (agent_step now e x) (agent_sent out') (match e with WExt m => [m] | _ => [] end) Q H Hx) as [Eq Eq']; [| |exact HQ|].
      { rewrite Ea. cbn [n_history]. unfold agent_sent. rewrite omap_app. reflexivity. }
      { rewrite Ea. cbn [n_history]. unfold agent_heard. rewrite omap_app. f_equal. cbn. assert (omap (λ e0, match e0 with WIn _ (WExt m) => Some m | _ => None end) out' = []) as E0.
        { clear -Hout. induction Hout as [|o out Ho _ IH]; [reflexivity|]. cbn. rewrite IH. destruct o; try reflexivity. destruct Ho. } destruct e; cbn; rewrite E0; reflexivity. }
      destruct (handle_beat _ _ _ _ _ E Hnc) as [Hde Hb].
      assert (En1 : n_agent (agent_step now e x) = a') by (rewrite Ea; reflexivity). assert (En2 : n_history (agent_step now e x) = n_history x ++ WIn now e :: out') by (rewrite Ea; reflexivity).
      set (x' := agent_step now e x) in *. clearbody x'.
      assert (HR' : ∀ v, v ≠ w → rounds v (before ++ [a]) = rounds v before). { intros v Hv. rewrite HR. destruct e; try reflexivity. rewrite eqb_ne by done. reflexivity. }
      split; cbn [y_workers set_worker]; intros i z.
      - destruct (decide (i = w)) as [->|Hi]; [rewrite lookup_insert; intros [= <-]|rewrite lookup_insert_ne by done; intros Hz].
        + rewrite Eq, Eq', En1, En2. cbn [y_sched set_worker]. pose proof (tm_heart _ _ _ _ HT w x Hx) as HH. rewrite HQ in HH, Hp2.
          assert (Hquiet : beats (agent_sent out') = [] → steady (n_agent x) a' → echoes match e with WExt m => [m] | _ => [] end = [] → (∀ ac ar wc wr, e = WHeartbeat ac ar wc wr → a_sent (n_agent x) ≠ 0) →
            heart d h (rounds w (before ++ [a])) a' (n_history x ++ WIn now e :: out') (to_scheduler y w ++ agent_sent out') Q (last_beat w (s_log (y_sched y)))).
          { intros B S Ee Hne. eapply heart_same; [exact HH|exact S| |apply beat_quiet, B|rewrite beats_app, B, app_nil_r; reflexivity|rewrite echoes_app, Ee; reflexivity|reflexivity].
            intros H0 t. rewrite HR. destruct e; auto. destruct (Hne _ _ _ _ eq_refl H0). }
          destruct e as [m|m| |ac ar wc wr|]; try (destruct Hb as [Hb1 Hb2]; apply Hquiet; [exact Hb1|exact Hb2|reflexivity|discriminate]).
          * destruct m; try (destruct Hb as [Hb1 Hb2]; apply Hquiet; [exact Hb1|exact Hb2|reflexivity|discriminate]).
            destruct Hb as [Hb1 Hb2]. destruct HH as [_ _ Hn _ _|b H1 H2 H3 H4 H5 H6|t b H1 H2 H3 H4 H5]; try discriminate.
            destruct (Z.eqb_spec (a_sent (n_agent x)) 0) as [|_]; [done|]. destruct Hb2 as [S1 S2]. cbn in H3. injection H3 as H3.
            apply resting; [exact S1|rewrite beats_app, H2, Hb1; reflexivity|exact H3|..].
            -- intros r Hr. rewrite S2. apply Hcl. rewrite HR in Hr. exact Hr.
            -- intros t' b' E'. rewrite S2. specialize (Hp2 b' t' ltac:(left) E'). lia.
          * destruct (Z.eqb_spec (a_sent (n_agent x)) 0) as [H0|H0].
            -- destruct Hb as (S1 & S2 & b & ->). destruct HH as [_ H2 H3 H4 H5|b' H1|t b' H1]; [|done..].
               destruct Hp1 as (t & Ht & Hle). specialize (H4 t Ht). eapply (going _ _ _ _ _ _ _ _ b); rewrite ?S1, ?S2; [lia|apply beat_loud|lia|rewrite beats_app, H2; reflexivity|exact H3|exact H5].
            -- destruct Hb as [-> Hb]. apply Hquiet; [reflexivity|exact Hb|reflexivity|auto].
        + rewrite (HR' i Hi), (queue_other_worker y w x' i Hi). exact (tm_heart _ _ _ _ HT i z Hz).
      - intros Hz. assert (Hz' : is_Some (y_workers y !! i)). { destruct (decide (i = w)) as [->|Hi]; [eauto|]. rewrite lookup_insert_ne in Hz by done. eauto. }
        destruct Hz' as [z' Hz']. destruct (tm_start _ _ _ _ HT i z' Hz') as (de & n & r & Hi'). exists de, n, r. apply elem_of_app. auto.
      - destruct (decide (i = w)) as [->|Hi]; [rewrite lookup_insert; intros [= <-]; rewrite En1, Hde; exact (tm_death _ _ _ _ HT w x Hx)|rewrite lookup_insert_ne by done; exact (tm_death _ _ _ _ HT i z)].
    Qed.
    Lemma gtimed_processor w x now e a : y_workers y !! w = Some x → (∀ v, rounds v (before ++ [a]) = rounds v before) →
      match e with PRun o _ => o ≠ Ended | PMsg m loads => loads = true ∧ head (to_processor x) = Some m | _ => True end →
      timed d h (before ++ [a]) (set_worker w (processor_step now e x) y).
    Proof.
      intros Hx HR He. destruct (gl_worker H w x Hx) as (L & qs & HL & HW). destruct (processor_ok _ _ _ qs x _ _ now e HW He) as (En & Eh & _).
      destruct (queue_worker cfg X y w x (processor_step now e x) [] [] (to_agent y w x) H Hx) as [Eq Eq']; [rewrite Eh, app_nil_r; reflexivity|rewrite Eh, app_nil_r; reflexivity|reflexivity|]. rewrite app_nil_r in Eq.
      set (x' := processor_step now e x) in *. clearbody x'. split; cbn [y_workers set_worker]; intros i z.
      - destruct (decide (i = w)) as [->|Hi]; [rewrite lookup_insert; intros [= <-]|rewrite lookup_insert_ne by done; intros Hz].
        + rewrite HR, Eq, Eq', En, Eh. exact (tm_heart _ _ _ _ HT w x Hx).
        + rewrite HR, (queue_other_worker y w x' i Hi). exact (tm_heart _ _ _ _ HT i z Hz).
      - intros Hz. assert (Hz' : is_Some (y_workers y !! i)). { destruct (decide (i = w)) as [->|Hi]; [eauto|]. rewrite lookup_insert_ne in Hz by done. eauto. }
        destruct Hz' as [z' Hz']. destruct (tm_start _ _ _ _ HT i z' Hz') as (de & n & r & Hi'). exists de, n, r. apply elem_of_app. auto.
      - destruct (decide (i = w)) as [->|Hi]; [rewrite lookup_insert; intros [= <-]; rewrite En; exact (tm_death _ _ _ _ HT w x Hx)|rewrite lookup_insert_ne by done; exact (tm_death _ _ _ _ HT i z)].
    Qed.
  End steps.

  Lemma gnot_silent cfg X y before now w : G cfg X y → timed d h before y → 0 <= d → 0 <= h → 2 * d + h <= c_timeout cfg →
    (∀ w x, y_workers y !! w = Some x →
      (∃ t, t ∈ rounds w before ∧ now - t <= h) ∧ (∀ b t, MHeartbeat b ∈ to_scheduler y w → beat_sent_at (n_history x) = Some t → now - t <= d) ∧
      (∀ b t, MHeartbeatEcho ∈ to_agent y w x → last_beat w (s_log (y_sched y)) = Some (t, b) → now - t <= d)) →
    ¬ silent (c_timeout cfg) now (s_log (y_sched y)) w.
  Proof.
    intros H HT Hd Hh Hle HP Hs. destruct (gl_fine H) as (xt & [Hc _] & _). destruct (ok_run _ _ (gl_ok H)) as [rs Hrs]. pose proof (silent_iff cfg rs now w) as Hi. rewrite <- Hrs in Hi.
    destruct (proj2 (Hi (c_dead _ _ _ _ _ Hc)) Hs) as (p & Hp & _). destruct Hs as (_ & t & b & Hl & Ht).
    assert (Hw : w ∈ registered (s_log (y_sched y))). { change (w ∈ lg_workers (ledger_of (s_log (y_sched y)))). rewrite <- (c_alive _ _ _ _ _ Hc). apply elem_of_dom. eauto. }
    destruct (gl_known H _ Hw) as [x Hx]. destruct (HP w x Hx) as (P1 & P2 & P3).
    destruct (heart_seen _ _ _ _ _ _ _ _ now Hd Hh (tm_heart _ _ _ _ HT w x Hx) P1 P2 P3) as [_ G]. specialize (G t b Hl). lia.
  Qed.

  Lemma gcalm_orderly cfg X y before a : G cfg X y → timed d h before y → 0 <= d → 0 <= h → 2 * d + h <= c_timeout cfg → punctual d h before y a → calm_graphs y a → orderly_graphs y a.
  Proof.
    intros H HT Hd Hh Hle HP Ha. destruct a as [c|w death now retention|c e|c m loads|now codes e|from m now codes|w now e|w m now|w m now|w now e|w m loads now]; try exact Ha.
    - destruct e as [i m| | | | |]; try exact Ha. cbn in Ha |- *. split; [exact Ha|]. intros w. rewrite (cfg_of _ _ _ _ H). eapply gnot_silent; eauto.
    - destruct e as [m|m| | |]; try exact Ha. cbn. intros x Hx. destruct (HP now w x eq_refl Hx) as (P1 & P2 & P3).
      destruct (heart_seen _ _ _ _ _ _ _ _ now Hd Hh (tm_heart _ _ _ _ HT w x Hx) P1 P2 P3) as [G _]. pose proof (tm_death _ _ _ _ HT w x Hx). lia.
  Qed.

  Theorem gtimed_act cfg X y before a : c_max_waiting cfg < 0 → G cfg X y → timed d h before y → 0 <= d → 0 <= h → 2 * d + h <= c_timeout cfg → punctual d h before y a → clock_ok before a →
    (∀ w death now retention, a = NewWorker w death now retention → 2 * d + h < death) → orderly_graphs y a → timed d h (before ++ [a]) (act y a).
  Proof.
    intros Hmax H HT Hd Hh Hle HP HC Hpat Ho.
    assert (Hidle : (∀ w x, y_workers y !! w = Some x → rounds w (before ++ [a]) = rounds w before) → timed d h (before ++ [a]) y).
    { intros HR. eapply timed_same; eauto. }
    destruct a as [c|w death now retention|c e|c m loads|now codes e|from m now codes|w now e|w m now|w m now|w now e|w m loads now].
    - cbn [act]. destruct (unused y c) eqn:Eu; [|apply Hidle; intros; apply rounds_snoc]. destruct (ok_unused _ _ _ (gl_ok H) Eu) as [Hc Hw].
      eapply timed_same; [exact HT|reflexivity|reflexivity|]. intros w x Hx. split; [apply rounds_snoc|]. exact (proj1 (queue_other_client y c _ w ltac:(congruence))).
    - cbn [act]. destruct (unused y w) eqn:Eu; [|apply Hidle; intros v x Hx; apply rounds_started, (tm_start _ _ _ _ HT v x Hx)]. destruct (ok_unused _ _ _ (gl_ok H) Eu) as [Hc Hw].
      destruct (gl_fresh H _ Eu) as [F1 F2].
      destruct (w_init w death now) as [a hh] eqn:Ew. destruct (p_init retention) as [p out] eqn:Ep. injection Ew as <- <-. injection Ep as <- <-.
      set (x := Node _ _ _ _ retention). destruct (HC now eq_refl) as [Hnow Hcl]. split; cbn [y_workers set_worker]; intros i z.
      + destruct (decide (i = w)) as [->|Hne]; [rewrite lookup_insert; intros [= <-]|rewrite lookup_insert_ne by done; intros Hz].
        * unfold to_scheduler, to_agent, sent_by_part. cbn [y_clients y_workers set_worker y_sched]. rewrite lookup_insert, Hc, F1, F2, (unheard w _ F2). apply resting; [reflexivity|reflexivity|reflexivity| |discriminate].
          intros t Ht. apply rounds_moment in Ht. rewrite omap_app in Ht. change (a_seen (n_agent x)) with now. apply elem_of_app in Ht as [Ht|Ht]; [exact (Hcl t Ht)|]. apply elem_of_list_singleton in Ht as ->. lia.
        * rewrite (rounds_started i before w death now retention (tm_start _ _ _ _ HT i z Hz)), (queue_other_worker y w x i Hne). exact (tm_heart _ _ _ _ HT i z Hz).
      + destruct (decide (i = w)) as [->|Hne]; [intros _; exists death, now, retention; apply elem_of_app; right; left|rewrite lookup_insert_ne by done; intros Hz].
        destruct (tm_start _ _ _ _ HT i z Hz) as (de & n & r & Hi). exists de, n, r. apply elem_of_app. auto.
      + destruct (decide (i = w)) as [->|Hne]; [rewrite lookup_insert; intros [= <-]; exact (Hpat _ _ _ _ eq_refl)|rewrite lookup_insert_ne by done; exact (tm_death _ _ _ _ HT i z)].
    - cbn [act]. destruct (y_clients y !! c) as [x|] eqn:Hx; [|apply Hidle; intros; apply rounds_snoc]. pose proof (not_worker _ _ _ _ (gl_ok H) Hx) as Hw.
      assert (Hgo : ∀ x' e, timed d h (before ++ [UserDoes c e]) (set_client c x' y)).
      { intros x' e'. eapply timed_same; [exact HT|reflexivity|reflexivity|]. intros w z Hz. split; [apply rounds_snoc|]. exact (proj1 (queue_other_client y c _ w ltac:(congruence))). }
      destruct e; try apply Hgo; apply Hidle; intros; apply rounds_snoc.
    - cbn [act]. destruct (y_clients y !! c) as [x|] eqn:Hx; [|apply Hidle; intros; apply rounds_snoc]. pose proof (not_worker _ _ _ _ (gl_ok H) Hx) as Hw. destruct (bool_decide _); [|apply Hidle; intros; apply rounds_snoc].
      eapply timed_same; [exact HT|reflexivity|reflexivity|]. intros w z Hz. split; [apply rounds_snoc|]. exact (proj1 (queue_other_client y c _ w ltac:(congruence))).
    - cbn [act]. destruct e as [i m| | | | |]; [apply Hidle; intros; apply rounds_snoc|..];
        (destruct (loop_out cfg Hmax X y now codes _ H Ho I) as (out & Hpo & Hout); eapply gtimed_sched; [exact H|exact HT|exact Hpo|intros; apply rounds_snoc|];
         intros w x Hx; eexists; split; [reflexivity|left; split; [reflexivity|exact (Hout w x Hx)]]).
    - cbn [act]. assert (Ho' : orderly y (ToScheduler from m now codes) ∧ match m with MTaskResult t st _ _ => t ∈ X → st = Success | _ => True end).
      { destruct m; try (split; [exact Ho|exact I]). destruct Ho as [Ho1 Ho2]. split; [exact Ho1|]. intros Ht. apply Ho2, (gl_names H), Ht. }
      destruct Ho' as [[Hn Hu] HS]. apply head_cons in Hn as [Q HQ].
      destruct (sent_by y from m); [|apply Hidle; intros; apply rounds_snoc].
      destruct (recv_out cfg Hmax X y now codes from m Q H Hu HQ HS) as (out & Hpo & Hout).
      eapply gtimed_sched; [exact H|exact HT|exact Hpo|intros; apply rounds_snoc|]. intros w x Hx. cbn [rd_event rcvd]. destruct (String.eqb_spec from w) as [->|Hne].
      + exists Q. split; [exact HQ|]. specialize (Hout w x Hx). rewrite String.eqb_refl in Hout. destruct m; try (left; split; [reflexivity|exact Hout]).
        right. eexists. split; [reflexivity|]. split; [exact Hout|]. exact (proj1 (proj2 (HP now w x eq_refl Hx))).
      + eexists. split; [reflexivity|]. left. split; [reflexivity|]. specialize (Hout w x Hx). rewrite eqb_ne in Hout by done. destruct m; exact Hout.
    - destruct (y_workers y !! w) as [x|] eqn:Hx.
      + destruct (HP now w x eq_refl Hx) as (P1 & P2 & P3). destruct (HC now eq_refl) as [Hnow Hcl]. assert (Hr : ∀ t, t ∈ rounds w before → t <= now) by (intros t Ht; apply Hcl, (rounds_moment w), Ht).
        cbn [act]. rewrite Hx. destruct e as [m|m| | |]; try (apply Hidle; intros; apply rounds_snoc).
        * refine (gtimed_agent _ _ _ _ H HT w x now WLoop _ _ Hx eq_refl I Hnow Hr P1 P3 _). intros v. apply rounds_snoc.
        * refine (gtimed_agent _ _ _ _ H HT w x now (WHeartbeat _ _ _ _) _ _ Hx eq_refl I Hnow Hr P1 P3 _). intros v. rewrite rounds_snoc. reflexivity.
        * refine (gtimed_agent _ _ _ _ H HT w x now WTimeout _ _ Hx eq_refl (Ho _ Hx) Hnow Hr P1 P3 _). intros v. apply rounds_snoc.
      + cbn [act]. rewrite Hx. apply Hidle. intros v z Hz. rewrite rounds_snoc. destruct e; try reflexivity. rewrite eqb_ne by congruence. reflexivity.
    - destruct (y_workers y !! w) as [x|] eqn:Hx; [|cbn [act]; rewrite Hx; apply Hidle; intros; apply rounds_snoc]. destruct (head_cons _ _ (Ho _ Hx)) as [Q HQ].
      destruct (HP now w x eq_refl Hx) as (P1 & P2 & P3). destruct (HC now eq_refl) as [Hnow Hcl]. assert (Hr : ∀ t, t ∈ rounds w before → t <= now) by (intros t Ht; apply Hcl, (rounds_moment w), Ht).
      cbn [act]. rewrite Hx. destruct (bool_decide _); [|apply Hidle; intros; apply rounds_snoc].
      refine (gtimed_agent _ _ _ _ H HT w x now (WExt m) Q _ Hx HQ I Hnow Hr P1 P3 _). intros v. apply rounds_snoc.
    - destruct (y_workers y !! w) as [x|] eqn:Hx; [|cbn [act]; rewrite Hx; apply Hidle; intros; apply rounds_snoc].
      destruct (HP now w x eq_refl Hx) as (P1 & P2 & P3). destruct (HC now eq_refl) as [Hnow Hcl]. assert (Hr : ∀ t, t ∈ rounds w before → t <= now) by (intros t Ht; apply Hcl, (rounds_moment w), Ht).
      cbn [act]. rewrite Hx. destruct (bool_decide _); [|apply Hidle; intros; apply rounds_snoc].
      refine (gtimed_agent _ _ _ _ H HT w x now (WProc m) _ _ Hx eq_refl (Ho _ Hx) Hnow Hr P1 P3 _). intros v. apply rounds_snoc.
    - destruct (y_workers y !! w) as [x|] eqn:Hx; [|cbn [act]; rewrite Hx; apply Hidle; intros; apply rounds_snoc]. cbn [act]. rewrite Hx. destruct e as [m loads| |o l| |]; [apply Hidle; intros; apply rounds_snoc|..].
      + refine (gtimed_processor _ _ _ _ H HT w x now PLook _ Hx _ I). intros v. apply rounds_snoc.
      + refine (gtimed_processor _ _ _ _ H HT w x now (PRun o l) _ Hx _ Ho). intros v. apply rounds_snoc.
      + refine (gtimed_processor _ _ _ _ H HT w x now PScan _ Hx _ I). intros v. apply rounds_snoc.
      + refine (gtimed_processor _ _ _ _ H HT w x now PDelete _ Hx _ I). intros v. apply rounds_snoc.
    - destruct (y_workers y !! w) as [x|] eqn:Hx; [|cbn [act]; rewrite Hx; apply Hidle; intros; apply rounds_snoc]. cbn [act]. rewrite Hx. destruct (bool_decide _); [|apply Hidle; intros; apply rounds_snoc].
      destruct Ho as [-> Ho]. refine (gtimed_processor _ _ _ _ H HT w x now (PMsg m true) _ Hx _ (conj eq_refl (Ho _ Hx))). intros v. apply rounds_snoc.
  Qed.
End clock.

Theorem gpunctual_timed d h c acts : c_max_waiting c < 0 → 0 <= d → 0 <= h → 2 * d + h <= c_timeout c → patient (2 * d + h) acts → one_clock acts → punctual_run d h c acts → calm_graphs_run c acts →
  orderly_graphs_run c acts ∧ timed d h acts (execute c acts).
Proof.
  intros Hmax Hd Hh Hle. induction acts as [|a acts IH] using rev_ind; intros Hpat Hone Hpun Hcalm.
  - split; [intros before a after E; by destruct before|apply timed_boot].
  - destruct IH as [Ho HT].
    + intros w de n r Hi. eapply Hpat, elem_of_app. eauto.
    + intros before b after now E. apply (Hone before b (after ++ [a])). rewrite E, <- app_assoc. reflexivity.
    + intros before b after E. apply (Hpun before b (after ++ [a])). rewrite E, <- app_assoc. reflexivity.
    + intros before b after E. apply (Hcalm before b (after ++ [a])). rewrite E, <- app_assoc. reflexivity.
    + destruct (gflow_run c acts Hmax Ho) as (X & g & HF). pose proof (G_of _ _ _ _ HF) as H. clear HF g. pose proof (Hpun acts a [] eq_refl) as HP. pose proof (gcalm_orderly d h c X _ _ a H HT Hd Hh Hle HP (Hcalm acts a [] eq_refl)) as Ha.
      split; [apply orderly_graphs_snoc; auto|]. rewrite execute_snoc. eapply gtimed_act; [eassumption..| | |exact Ha].
      * intros now. exact (Hone acts a [] now eq_refl).
      * intros w de n r ->. eapply Hpat, elem_of_app. right. left.
Qed.
