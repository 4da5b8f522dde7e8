(** * Orderly executions with graphs can always be finished: everything together (C87) *)

From Verif.Model Require Import Base OneToManyDict PriorityQueue Allocator Message Sorter Client Worker Processor Scheduler System.
From Verif.Spec Require Import AllocatorSpec DictSpec SchedulerSpec SystemSpec FlowSpec TrafficSpec GraphFlowSpec.
From Verif.Proofs Require SchedContent ClientProofs FlowFinish.
From Verif.Proofs Require Import BaseProofs DictProofs AllocatorProofs SchedWp SchedCount SchedHold SchedGlobal SchedStep SchedRemove SchedPlain SchedPolite SchedLive SchedBegin SchedTraffic SchedFinish SystemParts SystemProofs FlowSched FlowWorker FlowWork FlowClient FlowSystem GraphClient GraphRounds GraphFlow GraphStep GraphFinish GraphDrive.
Import FlowFinish(fold_len, fold_len_zero).

Section ending.
  Context {Gn lost : gset bytes} {HGL : among Gn lost} (cfg : config) (Hmax : c_max_waiting cfg < 0) (Hcap : 1 <= c_queue_size cfg) (verdict : task → outcome) (Hverdict : ∀ k, verdict k ≠ Ended) (X : gset bytes) (Hnodes : ∀ k, task_id k ∈ X → ∃ v, verdict k = Returned v).
  Notation leads := (leads (lost:=lost) verdict).
  Notation leads_refl := (leads_refl (lost:=lost) verdict).
  Notation each := (each (lost:=lost) verdict).
  Notation G := (Gd (Gn:=Gn) cfg X).
  Notation base := (base (Gn:=Gn) (lost:=lost) cfg X).
  Notation working := (working (Gn:=Gn) (lost:=lost) cfg X).
  Notation escaped := (escaped (Gn:=Gn) (lost:=lost) cfg X).
  Notation log y := (s_log (y_sched y)).
  Notation go_on := (go_on cfg Hmax verdict X).
  Notation working_agent := (working_agent cfg Hmax verdict X).
  Notation working_scheduler := (working_scheduler cfg Hmax verdict Hverdict X Hnodes).
  Notation drive_workers := (drive_workers cfg Hmax verdict Hverdict X Hnodes).

  (** A worker becomes known. *)
  Lemma register K W h0 O y w x : w ∉ lost → working K W h0 (Some O) y → y_workers y !! w = Some x → registered (log y) = ∅ → to_scheduler y w = [] →
    ∃ y', leads y y' ∧ (escaped K W h0 y' ∨ working K W h0 (Some O) y' ∧ registered (log y') ≠ ∅).
  Proof.
    intros Hwl HR Hx Hg EQ. pose proof HR as ((H & _) & _). destruct (gl_worker_but H w x Hx (alive_in _ Hwl)) as (L & qs & HL & HW). rewrite EQ in HW.
    assert (Hse : a_sent (n_agent x) = 0). { destruct (wo_beat _ _ _ _ _ _ _ HW) as [[Hk _]|[Hk|(h & Hh)]]; [cbn in Hk; rewrite Hg in Hk; set_solver|exact Hk|by apply elem_of_nil in Hh]. }
    destruct (working_agent K W h0 (Some O) y w x 1 (WHeartbeat 0 0 0 0) (to_agent y w x) Hwl HR Hx eq_refl I) as (a' & out & E & L1 & R1 & G1 & _).
    { intros a' out E _. cbn in E. unfold wh_routine in E. rewrite Hse in E. injection E as <- <-. repeat constructor. tauto. }
    cbv zeta in *. set (x' := Node _ _ _ _ _) in *. set (y' := set_worker w x' y) in *. cbn in E. unfold wh_routine in E. rewrite Hse in E. injection E as _ Eo. rewrite EQ, <- Eo in G1. cbn in G1.
    destruct (working_scheduler K W h0 (Some O) y' w x' _ [] Hwl R1 (lookup_insert _ _ _) G1) as (y2 & L2 & [Hesc|(R2 & _ & _ & _ & [E2 _] & _)]); exists y2; (split; [eapply leads_trans; eassumption|]); [auto|]. right. split; [exact R2|]. rewrite E2. set_solver.
  Qed.
  (** A task is given to a worker. *)
  Lemma give K W h0 y : working K W h0 (Some ∅) y → registered (log y) ≠ ∅ → s_tasks (y_sched y) ≠ ∅ →
    ∃ y' O, leads y y' ∧ O ≠ ∅ ∧ working K W h0 (Some O) y'.
  Proof.
    intros (HB & Hs & Hc & Hb) Hg HT. destruct (Hb _ eq_refl) as [B1 B2]. pose proof HB as (H & _). destruct (gl_fine H) as (xt & [Hco _] & _).
    destruct (settled_dispatch cfg Hmax verdict Hverdict X Hnodes K W y (or_introl HB) Hs) as (L1 & HB' & Hs' & Hc').
    destruct (effect_dispatch cfg X y H) as (out & Hq & _ & _ & _ & _ & [(_ & _ & Hwhy)|(k & w & [x Hx] & -> & Hk & Eh)]); cbv zeta in *; set (y' := after y EDispatch) in *.
    - exfalso. destruct Hwhy as [Hwt|[Hwt|Hwt]]; [|tauto|].
      + pose proof (c_places _ _ _ _ _ Hco) as Hp. rewrite (c_running _ _ _ _ _ Hco) in Hp. cbn [lg_owner] in Hp. rewrite B2 in Hp. unfold waiting_task in Hwt. destruct (s_limbo (y_sched y)) as [k|] eqn:El; [discriminate|].
        unfold lim in Hp. rewrite El in Hp. destruct (s_unassigned (y_sched y)) as [|t l]; [apply HT, dom_empty_inv_L; rewrite Hp; set_solver|]. assert (t ∈ dom (s_tasks (y_sched y))) as [k Hk]%elem_of_dom by (rewrite Hp; set_solver). congruence.
      + apply set_choose_L in Hg as [w Hw]. specialize (Hwt w Hw). destruct (ok_run _ _ (gl_ok H)) as [rs Hrs]. pose proof (c_dead _ _ _ _ _ Hco) as Hd. rewrite Hrs in Hd. destruct (Inv2_run cfg rs) as [_ H2]. specialize (H2 Hd).
        unfold load, tasks_of in Hwt. cbn [lg_owner] in Hwt. rewrite B2 in Hwt. rewrite map_filter_empty, dom_empty_L, size_empty in Hwt. rewrite Hrs, (i2_max _ _ H2), run_cfg in Hwt. lia.
    - exists y', (<[task_id k := w]> (holder (log y))). split; [exact L1|]. split; [apply insert_non_empty|]. split; [exact HB'|]. split; [exact Hs'|]. split; [eapply carries_trans; eassumption|].
      intros o [= <-]. split; [|exact Eh]. intros j z Hjl Hz. change (y_workers y !! j = Some z) in Hz. destruct (B1 j z Hjl Hz) as [S1 S2].
      assert (E1 : to_scheduler y' j = to_scheduler y j) by (apply (sched_other y _ _ j Hq); reflexivity). assert (E2 : to_agent y' j z = to_agent y j z ++ for_part j [(w, MTask k)]) by exact (qk_agent _ _ _ Hq j z Hz).
      rewrite E1, E2. split; [exact S1|]. apply Forall_app. split; [exact S2|]. unfold for_part. cbn. destruct (String.eqb w j); repeat constructor. tauto.
  Qed.
  (** Some task gets done, unless there is none. *)
  Lemma settle_one K W y w : lost ⊆ Gn → w ∈ W → w ∉ lost → base K W y → settled y →
    ∃ y', leads y y' ∧ (escaped K W (log y) y' ∨ base K W y' ∧ settled y' ∧ carries (log y) (log y') ∧ s_tasks (y_sched y') = ∅).
  Proof.
    intros HLG HwW Hwl HB Hs. destruct (drive_workers K W (log y) None y) as (y1 & L1 & [E1|[(B1 & S1 & C1 & _) Q1]]).
    { split; [exact HB|]. split; [exact Hs|]. split; [apply carries_refl|discriminate]. } { exists y1. auto. }
    destruct (decide (s_tasks (y_sched y1) = ∅)) as [HT|HT]; [exists y1; split; [exact L1|]; right; auto|].
    pose proof (quiet_holder cfg X y1 HLG (proj1 B1) Q1) as Ho.
    assert (R1 : working K W (log y) (Some ∅) y1). { split; [exact B1|]. split; [exact S1|]. split; [exact C1|]. intros o [= <-]. split; [exact (quiet_steady y1 Q1)|exact Ho]. }
    assert (Hgo : ∀ y2, leads y1 y2 → working K W (log y) (Some ∅) y2 → registered (log y2) ≠ ∅ → s_tasks (y_sched y2) ≠ ∅ →
      ∃ y', leads y y' ∧ (escaped K W (log y) y' ∨ base K W y' ∧ settled y' ∧ carries (log y) (log y') ∧ s_tasks (y_sched y') = ∅)).
    { intros y2 L2 R2 N2 T2. destruct (give K W (log y) y2 R2 N2 T2) as (y3 & O & L3 & HO & R3). destruct (drive_workers K W (log y) (Some O) y3 R3) as (y4 & L4 & [E4|[(B4 & _ & _ & O4) Q4]]).
      - exists y4. split; [|auto]. eapply leads_trans; [exact L1|]. eapply leads_trans; [exact L2|]. eapply leads_trans; eassumption.
      - exfalso. apply HO. destruct (O4 _ eq_refl) as [_ <-]. exact (quiet_holder cfg X y4 HLG (proj1 B4) Q4). }
    destruct (decide (registered (log y1) = ∅)) as [Hg|Hg]; [|exact (Hgo y1 (leads_refl y1) R1 Hg HT)].
    destruct B1 as (H1 & _ & _ & _ & HW & _). pose proof HwW as Hw. rewrite <- HW in Hw. apply elem_of_dom in Hw as [x Hx].
    destruct (register K W (log y) ∅ y1 w x Hwl R1 Hx Hg (proj1 (Q1 w Hwl x Hx))) as (y2 & L2 & [E2|[R2 N2]]); [exists y2; split; [eapply leads_trans; eassumption|auto]|].
    destruct (decide (s_tasks (y_sched y2) = ∅)) as [HT2|HT2]; [|exact (Hgo y2 L2 R2 N2 HT2)]. destruct R2 as (B2 & S2 & C2 & _). exists y2. split; [eapply leads_trans; eassumption|]. right. auto.
  Qed.
  Lemma settle_all K W w : lost ⊆ Gn → w ∈ W → w ∉ lost → ∀ n y (S : gset bytes), base K W y → settled y → S ⊆ ids (log y) → (∀ t, t ∈ S → TrafficSpec.settled t (log y)) → (size (ids (log y)) - size S <= n)%nat →
    ∃ y', leads y y' ∧ base K W y' ∧ settled y' ∧ pending_graphs (log y') = pending_graphs (log y) ∧ s_tasks (y_sched y') = ∅.
  Proof.
    intros HLG HW Hwl n. induction n as [|n IH]; intros y S HB Hs HS Hset Hn; destruct (settle_one K W y w HLG HW Hwl HB Hs) as (y1 & L1 & [(B1 & S1 & C1 & t & Hi & Hns & Ht)|(B1 & S1 & (_ & _ & P1) & T1)]); try (exists y1; auto; fail);
      (assert (t ∉ S) as HtS by (intros H; apply Hns, Hset, H)); (assert (size ({[t]} ∪ S) = Datatypes.S (size S)) as Hsz by (rewrite size_union, size_singleton by set_solver; reflexivity)).
    - exfalso. pose proof (subseteq_size ({[t]} ∪ S) (ids (log y)) ltac:(set_solver)). lia.
    - pose proof C1 as (_ & EI & EP). destruct (IH y1 ({[t]} ∪ S) B1 S1) as (y2 & L2 & B2 & S2 & P2 & T2).
      + rewrite EI. set_solver.
      + intros u [->%elem_of_singleton|Hu]%elem_of_union; [exact Ht|]. eapply settled_carries; [exact C1|auto].
      + rewrite EI. lia.
      + exists y2. split; [eapply leads_trans; eassumption|]. rewrite P2, EP. auto.
  Qed.
  (** The live workers do all they have. *)
  Lemma drive_all K W : ∀ n y (S : gset bytes), base K W y → settled y → S ⊆ ids (log y) → (∀ t, t ∈ S → TrafficSpec.settled t (log y)) → (size (ids (log y)) - size S <= n)%nat →
    ∃ y', leads y y' ∧ base K W y' ∧ settled y' ∧ ∀ w, quiet (lost:=lost) w y'.
  Proof.
    intros n. induction n as [|n IH]; intros y S HB Hs HS Hset Hn; (destruct (drive_workers K W (log y) None y) as (y1 & L1 & [(B1 & S1 & C1 & t & Hi & Hns & Ht)|[(B1 & S1 & _) Q1]]);
      [split; [exact HB|]; split; [exact Hs|]; split; [apply carries_refl|discriminate]| |exists y1; auto]);
      (assert (t ∉ S) as HtS by (intros H; apply Hns, Hset, H)); (assert (size ({[t]} ∪ S) = Datatypes.S (size S)) as Hsz by (rewrite size_union, size_singleton by set_solver; reflexivity)).
    - exfalso. pose proof (subseteq_size ({[t]} ∪ S) (ids (log y)) ltac:(set_solver)). lia.
    - pose proof C1 as (_ & EI & EP). destruct (IH y1 ({[t]} ∪ S) B1 S1) as (y2 & L2 & B2 & S2 & Q2).
      + rewrite EI. set_solver.
      + intros u [->%elem_of_singleton|Hu]%elem_of_union; [exact Ht|]. eapply settled_carries; [exact C1|auto].
      + rewrite EI. lia.
      + exists y2. split; [eapply leads_trans; eassumption|auto].
  Qed.
  (** All graphs are started, and all tasks done. *)
  Definition ending (K W : gset bytes) (y : system) : Prop := base K W y ∧ settled y ∧ s_tasks (y_sched y) = ∅ ∧ pending_graphs (log y) = [].
  Lemma finish_graphs K W w : lost ⊆ Gn → w ∈ W → w ∉ lost → ∀ n y, base K W y → settled y → length (pending_graphs (log y)) = n → ∃ y', leads y y' ∧ ending K W y'.
  Proof.
    intros HLG HW Hwl n. induction n as [|n IH]; intros y HB Hs Hn; destruct (settle_all K W w HLG HW Hwl (size (ids (log y))) y ∅ HB Hs ltac:(set_solver) ltac:(set_solver) ltac:(lia)) as (y1 & L1 & B1 & S1 & P1 & T1).
    - exists y1. split; [exact L1|]. split; [exact B1|]. split; [exact S1|]. split; [exact T1|]. rewrite P1. by apply nil_length_inv.
    - pose proof B1 as (H1 & U1 & R1). destruct (effect_graph cfg Hmax X y1 H1) as (out & Hq & _ & Hcl). destruct (go_on y1 (SchedulerDoes 0 [] EGraph) H1 I I I (λ w x E, ltac:(discriminate E))) as [L2 H2]. change (act y1 (SchedulerDoes 0 [] EGraph)) with (after y1 EGraph) in *. set (y2 := after y1 EGraph) in *.
      pose proof (settled_sched cfg X y1 _ out H1 S1 Hq ltac:(reflexivity) Hcl) as S2. change (settled y2) in S2.
      assert (P2 : pending_graphs (log y2) = tail (pending_graphs (log y1))).
      { destruct (step_log cfg X y1 (Round 0 [] EGraph) H1) as (l & E & Hl). change (log y2) with (s_log (step (y_sched y1) (Round 0 [] EGraph))). rewrite E. change (LIn (rd_now (Round 0 [] EGraph)) (rd_event (Round 0 [] EGraph)) :: l) with ([LIn 0 EGraph] ++ l).
        rewrite app_assoc, pending_inner by exact Hl. rewrite pending_snoc. reflexivity. }
      destruct (settled_dispatch cfg Hmax verdict Hverdict X Hnodes K W y2 ltac:(right; split; [exact H2|exact R1]) S2) as (L3 & B3 & S3 & _ & _ & P3). set (y3 := after y2 EDispatch) in *.
      destruct (IH y3 B3 S3) as (y4 & L4 & E4). { rewrite P3, P2, P1. destruct (pending_graphs (log y)); [discriminate|]. cbn in *. lia. }
      exists y4. split; [|exact E4]. eapply leads_trans; [exact L1|]. eapply leads_trans; [exact L2|]. eapply leads_trans; eassumption.
  Qed.

  (** ** Clients get their results *)
  Lemma deliver K W c : ∀ Q y x, ending K W y → y_clients y !! c = Some x → to_client y c = Q →
    ∃ y', leads y y' ∧ ending K W y' ∧ to_client y' c = [] ∧ ∀ j, j ≠ c → to_client y j = [] → to_client y' j = [].
  Proof.
    induction Q as [|m Q IH]; intros y x HE Hx EC; [exists y; split; [apply leads_refl|auto]|]. pose proof HE as ((H & Hu & Hi & HK & HW & Hin) & Hs & HT). destruct (Hs c x Hx) as (S1 & S2 & S3). destruct (Hi _ _ Hx) as [Hf Hsn].
    destruct (client_recv cfg Hmax verdict Hverdict X y c x m Q H Hx EC Hf Hsn) as (L1 & H1 & G2 & F' & S' & out & Hb). cbv zeta in *. set (x' := k_step x (KRecv m true)) in *. set (y' := set_client c x' y) in *.
    assert (Hout : fold_len (k_buffer x'.1) = 0%nat ∧ to_scheduler y' c = []).
    { rewrite S1, S2 in Hb. cbn [app] in Hb. rewrite EC in S3. destruct Hb as [[G1 Hb]|(G1 & G3 & _)]; [|auto]. rewrite G1. destruct m as [|t st| |t st d p| | | | | | | | | |st f n ct| | | | | |]; try done.
      - destruct st; try done.
      - destruct Hb as (ks & E1 & E2 & _). destruct ks as [|k ks]; [|cbn in E1; lia]. split; [cbn in E1; exact E1|exact E2]. }
    destruct Hout as [O1 O2].
    assert (HE' : ending K W y').
    { split; [|split; [|exact HT]].
      - split; [exact H1|]. split; [exact Hu|]. split; [|split; [rewrite <- HK; exact (dom_set_client _ _ _ _ Hx)|split; [exact HW|exact Hin]]]. intros j z. cbn. destruct (decide (j = c)) as [->|Hne]; [rewrite lookup_insert; intros [= <-]; auto|rewrite lookup_insert_ne by done; apply Hi].
      - intros j z. cbn. destruct (decide (j = c)) as [->|Hne].
        + rewrite lookup_insert. intros [= <-]. rewrite G2. split; [exact O2|]. split; [exact O1|]. rewrite EC in S3. clear -S3. unfold refused in *. cbn in S3. destruct m; try exact S3. destruct status; try exact S3. discriminate.
        + rewrite lookup_insert_ne by done. intros Hz. destruct (queue_other_client y c x' j Hne) as [E1 E2]. fold y' in E1, E2. rewrite E1, E2. exact (Hs j z Hz). }
    destruct (IH y' x' HE' (lookup_insert _ _ _) G2) as (y2 & L2 & E2 & D2 & O3). exists y2. split; [eapply leads_trans; eassumption|].
    split; [exact E2|]. split; [exact D2|]. intros j Hne Hj. apply O3; [exact Hne|]. destruct (queue_other_client y c x' j Hne) as [_ Eq]. fold y' in Eq. rewrite Eq. exact Hj.
  Qed.
  Lemma deliver_all K W y : ending K W y → ∃ y', leads y y' ∧ ending K W y' ∧ ∀ c, c ∈ K → to_client y' c = [].
  Proof.
    intros HE. destruct (each (ending K W) (λ _, False) (λ c y, c ∈ K → to_client y c = [])) with (l := elements K) (y := y) as (y' & L & [[]|[E' P]]).
    - intros c y1 E1. destruct (y_clients y1 !! c) as [x|] eqn:Hx.
      + destruct (deliver K W c _ y1 x E1 Hx eq_refl) as (y2 & L & E2 & D & O). exists y2. split; [exact L|]. right. split; [auto|]. split; [auto|]. intros j Hj HjK. destruct (decide (j = c)) as [->|Hne]; auto.
      + exists y1. split; [apply leads_refl|]. right. split; [auto|]. split; [|auto]. intros Hc. destruct E1 as ((_ & _ & _ & HK & _) & _). rewrite <- HK in Hc. apply elem_of_dom in Hc as [? ?]. congruence.
    - exact HE.
    - exists y'. split; [exact L|]. split; [exact E'|]. intros c Hc. apply P; [apply elem_of_elements, Hc|exact Hc].
  Qed.
  Lemma ending_resolved K W y : ending K W y → (∀ c, c ∈ K → to_client y c = []) → all_resolved y.
  Proof.
    intros ((H & Hu & Hi & HK & HW & _) & Hs & HT & _) Hd c t f name content args Hin. unfold history_of in *. destruct (y_clients y !! c) as [x|] eqn:Hx; [|by apply elem_of_nil in Hin].
    destruct (Hs c x Hx) as (S1 & S2 & _). destruct (gl_client H c x Hx) as (F & B & A & D & HC). rewrite S1, Hd in HC by (rewrite <- HK; apply elem_of_dom; eauto). destruct (Hi _ _ Hx) as [Hf _].
    apply (ko_D HC). assert (Ht : t ∈ subs x.2) by (apply subs_in; eauto 10). rewrite (ko_all HC) in Ht. cbn in Ht. rewrite !elem_of_app in Ht. destruct Ht as [Ht|[Ht|[Ht|Ht]]]; [..|exact Ht]; exfalso.
    - destruct (ko_F HC _ Ht) as (z & st & Hz & _). rewrite Hf, lookup_empty in Hz. discriminate.
    - apply elem_of_list_fmap in Ht as (z & _ & Hz). assert (Hfn : z ∈ of_fn (task_function z) B) by (apply elem_of_list_filter; auto). rewrite <- (ko_B HC) in Hfn. destruct (k_buffer x.1 !! task_function z) as [l|] eqn:El; [|by apply elem_of_nil in Hfn].
      rewrite (fold_len_zero verdict Hverdict _ _ _ S2 El) in Hfn. by apply elem_of_nil in Hfn.
    - apply (ko_A HC), off_Some in Ht as [HnX Ht]. destruct (gl_fine H) as (xt & O & Wd).
      assert (is_Some (s_tasks (y_sched y) !! t)) as [? E]; [|rewrite HT, lookup_empty in E; discriminate].
      apply (client_task cfg X y (gl_ok H) (λ t, proj2 (gl_names H t)) (gl_graphs H) xt _ Wd _ O t HnX). eauto.
  Qed.
End ending.
