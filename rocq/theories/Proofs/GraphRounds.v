(** Exact steps of the scheduler with graphs in orderly executions (C86). *)

From Verif.Model Require Import Base OneToManyDict PriorityQueue Allocator Message Sorter Client Worker Processor Scheduler System.
From Verif.Spec Require Import AllocatorSpec DictSpec SchedulerSpec SystemSpec FlowSpec TrafficSpec.
From Verif.Proofs Require Import BaseProofs DictProofs AllocatorProofs SchedWp SchedCount SchedHold SchedContent SchedSend SchedPrim SchedFn SchedGlobal SchedStep SchedRemove SchedPlain SchedPolite SchedLive SchedBegin SchedTraffic FlowSched.

(** ** What is posted about a graph of client [c] with nodes [ids] *)
Definition graphic (ids : gset bytes) (c : bytes) (p : bytes * message) : Prop :=
  p.1 = c ∧ match p.2 with
  | MFunctionResponse st _ _ _ => st = FnOK ∨ st = FnDuplicated
  | MTaskEcho t st => st = SubmitOK ∧ t ∈ ids
  | MGraphTaskResult _ st _ => st = Success
  | _ => False
  end.
Record nodes_step (don : option bytes) (ids : gset bytes) (c : bytes) (s : sched) (out : list (bytes * message)) (s' : sched) : Prop := {
  ns_posted : posted (s_log s') = posted (s_log s) ++ out;
  ns_out : Forall (graphic ids c) out;
  ns_tasks t : t ∉ ids → s_tasks s' !! t = s_tasks s !! t;
  ns_old t k : s_tasks s !! t = Some k → don ≠ Some t → s_tasks s' !! t = Some k;
  ns_clients t : t ∉ ids → is_Some (s_tasks s !! t) → o_v2k (s_clients s') !! t = o_v2k (s_clients s) !! t;
  ns_to : clients_to c s s' }.

Lemma graphic_mono ids ids' c p : ids ⊆ ids' → graphic ids c p → graphic ids' c p.
Proof. intros Hs [H1 H2]. split; [exact H1|]. destruct (p.2); try done. destruct H2. split; [assumption|set_solver]. Qed.
Lemma internal_posted e : internal e → posted [e] = [].
Proof. destruct e; cbn; done. Qed.
Lemma replies_graphic ids c l : Forall (replies c) l → Forall (graphic ids c) (posted l).
Proof.
  induction 1 as [|e l [He|(st & f & Hst & ->)] _ IH]; [constructor| |].
  - change (e :: l) with ([e] ++ l). rewrite posted_app, (internal_posted _ He). exact IH.
  - constructor; [|exact IH]. split; [reflexivity|exact Hst].
Qed.
Lemma starts_graphic i l : Forall (starts_e i) l → Forall (graphic (g_ids i) (g_client i)) (posted l).
Proof.
  induction 1 as [|e l [He|(t & Ht & ->)] _ IH]; [constructor| |].
  - change (e :: l) with ([e] ++ l). rewrite posted_app, (internal_posted _ He). exact IH.
  - constructor; [|exact IH]. split; [reflexivity|]. split; [reflexivity|exact Ht].
Qed.
Lemma steps_nodes ns Q G T D N g s gid i s' : steps Success ns Q G T D N g s gid i s' → ∃ out, nodes_step None (g_ids i) (g_client i) s out s'.
Proof.
  intros (T' & N' & l & F & El & Cl & Hcase). exists (posted l). split.
  - rewrite El, posted_app. reflexivity.
  - destruct Hcase as [(i' & _ & _ & _ & _ & _ & _ & Hs & _)|(_ & _ & l0 & rs & -> & _ & Hs)]; [apply starts_graphic, Hs|].
    destruct (Hs eq_refl) as (-> & _ & _). cbn. repeat constructor.
  - intros t Ht. apply (fr_tk _ _ _ _ _ _ _ F t Ht).
  - intros t k Hk _. apply (fr_old _ _ _ _ _ _ _ F t k Hk).
  - intros t Ht Hs. apply (fr_cl _ _ _ _ _ _ _ F t Ht Hs).
  - exact Cl.
Qed.
Lemma steps_okay sx ns Q G T D N g s gid i s' : steps sx ns Q G T D N g s gid i s' → ∃ xt', okay xt' g s'.
Proof. intros (T' & N' & l & _ & _ & _ & [(i' & H & _)|(H & _)]); eauto. Qed.

Section rounds.
  Context (xt : ext) (g : ledger) (s : sched) (now : Z) (codes : list (list nat)).
  Hypothesis (Ho : okay xt g s) (W : world None (s_log s) xt (s_tasks s)) (Hw : c_max_waiting (s_cfg s) < 0).
  Let Hc : core xt (undispatched (s_log s)) g [] s := proj1 Ho.
  Let Hd : s_dead s = None := c_dead _ _ _ _ _ Hc.

  (** A graph arrives. *)
  Lemma round_graph c m : let ev := ERecv c m in (∃ id fs ts ns, m = MGraphTask id fs ts ns) →
    let s' := step s (Round now codes ev) in
    (∃ xt' pk, core xt' pk g [] s') ∧ posted (s_log s') = posted (s_log s) ∧ s_tasks s' = s_tasks s ∧ o_v2k (s_clients s') = o_v2k (s_clients s) ∧ s_funcs s' = s_funcs s.
  Proof.
    cbv zeta. intros (id & fs & ts & ns & ->). apply step_exact; [exact Hd|]. set (ev := ERecv c (MGraphTask id fs ts ns)).
    assert (Hc0 : core xt (undispatched (s_log s)) g [] (begin s (Round now codes ev))) by (apply core_begin, Hc).
    cbn [handle on_receive rd_event]. subst ev. wgo. split.
    - clear Hc Hd. destruct xt as [Q G T D N]. eexists (Ext _ G T D N), _. apply (core_queue_to Q); [exact Hc0|reflexivity].
    - ss. split; [|auto]. rewrite posted_app. cbn. apply app_nil_r.
  Qed.

  (** A graph is started. *)
  Lemma round_begin c gt Q : x_queue xt = (c, gt) :: Q →
    let s' := step s (Round now codes EGraph) in (∃ xt', okay xt' g s') ∧ ∃ out, nodes_step None (list_to_set (names (c, gt))) c s out s'.
  Proof.
    cbv zeta. intros EQ. destruct xt as [Q0 G T D N]. cbn in EQ. subst Q0. apply step_exact; [exact Hd|].
    assert (B : begun s now EGraph (begin s (Round now codes EGraph))) by exact (begun_begin s (Round now codes EGraph)).
    assert (Hc0 : core (Ext ((c, gt) :: Q) G T D N) (undispatched (s_log s)) g [] (begin s (Round now codes EGraph))) by (apply core_begin, Hc).
    assert (Hcl0 : s_clients (begin s (Round now codes EGraph)) = s_clients s) by reflexivity.
    revert Hc0 Hcl0 B. generalize (begin s (Round now codes EGraph)) as s0. intros s0 Hc0 Hcl0 B. cbn [handle rd_event].
    assert (Hun : undispatched (s_log s0) = undispatched (s_log s)). { rewrite (bg_log _ _ _ _ B). apply (input_quiet (s_log s) now EGraph). }
    assert (O0 : okay (Ext ((c, gt) :: Q) G T D N) g s0). { split; rewrite Hun; [exact Hc0|]. rewrite (bg_unassigned _ _ _ _ B). exact (proj2 Ho). }
    unfold gm_routine. wgo. rewrite (c_gqueue _ _ _ _ _ Hc0). cbn [x_queue]. wgo. set (s1 := set_gqueue _ s0). destruct (wd_q _ _ _ _ W c gt ltac:(left)) as (Hu & Hfit & Hrc).
    assert (O1 : okay (Ext Q G T D N) g s1). { destruct O0 as [A1 A2]. split; [|exact A2]. apply (core_queue_to ((c, gt) :: Q)); [exact A1|reflexivity]. }
    assert (Htk : s_tasks s1 = s_tasks s) by apply B. assert (Hlog : s_log s1 = s_log s ++ [LIn now EGraph]) by apply B.
    assert (Hcl : s_clients s1 = s_clients s) by exact Hcl0.
    assert (Hfresh : ∀ x, x ∈ gt_id gt :: (task_id <$> gt_graph gt) → ¬ known G (s_tasks s) x).
    { intros x Hx. apply (wd_qnew _ _ _ _ W). change (x ∈ names (c, gt) ++ queue_ids Q). apply elem_of_app. left. exact Hx. }
    eapply wp_mono; [apply (add_spec Q G T D N g s1 c gt O1 Hu Hfit)| |auto].
    - change (s_cfg s1) with (s_cfg s0). rewrite (bg_cfg _ _ _ _ B). exact Hw.
    - intros x Hx. specialize (Hfresh x Hx). rewrite Htk.
      assert (HT : T !! x = None). { destruct (T !! x) as [gid|] eqn:E; [|reflexivity]. destruct (wd_t2g _ _ _ _ W x gid E) as (i & E1 & E2). destruct Hfresh. right. right. eauto. }
      split; [destruct (s_tasks s !! x) eqn:E; [destruct Hfresh; left; eauto|reflexivity]|]. split.
      { pose proof (wd_ids _ _ _ _ W) as E. cbn in E. rewrite E. intros Hx2. apply elem_of_dom in Hx2. apply Hfresh. right. left. exact Hx2. }
      split; [|exact HT]. destruct (N !! x) eqn:E; [|reflexivity]. destruct (wd_N _ _ _ _ W x) as [y Hy]; [cbn; eauto|]. cbn in Hy. congruence.
    - destruct (G !! gt_id gt) eqn:E; [|reflexivity]. destruct (Hfresh (gt_id gt)); [left|]. right. left. eauto.
    - cbv beta. intros _ s' (i0 & T0 & N0 & s2 & E1 & E2 & Td & E7 & E5 & (l2 & E6 & F6) & E3 & E4 & St).
      destruct (steps_nodes _ _ _ _ _ _ _ _ _ _ _ St) as (out & [A1 A2 A3 A4 A5 A6]). rewrite E1, E2 in *.
      pose proof (td_tasks _ _ Td) as Ht2. rewrite Htk in Ht2. rewrite Ht2 in A3, A4, A5.
      split; [eapply steps_okay, St|]. exists (posted l2 ++ out). split.
      + rewrite A1, E6, Hlog, !posted_app. cbn [posted omap list_omap]. rewrite app_nil_r, <- app_assoc. reflexivity.
      + apply Forall_app. split; [apply replies_graphic, F6|]. eapply Forall_impl; [exact A2|]. intros p. apply graphic_mono. set_solver.
      + intros t Ht. apply A3. set_solver.
      + exact A4.
      + intros t Ht Hs. rewrite A5; [|set_solver|exact Hs]. rewrite E5, lookup_insert_ne by set_solver. rewrite Hcl. reflexivity.
      + intros t c' Ht. destruct (A6 _ _ Ht) as [Ht'|Ht']; [|auto]. rewrite E5, Hcl in Ht'. apply lookup_insert_Some in Ht' as [[_ <-]|[_ Ht']]; auto.
  Qed.

  (** A worker reports success of a node. *)
  Lemma round_node w t d p gid : undispatched (s_log s) = false → lg_owner g !! t = Some w → x_t2g xt !! t = Some gid →
    let s' := step s (Round now codes (ERecv w (MTaskResult t Success d p))) in
    (∃ xt', okay xt' (Ledger (lg_workers g) (delete t (lg_owner g))) s') ∧ ∃ i out, x_graphs xt !! gid = Some i ∧ t ∈ g_ids i ∧ nodes_step (Some t) (g_ids i) (g_client i) s out s'.
  Proof.
    cbv zeta. intros Hu Hown ET. set (ev := ERecv w (MTaskResult t Success d p)). pose proof Hc as Hc1. rewrite Hu in Hc1.
    destruct (wd_t2g _ _ _ _ W _ _ ET) as (i & HG & Hti).
    assert (Htk : is_Some (s_tasks s !! t)). { apply elem_of_dom. rewrite (c_places _ _ _ _ _ Hc), (c_running _ _ _ _ _ Hc). apply elem_of_union_r, elem_of_union_l, elem_of_dom. eauto. }
    assert (HN : x_inactive xt !! t = None). { destruct (x_inactive xt !! t) eqn:E; [|reflexivity]. apply (c_inactive _ _ _ _ _ Hc) in E as [E _]. destruct Htk; congruence. }
    destruct (node_running _ _ _ _ _ _ W HG Hti HN Htk) as (_ & ns & gr & sc & (c0 & fs0 & ts0 & Hrc) & L & Hsc).
    apply step_exact; [exact Hd|]. cbn [handle on_receive rd_event ev].
    assert (Hc0 : core xt false g [] (begin s (Round now codes ev))) by (apply core_begin, Hc1).
    set (s0 := begin s (Round now codes ev)) in *. assert (Htk0 : s_tasks s0 = s_tasks s) by reflexivity.
    destruct (exact_remove_task _ _ t (c_alloc _ _ _ _ _ Hc0)) as (a' & Ea & Hm' & Hx). rewrite Hown in Ea.
    unfold wm_done. wgo. cbn [r_id]. change (s_alloc s) with (s_alloc s0). rewrite Ea. apply wp_ok. wgo. set (s1 := set_alloc (λ _, a') s0).
    assert (H1 : core xt false (Ledger (lg_workers g) (delete t (lg_owner g))) [t] s1).
    { eapply core_alloc; [exact Hc0|exact Hx|reflexivity| | |repeat constructor; intros Hi; inversion Hi].
      - cbn [lg_owner]. eapply dom_delete_back, Hown.
      - intros t' ->%elem_of_list_singleton. apply lookup_delete. }
    unfold tm_done. wgo. cbn [tm_done_fuel]. wgo. eapply wp_mono; [apply (forget_spec _ _ _ _ _ _ H1); cbn; auto| |auto]. cbv beta. cbn [r_id].
    intros cl s2 (H2 & E1 & E2 & _ & E4 & E5 & _ & Ecl & E6 & mon & E8 & E9). wgo.
    assert (Hu0 : undispatched (s_log s1) = false). { change (s_log s1) with (s_log s ++ [LIn now ev]). destruct (input_quiet (s_log s) now ev) as (_ & _ & _ & ->). exact Hu. }
    assert (O2 : okay xt (Ledger (lg_workers g) (delete t (lg_owner g))) s2). { eapply okay_calm; [exact H2|exact Hu0|exact E9|constructor; [apply internal_calm, E8|constructor]]. }
    pose proof (wd_ids _ _ _ _ W) as HD. pose proof (wd_graph _ _ _ _ W _ _ HG) as [Hcu _].
    assert (HDn : ∀ x, x ∈ g_ids i → x ∉ x_ids xt). { intros x Hxi Hx'. rewrite HD in Hx'. apply elem_of_dom in Hx' as [? Hx']. pose proof (wd_D _ _ _ _ W _ _ _ HG Hxi) as E. congruence. }
    clear Hc Hd. destruct xt as [Q G T D N]; cbn in *.
    eapply wp_mono; [eapply (gm_done_spec _ Q G T D N _ s2 gid i ns gr (Result t Success d p) (s_tasks s) sc O2 HG); [rewrite HD; apply elem_of_dom; eauto|exact L|exact Hcu| |exact HDn|exact ET|exact Hsc|exact E4|auto]| |auto].
    - rewrite E1. exact Hw.
    - cbv beta. intros b s' (-> & Hst & _). wgo. destruct (steps_nodes _ _ _ _ _ _ _ _ _ _ _ Hst) as (out & [A1 A2 A3 A4 A5 A6]).
      split; [eapply steps_okay, Hst|]. exists i, out. split; [exact HG|]. split; [exact Hti|]. split; [|exact A2|..].
      + rewrite A1, E9. subst s1 s0. ss. rewrite !posted_app, (internal_posted _ E8). cbn. rewrite !app_nil_r. reflexivity.
      + intros t' Ht'. rewrite A3 by exact Ht'. rewrite E4. change (s_tasks s1) with (s_tasks s). rewrite lookup_delete_ne by congruence. reflexivity.
      + intros t' k Hk Hne. apply A4; [|discriminate]. rewrite E4. rewrite lookup_delete_ne by congruence. exact Hk.
      + intros t' Ht' Hs. rewrite A5; [|exact Ht'|rewrite E4, lookup_delete_ne by congruence; exact Hs]. rewrite E5, lookup_delete_ne by congruence. reflexivity.
      + intros t' c' Ht'. destruct (A6 _ _ Ht') as [Hx'|Hx']; [|auto]. rewrite E5 in Hx'. apply lookup_delete_Some in Hx' as [_ Hx']. auto.
  Qed.
End rounds.
