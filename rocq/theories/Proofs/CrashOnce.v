(** * User code is called again only for tasks of workers that died (C96) *)

From Verif.Model Require Import Base OneToManyDict PriorityQueue Allocator Message Sorter Client Worker Processor Scheduler System.
From Verif.Spec Require Import AllocatorSpec DictSpec SchedulerSpec SystemSpec FlowSpec TrafficSpec OnceSpec GraphFlowSpec CrashSpec CrashGraphSpec.
From Verif.Spec Require ProcessorSpec.
From Verif.Proofs Require Import BaseProofs SchedGlobal SchedLive SchedTraffic SchedFinish SystemParts SystemProofs FlowWorker FlowWork FlowSystem FlowOnce GraphFlow GraphStep GraphOnce CrashGraph.
From Verif.Proofs Require CrashFlow SchedCount.
Import CrashFlow(act_log, act_workers, died_app, state_app).

Lemma gonce_forget Gn Gn' y : gonce Gn y → Gn ⊆ Gn' → gonce Gn' y.
Proof. intros [H1 H2 H3] HG. split; [exact H1|intros w w' x x' t N N'; apply H2; auto|intros w x t N; apply H3; auto]. Qed.

Definition crash_once (cfg : config) (dead : gset bytes) (y : system) : Prop :=
  ∃ Gn X g, gflowd cfg Gn X g y ∧ Gn ⊆ dead ∧ (∀ w, w ∈ Gn → LDisconnected w ∈ s_log (y_sched y)) ∧ gonce Gn y.
Lemma crash_once_act cfg dead y a : c_max_waiting cfg < 0 → crash_once cfg dead y → orderly_graphs_but dead y a → crash_once cfg dead (act y a).
Proof.
  intros Hmax (Gn & X & g & H & HX & HD & HO) Ho.
  assert (Hbut : orderly_graphs y a → (∀ w, worker_of a = Some w → w ∉ Gn) → crash_once cfg dead (act y a)).
  { intros Ho' Hn. destruct (gflow_act_but _ _ _ _ H a Hmax Ho' Hn) as (X' & g' & H'). exists Gn, X', g'. split; [exact H'|]. split; [exact HX|]. split; [intros w Hi; apply act_log, HD, Hi|].
    exact (gonce_act Gn cfg X y a (G_of _ _ _ _ H) HO Ho' Hn). }
  assert (Hgo : ∀ w, worker_of a = Some w → w ∉ dead ∧ orderly_graphs y a → crash_once cfg dead (act y a)).
  { intros w E [Hn Ho']. apply Hbut; [exact Ho'|]. intros w' E'. set_solver. }
  destruct a as [c|w death now retention|c e|c m loads|now codes e|from m now codes|w now e|w m now|w m now|w now e|w m loads now]; cbn [orderly_graphs_but] in Ho;
    try (apply Hbut; [exact Ho|discriminate]); try exact (Hgo _ eq_refl Ho).
  - destruct e as [i m| | | | |]; try (apply Hbut; [exact Ho|discriminate]). destruct Ho as [Hu Hs]. rewrite (cfg_of _ _ _ _ H) in Hs.
    destruct (gflow_remove _ Hmax _ _ _ _ H now codes Hu) as (ws & g' & H' & _ & Hws & HD'). cbv zeta in *. eexists _, X, g'. split; [exact H'|]. split; [|split].
    + intros w [Hi|Hi%elem_of_list_to_set]%elem_of_union; [auto|]. apply Hs, Hws, Hi.
    + intros w [Hi|Hi%elem_of_list_to_set]%elem_of_union; [apply act_log, HD, Hi|auto].
    + eapply gonce_forget; [|apply union_subseteq_l]. cbn [act]. eapply gonce_sched; [exact (G_of _ _ _ _ H)|exact HO|]. reflexivity.
  - destruct Ho as [Ho Hn]. apply Hbut; [exact Ho|]. cbn. intros w [= <-] Hi. apply Hn; auto.
Qed.
Theorem crash_once_run c tr : c_max_waiting c < 0 → crash_graphs_run c tr → crash_once c (died tr) (state_after c tr).
Proof.
  intros Hmax. induction tr as [|i tr IH] using rev_ind; intros Hr.
  - exists ∅, ∅, lg_empty. split; [apply gflow_boot|]. split; [set_solver|]. split; [set_solver|]. split; cbn; intros *; rewrite lookup_empty; discriminate.
  - apply crash_graphs_snoc in Hr as [Hr Hi]. specialize (IH Hr). rewrite died_app, state_app. destruct i as [a|w]; cbn.
    + replace (died tr ∪ ∅) with (died tr) by set_solver. apply crash_once_act; auto.
    + destruct IH as (Gn & X & g & H & HX & HD & HO). exists Gn, X, g. split; [exact H|]. split; [set_solver|]. split; [exact HD|exact HO].
Qed.

Theorem crash_runs_one c tr t w x : c_max_waiting c < 0 → crash_graphs_run c tr → y_workers (state_after c tr) !! w = Some x → (runs t (n_calls x) <= 1)%nat.
Proof. intros Hmax Hr Hx. destruct (crash_once_run c tr Hmax Hr) as (Gn & X & g & _ & _ & _ & HO). apply runs_one, (go_worker _ _ HO w x Hx). Qed.
Theorem crash_runs_again c tr t w w' x x' : c_max_waiting c < 0 → crash_graphs_run c tr → y_workers (state_after c tr) !! w = Some x → y_workers (state_after c tr) !! w' = Some x' → w ≠ w' →
  runs t (n_calls x) ≠ 0%nat → runs t (n_calls x') ≠ 0%nat → ∃ v, (v = w ∨ v = w') ∧ v ∈ died tr ∧ LDisconnected v ∈ s_log (y_sched (state_after c tr)).
Proof.
  intros Hmax Hr Hx Hx' Hne R R'. destruct (crash_once_run c tr Hmax Hr) as (Gn & X & g & _ & HX & HD & HO).
  destruct (decide (w ∈ Gn)) as [Hi|Hi]; [exists w; auto|]. destruct (decide (w' ∈ Gn)) as [Hi'|Hi']; [exists w'; auto|]. destruct Hne.
  apply (go_one _ _ HO w w' x x' t Hi Hi' Hx Hx').
  - destruct (decide (t ∈ handed_ids x)) as [|Hn]; [assumption|]. destruct R. exact (runs_none x t (go_worker _ _ HO w x Hx) Hn).
  - destruct (decide (t ∈ handed_ids x')) as [|Hn]; [assumption|]. destruct R'. exact (runs_none x' t (go_worker _ _ HO w' x' Hx') Hn).
Qed.

Lemma sum_dead {A} (f : bytes * A → nat) l : ∀ D : gset bytes, NoDup l.*1 → (∀ p, p ∈ l → (f p <= 1)%nat) → (∀ p, p ∈ l → p.1 ∉ D → f p = 0%nat) → (sum_list_with f l <= size D)%nat.
Proof.
  induction l as [|p l IH]; intros D Hn H1 H2; cbn [sum_list_with]; [lia|]. rewrite fmap_cons in Hn. apply NoDup_cons in Hn as [Hp Hn].
  destruct (decide (p.1 ∈ D)) as [Hd|Hd].
  - assert (E : size D = S (size (D ∖ {[p.1]}))). { rewrite size_difference by set_solver. rewrite size_singleton. pose proof (subseteq_size {[p.1]} D ltac:(set_solver)) as Hs. rewrite size_singleton in Hs. lia. }
    specialize (IH (D ∖ {[p.1]}) Hn). pose proof (H1 p ltac:(left)). enough (sum_list_with f l <= size (D ∖ {[p.1]}))%nat by lia. apply IH; [intros q Hq; apply H1; by right|].
    intros q Hq Hqd. apply H2; [by right|]. intros Hi. apply Hqd. apply elem_of_difference. split; [exact Hi|]. intros E'%elem_of_singleton. apply Hp. rewrite <- E'. apply elem_of_list_fmap_1, Hq.
  - rewrite (H2 p ltac:(left) Hd). cbn. apply IH; [exact Hn|intros q Hq; apply H1; by right|intros q Hq; apply H2; by right].
Qed.
Lemma sum_split {A} (f : bytes * A → nat) l : ∀ D : gset bytes, NoDup l.*1 → (∀ p, p ∈ l → (f p <= 1)%nat) →
  (∀ p q, p ∈ l → q ∈ l → p.1 ∉ D → q.1 ∉ D → f p ≠ 0%nat → f q ≠ 0%nat → p.1 = q.1) → (sum_list_with f l <= 1 + size D)%nat.
Proof.
  induction l as [|p l IH]; intros D Hn H1 H2; cbn [sum_list_with]; [lia|]. rewrite fmap_cons in Hn. apply NoDup_cons in Hn as [Hp Hn].
  pose proof (H1 p ltac:(left)) as Hp1.
  destruct (decide (p.1 ∈ D)) as [Hd|Hd]; [|destruct (decide (f p = 0%nat)) as [E|E]].
  - assert (E : size D = S (size (D ∖ {[p.1]}))). { rewrite size_difference by set_solver. rewrite size_singleton. pose proof (subseteq_size {[p.1]} D ltac:(set_solver)) as Hs. rewrite size_singleton in Hs. lia. }
    enough (sum_list_with f l <= 1 + size (D ∖ {[p.1]}))%nat by lia. apply IH; [exact Hn|intros q Hq; apply H1; by right|].
    assert (Hgo : ∀ q, q ∈ l → q.1 ∉ D ∖ {[p.1]} → q.1 ∉ D).
    { intros q Hq Hqd Hi. apply Hqd. apply elem_of_difference. split; [exact Hi|]. intros E'%elem_of_singleton. apply Hp. rewrite <- E'. apply elem_of_list_fmap_1, Hq. }
    intros q r Hq Hr Nq Nr. apply H2; [by right|by right|auto|auto].
  - rewrite E. cbn [plus]. apply IH; [exact Hn|intros q Hq; apply H1; by right|intros q r Hq Hr; apply H2; by right].
  - enough (sum_list_with f l <= size D)%nat by lia. apply sum_dead; [exact Hn|intros q Hq; apply H1; by right|]. intros q Hq Nq. destruct (decide (f q = 0%nat)) as [|Eq]; [assumption|]. destruct Hp.
    rewrite (H2 p q ltac:(left) ltac:(by right) Hd Nq E Eq). apply elem_of_list_fmap_1, Hq.
Qed.
Theorem crash_total_runs c tr t : c_max_waiting c < 0 → crash_graphs_run c tr → (total_runs (state_after c tr) t <= 1 + size (died tr))%nat.
Proof.
  intros Hmax Hr. unfold total_runs. apply sum_split; [apply NoDup_fst_map_to_list| |].
  - intros [w x] Hp%elem_of_map_to_list. exact (crash_runs_one c tr t w x Hmax Hr Hp).
  - intros [w x] [w' x'] Hp%elem_of_map_to_list Hq%elem_of_map_to_list N N' R R'. cbn in *. destruct (decide (w = w')) as [|Hne]; [assumption|].
    destruct (crash_runs_again c tr t w w' x x' Hmax Hr Hp Hq Hne R R') as (v & [-> | ->] & Hd & _); contradiction.
Qed.

(** ** Nobody runs a task whose result has arrived *)
Lemma runs_quiet t : ∀ out h, Forall (λ e, match e with PCalled _ _ _ => False | _ => True end) out → runs t (h ++ out) = runs t h.
Proof.
  induction out as [|e out IH]; intros h H; [rewrite app_nil_r; reflexivity|]. apply Forall_cons in H as [He H]. rewrite cons_middle, app_assoc, (IH _ H), runs_snoc. destruct e; try (destruct He); lia.
Qed.
Lemma runs_step T L known qs x Qws Qsw now e t : worker_ok T L known qs x Qws Qsw → fair (n_processor x) (n_calls x) → (∀ k, a_task (n_agent x) = Some k → task_id k ≠ t) →
  runs t (n_calls (processor_step now e x)) = runs t (n_calls x).
Proof.
  intros H [F1 _] Ht. pose proof (wo_phase _ _ _ _ _ _ _ H) as Hp. unfold processor_step. destruct (p_step (n_processor x, n_calls x) (PRound now e)) as [p' h'] eqn:E. cbn [n_calls].
  assert (Hc : ∀ k f, c_main (n_processor x) = Calling k f → task_id k ≠ t). { intros k f Em. apply Ht. rewrite Em in Hp. inversion Hp; congruence. }
  unfold p_step in E. destruct (c_main (n_processor x)) as [|k|k f|] eqn:Em; cbn [pr_event pr_now] in E; destruct e as [m loads| |o d| |]; try (injection E as <- <-; reflexivity);
    try (unfold p_run in E; rewrite Em in E; injection E as <- <-; rewrite app_nil_r; reflexivity).
  - destruct (p_receive now m loads (n_processor x)) as [p1 out] eqn:Er. injection E as <- <-. apply runs_quiet. constructor; [exact I|].
    destruct m; cbn in Er; try (injection Er as <- <-; constructor).
    + destruct (pc_get now _ _) as [q [b|]]; injection Er as <- <-; repeat constructor.
    + match type of Er with match ?o with _ => _ end = _ => destruct o end; injection Er as <- <-; constructor.
    + destruct loads; cbn in Er; [|injection Er as <- <-; repeat constructor]. destruct (c_task (n_processor x)); injection Er as <- <-; repeat constructor.
  - destruct (pc_get now _ _) as [q f]. injection E as <- <-. reflexivity.
  - specialize (Hc k f eq_refl). assert (F1' : ProcessorSpec.outstanding (n_calls x) = Some k) by (rewrite F1; unfold current; rewrite Em; reflexivity). apply String.eqb_neq in Hc.
    unfold p_run in E. rewrite Em in E.
    assert (H1 : ∀ c args o' e', match e' with PCalled _ _ _ => False | _ => True end → runs t (n_calls x ++ [PCalled c args o'; e']) = runs t (n_calls x)).
    { intros c args o' e' He. rewrite two, !runs_snoc, F1', Hc. destruct e'; try (destruct He); lia. }
    destruct f as [c|], o as [v|v|]; injection E as <- <-; rewrite ?app_nil_r; try reflexivity; try (apply H1; exact I); apply runs_quiet; repeat constructor.
Qed.
Section late.
  Context (Gn : gset bytes) (cfg : config) (X : gset bytes) (y : system) (H : Gd (Gn:=Gn) cfg X y) (HO : gonce Gn y) (t : bytes) (Ht : settled t (log y)).
  Lemma agent_calls w x now e Q : w ∉ Gn → y_workers y !! w = Some x → to_agent y w x = match e with WExt m => [m] | _ => [] end ++ Q →
    match e with WProc m => head (from_processor x) = Some m | WTimeout => now - a_seen (n_agent x) < a_death (n_agent x) | _ => True end →
    n_calls (agent_step now e x) = n_calls x.
  Proof.
    intros Nw Hx HQ He. pose proof (agent_moves_but _ _ _ _ H w x now e Q Nw Hx HQ He) as HF.
    assert (Ea : act y (match e with WExt m => ToAgent w m now | WProc m => ToAgentInside w m now | _ => AgentDoes w now e end) = set_worker w (agent_step now e x) y).
    { destruct e as [m|m| | |]; cbn [act]; rewrite Hx; try reflexivity.
      - rewrite bool_decide_eq_true_2; [reflexivity|]. apply sent_entry. eapply on_the_way_in, HQ.
      - rewrite bool_decide_eq_true_2; [reflexivity|]. apply head_cons in He as [Q' E]. apply on_the_way_in in E. apply elem_of_list_omap in E as (o & Ho & E). destruct o; try discriminate. injection E as ->. exact Ho. }
    rewrite Ea in HF. clear Ea. destruct (gl_worker_but H w x Hx Nw) as (L & qs & HL & HW).
    assert (Hw' : y_workers (set_worker w (agent_step now e x) y) !! w = Some (agent_step now e x)) by (cbn; apply lookup_insert).
    destruct (gl_worker_but HF w _ Hw' Nw) as (L' & qs' & _ & HW').
    assert (Hnc : ∀ t, e ≠ WExt (MTaskCancel t)). { intros t' ->. pose proof (wo_sw _ _ _ _ _ _ _ HW) as Hsw. rewrite HQ in Hsw. cbn in Hsw. apply Forall_cons in Hsw as [[] _]. }
    destruct (agent_inv now e x (wo_alive _ _ _ _ _ _ _ HW) (wo_alive _ _ _ _ _ _ _ HW') Hnc) as (a' & out' & E & Hout & Ea). rewrite Ea. reflexivity.
  Qed.
  Lemma processor_runs w x now e : w ∉ Gn → y_workers y !! w = Some x → runs t (n_calls (processor_step now e x)) = runs t (n_calls x).
  Proof.
    intros Nw Hx. destruct (gl_worker_but H w x Hx Nw) as (L & qs & HL & HW). apply (runs_step _ _ _ _ _ _ _ now e t HW (wn_fair _ (go_worker _ _ HO w x Hx))).
    intros k Ek <-. pose proof (gended_gone _ _ _ _ H _ Ht) as He. rewrite (wo_tasks _ _ _ _ _ _ _ HW k) in He; [discriminate|]. unfold held. rewrite Ek. cbn. set_solver.
  Qed.
  Lemma late_act a : orderly_graphs y a → (∀ w, worker_of a = Some w → w ∉ Gn) →
    settled t (log (act y a)) ∧ ∀ w x', y_workers (act y a) !! w = Some x' → runs t (n_calls x') ≠ 0%nat → ∃ x, y_workers y !! w = Some x ∧ runs t (n_calls x) = runs t (n_calls x').
  Proof.
    intros Ho HG.
    assert (Hsame : ∀ y', y_workers y' = y_workers y → settled t (log y') → settled t (log y') ∧ ∀ w x', y_workers y' !! w = Some x' → runs t (n_calls x') ≠ 0%nat → ∃ x, y_workers y !! w = Some x ∧ runs t (n_calls x) = runs t (n_calls x')).
    { intros y' E Hs. split; [exact Hs|]. rewrite E. eauto. }
    assert (Hset : ∀ w x x', y_workers y !! w = Some x → runs t (n_calls x') = runs t (n_calls x) → settled t (log (set_worker w x' y)) ∧
      ∀ i z, y_workers (set_worker w x' y) !! i = Some z → runs t (n_calls z) ≠ 0%nat → ∃ x, y_workers y !! i = Some x ∧ runs t (n_calls x) = runs t (n_calls z)).
    { intros w x x' Hx E. split; [exact Ht|]. intros i z. cbn. destruct (decide (i = w)) as [->|Hne]; [rewrite lookup_insert; intros [= <-] _; eauto|rewrite lookup_insert_ne by done; eauto]. }
    destruct a as [c|w death now retention|c e|c m loads|now codes e|from m now codes|w now e|w m now|w m now|w now e|w m loads now].
    - cbn [act]. destruct (unused y c); apply Hsame; auto.
    - cbn [act]. destruct (unused y w) eqn:Eu; [|apply Hsame; auto]. destruct (w_init w death now) as [a h] eqn:Ew. destruct (p_init retention) as [p out] eqn:Ep. injection Ew as <- <-. injection Ep as <- <-.
      split; [exact Ht|]. intros i z. cbn [y_workers set_worker]. destruct (decide (i = w)) as [->|Hne]; [rewrite lookup_insert; intros [= <-] []; reflexivity|rewrite lookup_insert_ne by done; eauto].
    - cbn [act]. destruct (y_clients y !! c) as [x|]; [|apply Hsame; auto]. destruct e; apply Hsame; auto.
    - cbn [act]. destruct (y_clients y !! c) as [x|]; [|apply Hsame; auto]. destruct (bool_decide _); apply Hsame; auto.
    - cbn [act]. destruct e; apply Hsame; auto; exact (settled_step _ cfg X y H _ t Ht).
    - cbn [act]. destruct (sent_by y from m); apply Hsame; auto. exact (settled_step _ cfg X y H _ t Ht).
    - destruct (y_workers y !! w) as [x|] eqn:Hx; [|cbn [act]; rewrite Hx; apply Hsame; auto]. cbn [act]. rewrite Hx. destruct e as [m|m| | |]; try (apply Hsame; auto; fail); apply (Hset w x _ Hx); f_equal.
      + exact (agent_calls w x now WLoop _ (HG _ eq_refl) Hx eq_refl I).
      + exact (agent_calls w x now (WHeartbeat _ _ _ _) _ (HG _ eq_refl) Hx eq_refl I).
      + exact (agent_calls w x now WTimeout _ (HG _ eq_refl) Hx eq_refl (Ho _ Hx)).
    - destruct (y_workers y !! w) as [x|] eqn:Hx; [|cbn [act]; rewrite Hx; apply Hsame; auto]. cbn in Ho. destruct (head_cons _ _ (Ho _ Hx)) as [Q HQ].
      cbn [act]. rewrite Hx. destruct (bool_decide _); [|apply Hsame; auto]. apply (Hset w x _ Hx). f_equal. exact (agent_calls w x now (WExt m) Q (HG _ eq_refl) Hx HQ I).
    - destruct (y_workers y !! w) as [x|] eqn:Hx; [|cbn [act]; rewrite Hx; apply Hsame; auto]. cbn in Ho.
      cbn [act]. rewrite Hx. destruct (bool_decide _); [|apply Hsame; auto]. apply (Hset w x _ Hx). f_equal. exact (agent_calls w x now (WProc m) _ (HG _ eq_refl) Hx eq_refl (Ho _ Hx)).
    - destruct (y_workers y !! w) as [x|] eqn:Hx; [|cbn [act]; rewrite Hx; apply Hsame; auto]. cbn [act]. rewrite Hx. destruct e as [m loads| |o d| |]; [apply Hsame; auto|..];
        (apply (Hset w x _ Hx); exact (processor_runs w x now _ (HG _ eq_refl) Hx)).
    - destruct (y_workers y !! w) as [x|] eqn:Hx; [|cbn [act]; rewrite Hx; apply Hsame; auto]. cbn [act]. rewrite Hx. destruct (bool_decide _); [|apply Hsame; auto].
      apply (Hset w x _ Hx). exact (processor_runs w x now _ (HG _ eq_refl) Hx).
  Qed.
End late.
Theorem crash_late c tr t : c_max_waiting c < 0 → ∀ more, crash_graphs_run c (tr ++ more) → settled t (log (state_after c tr)) →
  settled t (log (state_after c (tr ++ more))) ∧
  ∀ w x', y_workers (state_after c (tr ++ more)) !! w = Some x' → runs t (n_calls x') ≠ 0%nat → ∃ x, y_workers (state_after c tr) !! w = Some x ∧ runs t (n_calls x) = runs t (n_calls x').
Proof.
  intros Hmax. induction more as [|i more IH] using rev_ind; intros Hr Hs; [rewrite app_nil_r; eauto|]. rewrite app_assoc in *. apply crash_graphs_snoc in Hr as [Hr Hi]. destruct (IH Hr Hs) as [Hs' Hl].
  destruct (crash_once_run c _ Hmax Hr) as (Gn & X & g & H & HX & HD & HO). pose proof (G_of _ _ _ _ H) as HG. set (tr' := tr ++ more) in *. rewrite state_app. destruct i as [a|w]; [|split; assumption]. cbn [actions omap list_omap foldl].
  assert (Hgo : orderly_graphs (state_after c tr') a → (∀ w, worker_of a = Some w → w ∉ Gn) → settled t (log (act (state_after c tr') a)) ∧
    ∀ w x', y_workers (act (state_after c tr') a) !! w = Some x' → runs t (n_calls x') ≠ 0%nat → ∃ x, y_workers (state_after c tr) !! w = Some x ∧ runs t (n_calls x) = runs t (n_calls x')).
  { intros Ho Hn. destruct (late_act Gn c X _ HG HO t Hs' a Ho Hn) as [S1 S2]. split; [exact S1|]. intros w x' Hx' R. destruct (S2 w x' Hx' R) as (x1 & Hx1 & E1). destruct (Hl w x1 Hx1) as (x & Hx & E); [congruence|]. exists x. split; [exact Hx|congruence]. }
  assert (Hlive : ∀ w, worker_of a = Some w → w ∉ died tr' ∧ orderly_graphs (state_after c tr') a → settled t (log (act (state_after c tr') a)) ∧
    ∀ w x', y_workers (act (state_after c tr') a) !! w = Some x' → runs t (n_calls x') ≠ 0%nat → ∃ x, y_workers (state_after c tr) !! w = Some x ∧ runs t (n_calls x) = runs t (n_calls x')).
  { intros w E [Hn Ho]. apply Hgo; [exact Ho|]. intros w' E'. set_solver. }
  destruct a as [k|w death now retention|k e|k m loads|now codes e|from m now codes|w now e|w m now|w m now|w now e|w m loads now]; cbn [orderly_graphs_but] in Hi;
    try (apply Hgo; [exact Hi|discriminate]); try exact (Hlive _ eq_refl Hi).
  - destruct e as [j m| | | | |]; try (apply Hgo; [exact Hi|discriminate]). split; [exact (settled_step _ c X _ HG _ t Hs')|exact Hl].
  - destruct Hi as [Ho Hn]. apply Hgo; [exact Ho|]. cbn. intros w [= <-] Hi. apply Hn; auto.
Qed.

(** ** Every result that arrives is that of the worker who has the task *)
Definition heard_settled (y : system) : Prop := ∀ w t st d r, received w (MTaskResult t st d r) (log y) → settled t (log y).
Section heard.
  Context (Gn : gset bytes) (cfg : config) (X : gset bytes) (y : system) (H : Gd (Gn:=Gn) cfg X y) (HS : heard_settled y).
  Lemma heard_round r : (∀ w t st d p, rd_event r = ERecv w (MTaskResult t st d p) → is_Some (holder (log y) !! t)) → heard_settled (set_sched (step (y_sched y) r) y).
  Proof.
    intros Hr w t st d p. cbn [y_sched set_sched]. destruct (step_log cfg X y r H) as (l & El & Hl). rewrite El.
    change (LIn (rd_now r) (rd_event r) :: l) with ([LIn (rd_now r) (rd_event r)] ++ l). rewrite app_assoc, (settled_inner t l _ Hl), (received_inner _ _ l _ Hl), settled_snoc, received_snoc.
    intros [Ho|(now & E)]; [left; exact (HS _ _ _ _ _ Ho)|]. right. injection E as En Ee. specialize (Hr _ _ _ _ _ Ee). rewrite Ee. eauto 8.
  Qed.
  Lemma heard_act a : orderly_graphs y a → (∀ w, worker_of a = Some w → w ∉ Gn) → heard_settled (act y a).
  Proof.
    intros Ho HG. destruct a as [c|w death now retention|c e|c m loads|now codes e|from m now codes|w now e|w m now|w m now|w now e|w m loads now].
    - cbn [act]. destruct (unused y c); exact HS.
    - cbn [act]. destruct (unused y w); [|exact HS]. destruct (w_init w death now) as [a h]. destruct (p_init retention) as [p out]. exact HS.
    - cbn [act]. destruct (y_clients y !! c) as [x|]; [|exact HS]. destruct e; exact HS.
    - cbn [act]. destruct (y_clients y !! c) as [x|]; [|exact HS]. destruct (bool_decide _); exact HS.
    - cbn [act]. destruct e as [i m| | | | |]; [exact HS|..]; (apply heard_round; discriminate).
    - assert (Ho' : orderly y (ToScheduler from m now codes)) by (destruct m; try exact Ho; exact (proj1 Ho)). destruct Ho' as [Hn Hu]. apply head_cons in Hn as [Q HQ]. cbn [act].
      destruct (sent_by y from m) eqn:Es; [|exact HS]. apply heard_round. cbn [rd_event]. intros w t st d p [= <- ->].
      destruct (y_workers y !! from) as [x|] eqn:Hw.
      + pose proof (gl_worker_but H from x Hw (HG _ eq_refl)) as HF. rewrite HQ in HF. destruct (effect_result _ _ _ _ _ _ _ _ _ _ _ HF) as (Hown & _). eauto.
      + exfalso. destruct (sent_by_spec _ _ _ Es) as [(z & Hz & Hm)|(z & Hz & Hm)]; [|congruence]. destruct (sent_by_client _ _ _ _ _ (gl_ok H) Hz Hm).
    - cbn [act]. destruct (y_workers y !! w) as [x|]; [|exact HS]. destruct e; exact HS.
    - cbn [act]. destruct (y_workers y !! w) as [x|]; [|exact HS]. destruct (bool_decide _); exact HS.
    - cbn [act]. destruct (y_workers y !! w) as [x|]; [|exact HS]. destruct (bool_decide _); exact HS.
    - cbn [act]. destruct (y_workers y !! w) as [x|]; [|exact HS]. destruct e; exact HS.
    - cbn [act]. destruct (y_workers y !! w) as [x|]; [|exact HS]. destruct (bool_decide _); exact HS.
  Qed.
End heard.
Theorem heard_settled_run c tr : c_max_waiting c < 0 → crash_graphs_run c tr → heard_settled (state_after c tr).
Proof.
  intros Hmax. induction tr as [|i tr IH] using rev_ind; intros Hr.
  - intros w t st d r (now & Hi). by apply elem_of_nil in Hi.
  - apply crash_graphs_snoc in Hr as [Hr Hi]. specialize (IH Hr). destruct (crash_once_run c tr Hmax Hr) as (Gn & X & g & H & HX & HD & HO). pose proof (G_of _ _ _ _ H) as HG.
    rewrite state_app. destruct i as [a|w]; [|exact IH]. cbn [actions omap list_omap foldl].
    assert (Hlive : ∀ w, worker_of a = Some w → w ∉ died tr ∧ orderly_graphs (state_after c tr) a → heard_settled (act (state_after c tr) a)).
    { intros w E [Hn Ho]. apply (heard_act Gn c X _ HG IH a Ho). intros w' E'. set_solver. }
    destruct a as [k|w death now retention|k e|k m loads|now codes e|from m now codes|w now e|w m now|w m now|w now e|w m loads now]; cbn [orderly_graphs_but] in Hi;
      try (apply (heard_act Gn c X _ HG IH _ Hi); discriminate); try exact (Hlive _ eq_refl Hi).
    + destruct e as [j m| | | | |]; try (apply (heard_act Gn c X _ HG IH _ Hi); discriminate). cbn [act]. apply (heard_round Gn c X _ HG IH). discriminate.
    + destruct Hi as [Ho Hn]. apply (heard_act Gn c X _ HG IH _ Ho). cbn. intros w [= <-] Hi. apply Hn; auto.
Qed.
Theorem crash_value_settled c tr cl t v p : c_max_waiting c < 0 → crash_graphs_run c tr → v = Value p ∨ v = Error p →
  CSet (FTask t) v ∈ history_of (state_after c tr) cl → settled t (log (state_after c tr)).
Proof.
  intros Hmax Hr Hv Hi. destruct (client_at c (actions tr) _ _ Hi) as (x & Hx & Hin). pose proof (ok_client _ _ (execute_ok c (actions tr)) _ _ Hx) as Hc.
  assert (∃ st d, CIn (KRecv (MTaskResult t st d p) true) ∈ x.2 ∧ (st = Success ∨ st = Failed)) as (st & d & Hm & Hst).
  { destruct Hv as [-> | ->]; destruct (ci_out _ _ (co_inv _ _ _ Hc) _ Hin) as [[d Hd] _]; eauto. }
  apply (co_in _ _ _ Hc) in Hm. destruct (relayed_result _ _ _ _ _ _ _ Hm Hst) as [w Hw]. exact (heard_settled_run c tr Hmax Hr _ _ _ _ _ Hw).
Qed.
Theorem crash_target_settled c tr cl g i p : c_max_waiting c < 0 → crash_graphs_run c tr → CSet (FGraph g i) (Value p) ∈ history_of (state_after c tr) cl →
  ∃ fs ts ns t, asks (state_after c tr) cl g fs ts ns ∧ ts !! i = Some t ∧ settled t (log (state_after c tr)).
Proof.
  intros Hmax Hr Hi. destruct (client_at c (actions tr) _ _ Hi) as (x & Hx & Hin). pose proof (ok_client _ _ (execute_ok c (actions tr)) _ _ Hx) as Hc.
  destruct (ci_out _ _ (co_inv _ _ _ Hc) _ Hin) as (ps & Hm & Hp). apply (co_in _ _ _ Hc) in Hm. destruct (relayed _ _ _ _ Hm) as (before & after & El & fs & ts & ns & Hg & Hs).
  destruct (Forall2_lookup_r _ _ _ _ _ Hs Hp) as (t & Ht & (w & d & Hsu)). exists fs, ts, ns, t. split; [|split; [exact Ht|]].
  - eapply graph_asked; [apply execute_ok|]. change (execute c (actions tr)) with (state_after c tr) in El; rewrite El. apply SchedCount.received_app. exact Hg.
  - apply (heard_settled_run c tr Hmax Hr w t Success d p). change (execute c (actions tr)) with (state_after c tr) in El; rewrite El. apply SchedCount.received_app. exact Hsu.
Qed.
Lemma crash_graphs_prefix c tr more : crash_graphs_run c (tr ++ more) → crash_graphs_run c tr.
Proof. induction more as [|i more IH] using rev_ind; [rewrite app_nil_r; auto|]. rewrite app_assoc. intros [H _]%crash_graphs_snoc. auto. Qed.
