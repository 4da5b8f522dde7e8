(** * Orderly executions: every task is run at most once (C83) *)

From Verif.Model Require Import Base OneToManyDict PriorityQueue Allocator Message Client Worker Processor Scheduler System.
From Verif.Spec Require Import AllocatorSpec DictSpec SchedulerSpec SystemSpec FlowSpec OnceSpec.
From Verif.Spec Require ProcessorSpec.
From Verif.Proofs Require Import BaseProofs DictProofs AllocatorProofs SchedWp SchedCount SchedHold SchedRemove SchedPlain SchedPolite SchedGlobal SchedStep SystemProofs FlowSched FlowWorker FlowWork FlowClient FlowSystem.
From Verif.Proofs Require ClientProofs.

(** ** One processor *)
Lemma take_more {A} (l h : list A) m Q : h = take (length h) l → drop (length h) l = m :: Q → h ++ [m] = take (length (h ++ [m])) l.
Proof.
  intros E D. assert (El : l = (h ++ [m]) ++ Q). { transitivity (take (length h) l ++ drop (length h) l); [symmetry; apply take_drop|]. rewrite D, <- E, <- app_assoc. reflexivity. }
  rewrite El. symmetry. apply take_app_alt. reflexivity.
Qed.
Lemma two {A} (l : list A) a b : l ++ [a; b] = (l ++ [a]) ++ [b].
Proof. rewrite <- app_assoc. reflexivity. Qed.
Lemma take_task n : ∀ a a' ts e, wt_take n a = (a', ts, e) → a_task a' = a_task a.
Proof.
  induction n as [|n IH]; intros a a' ts e; cbn [wt_take]; [intros [= <- <- <-]; auto|]. destruct (a_ids a) as [|t ids] eqn:Ei; [intros [= <- <- <-]; auto|]. destruct (a_tasks a !! t); [|intros [= <- <- <-]; auto].
  destruct (wt_take n _) as [[a1 ts1] e1] eqn:E. intros [= <- <- <-]. rewrite (IH _ _ _ _ E). reflexivity.
Qed.
Lemma runs_snoc t h e : runs t (h ++ [e]) = (runs t h + match e, ProcessorSpec.outstanding h with PCalled _ _ _, Some k => if String.eqb (task_id k) t then 1 else 0 | _, _ => 0 end)%nat.
Proof.
  unfold runs. rewrite foldl_app. cbn. assert (E : (foldl (run_step t) (None, 0%nat) h).1 = ProcessorSpec.outstanding h).
  { unfold ProcessorSpec.outstanding. generalize 0%nat. generalize (@None task). induction h as [|e' h IH]; intros o n; [reflexivity|]. cbn. apply IH. }
  rewrite E. destruct e, (ProcessorSpec.outstanding h) as [k|]; try lia. destruct (String.eqb (task_id k) t); lia.
Qed.
Lemma outstanding_snoc h e : ProcessorSpec.outstanding (h ++ [e]) = ProcessorSpec.outstanding_step (ProcessorSpec.outstanding h) e.
Proof. unfold ProcessorSpec.outstanding. rewrite foldl_app. reflexivity. Qed.

Definition current (p : processor) : option task := match c_main p with Found k | Calling k _ => Some k | Waiting => c_task p | Stopped => None end.
Definition hit (t : bytes) (o : option task) : nat := match o with Some k => if String.eqb (task_id k) t then 1 else 0 | None => 0 end.
Definition got (t : bytes) (q : list message) : nat := count_occ string_dec (task_id <$> tasks_in q) t.
Lemma got_app t q q' : got t (q ++ q') = (got t q + got t q')%nat.
Proof. unfold got. rewrite tasks_in_app, fmap_app. apply count_occ_app. Qed.
Lemma got_task t k : got t [MTask k] = hit t (Some k).
Proof. unfold got. cbn. destruct (string_dec (task_id k) t) as [->|Hne]; [rewrite String.eqb_refl; reflexivity|]. apply String.eqb_neq in Hne. rewrite Hne. reflexivity. Qed.
Definition fair (p : processor) (h : list pentry) : Prop :=
  ProcessorSpec.outstanding h = current p ∧ ∀ t, (runs t h + hit t (current p) <= got t (processor_heard h))%nat.
Lemma heard_snoc h e : processor_heard (h ++ [e]) = processor_heard h ++ match e with PIn m => [m] | _ => [] end.
Proof. unfold processor_heard. rewrite omap_app. cbn. by destruct e. Qed.

Section one.
  Context (T : gmap bytes task) (L : list bytes) (known : Prop).
  Lemma fair_step qs x Qws Qsw now e : worker_ok T L known qs x Qws Qsw →
    match e with PRun o _ => o ≠ Ended | PMsg m loads => loads = true ∧ head (to_processor x) = Some m | _ => True end →
    fair (n_processor x) (n_calls x) → fair (n_processor (processor_step now e x)) (n_calls (processor_step now e x)).
  Proof.
    intros H He [F1 F2]. pose proof (wo_phase _ _ _ _ _ _ _ H) as Hp.
    unfold processor_step. destruct (p_step (n_processor x, n_calls x) (PRound now e)) as [p' h'] eqn:E. cbn [n_processor n_calls].
    assert (Hsame : h' = n_calls x → c_task p' = c_task (n_processor x) → c_main p' = c_main (n_processor x) → fair p' h').
    { intros -> Et Em. assert (Ec : current p' = current (n_processor x)) by (unfold current; rewrite Et, Em; reflexivity). split; rewrite Ec; assumption. }
    assert (Hcases : c_main (n_processor x) = Waiting ∨ ((∃ k, c_main (n_processor x) = Found k) ∨ ∃ k f, c_main (n_processor x) = Calling k f) ∧ c_task (n_processor x) = None).
    { inversion Hp; eauto 6. }
    unfold p_step in E. destruct e as [m loads| |o d| |]; cbn [pr_event pr_now] in *.
    - destruct He as [-> Hm]. destruct Hcases as [Hw|[[[k Hw]|(k & f & Hw)] _]]; rewrite Hw in E; [|injection E as <- <-; auto..].
      destruct (p_receive now m true (n_processor x)) as [p1 out] eqn:Er. injection E as <- <-. destruct (to_processor x) as [|m' D] eqn:ED; [discriminate|]. injection Hm as ->.
      assert (Hc0 : current (n_processor x) = c_task (n_processor x)) by (unfold current; rewrite Hw; reflexivity).
      destruct (kept_cons m D) as [[(f & n & ct & ->) Hk]|Hk]; rewrite Hk in Hp.
      + cbn [p_receive] in Er. injection Er as <- <-. assert (Ec : current (pc_del f (n_processor x)) = current (n_processor x)) by reflexivity.
        split; rewrite ?Ec; [rewrite outstanding_snoc, F1; reflexivity|]. intros t. rewrite runs_snoc, heard_snoc, got_app. specialize (F2 t). cbn. lia.
      + destruct (phase_head _ _ _ _ _ _ _ _ _ Hp) as [HD [[k ->]|(f & n & ct & ->)]]; inversion Hp as [| | | | | | k' n' ct'| | |]; subst; cbn [p_receive] in Er.
        * assert (Hn : c_task (n_processor x) = None) by congruence. rewrite Hc0, Hn in *. cbn [hit] in F2.
          destruct (pc_get now (task_function k) (n_processor x)) as [q [b|]] eqn:Eg; injection Er as <- <-; unfold pc_get in Eg.
          -- split; [rewrite outstanding_snoc; reflexivity|]. intros t. rewrite runs_snoc, heard_snoc, got_app, got_task. specialize (F2 t). cbn. lia.
          -- destruct (c_functions (n_processor x) !! task_function k); [discriminate|]. injection Eg as <-.
             change (n_calls x ++ [PIn (MTask k); POut (ask (task_function k))]) with (n_calls x ++ [PIn (MTask k)] ++ [POut (ask (task_function k))]). rewrite app_assoc.
             assert (Ec : current (pc_with (c_functions (n_processor x)) (c_since (n_processor x)) (c_doomed (n_processor x)) (Some k) (c_main (n_processor x)) (n_processor x)) = Some k) by (unfold current; cbn; rewrite Hw; reflexivity).
             split; rewrite Ec; [rewrite !outstanding_snoc; reflexivity|]. intros t. rewrite !runs_snoc, !heard_snoc, !got_app, got_task. specialize (F2 t). cbn. lia.
        * match goal with E : Some k' = c_task _ |- _ => rename E into Et end. cbn in Er. rewrite <- Et in Er. injection Er as <- <-. rewrite Hc0, <- Et in *.
          split; [rewrite outstanding_snoc, F1; reflexivity|]. intros t. rewrite runs_snoc, heard_snoc, got_app. specialize (F2 t). cbn in *. lia.
    - destruct Hcases as [Hw|[[[k Hw]|(k & f & Hw)] Hn]]; rewrite Hw in E; [injection E as <- <-; auto| |injection E as <- <-; auto].
      destruct (pc_get now (task_function k) (n_processor x)) as [q f] eqn:Eg. injection E as <- <-.
      assert (Hc0 : current (n_processor x) = Some k) by (unfold current; rewrite Hw; reflexivity). rewrite Hc0 in *. split; [exact F1|exact F2].
    - destruct Hcases as [Hw|[[[k Hw]|(k & f & Hw)] Hn]]; unfold p_run in E; rewrite Hw in E; try (injection E as <- <-; apply Hsame; [apply app_nil_r|reflexivity..]).
      assert (Hc0 : current (n_processor x) = Some k) by (unfold current; rewrite Hw; reflexivity). rewrite Hc0 in *.
      destruct f as [c|], o as [v|v|]; try done; injection E as <- <-.
      + rewrite two. split; [rewrite !outstanding_snoc; unfold current; cbn; symmetry; exact Hn|].
        intros t. rewrite !runs_snoc, ?outstanding_snoc, !heard_snoc, !app_nil_r, F1. specialize (F2 t). unfold current. cbn in *. rewrite Hn. cbn. lia.
      + rewrite two. split; [rewrite !outstanding_snoc; unfold current; cbn; symmetry; exact Hn|].
        intros t. rewrite !runs_snoc, ?outstanding_snoc, !heard_snoc, !app_nil_r, F1. specialize (F2 t). unfold current. cbn in *. rewrite Hn. cbn. lia.
      + rewrite app_nil_r. split; [rewrite Hc0; exact F1|rewrite Hc0; exact F2].
      + split; [rewrite !outstanding_snoc; unfold current; cbn; symmetry; exact Hn|].
        intros t. rewrite !runs_snoc, !heard_snoc, !app_nil_r. specialize (F2 t). unfold current. cbn in *. rewrite Hn. cbn. lia.
    - assert (E' : (p_scan now (n_processor x), n_calls x) = (p', h')) by (destruct Hcases as [Hw|[[[k Hw]|(k & f & Hw)] _]]; rewrite Hw in E; exact E).
      injection E' as <- <-. apply Hsame; [reflexivity|..]; unfold p_scan; destruct (c_doomed (n_processor x)); reflexivity.
    - assert (E' : (p_delete (n_processor x), n_calls x) = (p', h')) by (destruct Hcases as [Hw|[[[k Hw]|(k & f & Hw)] _]]; rewrite Hw in E; exact E).
      injection E' as <- <-. apply Hsame; [reflexivity|..]; unfold p_delete; destruct (c_doomed (n_processor x)); reflexivity.
  Qed.

  (** ** One agent *)
  Lemma agent_cases qs x Qws Qsw Q now e a' out : worker_ok T L known qs x Qws Qsw → Qsw = match e with WExt m => [m] | _ => [] end ++ Q →
    w_handle now e (n_agent x) = (a', out, None) → match e with WProc m => head (from_processor x) = Some m | _ => True end →
    (tasks_in (agent_handed out) = [] ∧ (a_task a' = a_task (n_agent x) ∨ ∃ k, a_task (n_agent x) = Some k ∧ task_id k ∈ results (agent_sent out))) ∨
    ∃ k, a_loop (n_agent x) = LInit k ∧ a_task (n_agent x) = None ∧ a_task a' = Some k ∧ agent_handed out = [MTask k].
  Proof.
    intros H HQ E He. pose proof (wo_sw _ _ _ _ _ _ _ H) as Hsw. destruct e as [m|m| | |]; cbn [w_handle] in E; cbn [app] in HQ.
    - left. rewrite HQ in Hsw. apply Forall_cons in Hsw as [Hm _]. destruct m; cbn in Hm; try done.
      + unfold wt_new in E. cbn in E. case_bool_decide; [discriminate|]. injection E as <- <-. auto.
      + unfold wt_balance in E. destruct (wt_take _ _) as [[a1 ts] [e|]] eqn:Et; [discriminate|]. injection E as <- <-. split; [reflexivity|]. left. exact (take_task _ _ _ _ _ Et).
      + unfold wh_echo in E. destruct (_ =? _); injection E as <- <-; auto.
      + subst type. injection E as <- <-. auto.
      + unfold wp_function_response in E. destruct (negb (a_init (n_agent x))); [injection E as <- <-; auto|]. destruct (a_task (n_agent x)) eqn:Ea; [|discriminate].
        destruct (negb _); [injection E as <- <-; auto|]. destruct status; injection E as <- <-; auto.
    - left. pose proof (wo_phase _ _ _ _ _ _ _ H) as Hp. inversion Hp; subst;
        match goal with E : _ = from_processor x |- _ => rewrite <- E in *; cbn in He; try discriminate; injection He as <- end.
      + unfold wp_result in E. repeat match goal with E' : _ = a_init _ |- _ => rewrite <- E' in E; clear E' | E' : _ = a_task _ |- _ => rewrite <- E' in *; clear E' end. cbn in E. injection E as <- <-. auto.
      + unfold wp_internal_request in E. repeat match goal with E' : _ = a_init _ |- _ => rewrite <- E' in E; clear E' end. match goal with E' : _ = a_task _ |- _ => rewrite <- E' in E; rename E' into Ea end. cbn in E.
        rewrite String.eqb_refl in E. injection E as <- <-. auto.
      + unfold wp_result in E. repeat match goal with E' : _ = a_init _ |- _ => rewrite <- E' in E; clear E' end. match goal with E' : _ = a_task _ |- _ => rewrite <- E' in E; rename E' into Ea end. cbn in E.
        rewrite String.eqb_refl in E. cbn in E. destruct (a_lock (n_agent x)); [|discriminate]. injection E as <- <-. split; [reflexivity|]. right. exists k. split; [auto|]. cbn. left.
    - unfold wt_loop in E. destruct (a_loop (n_agent x)) eqn:El.
      + left. destruct (a_ids (n_agent x)) as [|t ids]; [injection E as <- <-; auto|]. destruct (_ !! _); [|discriminate]. injection E as <- <-. auto.
      + left. destruct (a_lock (n_agent x)); injection E as <- <-; auto.
      + destruct (negb (a_init (n_agent x))); [left; injection E as <- <-; auto|]. destruct (a_task (n_agent x)) eqn:Ea; [discriminate|]. injection E as <- <-. right. exists k. auto.
    - left. unfold wh_routine in E. destruct (negb _); injection E as <- <-; auto.
    - left. unfold wo_routine in E. destruct (_ <? _); [|discriminate]. injection E as <- <-. auto.
  Qed.
End one.

(** ** The whole system *)
Definition handed_ids (x : worker) : list bytes := task_id <$> tasks_in (agent_handed (n_history x)).
Record worker_once (x : worker) : Prop := {
  wn_fair : fair (n_processor x) (n_calls x);
  wn_prefix : processor_heard (n_calls x) = take (length (processor_heard (n_calls x))) (agent_handed (n_history x));
  wn_nodup : NoDup (handed_ids x) }.
Definition ended (y : system) (t : bytes) : Prop :=
  ∃ c z, y_clients y !! c = Some z ∧ (t ∈ results (to_client y c) ∨ ∃ v, CSet (FTask t) v ∈ z.2).
Record once (y : system) : Prop := {
  on_worker w x : y_workers y !! w = Some x → worker_once x;
  on_one w w' x x' t : y_workers y !! w = Some x → y_workers y !! w' = Some x' → t ∈ handed_ids x → t ∈ handed_ids x' → w = w';
  on_where w x t : y_workers y !! w = Some x → t ∈ handed_ids x →
    (∃ k, a_task (n_agent x) = Some k ∧ task_id k = t) ∨ t ∈ results (to_scheduler y w) ∨ ended y t }.

(** Nothing that concerns the workers changes. *)
Lemma once_same y y' : once y → y_workers y' = y_workers y → (∀ w x, y_workers y !! w = Some x → to_scheduler y' w = to_scheduler y w) → (∀ t, ended y t → ended y' t) → once y'.
Proof.
  intros H E HQ He. split; rewrite E.
  - exact (on_worker _ H).
  - exact (on_one _ H).
  - intros w x t Hx Ht. rewrite (HQ w x Hx). destruct (on_where _ H w x t Hx Ht) as [|[|]]; auto.
Qed.

Lemma heard_step T L known qs x Qws Qsw now e : worker_ok T L known qs x Qws Qsw →
  match e with PRun o _ => o ≠ Ended | PMsg m loads => loads = true ∧ head (to_processor x) = Some m | _ => True end →
  processor_heard (n_calls x) = take (length (processor_heard (n_calls x))) (agent_handed (n_history x)) →
  processor_heard (n_calls (processor_step now e x)) = take (length (processor_heard (n_calls (processor_step now e x)))) (agent_handed (n_history x)).
Proof.
  intros HW He N2. unfold processor_step. destruct (p_step (n_processor x, n_calls x) (PRound now e)) as [p' h'] eqn:E. cbn [n_calls].
      assert (Hh : processor_heard h' = processor_heard (n_calls x) ∨ ∃ m, processor_heard h' = processor_heard (n_calls x) ++ [m] ∧ head (to_processor x) = Some m).
      { unfold p_step in E. destruct (c_main (n_processor x)) eqn:Em; [..|injection E as <- <-; auto]; destruct e as [m loads| |o d| |]; cbn [pr_event pr_now] in E; try (injection E as <- <-; auto; fail).
        - destruct (p_receive _ _ _ _) as [p1 o1] eqn:Er. injection E as <- <-. right. exists m. split; [|tauto]. destruct He as [-> _].
          assert (Eo : processor_heard o1 = []).
          { unfold p_receive in Er. destruct m; try (injection Er as <- <-; reflexivity).
            - destruct (pc_get _ _ _) as [q [b|]]; injection Er as <- <-; reflexivity.
            - destruct type; injection Er as <- <-; reflexivity.
            - cbn in Er. destruct (c_task _); injection Er as <- <-; reflexivity. }
          unfold processor_heard in *. rewrite omap_app. cbn. rewrite Eo. reflexivity.
        - unfold p_run in E. rewrite Em in E. injection E as <- <-. rewrite app_nil_r. auto.
        - destruct (pc_get _ _ _). injection E as <- <-. auto.
        - unfold p_run in E. rewrite Em in E. injection E as <- <-. rewrite app_nil_r. auto.
        - left. unfold p_run in E. rewrite Em in E. destruct f, o; injection E as <- <-; unfold processor_heard; rewrite omap_app; cbn; rewrite ?app_nil_r; reflexivity. }
      destruct Hh as [Hh|(m & Hh & Hm)]; rewrite Hh; [exact N2|]. apply head_cons in Hm as [Q HQ]. exact (take_more _ _ _ _ N2 HQ).
Qed.
Lemma results_back q : ∀ t, t ∈ results q → t ∈ back_ids q.
Proof.
  intros t. unfold results, back_ids. rewrite elem_of_list_omap. intros (m & Hm & E). apply elem_of_list_bind. exists m. split; [|exact Hm]. destruct m; try discriminate. injection E as ->. left.
Qed.

Section steps.
  Context (cfg : config) (g : ledger) (y : system) (H : flow cfg ∅ g y) (HO : once y).
  Lemma ended_gone t : ended y t → s_tasks (y_sched y) !! t = None.
  Proof.
    intros (c & z & Hz & Hr). destruct (s_tasks (y_sched y) !! t) eqn:E; [exfalso|reflexivity].
    assert (is_Some (o_v2k (s_clients (y_sched y)) !! t)) as [c' Hc'] by (apply (task_client _ _ _ _ H); eauto).
    destruct (fl_cl H _ _ Hc') as [z' Hz']. pose proof (flow_subs _ _ _ _ _ _ H Hz' Hc') as Hs'. destruct (fl_client H c z Hz) as (F & B & A & D & HC).
    pose proof (parts_nodup _ _ _ _ _ _ _ _ _ _ HC) as Hn.
    assert (Hin : t ∈ results (to_client y c) ++ D) by (apply elem_of_app; destruct Hr as [Hr|Hr]; [auto|right; apply (ko_D HC), Hr]).
    assert (Hs : t ∈ subs z.2) by (rewrite (ko_all HC); rewrite !elem_of_app in *; tauto).
    pose proof (fl_apart H _ _ _ _ _ Hz Hz' Hs Hs') as <-. apply (ko_A HC) in Hc'.
    rewrite !app_assoc in Hn. rewrite <- (app_assoc _ (results _)) in Hn. apply NoDup_app in Hn as (_ & Hn & _). apply (Hn t); [rewrite !elem_of_app; auto|exact Hin].
  Qed.

  (** A task about to be handed out was never handed out before. *)
  Lemma fresh_hand w x k : y_workers y !! w = Some x → a_loop (n_agent x) = LInit k → a_task (n_agent x) = None →
    ∀ w' x', y_workers y !! w' = Some x' → task_id k ∉ handed_ids x'.
  Proof.
    intros Hx El Et w' x' Hx' Hi. destruct (fl_worker H w x Hx) as (L & qs & HL & HW). destruct (fl_worker H w' x' Hx') as (L' & qs' & HL' & HW').
    assert (Hk : k ∈ held (to_agent y w x) qs (n_agent x)) by (unfold held; rewrite El; cbn; set_solver).
    pose proof (wo_all _ _ _ _ _ _ _ HW) as Ha. pose proof (wo_all _ _ _ _ _ _ _ HW') as Ha'.
    assert (HkL : task_id k ∈ L) by (rewrite Ha; apply elem_of_app; left; apply elem_of_list_fmap_1, Hk).
    assert (Hgo : task_id k ∈ L' → w' = w). { intros Hl%HL'. apply HL in HkL. congruence. }
    destruct (on_where _ HO w' x' _ Hx' Hi) as [(k' & Ek & Eid)|[Hr|He]].
    - assert (w' = w) as ->. { apply Hgo. rewrite Ha', <- Eid. apply elem_of_app. left. apply elem_of_list_fmap_1. unfold held. rewrite Ek. cbn. set_solver. }
      rewrite Hx in Hx'. injection Hx' as <-. congruence.
    - apply results_back in Hr. assert (w' = w) as ->. { apply Hgo. rewrite Ha'. apply elem_of_app. auto. }
      rewrite Hx in Hx'. injection Hx' as <-. pose proof (wo_nodup _ _ _ _ _ _ _ HW) as Hn. rewrite Ha in Hn. apply NoDup_app in Hn as (_ & Hn & _). apply (Hn (task_id k)); [apply elem_of_list_fmap_1, Hk|exact Hr].
    - apply ended_gone in He. rewrite (wo_tasks _ _ _ _ _ _ _ HW k Hk) in He. discriminate.
  Qed.

  Lemma ended_client c x' t : (∀ x, y_clients y !! c = Some x → (t ∈ results (to_client y c) → t ∈ results (to_client (set_client c x' y) c) ∨ ∃ v, CSet (FTask t) v ∈ x'.2) ∧ ∃ l, x'.2 = x.2 ++ l) →
    ended y t → ended (set_client c x' y) t.
  Proof.
    intros Hc (i & z & Hz & Hr). destruct (decide (i = c)) as [->|Hne].
    - destruct (Hc z Hz) as [H1 [l H2]]. exists c, x'. cbn [y_clients set_client]. rewrite lookup_insert. split; [reflexivity|]. destruct Hr as [Hr|[v Hv]]; [exact (H1 Hr)|]. right. exists v. rewrite H2. apply elem_of_app. auto.
    - exists i, z. cbn [y_clients set_client]. rewrite lookup_insert_ne by done. split; [exact Hz|]. rewrite (proj2 (queue_other_client y c x' i Hne)). exact Hr.
  Qed.

  Lemma once_agent w x now e Q : y_workers y !! w = Some x → to_agent y w x = match e with WExt m => [m] | _ => [] end ++ Q →
    match e with WProc m => head (from_processor x) = Some m | WTimeout => now - a_seen (n_agent x) < a_death (n_agent x) | _ => True end →
    once (set_worker w (agent_step now e x) y).
  Proof.
    intros Hx HQ He. destruct (flow_agent _ _ _ H w x now e Q Hx HQ He) as (out & _ & Es & HF & Eq & _).
    destruct (fl_worker H w x Hx) as (L & qs & HL & HW).
    assert (Hw' : y_workers (set_worker w (agent_step now e x) y) !! w = Some (agent_step now e x)) by (cbn; apply lookup_insert).
    destruct (fl_worker HF w _ Hw') as (L' & qs' & _ & HW').
    assert (Hnc : ∀ t, e ≠ WExt (MTaskCancel t)). { intros t ->. pose proof (wo_sw _ _ _ _ _ _ _ HW) as Hsw. rewrite HQ in Hsw. cbn in Hsw. apply Forall_cons in Hsw as [[] _]. }
    destruct (agent_inv now e x (wo_alive _ _ _ _ _ _ _ HW) (wo_alive _ _ _ _ _ _ _ HW') Hnc) as (a' & out' & E & Hout & Ea).
    assert (out = agent_sent out') as ->. { rewrite Ea in Es. cbn [n_history] in Es. unfold agent_sent in Es. rewrite omap_app in Es. apply app_inv_head in Es. symmetry. exact Es. }
    destruct (on_worker _ HO w x Hx) as [N1 N2 N3].
    assert (Eh : agent_handed (n_history (agent_step now e x)) = agent_handed (n_history x) ++ agent_handed out') by (rewrite Ea; cbn [n_history]; unfold agent_handed; rewrite omap_app; reflexivity).
    assert (En : n_agent (agent_step now e x) = a' ∧ n_processor (agent_step now e x) = n_processor x ∧ n_calls (agent_step now e x) = n_calls x) by (rewrite Ea; auto). destruct En as (En1 & En2 & En3).
    assert (Hend : ∀ t, ended y t → ended (set_worker w (agent_step now e x) y) t) by (intros t (c & z & Hz & Hr); exists c, z; auto).
    assert (Hids : handed_ids (agent_step now e x) = handed_ids x ++ (task_id <$> tasks_in (agent_handed out'))) by (unfold handed_ids; rewrite Eh, tasks_in_app, fmap_app; reflexivity).
    assert (Hpre : processor_heard (n_calls x) = take (length (processor_heard (n_calls x))) (agent_handed (n_history (agent_step now e x)))).
    { rewrite Eh, take_app_le; [exact N2|exact (wo_dlen _ _ _ _ _ _ _ HW)]. }
    set (x' := agent_step now e x) in *. clearbody x'.
    destruct (agent_cases _ _ _ qs x _ _ Q now e a' out' HW HQ E) as [[Hn Ht]|(k & El & Et & Et' & Hk)]; [destruct e; tauto|..].
    - rewrite Hn, app_nil_r in Hids. split.
      + intros i z. cbn. destruct (decide (i = w)) as [->|Hne]; [rewrite lookup_insert; intros [= <-]|rewrite lookup_insert_ne by done; exact (on_worker _ HO i z)].
        split; rewrite ?En2, ?En3, ?Hids; assumption.
      + intros i j z z' t. cbn. destruct (decide (i = w)) as [->|Hi], (decide (j = w)) as [->|Hj]; rewrite ?lookup_insert, ?lookup_insert_ne by done; auto.
        * intros [= <-] Hz'. rewrite Hids. exact (on_one _ HO w j x z' t Hx Hz').
        * intros Hz [= <-]. rewrite Hids. exact (on_one _ HO i w z x t Hz Hx).
        * exact (on_one _ HO i j z z' t).
      + intros i z t. cbn [y_workers set_worker]. destruct (decide (i = w)) as [->|Hi].
        * rewrite lookup_insert. intros [= <-]. rewrite Hids, Eq, En1, results_app, elem_of_app. intros Hi. destruct (on_where _ HO w x t Hx Hi) as [(k & Ek & Eid)|[Hr|Hr]]; auto.
          destruct Ht as [Ht|(k' & Ek' & Hr)]; [left; exists k; rewrite Ht; auto|]. rewrite Ek in Ek'. injection Ek' as <-. rewrite Eid in Hr. auto.
        * rewrite lookup_insert_ne by done. intros Hz Hh. rewrite (queue_other_worker y w x' i Hi). destruct (on_where _ HO i z t Hz Hh) as [|[|]]; auto.
    - rewrite Hk in Hids. cbn in Hids. pose proof (fresh_hand w x k Hx El Et) as Hfr. split.
      + intros i z. cbn. destruct (decide (i = w)) as [->|Hne]; [rewrite lookup_insert; intros [= <-]|rewrite lookup_insert_ne by done; exact (on_worker _ HO i z)].
        split; rewrite ?En2, ?En3; try assumption. rewrite Hids. apply NoDup_app. split; [exact N3|]. split; [|apply NoDup_singleton]. intros t Ht ->%elem_of_list_singleton. exact (Hfr _ _ Hx Ht).
      + intros i j z z' t. cbn. destruct (decide (i = w)) as [->|Hi], (decide (j = w)) as [->|Hj]; rewrite ?lookup_insert, ?lookup_insert_ne by done; auto.
        * intros [= <-] Hz'. rewrite Hids, elem_of_app, elem_of_list_singleton. intros [Ht| ->] Ht'; [exact (on_one _ HO w j x z' t Hx Hz' Ht Ht')|]. destruct (Hfr _ _ Hz' Ht').
        * intros Hz [= <-]. rewrite Hids, elem_of_app, elem_of_list_singleton. intros Ht' [Ht| ->]; [exact (on_one _ HO i w z x t Hz Hx Ht' Ht)|]. destruct (Hfr _ _ Hz Ht').
        * exact (on_one _ HO i j z z' t).
      + intros i z t. cbn [y_workers set_worker]. destruct (decide (i = w)) as [->|Hi].
        * rewrite lookup_insert. intros [= <-]. rewrite Hids, Eq, En1, results_app, !elem_of_app, elem_of_list_singleton. intros [Hi| ->]; [|left; eauto].
          destruct (on_where _ HO w x t Hx Hi) as [(k' & Ek & Eid)|[Hr|Hr]]; auto. congruence.
        * rewrite lookup_insert_ne by done. intros Hz Hh. rewrite (queue_other_worker y w x' i Hi). destruct (on_where _ HO i z t Hz Hh) as [|[|]]; auto.
  Qed.

  Lemma once_processor w x now e : y_workers y !! w = Some x →
    match e with PRun o _ => o ≠ Ended | PMsg m loads => loads = true ∧ head (to_processor x) = Some m | _ => True end →
    once (set_worker w (processor_step now e x) y).
  Proof.
    intros Hx He. destruct (flow_processor _ _ _ H w x now e Hx He) as (_ & En & Eh & HF & Eq & _).
    destruct (fl_worker H w x Hx) as (L & qs & HL & HW). destruct (on_worker _ HO w x Hx) as [N1 N2 N3].
    pose proof (fair_step _ _ _ qs x _ _ now e HW He N1) as N1'.
    pose proof (heard_step _ _ _ qs x _ _ now e HW He N2) as N2'.
    set (x' := processor_step now e x) in *. clearbody x'.
    assert (Hids : handed_ids x' = handed_ids x) by (unfold handed_ids; rewrite Eh; reflexivity). split.
    - intros i z. cbn. destruct (decide (i = w)) as [->|Hne]; [rewrite lookup_insert; intros [= <-]|rewrite lookup_insert_ne by done; exact (on_worker _ HO i z)].
      split; [exact N1'|rewrite Eh; exact N2'|rewrite Hids; exact N3].
    - intros i j z z' t. cbn. destruct (decide (i = w)) as [->|Hi], (decide (j = w)) as [->|Hj]; rewrite ?lookup_insert, ?lookup_insert_ne by done; auto.
      * intros [= <-] Hz'. rewrite Hids. exact (on_one _ HO w j x z' t Hx Hz').
      * intros Hz [= <-]. rewrite Hids. exact (on_one _ HO i w z x t Hz Hx).
      * exact (on_one _ HO i j z z' t).
    - intros i z t. cbn [y_workers set_worker]. destruct (decide (i = w)) as [->|Hi].
      * rewrite lookup_insert. intros [= <-]. rewrite Hids, Eq, En. intros Hi. destruct (on_where _ HO w x t Hx Hi) as [|[|(c & z & Hz & Hr)]]; auto. right; right. exists c, z. auto.
      * rewrite lookup_insert_ne by done. intros Hz Hh. rewrite (queue_other_worker y w x' i Hi). destruct (on_where _ HO i z t Hz Hh) as [|[|(c & z' & Hz' & Hr)]]; auto. right; right. exists c, z'. auto.
  Qed.
End steps.

(** A result that reaches the client becomes the value. *)
Lemma result_sets CL c F B A D k h Qcs t st d p Qsc : client_ok CL c F B A D k h Qcs (MTaskResult t st d p :: Qsc) → k_flight k = ∅ →
  ∃ v, CSet (FTask t) v ∈ (k_step (k, h) (KRecv (MTaskResult t st d p) true)).2.
Proof.
  intros H Hfl. pose proof (ko_sc H) as Hsc. apply Forall_cons in Hsc as [Hst _]. cbn in Hst.
  pose proof (parts_nodup _ _ _ _ _ _ _ _ _ _ H) as Hnd. change (results (MTaskResult t st d p :: Qsc)) with (t :: results Qsc) in Hnd. change (refused (MTaskResult t st d p :: Qsc)) with (refused Qsc) in Hnd.
  assert (Hperm : F ++ (task_id <$> B) ++ (task_id <$> tasks_in Qcs) ++ refused Qsc ++ A ++ (t :: results Qsc) ++ D ≡ₚ t :: F ++ (task_id <$> B) ++ (task_id <$> tasks_in Qcs) ++ refused Qsc ++ A ++ results Qsc ++ D) by solve_Permutation.
  rewrite Hperm in Hnd. apply NoDup_cons in Hnd as [Hnd _].
  assert (Hs : t ∈ subs h). { rewrite (ko_all H). change (results (MTaskResult t st d p :: Qsc)) with (t :: results Qsc). rewrite !elem_of_app, elem_of_cons. tauto. }
  assert (Ho : t ∉ oks Qsc) by (apply (ko_order H [] t st d p Qsc); reflexivity).
  assert (HnD : t ∉ D) by (intros HD; apply Hnd; rewrite !elem_of_app; tauto).
  assert (Hf : t ∈ k_futures k). { apply (ko_futures H). split; [exact Hs|]. split; [exact HnD|]. rewrite Hfl. apply lookup_empty. }
  assert (Hk : k_tasks k !! t = None). { apply eq_None_not_Some. intros Hk%(ko_known H). change (oks (MTaskResult t st d p :: Qsc)) with (oks Qsc) in Hk. change (refused (MTaskResult t st d p :: Qsc)) with (refused Qsc) in Hk. rewrite !elem_of_app in *. tauto. }
  pose proof (ko_state H t Hf) as Hst'. rewrite Hk in Hst'.
  assert (E : ∃ v, k_receive (MTaskResult t st d p) true k =
     (k_with_state (k_graphs k) (<[FTask t := FFinished]> (k_state k)) (k_with (k_tasks k) (k_bodies k) (pop_key t (k_futures k)) (k_buffer k) k), [CSet (FTask t) v], None)).
  { cbn. unfold k_result. rewrite (in_existsb _ _ Hf). unfold f_set. destruct Hst as [-> | ->]; cbn [k_with k_state]; rewrite Hst'; eauto. }
  destruct E as [v E]. exists v. unfold k_step, k_handle. rewrite (ko_up H), E. cbn. rewrite elem_of_app, !elem_of_cons. auto.
Qed.

Section sched.
  Context (cfg : config) (g : ledger) (y : system) (H : flow cfg ∅ g y).
  Lemma ended_sched r t : ended y t → ended (set_sched (step (y_sched y) r) y) t.
  Proof.
    intros (c & z & Hz & Hr). exists c, z. split; [exact Hz|]. destruct Hr as [Hr|Hr]; [left|right; exact Hr]. destruct (step_log (y_sched y) r) as (l & El & _).
    unfold to_client. cbn [y_sched set_sched]. rewrite El. unfold sent_to. rewrite omap_app. change (history_of (set_sched (step (y_sched y) r) y) c) with (history_of y c).
    rewrite on_the_way_sent, results_app, elem_of_app; [left; exact Hr|]. unfold history_of. rewrite Hz. exact (fl_clen H c z Hz).
  Qed.
  Lemma once_sched r : once y → (∀ w x, y_workers y !! w = Some x → to_scheduler (set_sched (step (y_sched y) r) y) w = to_scheduler y w) → once (set_sched (step (y_sched y) r) y).
  Proof. intros HO HQ. eapply once_same; [exact HO|reflexivity|exact HQ|]. intros t. apply ended_sched. Qed.
End sched.

Theorem once_act cfg g y a : c_max_waiting cfg < 0 → flow cfg ∅ g y → once y → orderly y a → once (act y a).
Proof.
  intros Hmax H HO Ho.
  destruct a as [c|w death now retention|c e|c m loads|now codes e|from m now codes|w now e|w m now|w m now|w now e|w m loads now].
  - cbn [act]. destruct (unused y c) eqn:Eu; [|exact HO]. pose proof (no_client _ _ _ H _ Eu) as Hc. pose proof (no_worker _ _ _ H _ Eu) as Hw.
    eapply once_same; [exact HO|reflexivity|..].
    + intros w x Hx. exact (proj1 (queue_other_client y c _ w ltac:(congruence))).
    + intros t. apply ended_client. congruence.
  - cbn [act]. destruct (unused y w) eqn:Eu; [|exact HO]. pose proof (no_client _ _ _ H _ Eu) as Hc. pose proof (no_worker _ _ _ H _ Eu) as Hw.
    destruct (w_init w death now) as [a h] eqn:Ew. destruct (p_init retention) as [p out] eqn:Ep. injection Ew as <- <-. injection Ep as <- <-.
    set (x := Node _ _ _ _ retention). assert (Hids : handed_ids x = []) by reflexivity. split.
    + intros i z. cbn. destruct (decide (i = w)) as [->|Hne]; [rewrite lookup_insert; intros [= <-]|rewrite lookup_insert_ne by done; exact (on_worker _ HO i z)].
      split; [split; [reflexivity|cbn; lia]|reflexivity|constructor].
    + intros i j z z' t. cbn. destruct (decide (i = w)) as [->|Hi], (decide (j = w)) as [->|Hj]; rewrite ?lookup_insert, ?lookup_insert_ne by done; auto.
      * intros [= <-] _. rewrite Hids. intros []%elem_of_nil.
      * intros _ [= <-]. rewrite Hids. intros _ []%elem_of_nil.
      * exact (on_one _ HO i j z z' t).
    + intros i z t. cbn [y_workers set_worker]. destruct (decide (i = w)) as [->|Hi].
      * rewrite lookup_insert. intros [= <-]. rewrite Hids. intros []%elem_of_nil.
      * rewrite lookup_insert_ne by done. intros Hz Hh. rewrite (queue_other_worker y w x i Hi). destruct (on_where _ HO i z t Hz Hh) as [|[|(c & z' & Hz' & Hr)]]; auto. right; right. exists c, z'. auto.
  - destruct (y_clients y !! c) as [x|] eqn:Hx; [|cbn [act]; rewrite Hx; exact HO].
    destruct (flow_user _ _ _ H c x e Hx) as (out & E & HF & _ & Eq & _).
    { destruct e; try done. cbn in Ho. destruct Ho as [Hn Ho]. split; [exact Hn|]. intros i z Hz (f' & n' & ct' & a' & Hi)%subs_in. eapply (Ho i). unfold history_of. rewrite Hz. exact Hi. }
    rewrite E. pose proof (not_worker _ _ _ _ (fl_ok H) Hx) as Hw. eapply once_same; [exact HO|reflexivity|..].
    + intros w x' Hx'. exact (proj1 (queue_other_client y c _ w ltac:(congruence))).
    + intros t. apply ended_client. intros x' Hx'. rewrite Hx in Hx'. injection Hx' as <-. rewrite Eq. split; [auto|]. destruct (kstep_history x e) as (o & -> & _). eauto.
  - cbn [orderly] in Ho. destruct Ho as (Hn & -> & Hfl). destruct (y_clients y !! c) as [x|] eqn:Hx; [|cbn [act]; rewrite Hx; exact HO].
    apply head_cons in Hn as [Q HQ]. destruct (flow_to_client _ _ _ H c x m Q Hx HQ (Hfl _ eq_refl)) as (out & E & Eh & HF & _ & Eq & _). rewrite E.
    pose proof (not_worker _ _ _ _ (fl_ok H) Hx) as Hw. eapply once_same; [exact HO|reflexivity|..].
    + intros w x' Hx'. exact (proj1 (queue_other_client y c _ w ltac:(congruence))).
    + intros t. apply ended_client. intros x' Hx'. rewrite Hx in Hx'. injection Hx' as <-. rewrite Eq, HQ. split; [|eauto].
      intros Ht. destruct m as [| | |t' st d p| | | | | | | | | | | | | | | |]; try (left; exact Ht).
      apply elem_of_cons in Ht as [-> |Ht]; [|left; exact Ht]. right. pose proof (fl_client H c x Hx) as (F & B & A & D & HC). rewrite HQ in HC. destruct x as [k h].
      eapply result_sets; [exact HC|]. exact (Hfl _ eq_refl).
  - cbn [act]. assert (Hd : s_dead (y_sched y) = None) by exact (c_dead _ _ _ _ _ (fl_core H)).
    destruct e as [i m| | | | |]; [exact HO|..]; (eapply once_sched; [exact H|exact HO|]; intros w x Hx; eapply (queue_in _ _ _ _ H); reflexivity).
  - destruct Ho as [Hn Hu]. apply head_cons in Hn as [Q HQ]. cbn [act].
    destruct (y_clients y !! from) as [x|] eqn:Hx.
    + rewrite (sent_of_client _ _ _ _ _ Hx HQ). eapply once_sched; [exact H|exact HO|]. intros w z Hz. eapply (queue_in _ _ _ _ H). cbn. rewrite eqb_ne; [reflexivity|]. intros ->.
      pose proof (not_worker _ _ _ _ (fl_ok H) Hx). congruence.
    + destruct (y_workers y !! from) as [x|] eqn:Hw.
      * rewrite (sent_of_worker _ _ _ H _ _ _ _ Hw HQ).
        assert (Hfrom : to_scheduler (set_sched (step (y_sched y) (Round now codes (ERecv from m))) y) from = Q) by (eapply (queue_in _ _ _ _ H); cbn; rewrite String.eqb_refl; exact HQ).
        assert (Hother : ∀ w, w ≠ from → to_scheduler (set_sched (step (y_sched y) (Round now codes (ERecv from m))) y) w = to_scheduler y w) by (intros w Hne; eapply (queue_in _ _ _ _ H); cbn; rewrite eqb_ne by done; reflexivity).
        split; [exact (on_worker _ HO)|exact (on_one _ HO)|]. intros w z t Hz Ht. cbn [y_workers set_sched] in Hz.
        destruct (on_where _ HO w z t Hz Ht) as [|[Hr|Hr]]; [auto| |right; right; eapply ended_sched; eassumption].
        destruct (decide (w = from)) as [->|Hne]; [|right; left; rewrite Hother by done; exact Hr].
        rewrite Hfrom. rewrite HQ in Hr. destruct m as [| | |t' st d p| | | | | | | | | | | | | | | |]; try (right; left; exact Hr).
        apply elem_of_cons in Hr as [-> |Hr]; [|auto]. right; right. pose proof (fl_worker H from x Hw) as HF. rewrite HQ in HF.
        destruct (effect_result _ _ _ _ _ _ _ _ _ _ _ HF) as (Hown & Hst & _). pose proof (fl_core H) as Hc. rewrite Hu in Hc. assert (Hpk : false = undispatched (s_log (y_sched y))) by (symmetry; exact Hu).
        destruct (round_result no_graphs (y_sched y) false g now codes Hc Hpk from (Result t' st d p) eq_refl Hown (lookup_empty _)) as (cl & Hcl & Hm & _). unfold MResult in Hm. cbn [r_id r_status r_duration r_payload] in *.
        destruct (fl_cl H _ _ Hcl) as [xc Hxc]. exists cl, xc. split; [exact Hxc|]. left. rewrite (queue_client _ _ _ (Round now codes (ERecv from _)) _ _ _ H Hm cl xc Hxc), results_app, for_part_one, String.eqb_refl. apply elem_of_app. right. cbn. left.
      * unfold to_scheduler, sent_by_part in HQ. rewrite Hx, Hw in HQ. unfold on_the_way in HQ. rewrite drop_nil in HQ. discriminate.
  - destruct (y_workers y !! w) as [x|] eqn:Hx; [|cbn [act]; rewrite Hx; exact HO]. cbn [act]. rewrite Hx. destruct e as [m|m| | |]; try exact HO.
    + exact (once_agent _ _ _ H HO w x now WLoop _ Hx eq_refl I).
    + exact (once_agent _ _ _ H HO w x now (WHeartbeat _ _ _ _) _ Hx eq_refl I).
    + exact (once_agent _ _ _ H HO w x now WTimeout _ Hx eq_refl (Ho _ Hx)).
  - destruct (y_workers y !! w) as [x|] eqn:Hx; [|cbn [act]; rewrite Hx; exact HO]. destruct (head_cons _ _ (Ho _ Hx)) as [Q HQ].
    cbn [act]. rewrite Hx. destruct (bool_decide _); [|exact HO]. exact (once_agent _ _ _ H HO w x now (WExt m) Q Hx HQ I).
  - destruct (y_workers y !! w) as [x|] eqn:Hx; [|cbn [act]; rewrite Hx; exact HO].
    cbn [act]. rewrite Hx. destruct (bool_decide _); [|exact HO]. exact (once_agent _ _ _ H HO w x now (WProc m) _ Hx eq_refl (Ho _ Hx)).
  - destruct (y_workers y !! w) as [x|] eqn:Hx; [|cbn [act]; rewrite Hx; exact HO]. cbn [act]. rewrite Hx. destruct e as [m loads| |o d| |]; [exact HO|..].
    + exact (once_processor _ _ _ H HO w x now PLook Hx I).
    + exact (once_processor _ _ _ H HO w x now (PRun o d) Hx Ho).
    + exact (once_processor _ _ _ H HO w x now PScan Hx I).
    + exact (once_processor _ _ _ H HO w x now PDelete Hx I).
  - destruct (y_workers y !! w) as [x|] eqn:Hx; [|cbn [act]; rewrite Hx; exact HO]. cbn [act]. rewrite Hx. destruct (bool_decide _); [|exact HO].
    destruct Ho as [-> Ho]. exact (once_processor _ _ _ H HO w x now (PMsg m true) Hx (conj eq_refl (Ho _ Hx))).
Qed.

Lemma once_boot c : once (boot c).
Proof. split; cbn; intros *; rewrite lookup_empty; discriminate. Qed.
Theorem once_run c acts : c_max_waiting c < 0 → orderly_run c acts → once (execute c acts).
Proof.
  intros Hmax. induction acts as [|a acts IH] using rev_ind; [intros _; apply once_boot|].
  intros [Hr Ha]%orderly_snoc. destruct (flow_run c acts Hmax Hr) as [g HF]. rewrite execute_snoc. eapply once_act; eauto.
Qed.

Lemma count_take t (l : list message) n : (got t (take n l) <= got t l)%nat.
Proof. rewrite <- (take_drop n l) at 2. rewrite got_app. lia. Qed.
Lemma runs_handed x t : worker_once x → (runs t (n_calls x) <= count_occ string_dec (handed_ids x) t)%nat.
Proof.
  intros [[_ F] P _]. specialize (F t). pose proof (count_take t (agent_handed (n_history x)) (length (processor_heard (n_calls x)))) as Hc. rewrite <- P in Hc. unfold got in *. unfold handed_ids. lia.
Qed.
Lemma runs_none x t : worker_once x → t ∉ handed_ids x → runs t (n_calls x) = 0%nat.
Proof.
  intros H Ht. pose proof (runs_handed x t H) as Hr. rewrite (proj1 (count_occ_not_In string_dec _ _)) in Hr; [lia|]. rewrite <- elem_of_list_In. exact Ht.
Qed.
Lemma runs_one x t : worker_once x → (runs t (n_calls x) <= 1)%nat.
Proof.
  intros H. pose proof (runs_handed x t H) as Hr. destruct H as [_ _ Hn]. rewrite NoDup_ListNoDup in Hn. pose proof (proj1 (NoDup_count_occ string_dec _) Hn t). lia.
Qed.
Lemma sum_zero {A} (f : A → nat) l : (∀ a, a ∈ l → f a = 0%nat) → sum_list_with f l = 0%nat.
Proof. induction l as [|a l IH]; intros H; cbn; [reflexivity|]. rewrite (H a) by left. rewrite IH; [reflexivity|]. intros b Hb. apply H. by right. Qed.
Lemma total_once y t : (∀ w x, y_workers y !! w = Some x → worker_once x) → (∀ w w' x x', y_workers y !! w = Some x → y_workers y !! w' = Some x' → t ∈ handed_ids x → t ∈ handed_ids x' → w = w') →
  (total_runs y t <= 1)%nat.
Proof.
  intros HW HO. unfold total_runs.
  destruct (list_find (λ p : bytes * worker, t ∈ handed_ids p.2) (map_to_list (y_workers y))) as [[n [w x]]|] eqn:E.
  - apply list_find_Some in E as (E & Ht & _). cbn in Ht. apply elem_of_list_lookup_2 in E. pose proof (proj1 (elem_of_map_to_list _ _ _) E) as Hx.
    pose proof (NoDup_fst_map_to_list (y_workers y)) as Hn. apply elem_of_list_split in E as (l1 & l2 & El).
    assert (Hz : ∀ p, p ∈ l1 ++ l2 → runs t (n_calls p.2) = 0%nat).
    { intros [w' x'] Hp. assert (Hx' : y_workers y !! w' = Some x') by (apply elem_of_map_to_list; rewrite El; rewrite elem_of_app, elem_of_cons in *; tauto).
      apply runs_none; [exact (HW w' x' Hx')|]. intros Ht'. pose proof (HO _ _ _ _ Hx Hx' Ht Ht') as <-.
      rewrite El, fmap_app, fmap_cons in Hn. rewrite <- Permutation_middle in Hn. apply NoDup_cons in Hn as [Hn _]. apply Hn. rewrite <- fmap_app. apply elem_of_list_fmap. exists (w, x'). auto. }
    rewrite El, sum_list_with_app. cbn [sum_list_with snd]. rewrite (sum_zero _ l1), (sum_zero _ l2) by (intros p Hp; apply Hz, elem_of_app; auto). pose proof (runs_one x t (HW w x Hx)). lia.
  - apply list_find_None in E. rewrite Forall_forall in E. rewrite sum_zero; [lia|]. intros [w x] Hi. apply runs_none; [|exact (E _ Hi)]. eapply HW, elem_of_map_to_list, Hi.
Qed.
Lemma once_total y t : once y → (total_runs y t <= 1)%nat.
Proof. intros H. apply total_once; [exact (on_worker _ H)|]. intros w w' x x'. exact (on_one _ H w w' x x' t). Qed.
Theorem orderly_once c acts t : c_max_waiting c < 0 → orderly_run c acts → (total_runs (execute c acts) t <= 1)%nat.
Proof. intros Hm Ho. apply once_total, once_run; assumption. Qed.
