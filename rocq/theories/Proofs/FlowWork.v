(** * Orderly executions: the work left in one worker (C82) *)

From Verif.Model Require Import Base Message Client Worker Processor Scheduler System.
From Verif.Spec Require Import FlowSpec.
From Verif.Proofs Require Import BaseProofs FlowWorker.

(** ** A bound on the steps to come *)
Definition work_sw (m : message) : nat := match m with MTask _ => 32 | MFunctionResponse _ _ _ _ => 14 | MBalanceRequest _ => 2 | MFunctionRequest _ _ _ _ => 3 | _ => 1 end.
Definition work_ws (m : message) : nat := match m with MFunctionRequest _ _ _ _ => 16 | MHeartbeat _ => 2 | _ => 1 end.
Definition work_down (m : message) : nat := match m with MTask _ => 20 | MFunctionResponse _ _ _ _ => 12 | _ => 1 end.
Definition work_up (m : message) : nat := match m with MFunctionRequest _ _ _ _ => 18 | _ => 6 end.
Definition work_loop (l : task_loop) : nat := match l with LGet => 0 | LLock _ => 28 | LInit _ => 26 end.
Definition work_main (m : main_thread) : nat := match m with Found _ => 10 | Calling _ _ => 8 | _ => 0 end.
Definition work_agent (a : agent) : nat := 30 * length (a_ids a) + work_loop (a_loop a).
Definition work (x : worker) (Qws Qsw : list message) : nat :=
  sum_list_with work_sw Qsw + sum_list_with work_ws Qws + work_agent (n_agent x) + sum_list_with work_down (to_processor x) + sum_list_with work_up (from_processor x) + work_main (c_main (n_processor x)).

Definition balancing (m : message) : Prop := match m with MBalanceRequest _ | MBalanceResponse _ => True | _ => False end.
Definition steady (q : list message) : Prop := Forall (λ m, ¬ balancing m) q.

(** ** Steps of the agent *)
Lemma handle_output now e a a' out eo : (∀ t, e ≠ WExt (MTaskCancel t)) → w_handle now e a = (a', out, eo) → Forall output out.
Proof.
  intros He. destruct e as [m|m| | |]; cbn [w_handle].
  - destruct m; try (intros [= <- <- <-]; constructor).
    + unfold wt_new. case_bool_decide; intros [= <- <- <-]; constructor.
    + exfalso. eapply He. reflexivity.
    + unfold wt_balance. destruct (wt_take _ _) as [[a1 ts] [e|]]; intros [= <- <- <-]; repeat constructor.
    + unfold wh_echo. destruct (_ =? _); intros [= <- <- <-]; constructor.
    + unfold wp_function_request. destruct type; intros [= <- <- <-]; repeat constructor.
    + unfold wp_function_response. destruct (negb (a_init a)); [intros [= <- <- <-]; constructor|]. destruct (a_task a); [|intros [= <- <- <-]; constructor].
      destruct (negb _); [intros [= <- <- <-]; constructor|]. destruct status; intros [= <- <- <-]; repeat constructor.
  - destruct m; try (intros [= <- <- <-]; constructor).
    + unfold wp_result. destruct (negb (a_init a)).
      * destruct (negb _); [intros [= <- <- <-]; constructor|]. destruct (a_task a); intros [= <- <- <-]; repeat constructor.
      * destruct (a_task a); [|intros [= <- <- <-]; constructor]. destruct (negb _); [intros [= <- <- <-]; constructor|]. destruct (a_lock a); intros [= <- <- <-]; repeat constructor.
    + unfold wp_internal_request. destruct (negb (a_init a)); [intros [= <- <- <-]; constructor|]. destruct (a_task a); [|intros [= <- <- <-]; constructor].
      destruct (negb _); [intros [= <- <- <-]; constructor|]. destruct type; intros [= <- <- <-]; repeat constructor.
  - unfold wt_loop. destruct (a_loop a).
    + destruct (a_ids a); [intros [= <- <- <-]; constructor|]. destruct (_ !! _); intros [= <- <- <-]; constructor.
    + destruct (a_lock a); intros [= <- <- <-]; constructor.
    + destruct (negb _); [intros [= <- <- <-]; constructor|]. destruct (a_task a); intros [= <- <- <-]; repeat constructor.
  - unfold wh_routine. destruct (negb _); intros [= <- <- <-]; repeat constructor.
  - unfold wo_routine. destruct (_ <? _); intros [= <- <- <-]; constructor.
Qed.
Lemma agent_inv now e x : a_dead (n_agent x) = None → a_dead (n_agent (agent_step now e x)) = None → (∀ t, e ≠ WExt (MTaskCancel t)) →
  ∃ a' out, w_handle now e (n_agent x) = (a', out, None) ∧ Forall output out ∧ agent_step now e x = Node a' (n_history x ++ WIn now e :: out) (n_processor x) (n_calls x) (n_retention x).
Proof.
  intros Hd Hd' He. destruct (w_handle now e (n_agent x)) as [[a' out] [err|]] eqn:E.
  - exfalso. unfold agent_step, w_step in Hd'. rewrite Hd in Hd'. cbn [wr_now wr_event] in Hd'. rewrite E in Hd'. destruct (bool_decide _); discriminate Hd'.
  - pose proof (handle_output _ _ _ _ _ _ He E) as Ho. exists a', out. split; [reflexivity|]. split; [exact Ho|]. apply agent_step_eq; [exact Hd|exact E|]. intros Hi. rewrite Forall_forall in Ho. exact (Ho _ Hi).
Qed.
Lemma take_less n : ∀ a a' ts, wt_take n a = (a', ts, None) → (length (a_ids a') <= length (a_ids a))%nat ∧ a_loop a' = a_loop a.
Proof.
  induction n as [|n IH]; intros a a' ts; cbn [wt_take]; [intros [= <- <-]; auto|]. destruct (a_ids a) as [|t ids] eqn:Ei; [discriminate|]. destruct (a_tasks a !! t); [|discriminate].
  destruct (wt_take n _) as [[a1 ts1] e1] eqn:E. intros [= <- <- ->]. destruct (IH _ _ _ E) as [E1 E2]. cbn in *. split; [lia|exact E2].
Qed.

Definition loop_ready (a : agent) : Prop := match a_loop a with LGet => a_ids a ≠ [] | LLock _ => a_lock a = false | LInit _ => a_init a = true end.
Section steps.
  Context (T : gmap bytes task) (L : list bytes) (known : Prop).
  Lemma agent_queues qs x Qws Qsw now e a' out : worker_ok T L known qs x Qws Qsw → Forall output out → match e with WProc m => head (from_processor x) = Some m | _ => True end →
    let x' := Node a' (n_history x ++ WIn now e :: out) (n_processor x) (n_calls x) (n_retention x) in
    to_processor x' = to_processor x ++ agent_handed out ∧ from_processor x' = match e with WProc _ => tail (from_processor x) | _ => from_processor x end.
  Proof.
    intros H Ho HU. cbv zeta. split.
    - unfold to_processor, agent_handed. cbn [n_history n_calls]. rewrite omap_app. apply on_the_way_sent, (wo_dlen _ _ _ _ _ _ _ H).
    - unfold from_processor. cbn [n_history n_calls]. rewrite told_ext by exact Ho. destruct e as [| m | | |]; rewrite ?app_nil_r; try reflexivity.
      destruct (from_processor x) as [|m' q] eqn:EU; [discriminate|]. injection HU as ->. unfold from_processor in EU. rewrite EU. apply on_the_way_heard, EU.
  Qed.
  Lemma agent_less qs x Qws Qsw Q now e a' out : worker_ok T L known qs x Qws Qsw → Qsw = match e with WExt m => [m] | _ => [] end ++ Q →
    w_handle now e (n_agent x) = (a', out, None) →
    match e with WExt _ => True | WProc m => head (from_processor x) = Some m | WLoop => loop_ready (n_agent x) | _ => False end →
    let x' := Node a' (n_history x ++ WIn now e :: out) (n_processor x) (n_calls x) (n_retention x) in
    (work x' (Qws ++ agent_sent out) Q < work x Qws Qsw)%nat ∧ (steady Qsw → steady (agent_sent out)).
  Proof.
    intros H HQ E He. cbv zeta. pose proof (wo_sw _ _ _ _ _ _ _ H) as Hsw.
    assert (Hc : ∀ t, e ≠ WExt (MTaskCancel t)). { intros t ->. rewrite HQ in Hsw. cbn in Hsw. apply Forall_cons in Hsw as [[] _]. }
    pose proof (handle_output _ _ _ _ _ _ Hc E) as Ho.
    destruct (agent_queues qs x Qws Qsw now e a' out H Ho) as [G1 G2]; [destruct e; tauto|]. unfold work. rewrite G1, G2, HQ, !sum_list_with_app. cbn [n_agent n_processor].
    cut ((sum_list_with work_ws (agent_sent out) + work_agent a' + sum_list_with work_down (agent_handed out) + sum_list_with work_up (match e with WProc _ => tail (from_processor x) | _ => from_processor x end) <
      sum_list_with work_sw match e with WExt m => [m] | _ => [] end + work_agent (n_agent x) + sum_list_with work_up (from_processor x))%nat ∧ (steady (match e with WExt m => [m] | _ => [] end) → steady (agent_sent out))).
    { intros [H1 H2]. split; [lia|]. intros Hs. apply Forall_app in Hs as [Hs _]. exact (H2 Hs). }
    clear G1 G2. unfold work_agent, steady. destruct e as [m|m| | |]; try done; cbn [w_handle] in E; cbn [app] in HQ.
    - rewrite HQ in Hsw. apply Forall_cons in Hsw as [Hm _]. destruct m; cbn in Hm; try done.
      + unfold wt_new in E. cbn in E. case_bool_decide; [discriminate|]. injection E as <- <-. cbn. rewrite app_length. cbn. split; [lia|constructor].
      + unfold wt_balance in E. destruct (wt_take _ _) as [[a1 ts] [e|]] eqn:Et; [discriminate|]. injection E as <- <-. apply take_less in Et as [E1 E2]. rewrite E2. cbn. split; [lia|]. intros Hs. apply Forall_cons in Hs as [[] _]. exact I.
      + unfold wh_echo in E. destruct (_ =? _); injection E as <- <-; cbn; (split; [lia|constructor]).
      + subst type. injection E as <- <-. cbn. split; [lia|constructor].
      + unfold wp_function_response in E. destruct (negb (a_init (n_agent x))); [injection E as <- <-; cbn; split; [lia|constructor]|]. destruct (a_task (n_agent x)); [|discriminate].
        destruct (negb _); [injection E as <- <-; cbn; split; [lia|constructor]|]. destruct status; injection E as <- <-; cbn; (split; [lia|constructor]).
    - pose proof (wo_phase _ _ _ _ _ _ _ H) as Hp. inversion Hp; subst;
        match goal with E : _ = from_processor x |- _ => rewrite <- E in *; cbn in He; try discriminate; injection He as <- end.
      + unfold wp_result in E. repeat match goal with E' : _ = a_init _ |- _ => rewrite <- E' in E; clear E' | E' : _ = a_task _ |- _ => rewrite <- E' in E; clear E' end. cbn in E. injection E as <- <-. cbn. split; [lia|constructor].
      + unfold wp_internal_request in E. repeat match goal with E' : _ = a_init _ |- _ => rewrite <- E' in E; clear E' | E' : _ = a_task _ |- _ => rewrite <- E' in E; clear E' end. cbn in E.
        rewrite String.eqb_refl in E. injection E as <- <-. cbn. split; [lia|]. intros _. repeat constructor. tauto.
      + unfold wp_result in E. repeat match goal with E' : _ = a_init _ |- _ => rewrite <- E' in E; clear E' | E' : _ = a_task _ |- _ => rewrite <- E' in E; clear E' end. cbn in E.
        rewrite String.eqb_refl in E. cbn in E. destruct (a_lock (n_agent x)); [|discriminate]. injection E as <- <-. cbn. split; [lia|]. intros _. repeat constructor. tauto.
    - unfold wt_loop in E. unfold loop_ready in He. destruct (a_loop (n_agent x)).
      + destruct (a_ids (n_agent x)) as [|t ids]; [done|]. destruct (_ !! _); [|discriminate]. injection E as <- <-. cbn. split; [lia|constructor].
      + rewrite He in E. injection E as <- <-. cbn. split; [lia|constructor].
      + rewrite He in E. cbn in E. destruct (a_task (n_agent x)); [discriminate|]. injection E as <- <-. cbn. split; [lia|constructor].
  Qed.

  (** ** Steps of the processor *)
  Lemma processor_queues qs x Qws Qsw now e p' l : worker_ok T L known qs x Qws Qsw → p_step (n_processor x, n_calls x) (PRound now e) = (p', n_calls x ++ l) →
    processor_heard l = [] ∨ (∃ m, processor_heard l = [m] ∧ head (to_processor x) = Some m) →
    processor_step now e x = Node (n_agent x) (n_history x) p' (n_calls x ++ l) (n_retention x) ∧
    from_processor (processor_step now e x) = from_processor x ++ processor_sent l ∧ to_processor (processor_step now e x) = drop (length (processor_heard l)) (to_processor x).
  Proof.
    intros H E Hl. unfold processor_step. rewrite E. split; [reflexivity|]. set (x' := Node _ _ _ _ _). split.
    - unfold from_processor, x', processor_sent. cbn [n_history n_calls]. rewrite omap_app. apply on_the_way_sent, (wo_ulen _ _ _ _ _ _ _ H).
    - unfold to_processor, x'. cbn [n_history n_calls]. unfold processor_heard at 1. rewrite omap_app. fold (processor_heard (n_calls x)) (processor_heard l).
      destruct Hl as [Hl|(m & Hl & Hm)]; rewrite Hl; cbn [length]; [rewrite app_nil_r, drop_0; auto|].
      destruct (to_processor x) as [|m' q] eqn:ED; [discriminate|]. injection Hm as ->. unfold to_processor in ED. rewrite ED. apply on_the_way_heard, ED.
  Qed.
  Definition turn (x : worker) (e : pevent) : Prop :=
    match c_main (n_processor x), e with
    | Found _, PLook => True
    | Calling _ (Some _), PRun o _ => o ≠ Ended
    | Calling _ None, PRun (Raised _) _ => True
    | Waiting, PMsg m loads => loads = true ∧ head (to_processor x) = Some m
    | _, _ => False
    end.
  Lemma processor_less qs x Qws Qsw now e : worker_ok T L known qs x Qws Qsw → turn x e → (work (processor_step now e x) Qws Qsw < work x Qws Qsw)%nat.
  Proof.
    intros H He. unfold turn in He.
    assert (Hgo : ∀ p' l, p_step (n_processor x, n_calls x) (PRound now e) = (p', n_calls x ++ l) → processor_heard l = [] ∨ (∃ m, processor_heard l = [m] ∧ head (to_processor x) = Some m) →
      (sum_list_with work_up (processor_sent l) + sum_list_with work_down (drop (length (processor_heard l)) (to_processor x)) + work_main (c_main p') < sum_list_with work_down (to_processor x) + work_main (c_main (n_processor x)))%nat →
      (work (processor_step now e x) Qws Qsw < work x Qws Qsw)%nat).
    { intros p' l E Hl Hw. destruct (processor_queues _ _ _ _ _ _ _ _ H E Hl) as (E1 & E2 & E3). unfold work. rewrite E2, E3, sum_list_with_app, E1. cbn [n_agent n_processor]. lia. }
    pose proof (wo_phase _ _ _ _ _ _ _ H) as Hp. unfold p_step in Hgo. destruct (c_main (n_processor x)) as [|k|k f|] eqn:Em; destruct e as [m loads| |o d| |]; try done; try (destruct f; done); cbn [pr_event pr_now] in Hgo.
    - destruct He as [-> Hm]. destruct (to_processor x) as [|m' D] eqn:ED; [discriminate|]. injection Hm as ->.
      destruct (p_receive now m true (n_processor x)) as [p' out] eqn:Er.
      apply (Hgo p' (PIn m :: out)); [reflexivity|..].
      + right. exists m. split; [|reflexivity]. change (processor_heard (PIn m :: out)) with (m :: processor_heard out). f_equal. clear -Er.
        destruct m; cbn in Er; try (injection Er as <- <-; reflexivity).
        * destruct (pc_get _ _ _) as [q [b|]]; injection Er as <- <-; reflexivity.
        * destruct type; injection Er as <- <-; reflexivity.
        * destruct (c_task (n_processor x)); injection Er as <- <-; reflexivity.
      + assert (Hl : processor_heard (PIn m :: out) = [m]).
        { change (processor_heard (PIn m :: out)) with (m :: processor_heard out). f_equal. clear -Er.
          destruct m; cbn in Er; try (injection Er as <- <-; reflexivity).
          * destruct (pc_get _ _ _) as [q [b|]]; injection Er as <- <-; reflexivity.
          * destruct type; injection Er as <- <-; reflexivity.
          * destruct (c_task (n_processor x)); injection Er as <- <-; reflexivity. }
        rewrite Hl. cbn [length drop sum_list_with]. change (processor_sent (PIn m :: out)) with (processor_sent out).
        cut ((sum_list_with work_up (processor_sent out) + work_main (c_main p') < work_down m)%nat); [rewrite drop_0; cbn [work_main]; lia|]. clear Hgo Hl.
        destruct m; cbn [p_receive] in Er; try (injection Er as <- <-; cbn; rewrite Em; cbn; lia).
        * unfold pc_get in Er. destruct (c_functions (n_processor x) !! task_function t); injection Er as <- <-; cbn; rewrite ?Em; cbn; lia.
        * destruct type; injection Er as <- <-; cbn; rewrite Em; cbn; lia.
        * cbn in Er. destruct (c_task (n_processor x)); injection Er as <- <-; cbn; lia.
    - destruct (pc_get now (task_function k) (n_processor x)) as [q b]. apply (Hgo (pc_main (Calling k b) q) []); [rewrite app_nil_r; reflexivity|auto|]. cbn [processor_sent processor_heard omap list_omap length]. rewrite drop_0. cbn. lia.
    - unfold p_run in Hgo. rewrite Em in Hgo. destruct f as [b|]; destruct o as [v|v|]; try done.
      + eapply Hgo; [reflexivity|left; reflexivity|]. cbn [processor_sent processor_heard omap list_omap length]. rewrite drop_0. cbn. lia.
      + eapply Hgo; [reflexivity|left; reflexivity|]. cbn [processor_sent processor_heard omap list_omap length]. rewrite drop_0. cbn. lia.
      + eapply Hgo; [reflexivity|left; reflexivity|]. cbn [processor_sent processor_heard omap list_omap length]. rewrite drop_0. cbn. lia.
  Qed.

  (** ** When nothing is left to do *)
  Lemma worker_stuck qs x : worker_ok T L known qs x [] [] → from_processor x = [] → to_processor x = [] → c_main (n_processor x) = Waiting → ¬ loop_ready (n_agent x) → L = [].
  Proof.
    intros H HU HD Hm Hl. pose proof (wo_phase _ _ _ _ _ _ _ H) as Hp. rewrite HU, HD, Hm in Hp. cbn in Hp.
    assert (Hi : a_task (n_agent x) = None ∧ a_init (n_agent x) = true) by (inversion Hp; auto). destruct Hi as [Ht Hi].
    pose proof (wo_lock _ _ _ _ _ _ _ H) as Hlk. rewrite Ht in Hlk. unfold loop_ready in Hl. destruct (a_loop (n_agent x)) eqn:El; [|tauto..].
    pose proof (wo_all _ _ _ _ _ _ _ H) as Ha. unfold held in Ha. rewrite El, Ht in Ha. cbn in Ha. rewrite !app_nil_r, <- (wo_ids _ _ _ _ _ _ _ H) in Ha.
    destruct (a_ids (n_agent x)); [|exfalso; apply Hl; discriminate]. by apply Permutation_nil.
  Qed.
End steps.
