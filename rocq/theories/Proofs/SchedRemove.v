(** Removal of workers: silent ones (C33) and on request (C39). *)

From Verif.Model Require Import Base OneToManyDict PriorityQueue Allocator Message Sorter Scheduler.
From Verif.Spec Require Import AllocatorSpec DictSpec SchedulerSpec.
From Verif.Proofs Require Import BaseProofs DictProofs AllocatorProofs SchedWp SchedCount SchedHold SchedContent SchedSend SchedPrim SchedFn SchedGlobal SchedStep.

(** ** Heartbeat times *)
Lemma last_beat_snoc w h e : last_beat w (h ++ [e]) =
  match e with LIn now (ERecv w' (MHeartbeat b)) => if String.eqb w' w then Some (now, b) else last_beat w h | _ => last_beat w h end.
Proof. unfold last_beat. rewrite foldl_app. reflexivity. Qed.
Lemma prim_beat a d b s s' w p : rtc (prim a d b False) s s' → s_alive s' !! w = Some p →
  s_alive s !! w = Some p ∧ last_beat w (s_log s') = last_beat w (s_log s).
Proof.
  intros H; induction H as [s|s1 s2 s3 H _ IH]; [auto|]. intros Hp. destruct (IH Hp) as [Ha Hl].
  destruct H; ss; auto; [..|done].
  - split; [exact Ha|]. rewrite Hl, last_beat_snoc. destruct e; cbn in *; tauto.
  - apply lookup_delete_Some in Ha as [_ Ha]. auto.
Qed.
Lemma alive_beat c rs w p : s_dead (run c rs) = None → s_alive (run c rs) !! w = Some p → last_beat w (s_log (run c rs)) = Some p.
Proof.
  revert w p. induction rs as [|r rs IH] using rev_ind; intros w p; [intros _ H; cbn in H; rewrite lookup_empty in H; discriminate|].
  rewrite run_snoc. set (s := run c rs) in *. destruct (s_dead s) eqn:Hd; [rewrite (step_dead _ _ _ Hd); congruence|]. specialize (IH).
  assert ((∃ src h, rd_event r = ERecv src (MHeartbeat h)) ∨ ¬ (∃ src h, rd_event r = ERecv src (MHeartbeat h))) as [(src & h & E)|Hn].
  { destruct (rd_event r) as [src m| | | | |]; try (right; intros (? & ? & ?); discriminate).
    destruct m; try (right; intros (? & ? & ?); discriminate). left. eauto. }
  - intros _. destruct r as [now codes ev]; cbn in E; subst ev.
    match goal with |- context [step ?s ?r] => pattern (step s r) end. apply step_wp; [exact Hd|]. cbn [handle on_receive rd_event rd_now rd_codes].
    unfold wm_heartbeat. wstep. wstep. ss. destruct (al_add_worker _ _) as [a' b]. wsteps; ss; rewrite lookup_insert_Some, ?last_beat_snoc.
    all: intros [[<- <-]|[Hne Hw]]; [rewrite String.eqb_refl; reflexivity|]; destruct (String.eqb_spec src w); [congruence|]; apply IH; auto.
  - intros Hd' Hp. assert (Hr : round_adds (λ _ _ _, True) (λ _, True) True False s (rd_event r)).
    { pose proof (all_ok s (rd_event r)) as Ha. destruct (rd_event r) as [src m| | | | |]; auto. destruct m; auto. destruct Hn. eauto. }
    destruct (round_path _ _ _ _ s r Hd Hr) as (s1 & Hpa & [Hs|[e Hs]]); rewrite Hs in *; [|ss; discriminate].
    destruct (prim_beat _ _ _ _ _ _ _ Hpa Hp) as [H1 H2]. rewrite H2. ss. rewrite last_beat_snoc, (IH w p eq_refl H1).
    destruct (rd_event r) as [src m| | | | |]; auto. destruct m; auto. destruct Hn. eauto.
Qed.

(** ** Requeueing *)
Definition is_monitor (e : entry) : Prop := match e with LMonitor _ => True | _ => False end.
Lemma monitor_quiet l : Forall is_monitor l → Forall quiet l.
Proof. intros H. eapply Forall_impl; [exact H|]. intros []; cbn; tauto. Qed.
(** [s'] is [s] with [ids] moved from the running tasks to the queue. *)
Record requeued (ids : list bytes) (l : history) (s s' : sched) : Prop := {
  rq_unassigned : s_unassigned s' = s_unassigned s ++ ids;
  rq_running : s_running s' = s_running s ∖ list_to_set ids;
  rq_log : s_log s' = s_log s ++ l;
  rq_quiet : Forall is_monitor l;
  rq_alloc : s_alloc s' = s_alloc s;
  rq_cfg : s_cfg s' = s_cfg s;
  rq_now : s_now s' = s_now s;
  rq_same : untouched (set_unassigned (λ _, s_unassigned s') (set_running (λ _, s_running s') s)) s' }.
Lemma reroutes_spec ids s : wp (foreach ids tm_reroute) (λ _ s', ∃ l, requeued ids l s s') any5 s.
Proof.
  revert s; induction ids as [|t ids IH]; intros s; cbn [foreach].
  - exists []. split; ss; rewrite ?app_nil_r; try reflexivity; [set_solver|constructor|split; reflexivity].
  - wstep. unfold tm_reroute at 1, tm_put, tm_monitor, fm_get_name. wsteps; auto.
    eapply wp_mono; [apply IH| |auto]. cbv beta. intros _ s' [l [A1 A2 A3 A4 A5 A6 A7 A8]]. ss.
    eexists (_ :: l). split; ss; auto.
    + rewrite A1, <- app_assoc. reflexivity.
    + rewrite A2. set_solver.
    + rewrite A3, <- app_assoc. reflexivity.
    + constructor; [exact I|exact A4].
    + destruct A8; split; ss; assumption.
Qed.
Lemma held_by_eq w h : held_by (λ x, x = w) h = tasks_of (Ledger (registered h) (holder h)) w.
Proof. reflexivity. Qed.

Record removal (ws ids : list bytes) (l : history) (s s' : sched) : Prop := {
  rm_unassigned : s_unassigned s' = s_unassigned s ++ ids;
  rm_running : s_running s' = s_running s ∖ list_to_set ids;
  rm_log : s_log s' = s_log s ++ l;
  rm_entries e : e ∈ l → is_monitor e ∨ ∃ w, w ∈ ws ∧ e = LDisconnected w;
  rm_said w : w ∈ ws → LDisconnected w ∈ l;
  rm_alive w : s_alive s' !! w = if decide (w ∈ ws) then None else s_alive s !! w;
  rm_registered : registered (s_log s') = registered (s_log s) ∖ list_to_set ws;
  rm_holder : holder (s_log s') = filter (λ p, p.2 ∉ ws) (holder (s_log s));
  rm_ids t : t ∈ ids ↔ ∃ w, w ∈ ws ∧ holder (s_log s) !! t = Some w;
  rm_nodup : NoDup ids;
  rm_cfg : s_cfg s' = s_cfg s;
  rm_now : s_now s' = s_now s;
  rm_same : untouched (set_unassigned (λ _, s_unassigned s') (set_running (λ _, s_running s') (set_alive (λ _, s_alive s') s))) s' }.
Lemma removal_nil s : removal [] [] [] s s.
Proof.
  split; ss; rewrite ?app_nil_r; try reflexivity; try set_solver; try (split; reflexivity); [|constructor].
  symmetry. apply map_filter_id. intros t w _. cbn. set_solver.
Qed.
Lemma removal_trans ws1 ws2 ids1 ids2 l1 l2 s1 s2 s3 : removal ws1 ids1 l1 s1 s2 → removal ws2 ids2 l2 s2 s3 →
  removal (ws1 ++ ws2) (ids1 ++ ids2) (l1 ++ l2) s1 s3.
Proof.
  intros A B. split.
  - rewrite (rm_unassigned _ _ _ _ _ B), (rm_unassigned _ _ _ _ _ A), app_assoc. reflexivity.
  - rewrite (rm_running _ _ _ _ _ B), (rm_running _ _ _ _ _ A). set_solver.
  - rewrite (rm_log _ _ _ _ _ B), (rm_log _ _ _ _ _ A), app_assoc. reflexivity.
  - intros e [He|He]%elem_of_app; [apply (rm_entries _ _ _ _ _ A) in He as [?|(w & Hw & ?)]|apply (rm_entries _ _ _ _ _ B) in He as [?|(w & Hw & ?)]]; auto;
      right; exists w; (split; [apply elem_of_app; auto|assumption]).
  - intros w [Hw|Hw]%elem_of_app; apply elem_of_app; [left; apply (rm_said _ _ _ _ _ A), Hw|right; apply (rm_said _ _ _ _ _ B), Hw].
  - intros w. rewrite (rm_alive _ _ _ _ _ B), (rm_alive _ _ _ _ _ A).
    destruct (decide (w ∈ ws2)), (decide (w ∈ ws1)), (decide (w ∈ ws1 ++ ws2)) as [H|H]; rewrite ?elem_of_app in H; tauto.
  - rewrite (rm_registered _ _ _ _ _ B), (rm_registered _ _ _ _ _ A). set_solver.
  - rewrite (rm_holder _ _ _ _ _ B), (rm_holder _ _ _ _ _ A). apply map_eq. intros t. apply option_eq. intros w.
    rewrite !map_filter_lookup_Some. cbn. rewrite elem_of_app. tauto.
  - intros t. rewrite elem_of_app, (rm_ids _ _ _ _ _ A), (rm_ids _ _ _ _ _ B), (rm_holder _ _ _ _ _ A). split.
    + intros [(w & Hw & Ht)|(w & Hw & Ht)]; exists w; (split; [apply elem_of_app; auto|]); [exact Ht|]. apply map_filter_lookup_Some in Ht as [Ht _]. exact Ht.
    + intros (w & Hw & Ht). destruct (decide (w ∈ ws1)) as [H1|H1]; [eauto|]. right. exists w. split; [apply elem_of_app in Hw; tauto|].
      apply map_filter_lookup_Some. auto.
  - apply NoDup_app. split; [apply A|]. split; [|apply B]. intros t H1 H2. apply (rm_ids _ _ _ _ _ A) in H1 as (w1 & Hw1 & H1).
    apply (rm_ids _ _ _ _ _ B) in H2 as (w2 & Hw2 & H2). rewrite (rm_holder _ _ _ _ _ A) in H2. apply map_filter_lookup_Some in H2 as [H2 H3].
    cbn in H3. congruence.
  - rewrite (rm_cfg _ _ _ _ _ B). apply A.
  - rewrite (rm_now _ _ _ _ _ B). apply A.
  - destruct (rm_same _ _ _ _ _ A), (rm_same _ _ _ _ _ B). split; ss; congruence.
Qed.
Lemma I2_alive_reg s w : I2 [] s → is_Some (s_alive s !! w) ↔ w ∈ registered (s_log s).
Proof. intros H. rewrite <- (i2_alive _ _ H). symmetry. apply elem_of_dom. Qed.
Lemma drop_spec w s : I2 [] s →
  wp (wm_drop w) (λ b s', if decide (w ∈ registered (s_log s)) then b = true ∧ I2 [] s' ∧ ∃ ids l, removal [w] ids (LDisconnected w :: l) s s' ∧ Forall is_monitor l
                          else b = false ∧ s' = s) any5 s.
Proof.
  intros H. assert (HI : wp (wm_drop w) (λ _ s', I2 [] s') crash2 s) by (apply I2_drop; exact H).
  enough (HR : wp (wm_drop w) (λ b s', if decide (w ∈ registered (s_log s)) then b = true ∧ ∃ ids l, removal [w] ids (LDisconnected w :: l) s s' ∧ Forall is_monitor l
                          else b = false ∧ s' = s) any5 s).
  { eapply wp_mono; [exact (wp_and _ _ _ _ _ _ HI HR)| |auto]. cbv beta. intros b s' [H1 H2]. destruct (decide _); [|exact H2]. destruct H2 as (-> & H2). auto. }
  clear HI. unfold wm_drop. wstep. wstep.
  pose proof (I2_alive_reg s w H) as Hr. destruct (s_alive s !! w) as [p|] eqn:Ea.
  - destruct (decide (w ∈ registered (s_log s))) as [Hw|Hw]; [|destruct Hw; apply Hr; eauto]. wstep. wstep. wstep. wstep. wstep. wstep. ss. wstep. wstep; [|exact I].
    rename a into q. destruct H as [H1 H2 H3 H4 H5 H6].
    destruct (allocd_remove_worker _ _ _ _ _ H2 Hok) as (Hm & Ht & Ha). wstep. wstep. wstep. wstep. wstep.
    eapply wp_mono; [apply reroutes_spec| |auto]. cbv beta. intros _ s' [l [A1 A2 A3 A4 A5 A6 A7 A8]]. wstep. split; [reflexivity|]. ss.
    assert (Eq : s_log s' = (s_log s ++ [LDisconnected w]) ++ l) by (rewrite A3; reflexivity).
    exists l', l. split; [|exact A4].
    assert (Hin : ∀ t, t ∈ l' ↔ holder (s_log s) !! t = Some w).
    { intros t. rewrite Hp, elem_of_elements, Ht. apply elem_of_tasks_of. }
    split; ss; auto.
    + rewrite Eq, <- app_assoc. reflexivity.
    + intros e [->|He]%elem_of_cons; [right; exists w; split; [set_solver|reflexivity]|]. left. rewrite Forall_forall in A4. auto.
    + intros w' ->%elem_of_list_singleton. apply elem_of_cons. auto.
    + intros w'. pose proof (un_alive _ _ A8) as Hal. ss. rewrite Hal. destruct (decide (w' = w)) as [->|Hne].
      * rewrite lookup_delete, decide_True by set_solver. reflexivity.
      * rewrite lookup_delete_ne, decide_False by set_solver. reflexivity.
    + rewrite Eq, registered_quiet by (apply monitor_quiet, A4). rewrite registered_snoc. cbn. set_solver.
    + rewrite Eq, holder_quiet by (apply monitor_quiet, A4). rewrite holder_snoc. cbn. apply map_filter_ext. intros t w' _. cbn. set_solver.
    + intros t. rewrite Hin. split; [intros E; exists w; set_solver|]. intros (w' & ->%elem_of_list_singleton & E). exact E.
    + rewrite Hp. apply NoDup_elements.
    + destruct A8; split; ss; first [assumption|reflexivity].
  - destruct (decide (w ∈ registered (s_log s))) as [Hw|Hw]; [apply Hr in Hw as [? Hx]; discriminate|]. wstep. auto.
Qed.

(** ** One balancing round (worker_manager.py:135-155) *)
Record balanced_round (s s' : sched) (l : history) : Prop := {
  br_log : s_log s' = s_log s ++ l;
  br_cfg : s_cfg s' = s_cfg s; br_now : s_now s' = s_now s; br_alloc : s_alloc s' = s_alloc s;
  br_same : untouched (set_last_advice (λ _, s_last_advice s') (set_same (λ _, s_same s') s)) s';
  br_what :
    if c_lb_seconds (s_cfg s) <=? 0 then l = [] ∧ s_last_advice s' = s_last_advice s ∧ s_same s' = s_same s
    else
      let advice := al_balance (s_alloc s) in
      s_last_advice s' = Some advice ∧
      s_same s' = (if decide (s_last_advice s = Some advice) then s_same s + 1 else 1) ∧
      if decide (s_last_advice s = Some advice ∧ s_same s' = c_lb_times (s_cfg s) ∧ advice ≠ ∅)
      then l ≡ₚ balance_order <$> map_to_list advice else l = [] }.
Lemma balance_spec s E : wp wm_balance (λ _ s', ∃ l, balanced_round s s' l) E s.
Proof.
  unfold wm_balance. wstep. wstep. destruct (c_lb_seconds (s_cfg s) <=? 0) eqn:Eb.
  { wstep. exists []. split; ss; rewrite ?app_nil_r, ?Eb; auto. split; reflexivity. }
  wstep. wstep. wstep. wstep. destruct (decide (s_last_advice s = Some (al_balance (s_alloc s)))) as [Ea|Ea].
  - rewrite bool_decide_eq_true_2 by exact Ea. cbn [negb]. wstep. wstep. wstep. wstep. ss.
    destruct (Z.eqb_spec (1 + s_same s) (c_lb_times (s_cfg s))) as [En|En]; cbn [negb].
    + destruct (decide (al_balance (s_alloc s) = ∅)) as [Ee|Ee].
      * rewrite bool_decide_eq_true_2 by exact Ee. wstep. exists []. split; ss; rewrite ?app_nil_r, ?Eb; auto; [split; reflexivity|].
        split; [exact Ea|]. rewrite (decide_True (P := s_last_advice s = _)) by exact Ea. split; [lia|]. destruct (decide _); [tauto|reflexivity].
      * rewrite bool_decide_eq_false_2 by exact Ee. wstep. wstep. unfold wp.
        change (λ p : bytes * Z, send p.1 (MBalanceRequest p.2)) with (λ p, emit (balance_order p)). rewrite foreach_emit.
        exists (balance_order <$> l'). split; ss; rewrite ?Eb; auto; [split; reflexivity|].
        split; [exact Ea|]. rewrite (decide_True (P := s_last_advice s = _)) by exact Ea. split; [lia|].
        rewrite decide_True by auto. rewrite Hp. reflexivity.
    + wstep. exists []. split; ss; rewrite ?app_nil_r, ?Eb; auto; [split; reflexivity|].
      split; [exact Ea|]. rewrite (decide_True (P := s_last_advice s = _)) by exact Ea. split; [lia|]. destruct (decide _); [tauto|reflexivity].
  - rewrite bool_decide_eq_false_2 by exact Ea. cbn [negb]. wsteps. exists []. split; ss; rewrite ?app_nil_r, ?Eb; auto; [split; reflexivity|].
    split; [reflexivity|]. rewrite (decide_False (P := s_last_advice s = _)) by exact Ea. split; [reflexivity|]. destruct (decide _); [tauto|reflexivity].
Qed.
Lemma I2_now_codes s r : I2 [] s → I2 [] (set_now (λ _, rd_now r) (set_codes (λ _, rd_codes r) s)).
Proof. intros []; split; auto. Qed.
Lemma balanced_quiet s s' l : balanced_round s s' l → Forall quiet l.
Proof.
  intros H. pose proof (br_what _ _ _ H) as Hw. cbv zeta in Hw. destruct (_ <=? 0); [destruct Hw as [-> _]; constructor|]. destruct Hw as (_ & _ & Hw).
  destruct (decide _); [|rewrite Hw; constructor]. apply Forall_forall. intros e He. rewrite Hw in He. apply elem_of_list_fmap in He as (p & -> & _). exact I.
Qed.

(** ** The clean-up round (C33) *)
Lemma drops_spec ws s : NoDup ws → (∀ w, w ∈ ws → w ∈ registered (s_log s)) → I2 [] s →
  wp (foreach ws (λ w, do* wm_drop w in ret tt)) (λ _ s', I2 [] s' ∧ ∃ ids l, removal ws ids l s s') any5 s.
Proof.
  revert s; induction ws as [|w ws IH]; intros s Hnd Hreg H; cbn [foreach].
  - split; [exact H|]. exists [], []. apply removal_nil.
  - apply NoDup_cons in Hnd as [Hw Hnd]. wstep. wstep. eapply wp_mono; [apply drop_spec; exact H| |auto]. cbv beta.
    intros b s1. destruct (decide (w ∈ registered (s_log s))) as [_|Hn]; [|destruct Hn; apply Hreg; set_solver].
    intros (_ & H1 & ids1 & l1 & R1 & _). wstep. eapply wp_mono; [apply IH; [exact Hnd| |exact H1]| |auto].
    + intros x Hx. rewrite (rm_registered _ _ _ _ _ R1). set_solver.
    + cbv beta. intros _ s2 [H2 (ids2 & l2 & R2)]. split; [exact H2|]. do 2 eexists. exact (removal_trans [w] ws _ _ _ _ _ _ _ R1 R2).
Qed.
Lemma clean_spec s : I2 [] s →
  wp wm_clean (λ _ s', ∃ ws ids l, removal ws ids l s s' ∧ ∀ w, w ∈ ws ↔ ∃ p, s_alive s !! w = Some p ∧ c_timeout (s_cfg s) < s_now s - p.1) any5 s.
Proof.
  intros H. unfold wm_clean. wstep. wstep. wstep. wstep.
  assert (Hw : ∀ w, w ∈ l' ↔ ∃ p, s_alive s !! w = Some p ∧ c_timeout (s_cfg s) < s_now s - p.1).
  { intros w. rewrite Hp, elem_of_list_fmap. split.
    - intros ([w' p] & -> & Hi). apply elem_of_list_filter in Hi as [Hs Hi]. apply elem_of_map_to_list in Hi. unfold wm_silent in Hs. apply Z.ltb_lt in Hs. eauto.
    - intros (p & Hi & Hs). exists (w, p). split; [reflexivity|]. apply elem_of_list_filter. split; [apply Z.ltb_lt; exact Hs|apply elem_of_map_to_list; exact Hi]. }
  assert (Hnd : NoDup l') by (rewrite Hp; apply NoDup_fst_filter).
  assert (Hreg : ∀ w, w ∈ l' → w ∈ registered (s_log s)).
  { intros w Hi. apply Hw in Hi as (p & Hi & _). apply (I2_alive_reg s w H). eauto. }
  eapply wp_mono; [apply drops_spec; [exact Hnd|exact Hreg|apply I2_codes, H]| |auto]. cbv beta. intros _ s' [_ (ids & l & Hr)].
  exists l', ids, l. split; [|exact Hw]. destruct Hr as [A1 A2 A3 A4 A5 A6 A7 A8 A9 A10 A11 A12 A13]; split; ss; auto. destruct A13; split; ss; assumption.
Qed.
Lemma silent_iff c rs now w : let s := run c rs in s_dead s = None →
  (∃ p, s_alive s !! w = Some p ∧ c_timeout c < now - p.1) ↔ silent (c_timeout c) now (s_log s) w.
Proof.
  intros s Hd. destruct (Inv2_run c rs) as [_ H2]. specialize (H2 Hd). fold s in H2. split.
  - intros ([t b] & Hp & Ht). split; [apply (I2_alive_reg s w H2); eauto|]. exists t, b. split; [apply (alive_beat c rs w _ Hd Hp)|exact Ht].
  - intros (Hr & t & b & Hl & Ht). apply (I2_alive_reg s w H2) in Hr as [p Hp]. exists p. split; [exact Hp|].
    apply (alive_beat c rs w p Hd) in Hp. fold s in Hp. rewrite Hl in Hp. injection Hp as <-. exact Ht.
Qed.
Lemma timeout_lemma c rs now codes : let s := run c rs in s_dead s = None →
  let s' := step s (Round now codes EWorkers) in s_dead s' = None →
  (∀ w, w ∈ registered (s_log s') ↔ w ∈ registered (s_log s) ∧ ¬ silent (c_timeout c) now (s_log s) w) ∧
  (∀ t w, holder (s_log s') !! t = Some w ↔ holder (s_log s) !! t = Some w ∧ ¬ silent (c_timeout c) now (s_log s) w) ∧
  (∃ ids, s_unassigned s' = s_unassigned s ++ ids ∧ NoDup ids ∧
     (∀ t, t ∈ ids ↔ ∃ w, silent (c_timeout c) now (s_log s) w ∧ holder (s_log s) !! t = Some w) ∧
     s_running s' = s_running s ∖ list_to_set ids) ∧
  (∀ w p, s_alive s' !! w = Some p ↔ s_alive s !! w = Some p ∧ ¬ silent (c_timeout c) now (s_log s) w) ∧
  (s_tasks s' = s_tasks s ∧ s_clients s' = s_clients s ∧ s_funcs s' = s_funcs s ∧ s_ftasks s' = s_ftasks s ∧ s_limbo s' = s_limbo s ∧
   s_graphs s' = s_graphs s).
Proof.
  intros s Hd. destruct (Inv2_run c rs) as [_ H2]. specialize (H2 Hd). fold s in H2.
  assert (Hc : s_cfg s = c) by apply run_cfg.
  assert (Hsil : ∀ w, (∃ p, s_alive s !! w = Some p ∧ c_timeout c < now - p.1) ↔ silent (c_timeout c) now (s_log s) w) by (intros w; apply silent_iff; exact Hd).
  cbv zeta. match goal with |- context [step ?s ?r] => pattern (step s r) end. apply step_wp; [exact Hd|]. cbn [handle rd_event rd_now rd_codes].
  unfold wm_routine. wstep. eapply wp_mono; [apply balance_spec with (E := any5)| |intros; ss; discriminate].
  cbv beta. intros _ s1 [l1 B]. pose proof (balanced_quiet _ _ _ B) as Hq. destruct B as [B1 B2 B3 B4 B5 _]. ss.
  assert (Hreg : registered (s_log s1) = registered (s_log s)).
  { rewrite B1, registered_quiet, registered_snoc by exact Hq. reflexivity. }
  assert (Hhold : holder (s_log s1) = holder (s_log s)).
  { rewrite B1, holder_quiet, holder_snoc by exact Hq. reflexivity. }
  destruct B5. ss.
  assert (HI1 : I2 [] s1).
  { destruct H2 as [A1 A2 A3 A4 A5 A6]. split; ss; rewrite ?Hreg, ?Hhold; try congruence.
    - unfold dispatches. rewrite B2, B1. apply always_quiet; [apply quiet_dispatch|exact Hq|]. apply always_snoc; [exact A1|exact I].
    - intros t k. rewrite un_tasks. apply A5.
    - intros t. rewrite un_tasks, un_unassigned, un_limbo. apply A6. }
  eapply wp_mono; [apply clean_spec; exact HI1| |intros; ss; discriminate].
  cbv beta. intros _ s' (ws & ids & l & R & Hws) Hd'. rewrite B2, Hc, B3, un_alive in Hws.
  assert (Hws' : ∀ w, w ∈ ws ↔ silent (c_timeout c) now (s_log s) w) by (intros w; rewrite Hws; apply Hsil).
  destruct R as [R1 R2 R3 R4 R5 R6 R7 R8 R9 R10 R11 R12 R13]. destruct R13. ss. split; [|split; [|split; [|split]]].
  - intros w. rewrite R7, Hreg, elem_of_difference, elem_of_list_to_set, Hws'. reflexivity.
  - intros t w. rewrite R8, Hhold, map_filter_lookup_Some. cbn. rewrite Hws'. reflexivity.
  - exists ids. split; [congruence|]. split; [exact R10|]. split; [|congruence]. intros t. rewrite R9, Hhold. setoid_rewrite Hws'. reflexivity.
  - intros w p. rewrite R6, un_alive. rewrite <- Hws'. destruct (decide (w ∈ ws)); intuition congruence.
  - repeat split; congruence.
Qed.

(** ** A worker that leaves (C39) *)
Lemma drop_unknown w s : I2 [] s → w ∉ registered (s_log s) → wm_drop w s = (s, Ok false).
Proof.
  intros H Hn. unfold wm_drop, bind, gets. cbn. destruct (s_alive s !! w) eqn:E; [|reflexivity]. destruct Hn. apply (I2_alive_reg s w H). eauto.
Qed.
Lemma disconnect_lemma c rs src w now codes : let s := run c rs in s_dead s = None →
  let ev := ERecv src (MDisconnectRequest w) in let s' := step s (Round now codes ev) in
  if decide (w ∈ registered (s_log s)) then
    s_dead s' = None →
    (∃ mons, s_log s' = s_log s ++ LIn now ev :: LDisconnected w :: mons ++ [LSend src (MDisconnectResponse w)] ∧ Forall internal mons) ∧
    registered (s_log s') = registered (s_log s) ∖ {[w]} ∧
    (∃ ids, s_unassigned s' = s_unassigned s ++ ids ∧ NoDup ids ∧ ∀ t, t ∈ ids ↔ holder (s_log s) !! t = Some w)
  else untouched s s' ∧ s_log s' = s_log s ++ [LIn now ev].
Proof.
  intros s Hd. destruct (Inv2_run c rs) as [_ H2]. specialize (H2 Hd). fold s in H2.
  by_step Hd. unfold wm_disconnect. wstep.
  set (s0 := set_log _ _). assert (HI0 : I2 [] s0). { subst s0. apply I2_emit; [exact I|]. destruct H2; split; auto. }
  assert (Hr0 : registered (s_log s0) = registered (s_log s)) by (subst s0; ss; rewrite registered_snoc; reflexivity).
  assert (Hh0 : holder (s_log s0) = holder (s_log s)) by (subst s0; ss; rewrite holder_snoc; reflexivity).
  destruct (decide (w ∈ registered (s_log s))) as [Hin|Hin].
  - eapply wp_mono; [apply (drop_spec w s0 HI0)| |intros; ss; discriminate]. cbv beta. rewrite Hr0. intros b s'.
    destruct (decide (w ∈ registered (s_log s))) as [_|?]; [|done]. intros (-> & _ & ids & l & R & Hl). unfold when. wsteps. ss. intros _.
    destruct R as [R1 R2 R3 R4 R5 R6 R7 R8 R9 R10 R11 R12 R13]. split; [|split].
    + exists l. split; [rewrite R3; subst s0; ss; rewrite <- !app_assoc; reflexivity|]. eapply Forall_impl; [exact Hl|]. intros []; cbn; tauto.
    + rewrite registered_snoc. cbn. rewrite R7, Hr0. set_solver.
    + exists ids. split; [exact R1|]. split; [exact R10|]. intros t. rewrite R9, Hh0. split; [|intros E; exists w; set_solver].
      intros (w' & ->%elem_of_list_singleton & E). exact E.
  - unfold wp. rewrite drop_unknown; [|exact HI0|rewrite Hr0; exact Hin]. cbn. split; [split; reflexivity|reflexivity].
Qed.

(** ** When balance requests are sent (C34) *)
Lemma advice_unique g m m' : advice_ok g m → advice_ok g m' → m = m'.
Proof.
  intros [A1 A2] [B1 B2]. destruct (decide (m = ∅)) as [->|Hm].
  - destruct (decide (m' = ∅)) as [->|Hm']; [reflexivity|]. specialize (B1 Hm'). destruct (A2 B1) as [A3 _], (B2 B1) as [B3 _].
    apply map_eq. intros w. destruct (m' !! w) eqn:E; [|apply lookup_empty]. assert (is_Some (m' !! w)) as H by eauto.
    apply B3, A3 in H as [? H]. rewrite lookup_empty in H. discriminate.
  - specialize (A1 Hm). destruct (A2 A1) as [A3 A4], (B2 A1) as [B3 B4]. apply map_eq. intros w. apply option_eq. intros k. split; intros Hk.
    + pose proof (A4 _ _ Hk) as ->. assert (is_Some (m !! w)) as H by eauto. apply A3, B3 in H as [k' H]. rewrite H. f_equal. apply B4, H.
    + pose proof (B4 _ _ Hk) as ->. assert (is_Some (m' !! w)) as H by eauto. apply B3, A3 in H as [k' H]. rewrite H. f_equal. apply A4, H.
Qed.
Lemma load_outstanding h w : load (Ledger (registered h) (holder h)) w = outstanding h w.
Proof. unfold load, outstanding, tasks_of. cbn. rewrite size_dom. reflexivity. Qed.
Lemma balance_advice_ok h : advice_ok (Ledger (registered h) (holder h)) (balance_advice h).
Proof.
  unfold advice_ok, total_load, balance_advice. cbn [lg_workers lg_owner]. setoid_rewrite load_outstanding.
  change (length (elements (registered h))) with (size (registered h)).
  set (n := Z.of_nat (size (registered h))). set (tot := Z.of_nat (size (holder h))).
  assert (Hb : existsb (λ w, outstanding h w =? 0) (elements (registered h)) && existsb (λ w, 0 <? outstanding h w) (elements (registered h)) = true ↔
    (∃ w, w ∈ registered h ∧ outstanding h w = 0) ∧ (∃ w, w ∈ registered h ∧ 0 < outstanding h w)).
  { rewrite andb_true_iff, !existsb_exists. split.
    - intros [(x & Hx & Ex) (y & Hy & Ey)]. apply elem_of_list_In, elem_of_elements in Hx. apply elem_of_list_In, elem_of_elements in Hy. split; [exists x|exists y]; (split; [assumption|lia]).
    - intros [(x & Hx & Ex) (y & Hy & Ey)]. split; [exists x|exists y]; (split; [apply elem_of_list_In, elem_of_elements; assumption|lia]). }
  destruct (_ && _).
  - split; [intros _; apply Hb; reflexivity|]. intros _.
    assert (HN : NoDup (((λ w, (w, outstanding h w - tot / n)) <$> filter (λ w, tot < outstanding h w * n) (elements (registered h))).*1)).
    { rewrite <- list_fmap_compose. replace (_ <$> _) with (filter (λ w, tot < outstanding h w * n) (elements (registered h))); [apply NoDup_filter, NoDup_elements|].
      symmetry. apply list_fmap_id. }
    split.
    + intros w. split.
      * intros [k Hk]. apply elem_of_list_to_map in Hk; [|exact HN]. apply elem_of_list_fmap in Hk as (w' & [= -> ->] & Hi).
        apply elem_of_list_filter in Hi as [Ht Hi]. apply elem_of_elements in Hi. split; [exact Hi|lia].
      * intros [Hi Ht]. eexists. apply elem_of_list_to_map; [exact HN|]. apply elem_of_list_fmap. exists w. split; [reflexivity|].
        apply elem_of_list_filter. split; [lia|apply elem_of_elements; exact Hi].
    + intros w k Hk. apply elem_of_list_to_map in Hk; [|exact HN]. apply elem_of_list_fmap in Hk as (w' & [= -> ->] & _). reflexivity.
  - split; [done|]. intros H. apply Hb in H. discriminate.
Qed.
Lemma run_advice c rs : s_dead (run c rs) = None → al_balance (s_alloc (run c rs)) = balance_advice (s_log (run c rs)).
Proof.
  intros Hd. destruct (Inv2_run c rs) as [_ H2]. specialize (H2 Hd). destruct (i2_alloc _ _ H2) as (mq & ml & st & R).
  eapply advice_unique; [apply (step_balance _ _ _ _ _ R)|apply balance_advice_ok].
Qed.
Lemma advices_from_app b h h' : advices_from b (h ++ h') = advices_from b h ++ advices_from (b ++ h) h'.
Proof.
  revert b; induction h as [|e h IH]; intros b; cbn; [rewrite app_nil_r; reflexivity|]. rewrite IH, <- !app_assoc. reflexivity.
Qed.
Lemma advices_snoc h e : advices (h ++ [e]) = advices h ++ match e with LIn _ EWorkers => [balance_advice h] | _ => [] end.
Proof. unfold advices. rewrite advices_from_app. cbn. rewrite app_nil_r. reflexivity. Qed.
Lemma advices_inner h l : Forall (λ e, match e with LIn _ _ => False | _ => True end) l → advices (h ++ l) = advices h.
Proof.
  induction l as [|e l IH] using rev_ind; intros Hl; [rewrite app_nil_r; reflexivity|]. apply Forall_app in Hl as [H1 H2].
  rewrite app_assoc, advices_snoc, IH by exact H1. inversion H2; subst. destruct e; try rewrite app_nil_r; done.
Qed.
Lemma trailing_snoc {A} `{EqDecision A} (a b : A) l : trailing a (l ++ [b]) = if decide (b = a) then S (trailing a l) else O.
Proof. unfold trailing. rewrite rev_unit. reflexivity. Qed.

Definition bal_inv (s : sched) : Prop :=
  match last (advices (s_log s)) with
  | None => s_last_advice s = None ∧ s_same s = 0
  | Some a => s_last_advice s = Some a ∧ s_same s = Z.of_nat (trailing a (advices (s_log s)))
  end.
Lemma prim_quiet a d b h s s' : rtc (prim a d b h) s s' → ∃ l, s_log s' = s_log s ++ l ∧ Forall (not_input b) l.
Proof.
  intros H. induction H as [s|s s2 s3 H _ IH]; [exists []; rewrite app_nil_r; auto|]. destruct IH as (l & -> & Hl).
  destruct H; ss; try (exists l; auto; fail). exists (e :: l). rewrite <- app_assoc. auto.
Qed.
Lemma prim_bal a d h s s' : rtc (prim a d False h) s s' → s_last_advice s' = s_last_advice s ∧ s_same s' = s_same s.
Proof. intros H. induction H as [s|s s2 s3 H _ [E1 E2]]; [auto|]. rewrite E1, E2. destruct H; ss; auto; done. Qed.
Lemma not_input_inner b l : Forall (not_input b) l → Forall (λ e, match e with LIn _ _ => False | _ => True end) l.
Proof. intros H. eapply Forall_impl; [exact H|]. intros []; cbn; tauto. Qed.
Lemma not_input_no l : Forall (not_input False) l → Forall (λ e, ¬ is_balance_request e) l.
Proof. intros H. eapply Forall_impl; [exact H|]. intros [| ? [] | | | | |]; cbn; tauto. Qed.

Lemma balance_lemma' c rs r : let s := run c rs in s_dead s = None → (0 < c_lb_seconds c → bal_inv s) →
  (0 < c_lb_seconds c → bal_inv (step s r)) ∧
  (rd_event r = EWorkers → ∃ sends rest, s_log (step s r) = s_log s ++ LIn (rd_now r) EWorkers :: sends ++ rest ∧
      sends ≡ₚ balance_round c (advices (s_log s)) (balance_advice (s_log s)) ∧
      Forall (λ e, ¬ is_balance_request e) rest) ∧
  (rd_event r ≠ EWorkers → ∃ rest, s_log (step s r) = s_log s ++ LIn (rd_now r) (rd_event r) :: rest ∧ Forall (λ e, ¬ is_balance_request e) rest).
Proof.
  intros s Hd Hinv. assert (Hcfg : s_cfg s = c) by apply run_cfg. pose proof (run_advice c rs Hd) as Hadv. fold s in Hadv.
  destruct (decide (rd_event r = EWorkers)) as [E|E].
  - set (P := λ s', (0 < c_lb_seconds c → bal_inv s') ∧ ∃ sends rest, s_log s' = s_log s ++ LIn (rd_now r) EWorkers :: sends ++ rest ∧
      sends ≡ₚ balance_round c (advices (s_log s)) (balance_advice (s_log s)) ∧
      Forall (λ e, ¬ is_balance_request e) rest).
    cut (P (step s r)). { intros [H1 H2]. split; [exact H1|]. split; [auto|done]. }
    apply step_wp; [exact Hd|]. rewrite E. cbn [handle]. unfold wm_routine. wstep.
    eapply wp_mono; [apply balance_spec with (E := λ _ _, False)| |done].
    cbv beta. intros _ s1 [l1 B].
    pose proof (go_wm_clean (λ _ _ _, False) (λ _, False) False False s1 s1 (rtc_refl _ _)) as Hc.
    assert (HP : ∀ s2, rtc (prim (λ _ _ _, False) (λ _, False) False False) s1 s2 → P s2 ∧ ∀ e, P (crash e s2)).
    { intros s2 Hp. destruct (prim_quiet _ _ _ _ _ _ Hp) as (l2 & El & Hl). destruct (prim_bal _ _ _ _ _ Hp) as [B1 B2].
      pose proof (balanced_quiet _ _ _ B) as _. destruct B as [Blog Bcfg Bnow Balloc Bsame Bwhat]. cbv zeta in Bwhat. ss. rewrite Hcfg, Hadv in Bwhat.
      assert (Hin : Forall (λ e, match e with LIn _ _ => False | _ => True end) l1).
      { destruct (_ <=? 0); [destruct Bwhat as (-> & _); constructor|]. destruct Bwhat as (_ & _ & Hw).
        destruct (decide _); [|rewrite Hw; constructor]. apply Forall_forall. intros e He. rewrite Hw in He. apply elem_of_list_fmap in He as (p & -> & _). exact I. }
      assert (Hadvs : advices (s_log s2) = advices (s_log s) ++ [balance_advice (s_log s)]).
      { rewrite El, advices_inner by (eapply not_input_inner; exact Hl). rewrite Blog, advices_inner by exact Hin. apply advices_snoc. }
      assert (Hl1 : l1 ≡ₚ balance_round c (advices (s_log s)) (balance_advice (s_log s)) ∧ (0 < c_lb_seconds c → bal_inv s2)).
      { unfold balance_round, bal_inv. rewrite Hadvs, last_snoc, B1, B2. destruct (Z.leb_spec (c_lb_seconds c) 0) as [H0|H0].
        - destruct Bwhat as (-> & _). destruct (decide _) as [(? & _)|_]; [lia|]. split; [reflexivity|lia].
        - specialize (Hinv H0). destruct Bwhat as (W1 & W2 & W3). rewrite W1, W2. set (a := balance_advice (s_log s)) in *.
          rewrite trailing_snoc, (decide_True (P := a = a)) by reflexivity. rewrite W2 in W3.
          assert (Hn : s_same s1 = Z.of_nat (S (trailing a (advices (s_log s)))) ∧
             (s_last_advice s = Some a → 2 <= s_same s1) ∧ (s_last_advice s ≠ Some a → s_same s1 = 1)).
          { rewrite W2. unfold bal_inv in Hinv. destruct (last (advices (s_log s))) as [b|] eqn:El2.
            - destruct Hinv as [I1 I2]. rewrite I1. apply last_Some in El2 as [q Eq]. destruct (decide (Some b = Some a)) as [[= ->]|Hne].
              + rewrite I2. rewrite Eq, trailing_snoc, decide_True by reflexivity. repeat split; [lia|lia|done].
              + rewrite Eq, trailing_snoc, decide_False by congruence. repeat split; auto; congruence.
            - destruct Hinv as [I1 I2]. rewrite I1. apply last_None in El2. rewrite El2. rewrite decide_False by discriminate. repeat split; auto; discriminate. }
          destruct Hn as (N1 & N2 & N3). rewrite W2 in N1, N2, N3. split; [|auto].
          destruct (decide (s_last_advice s = Some a ∧ _)) as [(D1 & D2 & D3)|D].
          + rewrite W3. rewrite decide_True; [reflexivity|]. rewrite <- N1. specialize (N2 D1). split; [lia|]. split; [lia|]. auto.
          + rewrite W3. rewrite decide_False; [reflexivity|]. intros (_ & F1 & F2 & F3). rewrite <- N1 in F3. apply D.
            destruct (decide (s_last_advice s = Some a)) as [D1|D1]; [auto|]. specialize (N3 D1). lia. }
      destruct Hl1 as [Hl1 Hb]. split.
      - split; [exact Hb|]. exists l1, l2. split; [rewrite El, Blog, <- !app_assoc; reflexivity|]. split; [exact Hl1|apply not_input_no, Hl].
      - intros e. split.
        + intros H0. specialize (Hb H0). unfold bal_inv in *. ss. rewrite advices_snoc, app_nil_r. exact Hb.
        + exists l1, (l2 ++ [LCrash e]). ss. split; [rewrite El, Blog, <- !app_assoc; reflexivity|]. split; [exact Hl1|].
          apply Forall_app. split; [apply not_input_no, Hl|]. constructor; [intros []|constructor]. }
    eapply wp_mono; [exact Hc| |]; cbv beta; intros ? s2 H2; apply HP; exact H2.
  - destruct (round_path (λ _ _ _, True) (λ _, True) False True s r Hd) as (s1 & Hp & Hs).
    { pose proof (all_ok s (rd_event r)) as Ha. destruct (rd_event r) as [? m| | | | |]; try done. }
    destruct (prim_quiet _ _ _ _ _ _ Hp) as (l & El & Hl). destruct (prim_bal _ _ _ _ _ Hp) as [B1 B2]. ss.
    assert (∃ l', s_log (step s r) = s_log s ++ LIn (rd_now r) (rd_event r) :: l' ∧ Forall (λ e, ¬ is_balance_request e) l' ∧
      advices (s_log (step s r)) = advices (s_log s) ∧ s_last_advice (step s r) = s_last_advice s ∧ s_same (step s r) = s_same s) as (l' & E1 & E2 & E3 & E4 & E5).
    { assert (Hadd : advices (s_log s1) = advices (s_log s)).
      { rewrite El, advices_inner by (eapply not_input_inner; exact Hl). rewrite advices_snoc. destruct (rd_event r); try rewrite app_nil_r; done. }
      destruct Hs as [->|[e ->]]; ss.
      - exists l. split; [rewrite El, <- app_assoc; reflexivity|]. split; [apply not_input_no, Hl|auto].
      - exists (l ++ [LCrash e]). split; [rewrite El, <- !app_assoc; reflexivity|].
        split; [apply Forall_app; split; [apply not_input_no, Hl|constructor; [intros []|constructor]]|].
        rewrite advices_snoc, app_nil_r. auto. }
    split; [|split; [done|eauto]]. intros Hlb. specialize (Hinv Hlb). unfold bal_inv in *. rewrite E3, E4, E5. exact Hinv.
Qed.
Lemma bal_inv_run c rs : 0 < c_lb_seconds c → s_dead (run c rs) = None → bal_inv (run c rs).
Proof.
  intros Hlb. induction rs as [|r rs IH] using rev_ind; [split; reflexivity|]. rewrite run_snoc. intros Hd.
  destruct (s_dead (run c rs)) as [e|] eqn:Hd0; [rewrite (step_dead _ _ _ Hd0) in Hd; congruence|].
  apply (balance_lemma' c rs r Hd0); [|exact Hlb]. intros _. apply IH. reflexivity.
Qed.
Lemma balance_lemma c rs r : let s := run c rs in s_dead s = None →
  if decide (rd_event r = EWorkers) then
    ∃ sends rest, s_log (step s r) = s_log s ++ LIn (rd_now r) EWorkers :: sends ++ rest ∧
      sends ≡ₚ balance_round c (advices (s_log s)) (balance_advice (s_log s)) ∧
      Forall (λ e, ¬ is_balance_request e) rest
  else
    ∃ rest, s_log (step s r) = s_log s ++ LIn (rd_now r) (rd_event r) :: rest ∧ Forall (λ e, ¬ is_balance_request e) rest.
Proof.
  intros s Hd. destruct (balance_lemma' c rs r Hd) as (_ & H1 & H2); [intros; apply bal_inv_run; assumption|].
  destruct (decide _); auto.
Qed.
