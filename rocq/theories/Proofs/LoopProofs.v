(** * The loops and what they look after (C91) *)

From Verif.Model Require Import Base OneToManyDict Allocator Message SchedulerState Scheduler Worker EventLoop.
From Verif.Spec Require Import HistorySpec SchedulerSpec WorkerSpec LoopSpec.
From Verif.Proofs Require Import BaseProofs HistoryProofs AllocatorProofs SchedWp SchedHold SchedContent SchedSend SchedPrim SchedFn SchedGlobal SchedStep SchedRemove SchedPolite WorkerProofs.

(** ** Loops *)
Lemma loop_length seconds start turns : length (loop_starts seconds start turns) = length turns.
Proof. revert start. induction turns as [|x l IH]; intros start; [done|]. cbn. by rewrite IH. Qed.
Lemma loop_next seconds start turns i a : loop_starts seconds start turns !! i = Some a →
  ∀ b, loop_starts seconds start turns !! S i = Some b → ∃ x, turns !! i = Some x ∧ b = a + takes x + seconds + oversleeps x.
Proof.
  revert start i. induction turns as [|x l IH]; intros start i; [done|]. cbn [loop_starts]. destruct i as [|i].
  - intros [= <-] b. cbn. destruct l as [|y l]; [done|]. intros [= <-]. by exists x.
  - cbn. intros Ha b Hb. by eapply IH.
Qed.
Lemma loop_gap seconds slack start turns i a b : Forall (quick slack) turns → loop_starts seconds start turns !! i = Some a →
  loop_starts seconds start turns !! S i = Some b → a + seconds <= b <= a + seconds + slack.
Proof.
  intros Hq Ha Hb. destruct (loop_next _ _ _ _ _ Ha _ Hb) as (x & Hx & ->). eapply Forall_lookup_1 in Hq as (H1 & H2 & H3); [|exact Hx]. lia.
Qed.
Lemma loop_far seconds slack start turns i j a b : 0 <= seconds → Forall (quick slack) turns → loop_starts seconds start turns !! i = Some a →
  loop_starts seconds start turns !! (i + j)%nat = Some b → a + Z.of_nat j * seconds <= b <= a + Z.of_nat j * (seconds + slack).
Proof.
  intros Hs Hq Ha. revert b. induction j as [|j IH]; intros b Hb.
  - rewrite Nat.add_0_r in Hb. assert (a = b) as -> by congruence. lia.
  - destruct (loop_starts seconds start turns !! (i + j)%nat) as [c|] eqn:Ec.
    + specialize (IH c eq_refl). rewrite Nat.add_succ_r in Hb. pose proof (loop_gap _ _ _ _ _ _ _ Hq Ec Hb). nia.
    + apply lookup_ge_None in Ec. apply lookup_lt_Some in Hb. lia.
Qed.
Lemma schedule_last seconds slack start now starts : on_schedule seconds slack start now starts →
  match last starts with Some q => now <= q + seconds + slack | None => now <= start end.
Proof.
  intros (turns & nxt & Hq & E & Hn). destruct (last starts) as [q|] eqn:El.
  - apply last_Some in El as [l ->].
    assert (H1 : loop_starts seconds start turns !! length l = Some q) by (rewrite E, <-app_assoc, lookup_app_r, Nat.sub_diag by lia; done).
    assert (H2 : loop_starts seconds start turns !! S (length l) = Some nxt).
    { rewrite E, lookup_app_r by (rewrite app_length; cbn; lia). rewrite app_length. cbn. by replace (S (length l) - (length l + 1))%nat with 0%nat by lia. }
    pose proof (loop_gap _ _ _ _ _ _ _ Hq H1 H2). lia.
  - apply last_None in El as ->. destruct turns as [|x turns]; [done|]. cbn in E. injection E as <- _. done.
Qed.

(** ** The last step of a kind *)
Lemma last_kind {R} (time : R → Z) which (rs : list R) :
  match last (times_of time which rs) with
  | Some q => ∃ rs1 r rs2, rs = rs1 ++ r :: rs2 ∧ which r = true ∧ time r = q ∧ Forall (λ r, which r = false) rs2
  | None => Forall (λ r, which r = false) rs
  end.
Proof.
  induction rs as [|r rs IH] using rev_ind; [constructor|]. unfold times_of in *. rewrite List.filter_app. cbn [List.filter].
  destruct (which r) eqn:E.
  - rewrite fmap_app. cbn. rewrite last_snoc. exists rs, r, []. split_and!; try done.
  - rewrite app_nil_r. destruct (last _) as [q|].
    + destruct IH as (rs1 & r1 & rs2 & -> & H1 & H2 & H3). exists rs1, r1, (rs2 ++ [r]). rewrite <-app_assoc. split_and!; try done. apply Forall_app. split; [done|]. by constructor.
    + apply Forall_app. split; [done|]. by constructor.
Qed.
Lemma up_to_bound {R} (time : R → Z) now rs : up_to time now rs → Forall (λ r, time r <= now) rs.
Proof.
  unfold up_to. induction rs as [|r rs IH]; [constructor|]. cbn. intros H. apply StronglySorted_inv in H as [H1 H2]. constructor; [|by apply IH].
  apply Forall_app in H2 as [_ H2]. by inversion H2.
Qed.
Lemma up_to_after {R} (time : R → Z) now rs1 r rs2 : up_to time now (rs1 ++ r :: rs2) → Forall (λ x, time r <= time x) rs2 ∧ time r <= now.
Proof.
  unfold up_to. induction rs1 as [|x rs1 IH]; cbn; intros H; apply StronglySorted_inv in H as [H1 H2]; [|by apply IH].
  apply Forall_app in H2 as [H2 H3]. split; [exact (proj1 (Forall_fmap _ _ _) H2)|by inversion H3].
Qed.

(** ** Workers of the scheduler *)
Lemma dead_prefix c rs rs' : s_dead (run c (rs ++ rs')) = None → s_dead (run c rs) = None.
Proof.
  induction rs' as [|r rs' IH] using rev_ind; [by rewrite app_nil_r|]. rewrite app_assoc, run_snoc. intros H. apply IH.
  destruct (s_dead (run c (rs ++ rs'))) eqn:E; [|done]. rewrite (step_dead _ _ _ E) in H. congruence.
Qed.
Lemma alive_step s r w p : s_dead s = None → s_dead (step s r) = None → s_alive (step s r) !! w = Some p →
  s_alive s !! w = Some p ∨ p.1 = rd_now r.
Proof.
  intros Hd.
  assert ((∃ src h, rd_event r = ERecv src (MHeartbeat h)) ∨ ¬ (∃ src h, rd_event r = ERecv src (MHeartbeat h))) as [(src & h & E)|Hn].
  { destruct (rd_event r) as [src m| | | | |]; try (right; intros (? & ? & ?); discriminate).
    destruct m; try (right; intros (? & ? & ?); discriminate). left. eauto. }
  - intros _. destruct r as [now codes ev]; cbn in E; subst ev.
    match goal with |- context [step ?s ?r] => pattern (step s r) end. apply step_wp; [exact Hd|]. cbn [handle on_receive rd_event rd_now rd_codes].
    unfold wm_heartbeat. wstep. wstep. ss. destruct (al_add_worker _ _) as [a' b]. wsteps; ss; rewrite lookup_insert_Some.
    all: intros [[<- <-]|[Hne Hw]]; auto.
  - intros Hd' Hp. assert (Hr : round_adds (λ _ _ _, True) (λ _, True) True False s (rd_event r)).
    { pose proof (all_ok s (rd_event r)) as Ha. destruct (rd_event r) as [src m| | | | |]; auto. destruct m; auto. destruct Hn. eauto. }
    destruct (round_path _ _ _ _ s r Hd Hr) as (s1 & Hpa & [Hs|[e Hs]]); rewrite Hs in *; [|ss; discriminate].
    destruct (prim_beat _ _ _ _ _ _ _ Hpa Hp) as [H1 H2]. left. exact H1.
Qed.
Lemma alive_later c rs1 rs2 q low : s_dead (run c (rs1 ++ rs2)) = None → low <= q → Forall (λ r, q <= rd_now r) rs2 →
  (∀ w p, s_alive (run c rs1) !! w = Some p → low <= p.1) → ∀ w p, s_alive (run c (rs1 ++ rs2)) !! w = Some p → low <= p.1.
Proof.
  intros Hd Hl Hf Ha. induction rs2 as [|r rs2 IH] using rev_ind; [by rewrite app_nil_r|]. rewrite app_assoc in *.
  apply Forall_app in Hf as [Hf Hr]. inversion Hr as [|? ? Hr1 _]; subst. pose proof (dead_prefix _ _ _ Hd) as Hd1. rewrite run_snoc in *.
  intros w p Hp. destruct (alive_step _ _ _ _ Hd1 Hd Hp) as [Hp1| ->]; [by eapply IH|lia].
Qed.
Definition looks_after_workers (r : round) : bool := match rd_event r with EWorkers => true | _ => false end.
Lemma worker_noticed c rs seconds slack start now : 0 <= c_timeout c → 0 <= seconds → 0 <= slack → let s := run c rs in s_dead s = None →
  up_to rd_now now rs → Forall (λ r, start <= rd_now r) rs → on_schedule seconds slack start now (times_of rd_now looks_after_workers rs) →
  ∀ w, w ∈ registered (s_log s) → ∃ t b, last_beat w (s_log s) = Some (t, b) ∧ now - t <= c_timeout c + seconds + slack.
Proof.
  intros Ht Hs Hsl s Hd Hu Hst Hsch w Hw. unfold s in *.
  assert (Hal : ∃ p, s_alive (run c rs) !! w = Some p ∧ last_beat w (s_log (run c rs)) = Some p).
  { destruct (Inv2_run c rs) as [_ H2]. specialize (H2 Hd). destruct (proj2 (I2_alive_reg _ w H2) Hw) as [p Hp]. exists p. split; [done|]. by apply (alive_iff c rs w p Hd). }
  destruct Hal as ([t b] & Hp & Hb). exists t, b. split; [done|].
  pose proof (schedule_last _ _ _ _ _ Hsch) as Hlast. pose proof (last_kind rd_now looks_after_workers rs) as Hk. destruct (last _) as [q|].
  - destruct Hk as (rs1 & r & rs2 & -> & Hr & Hq & Hno). destruct (up_to_after _ _ _ _ _ Hu) as [Hf Hqn].
    assert (Hd2 : s_dead (run c ((rs1 ++ [r]) ++ rs2)) = None) by (by rewrite <-app_assoc).
    pose proof (dead_prefix _ _ _ Hd2) as Hd1. pose proof (dead_prefix _ _ _ Hd1) as Hd0.
    destruct r as [q' codes ev]. cbn in Hr, Hq. unfold looks_after_workers in Hr. cbn in Hr. destruct ev; try done. subst q'. cbn in Hf, Hqn.
    assert (Hlow : c_timeout c + t >= q); [|lia].
    assert (q - c_timeout c <= (t, b).1); [|cbn in *; lia].
    replace (rs1 ++ Round q codes EWorkers :: rs2) with ((rs1 ++ [Round q codes EWorkers]) ++ rs2) in Hp by (by rewrite <-app_assoc).
    apply (alive_later c (rs1 ++ [Round q codes EWorkers]) rs2 q (q - c_timeout c) Hd2) with (w := w); [lia|done| |done].
    intros w' p' Hp'. rewrite run_snoc in Hp', Hd1. destruct (timeout_lemma c rs1 q codes Hd0 Hd1) as (_ & _ & _ & Hal & _).
    apply Hal in Hp' as [Hp0 Hns]. apply (alive_iff c rs1 w' p' Hd0) in Hp0 as [Hr0 Hb0].
    assert (¬ c_timeout c < q - p'.1); [|lia]. intros Hlt. apply Hns. split; [done|]. destruct p' as [t' b']. exists t', b'. done.
  - assert (start <= (t, b).1); [|cbn in *; lia]. change rs with ([] ++ rs) in Hp, Hd. apply (alive_later c [] rs start start Hd) with (w := w); [lia|done| |done].
    intros w' p'. cbn. by rewrite lookup_empty.
Qed.
Lemma task_noticed c rs : let s := run c rs in s_dead s = None → ∀ t w, holder (s_log s) !! t = Some w → w ∈ registered (s_log s).
Proof. intros s Hd t w Hw. destruct (Inv2_run c rs) as [_ H2]. specialize (H2 Hd). apply (proj1 (allocd_ok _ _ (i2_alloc _ _ H2)) t w Hw). Qed.

(** ** Functions of the scheduler *)
Definition looks_after_functions (r : round) : bool := match rd_event r with EFunctions => true | _ => false end.
Lemma function_noticed c rs seconds slack start now f : let s := run c rs in s_dead s = None →
  up_to rd_now now rs → on_schedule seconds slack start now (times_of rd_now looks_after_functions rs) → start < now →
  ∃ rs1 r rs2, rs = rs1 ++ r :: rs2 ∧ now - rd_now r <= seconds + slack ∧
    ((s_funcs (run c (rs1 ++ [r])) !! f = None) ∨ users (run c rs1) f ≠ ∅ ∨ ∃ i, s_funcs (run c rs1) !! f = Some i ∧ rd_now r - fi_alive i <= c_retention c).
Proof.
  intros s Hd Hu Hsch Hst. unfold s in *. pose proof (schedule_last _ _ _ _ _ Hsch) as Hlast.
  pose proof (last_kind rd_now looks_after_functions rs) as Hk. destruct (last _) as [q|]; [|lia].
  destruct Hk as (rs1 & r & rs2 & -> & Hr & Hq & Hno). exists rs1, r, rs2. split; [done|]. split; [lia|].
  assert (Hd2 : s_dead (run c ((rs1 ++ [r]) ++ rs2)) = None) by (by rewrite <-app_assoc).
  pose proof (dead_prefix _ _ _ Hd2) as Hd1. pose proof (dead_prefix _ _ _ Hd1) as Hd0.
  destruct r as [q' codes ev]. unfold looks_after_functions in Hr. cbn in Hr, Hq. destruct ev; try done. subst q'. cbn [rd_now].
  rewrite run_snoc. destruct (expiry_lemma c rs1 q codes Hd0) as (_ & He1 & _).
  destruct (s_funcs (run c rs1) !! f) as [i|] eqn:Ef.
  - destruct (decide (users (run c rs1) f = ∅)) as [Eu|]; [|auto]. destruct (decide (q - fi_alive i <= c_retention c)) as [|Hold]; [right; right; by exists i|].
    left. apply He1. exists i. split; [done|]. split; [|done]. rewrite run_cfg. lia.
  - left. destruct (expiry_lemma c rs1 q codes Hd0) as (_ & _ & He2 & _). rewrite He2; [done|]. intros (i & Hi & _). congruence.
Qed.

(** ** Agents *)
Definition looks_after_scheduler (r : wround) : bool := match wr_event r with WTimeout => true | _ => false end.
Lemma working_prefix i d start rs rs' : working (w_run i d start (rs ++ rs')).2 → working (w_run i d start rs).2.
Proof.
  induction rs' as [|[now e] rs' IH] using rev_ind; [by rewrite app_nil_r|]. rewrite app_assoc. intros H. apply IH. revert H. generalize (rs ++ rs'). intros l.
  rewrite run_app. cbn [foldl]. destruct (w_run i d start l) as [a h]. unfold w_step. destruct (a_dead a); [done|].
  destruct (w_handle _ _ a) as [[a' out] [x|]]; cbn; intros Hw y Hy; apply (Hw y), elem_of_app; by left.
Qed.
Lemma clock_prefix i d start rs rs' : always clock_runs (w_run i d start (rs ++ rs')).2 → always clock_runs (w_run i d start rs).2.
Proof.
  induction rs' as [|[now e] rs' IH] using rev_ind; [by rewrite app_nil_r|]. rewrite app_assoc. intros H. apply IH. revert H. generalize (rs ++ rs'). intros l.
  rewrite run_app. cbn [foldl]. destruct (w_run i d start l) as [a h]. unfold w_step. destruct (a_dead a); [done|].
  destruct (w_handle _ _ a) as [[a' out] [x|]]; cbn; intros Hw; by eapply always_inv.
Qed.
Lemma echo_step i d start rs r : always clock_runs (w_run i d start (rs ++ [r])).2 → working (w_run i d start (rs ++ [r])).2 →
  last_echo start (w_run i d start (rs ++ [r])).2 = last_echo start (w_run i d start rs).2 ∨ last_echo start (w_run i d start (rs ++ [r])).2 = wr_now r.
Proof.
  intros Hc Hw. pose proof (working_prefix _ _ _ _ _ Hw) as Hw0. pose proof (clock_prefix _ _ _ _ _ Hc) as Hc0. destruct r as [now e]. cbn [wr_now].
  destruct (beats_run _ _ _ _ Hc) as [_ Hb]. destruct (Hb (proj1 (working_run _ _ _ _) Hw)) as [_ <-].
  destruct (beats_run _ _ _ _ Hc0) as [_ Hb0]. destruct (Hb0 (proj1 (working_run _ _ _ _) Hw0)) as [_ <-].
  apply working_run in Hw. destruct (run_snoc_did i d start rs now e Hw0) as (Ha & a' & out & x & Hd & E). rewrite E in *. cbn [fst] in *.
  destruct x as [x|]; [discriminate|]. cbn [finish]. inversion Hd; subst; auto.
Qed.
Lemma echo_later i d start rs1 rs2 q low : always clock_runs (w_run i d start (rs1 ++ rs2)).2 → working (w_run i d start (rs1 ++ rs2)).2 → low <= q →
  Forall (λ r, q <= wr_now r) rs2 → low <= last_echo start (w_run i d start rs1).2 → low <= last_echo start (w_run i d start (rs1 ++ rs2)).2.
Proof.
  intros Hc Hw Hl Hf Ha. induction rs2 as [|r rs2 IH] using rev_ind; [by rewrite app_nil_r|]. rewrite app_assoc in *.
  apply Forall_app in Hf as [Hf Hr]. inversion Hr as [|? ? Hr1 _]; subst.
  destruct (echo_step _ _ _ _ _ Hc Hw) as [-> | ->]; [|lia]. apply IH; [by eapply clock_prefix|by eapply working_prefix|done].
Qed.
Lemma scheduler_noticed i d begun rs seconds slack start now : 0 <= d → 0 <= seconds → 0 <= slack →
  always clock_runs (w_run i d begun rs).2 → working (w_run i d begun rs).2 →
  up_to wr_now now rs → Forall (λ r, begun <= wr_now r) rs → start <= begun + seconds + slack → on_schedule seconds slack start now (times_of wr_now looks_after_scheduler rs) →
  now - last_echo begun (w_run i d begun rs).2 <= d + seconds + slack.
Proof.
  intros Hd0 Hs Hsl Hc Hw Hu Hst Hbeg Hsch.
  pose proof (schedule_last _ _ _ _ _ Hsch) as Hlast. pose proof (last_kind wr_now looks_after_scheduler rs) as Hk. destruct (last _) as [q|].
  - destruct Hk as (rs1 & r & rs2 & -> & Hr & Hq & Hno). destruct (up_to_after _ _ _ _ _ Hu) as [Hf Hqn].
    destruct r as [q' ev]. unfold looks_after_scheduler in Hr. cbn in Hr, Hq, Hf, Hqn. destruct ev; try done. subst q'.
    replace (rs1 ++ WRound q WTimeout :: rs2) with ((rs1 ++ [WRound q WTimeout]) ++ rs2) in * by (by rewrite <-app_assoc).
    assert (q - d <= last_echo begun (w_run i d begun ((rs1 ++ [WRound q WTimeout]) ++ rs2)).2); [|lia].
    apply echo_later with q; [done|done|lia|done|].
    pose proof (working_prefix _ _ _ _ _ Hw) as Hw1. pose proof (clock_prefix _ _ _ _ _ Hc) as Hc1.
    pose proof (working_prefix _ _ _ _ _ Hw1) as Hw0. pose proof (clock_prefix _ _ _ _ _ Hc1) as Hc0.
    pose proof (timeout_run i d begun rs1 q Hc0 Hw0) as E. rewrite E in Hw1 |- *. destruct (q - last_echo begun _ <? d) eqn:El.
    + rewrite last_echo_app. cbn. fold (last_echo begun (w_run i d begun rs1).2). apply Z.ltb_lt in El. lia.
    + exfalso. apply (Hw1 TimeoutError). apply elem_of_app. right. do 2 right. left.
  - assert (begun <= last_echo begun (w_run i d begun rs).2); [|lia]. change rs with ([] ++ rs) in *.
    apply echo_later with begun; [done|done|lia|done|]. unfold last_echo. cbn. lia.
Qed.

(** For examples. *)
Fixpoint sortedb (l : list Z) : bool := match l with a :: l => match l with b :: _ => (a <=? b) && sortedb l | [] => true end | [] => true end.
Lemma sorted_check l : sortedb l = true → StronglySorted Z.le l.
Proof.
  intros H. apply Sorted_StronglySorted; [intros ? ? ?; lia|]. induction l as [|a l IH]; [constructor|]. destruct l as [|b l]; [by repeat constructor|].
  cbn [sortedb] in H. apply andb_true_iff in H as [H1 H2]. constructor; [by apply IH|]. constructor. by apply Z.leb_le.
Qed.
