(** Facts about whole histories, drawn from the invariants (C20-C26). *)

From Verif.Model Require Import Base OneToManyDict Allocator Message Sorter Scheduler.
From Verif.Spec Require Import AllocatorSpec DictSpec SchedulerSpec.
From Verif.Proofs Require Import BaseProofs AllocatorProofs SchedWp SchedCount SchedHold SchedContent SchedSend SchedPrim SchedFn.

Lemma occurrences_snoc {E} (p : E → bool) h e : occurrences p (h ++ [e]) = (occurrences p h + (if p e then 1 else 0))%nat.
Proof. unfold occurrences. rewrite List.filter_app, app_length. cbn. destruct (p e); reflexivity. Qed.
Lemma occurrences_app {E} (p : E → bool) h l : occurrences p (h ++ l) = (occurrences p h + occurrences p l)%nat.
Proof. unfold occurrences. rewrite List.filter_app, app_length. reflexivity. Qed.

Lemma prim_cfg a d b h s s' : rtc (prim a d b h) s s' → s_cfg s' = s_cfg s.
Proof. induction 1 as [|s1 s2 s3 H _ IH]; [reflexivity|]. rewrite IH. destruct H; reflexivity. Qed.
Lemma step_cfg s r : s_cfg (step s r) = s_cfg s.
Proof.
  unfold step. destruct (s_dead s); [reflexivity|]. set (s0 := set_log _ _).
  assert (Hr : round_adds (λ _ _ _, True) (λ _, True) True True s0 (rd_event r)).
  { destruct (rd_event r) as [? []| | | | |]; cbn; auto; try (destruct type; auto). destruct (s_gqueue s) as [|[] ?]; auto. }
  pose proof (go_handle _ _ _ _ s0 (rd_event r) Hr) as Hw. unfold wp in Hw.
  destruct (handle _ s0) as [s' [u|e]]; apply prim_cfg in Hw; exact Hw.
Qed.
Lemma run_cfg c rs : s_cfg (run c rs) = c.
Proof.
  unfold run, run_from. assert (∀ s, s_cfg (foldl step s rs) = s_cfg s) as H; [|rewrite H; reflexivity].
  induction rs as [|r rs IH]; intros s; cbn; [reflexivity|]. rewrite IH. apply step_cfg.
Qed.

(** If every [p] is preceded by more [q] than [p], prefixes have no more [p] than [q]. *)
Lemma occurrences_le (p q : entry → bool) h :
  always (λ b e, p e = true → (occurrences p b < occurrences q b)%nat) h →
  ∀ before after, h = before ++ after → (occurrences p before <= occurrences q before)%nat.
Proof.
  intros H before. induction before as [|e before IH] using rev_ind; intros after E; [cbn; lia|].
  rewrite !occurrences_snoc. rewrite <- app_assoc in E. specialize (IH _ E). specialize (H before e after E).
  cbn in H. destruct (p e); [specialize (H eq_refl)|]; destruct (q e); lia.
Qed.

Lemma one_result_lemma c rs t before after : s_log (run c rs) = before ++ after →
  (occurrences (is_result t) before <= occurrences (is_accept t) before)%nat.
Proof.
  intros E. eapply occurrences_le; [|exact E]. intros b e a Eh Hp.
  destruct (Inv1_run c rs) as [H _]. specialize (H b e a Eh).
  destruct e as [|to m| | | | |]; try discriminate. destruct m; try discriminate. cbn in Hp. apply String.eqb_eq in Hp as ->.
  apply H.
Qed.
Lemma right_client_lemma c rs before cl t st d p after :
  s_log (run c rs) = before ++ LSend cl (MTaskResult t st d p) :: after →
  ¬ graph_from cl t before → accepted cl t before.
Proof. intros E Hg. destruct (Inv1_run c rs) as [H _]. destruct (H _ _ _ E) as [_ [?|?]]; tauto. Qed.
Lemma relayed_lemma c rs before cl t st d p after :
  s_log (run c rs) = before ++ LSend cl (MTaskResult t st d p) :: after →
  (∃ w, last_input before = Some (ERecv w (MTaskResult t st d p))) ∨
  (st = Canceled ∧ d = 0 ∧ p = "" ∧ ((∃ c, last_input before = Some (ERecv c (MTaskCancel t))) ∨ graph_node t before)).
Proof.
  intros E. destruct (Inv3_run c rs) as [H _]. destruct (H _ _ _ E) as [?|[[= -> -> ->] ?]]; [left; assumption|right; auto].
Qed.

Lemma no_task_lost_lemma c rs cl t : let s := run c rs in
  s_dead s = None → accepted cl t (s_log s) → ¬ answered t (s_log s) → ¬ graph_node t (s_log s) →
  t ∈ s_unassigned s ∨ (∃ k, s_limbo s = Some k ∧ task_id k = t) ∨
  ∃ w, holder (s_log s) !! t = Some w ∧ w ∈ registered (s_log s).
Proof.
  intros s Hd Ha Hna Hng. destruct (Inv1_run c rs) as [_ H1]. specialize (H1 Hd). destruct (Inv2_run c rs) as [_ H2]. specialize (H2 Hd).
  destruct (i1_accepted _ _ _ H1 cl t Ha) as [Ht|[?|[?|Ho]]]; [|tauto..|set_solver].
  destruct (i2_place _ _ H2 t Ht) as [?|[?|[[w Hw]|?]]]; [auto..| |set_solver]. right; right. exists w. split; [exact Hw|].
  apply (proj1 (allocd_ok _ _ (i2_alloc _ _ H2)) t w Hw).
Qed.
Lemma task_known c rs cl t : let s := run c rs in
  s_dead s = None → accepted cl t (s_log s) → ¬ answered t (s_log s) → ¬ graph_node t (s_log s) →
  ∃ k, s_tasks s !! t = Some k ∧ task_id k = t ∧ content (s_log s) k.
Proof.
  intros s Hd Ha Hna Hng. destruct (Inv1_run c rs) as [_ H1]. specialize (H1 Hd). destruct (Inv2_run c rs) as [_ H2]. specialize (H2 Hd).
  destruct (Inv3_run c rs) as [_ H3]. destruct (H3 Hd) as [ev H3'].
  destruct (i1_accepted _ _ _ H1 cl t Ha) as [[k Ht]|[?|[?|Ho]]]; [|tauto..|set_solver].
  exists k. split; [exact Ht|]. split; [exact (i2_key _ _ H2 _ _ Ht)|exact (i3_tasks _ _ _ H3' _ _ Ht)].
Qed.

Lemma live_dispatch_lemma c rs before w k after :
  s_log (run c rs) = before ++ LSend w (MTask k) :: after →
  w ∈ registered before ∧ (0 <= c_queue_size c → outstanding (before ++ [LSend w (MTask k)]) w <= c_queue_size c) ∧
  ∃ cl, submitted cl k before ∧ accepted cl (task_id k) before.
Proof.
  intros E. destruct (Inv2_run c rs) as [H _]. destruct (H _ _ _ E) as (H1 & H2 & H3). destruct (Inv3_run c rs) as [H' _].
  rewrite run_cfg in H3. split; [exact H1|]. split; [exact H3|exact (H' _ _ _ E)].
Qed.
Lemma dispatch_count_lemma c rs t before after : s_log (run c rs) = before ++ after →
  (occurrences (is_dispatch t) before <= occurrences (is_accept t) before + moments (takes_back t) before)%nat.
Proof.
  intros E. destruct before as [|e b _] using rev_ind; [cbn; lia|]. rewrite <- app_assoc in E. destruct (Inv4_run c rs) as [H _].
  specialize (H b e after E t). unfold used, given in H. lia.
Qed.
Lemma dispatch_holder_lemma c rs before w k after :
  s_log (run c rs) = before ++ LSend w (MTask k) :: after →
  ∀ w', holder before !! task_id k = Some w' → w' = w.
Proof.
  intros E w' Hw. destruct (Inv2_run c rs) as [H _]. destruct (H _ _ _ E) as (_ & [H1|H1] & _); congruence.
Qed.

(** Requests for a function. *)
Lemma request_known s now codes w f i n d : s_dead s = None → s_funcs s !! f = Some i →
  let s' := step s (Round now codes (ERecv w (MFunctionRequest FnRequest f n d))) in
  s_dead s' = None ∧
  s_log s' = s_log s ++ [LIn now (ERecv w (MFunctionRequest FnRequest f n d));
                         LSend w (MFunctionResponse FnOK f (fi_name i) (fi_content i))].
Proof.
  intros Hd Hf. cbn. unfold step. rewrite Hd. cbn. unfold fm_request, bind, gets. ss. rewrite Hf. cbn. rewrite Hd.
  split; [reflexivity|]. rewrite <- app_assoc. reflexivity.
Qed.
Lemma function_available_lemma c rs cl t f now codes w n d : let s := run c rs in
  s_dead s = None → accepted cl t (s_log s) → ¬ answered t (s_log s) → ¬ graph_node t (s_log s) →
  (∀ cl k, received cl (MTask k) (s_log s) → task_id k = t → task_function k = f) →
  let s' := step s (Round now codes (ERecv w (MFunctionRequest FnRequest f n d))) in
  ∃ name content, s_log s' = s_log s ++ [LIn now (ERecv w (MFunctionRequest FnRequest f n d));
                         LSend w (MFunctionResponse FnOK f name content)].
Proof.
  intros s Hd Ha Hna Hng Hf. destruct (task_known c rs cl t Hd Ha Hna Hng) as (k & Hk & Hid & cl' & Hs & _).
  pose proof (Inv5_run c rs Hd) as H5. pose proof (i5_tasks _ H5 _ _ Hk Hng) as Hu. apply (i5_used _ H5) in Hu as [i Hi].
  assert (task_function k = f) as <-.
  { destruct Hs as [Hs|(g & fs & ts & ns & m & Hr & Hm & Hm2 & _)]; [eauto|]. destruct Hng. exists cl', g, fs, ts, ns, m. split; [exact Hr|]. split; [exact Hm|congruence]. }
  intros s'. exists (fi_name i), (fi_content i). eapply request_known; eauto.
Qed.
