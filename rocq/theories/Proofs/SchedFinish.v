(** From every state that well-behaved traffic leads to, everything can be answered (C75). *)

From Verif.Model Require Import Base OneToManyDict PriorityQueue Allocator Message Sorter Scheduler.
From Verif.Spec Require Import AllocatorSpec DictSpec SchedulerSpec TrafficSpec.
From Verif.Proofs Require Import BaseProofs DictProofs AllocatorProofs SchedWp SchedCount SchedHold SchedContent SchedSend SchedPrim SchedFn SchedGlobal SchedStep SchedRemove HistoryProofs SchedPlain SchedPolite SorterProofs SchedLive SchedBegin SchedTraffic.

Notation inner := (Forall (λ e, match e with LIn _ _ => False | _ => True end)).
Lemma pending_inner l : ∀ h, inner l → pending_graphs (h ++ l) = pending_graphs h.
Proof.
  induction l as [|e l IH] using rev_ind; intros h H; [rewrite app_nil_r; reflexivity|]. apply Forall_app in H as [H He]. inversion He as [|? ? He' _]. subst.
  rewrite app_assoc, pending_snoc, IH by exact H. destruct e; [destruct He'|reflexivity..].
Qed.
Lemma settled_inner t l : ∀ h, inner l → settled t (h ++ l) ↔ settled t h.
Proof.
  induction l as [|e l IH] using rev_ind; intros h H; [rewrite app_nil_r; reflexivity|]. apply Forall_app in H as [H He]. inversion He as [|? ? He' _]. subst.
  rewrite app_assoc, settled_snoc, IH by exact H. split; [intros [?|(?&?&?&?&?& -> & _)]; [assumption|destruct He']|auto].
Qed.
Lemma received_inner c m l : ∀ h, inner l → received c m (h ++ l) ↔ received c m h.
Proof.
  induction l as [|e l IH] using rev_ind; intros h H; [rewrite app_nil_r; reflexivity|]. apply Forall_app in H as [H He]. inversion He as [|? ? He' _]. subst.
  rewrite app_assoc, received_snoc, IH by exact H. split; [intros [?|(? & ->)]; [assumption|destruct He']|auto].
Qed.
Lemma always_inner (P : history → entry → Prop) l : ∀ h, inner l → (∀ b e, match e with LIn _ _ => True | _ => P b e end) → always P h → always P (h ++ l).
Proof.
  induction l as [|e l IH] using rev_ind; intros h H HP Ha; [rewrite app_nil_r; exact Ha|]. apply Forall_app in H as [H He]. inversion He as [|? ? He' _]. subst.
  rewrite app_assoc. apply always_snoc; [apply IH; assumption|]. specialize (HP (h ++ l) e). destruct e; [destruct He'|exact HP..].
Qed.

(** Ids that were submitted. *)
Definition ids_of (m : message) : list bytes := match m with MTask k => [task_id k] | MGraphTask g _ _ ns => g :: (task_id <$> ns) | _ => [] end.
Definition ids (h : history) : gset bytes := list_to_set (h ≫= λ e, match e with LIn _ (ERecv _ m) => ids_of m | _ => [] end).
Lemma ids_seen x h : x ∈ ids h ↔ seen x h.
Proof.
  unfold ids, seen, received. rewrite elem_of_list_to_set, elem_of_list_bind. split.
  - intros (e & Hx & He). destruct e as [now [src m| | | | |]| | | | | |]; try (inversion Hx; fail). exists src, m. split; [eauto|]. destruct m; try (inversion Hx; fail); cbn in *; set_solver.
  - intros (c & m & [now Hr] & Hn). exists (LIn now (ERecv c m)). split; [|exact Hr]. destruct m; try contradiction; cbn in *; set_solver.
Qed.
Lemma ids_app h l : ids (h ++ l) = ids h ∪ ids l.
Proof. unfold ids. rewrite bind_app, list_to_set_app_L. reflexivity. Qed.
Lemma ids_inner l : inner l → ids l = ∅.
Proof. intros H. induction H as [|e l He _ IH]; [reflexivity|]. change (e :: l) with ([e] ++ l). rewrite ids_app, IH. destruct e; [destruct He|cbn; set_solver..]. Qed.


Lemma answered_or t h : answered t h ∨ ¬ answered t h.
Proof.
  induction h as [|e h [IH|IH]]; [right; intros (? & ? & ? & ? & H); inversion H|left; destruct IH as (x & st & d & r & H); exists x, st, d, r; right; exact H|].
  assert ((∃ x st d r, e = LSend x (MTaskResult t st d r)) ∨ ¬ ∃ x st d r, e = LSend x (MTaskResult t st d r)) as [(x & st & d & r & ->)|Hn]; [|left; exists x, st, d, r; left|].
  { destruct e as [|x m| | | | |]; try (right; intros (? & ? & ? & ? & ?); discriminate). destruct m; try (right; intros (? & ? & ? & ? & ?); discriminate).
    destruct (decide (id = t)) as [->|]; [left; eauto|]. right. intros (? & ? & ? & ? & ?). congruence. }
  right. intros (x & st & d & r & H). apply elem_of_cons in H as [H|H]; [apply Hn; eauto|apply IH; exists x, st, d, r; exact H].
Qed.
(** ** Helpful continuations *)
Record goes (now : Z) (v : bytes → bytes) (c : config) (rs rs' : list round) : Prop := {
  go_polite : always (polite_graphs utf8) (s_log (run c (rs ++ rs')));
  go_log : ∃ l, s_log (run c (rs ++ rs')) = s_log (run c rs) ++ l ∧ ∀ before e after, l = before ++ e :: after → helpful now v (s_log (run c rs) ++ before) e }.
Lemma goes_refl now v c rs : always (polite_graphs utf8) (s_log (run c rs)) → goes now v c rs [].
Proof. intros H. split; rewrite app_nil_r; [exact H|]. exists []. rewrite app_nil_r. split; [reflexivity|]. intros [] ? ? E; discriminate. Qed.
Lemma split_entry {E} (l1 l2 : list E) : ∀ b e a, l1 ++ l2 = b ++ e :: a → (∃ a', l1 = b ++ e :: a') ∨ ∃ b', b = l1 ++ b' ∧ l2 = b' ++ e :: a.
Proof.
  induction l1 as [|x l1 IH]; intros b e a H; [right; exists b; auto|]. destruct b as [|y b]; cbn in H; injection H as -> H; [left; exists l1; reflexivity|].
  destruct (IH _ _ _ H) as [(a' & ->)|(b' & -> & ->)]; [left; exists a'; reflexivity|right; exists b'; auto].
Qed.
Lemma goes_trans now v c rs r1 r2 : goes now v c rs r1 → goes now v c (rs ++ r1) r2 → goes now v c rs (r1 ++ r2).
Proof.
  intros [_ (l1 & E1 & H1)] [P2 (l2 & E2 & H2)]. rewrite <- app_assoc in *. split; [exact P2|]. exists (l1 ++ l2). split; [rewrite E2, E1, app_assoc; reflexivity|].
  intros b e a E. rewrite E1 in H2. apply split_entry in E as [(a' & E)|(b' & -> & E)]; [exact (H1 _ _ _ E)|]. rewrite app_assoc. exact (H2 _ _ _ E).
Qed.
Lemma go_step now v c rs ev : c_max_waiting c < 0 → always (polite_graphs utf8) (s_log (run c rs)) →
  polite_graphs utf8 (s_log (run c rs)) (LIn now ev) → helpful now v (s_log (run c rs)) (LIn now ev) → goes now v c rs [Round now [] ev].
Proof.
  intros Hw Hp He Hh. pose proof (survives_graphs_lemma c rs Hw Hp) as Hd.
  destruct (step_log_inner (run c rs) (Round now [] ev) Hd) as (l & El & Hl). cbn [rd_now rd_event] in El. split; rewrite run_snoc, El.
  - change (LIn now ev :: l) with ([LIn now ev] ++ l). rewrite app_assoc. apply always_inner; [exact Hl|intros b [ | | | | | |]; exact I|]. apply always_snoc; assumption.
  - exists (LIn now ev :: l). split; [reflexivity|]. intros [|x b] e a E; cbn in E; injection E as E0 E; [rewrite <- E0, app_nil_r; exact Hh|].
    rewrite E in Hl. apply Forall_app in Hl as [_ Hl]. inversion Hl as [|? ? Hx _]. destruct e; [destruct Hx|exact I..].
Qed.
Lemma goes_ids now v c rs rs' : goes now v c rs rs' → ids (s_log (run c (rs ++ rs'))) = ids (s_log (run c rs)).
Proof.
  intros [_ (l & -> & H)]. rewrite ids_app. assert (ids l = ∅) as ->; [|set_solver]. revert H. generalize (s_log (run c rs)). induction l as [|e l IH] using rev_ind; intros h H; [reflexivity|].
  rewrite ids_app, (IH h) by (intros b e' a ->; apply (H b e' (a ++ [e])); rewrite <- app_assoc; reflexivity). specialize (H l e [] eq_refl).
  destruct e as [now' [src m| | | | |]| | | | | |]; try (cbn; set_solver). destruct H as [_ H]. destruct m; try contradiction; cbn; set_solver.
Qed.
Lemma goes_settled now v c rs rs' t : goes now v c rs rs' → settled t (s_log (run c rs)) → settled t (s_log (run c (rs ++ rs'))).
Proof. intros [_ (l & -> & _)] (b & n & src & st & d & r & a & -> & H). exists b, n, src, st, d, r, (a ++ l). split; [rewrite <- app_assoc; reflexivity|exact H]. Qed.
Lemma step_pending c rs r : s_dead (run c rs) = None → pending_graphs (s_log (run c (rs ++ [r]))) = pending_step (pending_graphs (s_log (run c rs))) (LIn (rd_now r) (rd_event r)).
Proof.
  intros Hd. rewrite run_snoc. destruct (step_log_inner (run c rs) r Hd) as (l & -> & Hl). change (LIn (rd_now r) (rd_event r) :: l) with ([LIn (rd_now r) (rd_event r)] ++ l).
  rewrite app_assoc, pending_inner by exact Hl. apply pending_snoc.
Qed.

(** ** One round of the dispatch loop *)
Lemma undispatched_snoc h e : undispatched (h ++ [e]) = match e with LSend _ (MTaskEcho _ SubmitOK) => true | LIn _ EDispatch => false | _ => undispatched h end.
Proof. unfold undispatched. rewrite foldl_app. reflexivity. Qed.
Lemma dispatch_done c rs now v : c_max_waiting c < 0 → always (polite_graphs utf8) (s_log (run c rs)) →
  let rs' := [Round now [] EDispatch] in goes now v c rs rs' ∧ undispatched (s_log (run c (rs ++ rs'))) = false ∧
  pending_graphs (s_log (run c (rs ++ rs'))) = pending_graphs (s_log (run c rs)) ∧
  (∀ t, next_task (run c rs) = Some t → registered (s_log (run c rs)) ≠ ∅ → holder (s_log (run c rs)) = ∅ → 1 <= c_queue_size c → is_Some (holder (s_log (run c (rs ++ rs'))) !! t)).
Proof.
  intros Hw Hp rs'. pose proof (fine_run c rs Hw Hp) as (xt & g & [Hc _] & _). pose proof (ledger_run _ _ _ _ _ Hc) as Hg. rewrite Hg in Hc. pose proof (c_dead _ _ _ _ _ Hc) as Hd.
  pose proof (dispatch_any c rs now [] _ _ Hc) as HD. cbn zeta in HD.
  assert (Hgo : goes now v c rs rs') by (apply go_step; [exact Hw|exact Hp|exact I|split; [reflexivity|exact I]]).
  assert (Hpd := step_pending c rs (Round now [] EDispatch) Hd). fold rs' in Hpd. split; [exact Hgo|]. unfold rs' in *. rewrite run_snoc in *. split; [|split; [exact Hpd|]].
  - destruct (next_task (run c rs)) as [t|].
    + destruct HD as [(_ & -> & _)|[(_ & _ & -> & _)|(w & k & mon & _ & Hm & _ & _ & _ & ->)]]; [apply undispatched_snoc..|].
      change [LIn now EDispatch; LSend w (MTask k); mon] with ([LIn now EDispatch] ++ [LSend w (MTask k)] ++ [mon]). rewrite !app_assoc, !undispatched_snoc. destruct mon; try contradiction; reflexivity.
    + rewrite HD. apply undispatched_snoc.
  - intros t Ht Hr Hh Hq. rewrite Ht in HD. destruct HD as [(E & _)|[(_ & Ho & _)|(w & k & mon & Hk & Hm & _ & _ & _ & ->)]]; [contradiction| |].
    + apply set_choose_L in Hr as [w Hx]. specialize (Ho w Hx). unfold outstanding in Ho. rewrite Hh, map_filter_empty, map_size_empty in Ho. lia.
    + change [LIn now EDispatch; LSend w (MTask k); mon] with ([LIn now EDispatch] ++ [LSend w (MTask k)] ++ [mon]). rewrite !app_assoc, !holder_snoc. exists w.
      assert (∀ m, holder_step m mon = m) as -> by (intros m; destruct mon; try contradiction; reflexivity). cbn. rewrite Hk. apply lookup_insert.
Qed.

(** ** A worker joins *)
Lemma join_done c rs now v w hb : c_max_waiting c < 0 → always (polite_graphs utf8) (s_log (run c rs)) → utf8 w = true →
  undispatched (s_log (run c rs)) = false → registered (s_log (run c rs)) = ∅ →
  let rs' := [Round now [] (ERecv w (MHeartbeat hb))] in goes now v c rs rs' ∧ undispatched (s_log (run c (rs ++ rs'))) = false ∧
  pending_graphs (s_log (run c (rs ++ rs'))) = pending_graphs (s_log (run c rs)) ∧ registered (s_log (run c (rs ++ rs'))) ≠ ∅.
Proof.
  intros Hw Hp Ht Hu Hr rs'. pose proof (fine_run c rs Hw Hp) as (xt & g & [Hc _] & _). pose proof (ledger_run _ _ _ _ _ Hc) as Hg. pose proof (c_dead _ _ _ _ _ Hc) as Hd.
  assert (Hgo : goes now v c rs rs') by (apply go_step; [exact Hw|exact Hp|split; auto|split; [reflexivity|exact Hr]]).
  assert (Hpd := step_pending c rs (Round now [] (ERecv w (MHeartbeat hb))) Hd). fold rs' in Hpd. split; [exact Hgo|].
  assert (core xt false (Ledger ({[w]} ∪ lg_workers g) (lg_owner g)) [] (run c (rs ++ rs')) ∧ calm (begin (run c rs) (Round now [] (ERecv w (MHeartbeat hb)))) (run c (rs ++ rs'))) as [Hc' Hcalm].
  { unfold rs'. rewrite run_snoc. pattern (step (run c rs) (Round now [] (ERecv w (MHeartbeat hb)))). apply step_wp; [exact Hd|]. rewrite Hu in Hc.
    apply (core_begin _ _ _ _ _ (Round now [] (ERecv w (MHeartbeat hb)))) in Hc. cbn [handle rd_event]. unfold on_receive. eapply wp_mono; [apply heartbeat_spec; [exact Hc|exact Ht]| |intros ? ? []]. intros _ s' (A & B & _). auto. }
  split; [|split; [exact Hpd|]].
  - destruct (cm_log _ _ Hcalm) as (l & El & Hl). rewrite El. rewrite undispatched_calm by exact Hl. cbn [begin s_log set_log set_codes rd_now rd_event]. change (undispatched (s_log (run c rs) ++ [LIn now (ERecv w (MHeartbeat hb))]) = false). rewrite undispatched_snoc. exact Hu.
  - intros E. pose proof (ledger_run _ _ _ _ _ Hc') as Hg'. apply (f_equal lg_workers) in Hg'. change (lg_workers (ledger_of (s_log (run c (rs ++ rs'))))) with (registered (s_log (run c (rs ++ rs')))) in Hg'. rewrite E in Hg'. cbn in Hg'. set_solver.
Qed.

(** ** A worker reports *)
Lemma report_done c rs now v t w : c_max_waiting c < 0 → always (polite_graphs utf8) (s_log (run c rs)) →
  undispatched (s_log (run c rs)) = false → holder (s_log (run c rs)) !! t = Some w →
  let rs' := [Round now [] (ERecv w (MTaskResult t Success 0 (v t)))] in goes now v c rs rs' ∧
  pending_graphs (s_log (run c (rs ++ rs'))) = pending_graphs (s_log (run c rs)) ∧ t ∈ ids (s_log (run c rs)) ∧ ¬ settled t (s_log (run c rs)) ∧ settled t (s_log (run c (rs ++ rs'))).
Proof.
  intros Hw Hp Hu Hh rs'. pose proof (fine_run c rs Hw Hp) as (xt & g & O & W). pose proof O as [Hc _]. pose proof (ledger_run _ _ _ _ _ Hc) as Hg. pose proof (c_dead _ _ _ _ _ Hc) as Hd.
  assert (Hreg : w ∈ registered (s_log (run c rs))). { destruct (Inv2_run c rs) as [_ H2]. specialize (H2 Hd). apply (proj1 (allocd_ok _ _ (i2_alloc _ _ H2)) t w Hh). }
  assert (Htx : utf8 w = true). { apply (c_tw _ _ _ _ _ Hc), elem_of_dom. rewrite (c_alive _ _ _ _ _ Hc), Hg. exact Hreg. }
  destruct (held_task c rs xt g t O ltac:(eauto)) as [k Hk].
  split; [|split; [|split; [|split]]].
  - apply go_step; [exact Hw|exact Hp| |split; [reflexivity|auto]]. split; [exact Hu|]. split; [exact Htx|]. intros _ H. contradiction.
  - exact (step_pending c rs (Round now [] (ERecv w (MTaskResult t Success 0 (v t)))) Hd).
  - apply ids_seen, (wd_seen _ _ _ _ W). left. left. eauto.
  - intros Hs. destruct (wd_settled _ _ _ _ W _ Hs) as (_ & E & _). congruence.
  - unfold rs'. rewrite run_snoc. destruct (step_log_inner (run c rs) (Round now [] (ERecv w (MTaskResult t Success 0 (v t)))) Hd) as (l & -> & _).
    cbn [rd_now rd_event]. exists (s_log (run c rs)), now, w, Success, 0, (v t), l. split; [reflexivity|eauto].
Qed.

(** ** Until the scheduler has no task *)
Section finish.
Context (now : Z) (v : bytes → bytes) (w : bytes) (hb : heartbeat) (c : config).
Context (Hw : c_max_waiting c < 0) (Hq : 1 <= c_queue_size c) (Hx : utf8 w = true).
Notation log rs := (s_log (run c rs)).
Notation ok rs := (always (polite_graphs utf8) (log rs)).

Lemma ready_state rs : ok rs → ∃ rs', goes now v c rs rs' ∧ undispatched (log (rs ++ rs')) = false ∧ pending_graphs (log (rs ++ rs')) = pending_graphs (log rs) ∧ registered (log (rs ++ rs')) ≠ ∅.
Proof.
  intros Hp. destruct (dispatch_done c rs now v Hw Hp) as (G1 & U1 & P1 & _). set (r1 := [Round now [] EDispatch]) in *.
  destruct (decide (registered (log (rs ++ r1)) = ∅)) as [E|E]; [|exists r1; auto].
  destruct (join_done c (rs ++ r1) now v w hb Hw (go_polite _ _ _ _ _ G1) Hx U1 E) as (G2 & U2 & P2 & R2). set (r2 := [Round now [] (ERecv w (MHeartbeat hb))]) in *.
  exists (r1 ++ r2). split; [eapply goes_trans; eassumption|]. rewrite app_assoc. split; [exact U2|]. split; [rewrite P2; exact P1|exact R2].
Qed.
Lemma settle_one rs : ok rs → ∃ rs', goes now v c rs rs' ∧ pending_graphs (log (rs ++ rs')) = pending_graphs (log rs) ∧
  (s_tasks (run c (rs ++ rs')) = ∅ ∨ ∃ t, t ∈ ids (log rs) ∧ ¬ settled t (log rs) ∧ settled t (log (rs ++ rs'))).
Proof.
  intros Hp. destruct (ready_state rs Hp) as (r1 & G1 & U1 & P1 & R1). pose proof (go_polite _ _ _ _ _ G1) as Hp1.
  assert (Hend : ∀ r2 t u, goes now v c (rs ++ r1) r2 → undispatched (log ((rs ++ r1) ++ r2)) = false → pending_graphs (log ((rs ++ r1) ++ r2)) = pending_graphs (log (rs ++ r1)) → holder (log ((rs ++ r1) ++ r2)) !! t = Some u →
    ∃ rs', goes now v c rs rs' ∧ pending_graphs (log (rs ++ rs')) = pending_graphs (log rs) ∧ (s_tasks (run c (rs ++ rs')) = ∅ ∨ ∃ t, t ∈ ids (log rs) ∧ ¬ settled t (log rs) ∧ settled t (log (rs ++ rs')))).
  { intros r2 t u G2 U2 P2 H2. pose proof (goes_trans _ _ _ _ _ _ G1 G2) as G12. rewrite <- app_assoc in U2, P2, H2. pose proof (go_polite _ _ _ _ _ G12) as Hp2.
    destruct (report_done c (rs ++ r1 ++ r2) now v t u Hw Hp2 U2 H2) as (G3 & P3 & I3 & N3 & S3). set (r3 := [Round now [] (ERecv u (MTaskResult t Success 0 (v t)))]) in *.
    exists ((r1 ++ r2) ++ r3). split; [eapply goes_trans; eassumption|]. rewrite app_assoc. split; [rewrite P3, P2, P1; reflexivity|]. right. exists t.
    split; [rewrite <- (goes_ids _ _ _ _ _ G12); exact I3|]. split; [|exact S3]. intros H. apply N3. eapply goes_settled; eassumption. }
  pose proof (fine_run c _ Hw Hp1) as (xt & g & O & W). pose proof O as [Hc _].
  destruct (decide (s_tasks (run c (rs ++ r1)) = ∅)) as [E|E]; [exists r1; auto|].
  destruct (decide (holder (log (rs ++ r1)) = ∅)) as [Eh|Eh].
  - assert (∃ t, next_task (run c (rs ++ r1)) = Some t) as [t Ht].
    { unfold next_task. destruct (s_limbo (run c (rs ++ r1))) as [k|] eqn:El; [eauto|]. destruct (s_unassigned (run c (rs ++ r1))) as [|t q] eqn:Eu; [|cbn; eauto]. exfalso.
      apply map_choose in E as (t & k & Hk). assert (Hin : t ∈ dom (s_tasks (run c (rs ++ r1)))) by (apply elem_of_dom; eauto).
      rewrite (c_places _ _ _ _ _ Hc), (c_running _ _ _ _ _ Hc), (ledger_run _ _ _ _ _ Hc), Eu in Hin. unfold lim in Hin. rewrite El in Hin. cbn in Hin. rewrite Eh, dom_empty_L in Hin. set_solver. }
    destruct (dispatch_done c (rs ++ r1) now v Hw Hp1) as (G2 & U2 & P2 & H2). destruct (H2 t Ht R1 Eh Hq) as [u Hu]. eapply Hend; eassumption.
  - apply map_choose in Eh as (t & u & Hu). eapply (Hend [] t u); [apply goes_refl; exact Hp1| | |]; rewrite app_nil_r; auto.
Qed.
Lemma settle_all n : ∀ rs (S : gset bytes), ok rs → S ⊆ ids (log rs) → (∀ t, t ∈ S → settled t (log rs)) → (size (ids (log rs)) - size S <= n)%nat →
  ∃ rs', goes now v c rs rs' ∧ pending_graphs (log (rs ++ rs')) = pending_graphs (log rs) ∧ s_tasks (run c (rs ++ rs')) = ∅.
Proof.
  induction n as [|n IH]; intros rs S Hp HS Hset Hn; destruct (settle_one rs Hp) as (r1 & G1 & P1 & [E|(t & Hi & Hns & Hs)]); try (exists r1; auto; fail);
    (assert (t ∉ S) as HtS by (intros H; apply Hns, Hset, H)); (assert (size ({[t]} ∪ S) = Datatypes.S (size S)) as Hsz by (rewrite size_union, size_singleton by set_solver; reflexivity)).
  - exfalso. pose proof (subseteq_size ({[t]} ∪ S) (ids (log rs)) ltac:(set_solver)). lia.
  - destruct (IH (rs ++ r1) ({[t]} ∪ S) (go_polite _ _ _ _ _ G1)) as (r2 & G2 & P2 & E2).
    + rewrite (goes_ids _ _ _ _ _ G1). set_solver.
    + intros x Hxx. apply elem_of_union in Hxx as [Hxx|Hxx]; [apply elem_of_singleton in Hxx as ->; exact Hs|]. eapply goes_settled; [exact G1|auto].
    + rewrite (goes_ids _ _ _ _ _ G1). lia.
    + exists (r1 ++ r2). split; [eapply goes_trans; eassumption|]. rewrite app_assoc. split; [rewrite P2; exact P1|exact E2].
Qed.
Lemma finish_graphs n : ∀ rs, ok rs → length (pending_graphs (log rs)) = n → ∃ rs', goes now v c rs rs' ∧ pending_graphs (log (rs ++ rs')) = [] ∧ s_tasks (run c (rs ++ rs')) = ∅.
Proof.
  induction n as [|n IH]; intros rs Hp Hn; destruct (settle_all (size (ids (log rs))) rs ∅ Hp ltac:(set_solver) ltac:(set_solver) ltac:(lia)) as (r1 & G1 & P1 & E1).
  - exists r1. split; [exact G1|]. split; [|exact E1]. rewrite P1. apply nil_length_inv. exact Hn.
  - pose proof (go_polite _ _ _ _ _ G1) as Hp1. set (r2 := [Round now [] EGraph]).
    assert (G2 : goes now v c (rs ++ r1) r2) by (apply go_step; [exact Hw|exact Hp1|exact I|split; [reflexivity|exact I]]).
    assert (P2 := step_pending c (rs ++ r1) (Round now [] EGraph) (survives_graphs_lemma c _ Hw Hp1)). fold r2 in P2. cbn [rd_now rd_event pending_step] in P2. rewrite P1 in P2.
    destruct (IH ((rs ++ r1) ++ r2) (go_polite _ _ _ _ _ G2)) as (r3 & G3 & P3 & E3). { rewrite P2. destruct (pending_graphs (log rs)); [discriminate|]. cbn in *. lia. }
    rewrite <- app_assoc in P2. rewrite <- (app_assoc rs r1 r2) in G3, P3, E3. exists ((r1 ++ r2) ++ r3). split; [eapply goes_trans; [eapply goes_trans; eassumption|exact G3]|]. rewrite app_assoc. auto.
Qed.
Lemma finished_run rs : ok rs → pending_graphs (log rs) = [] → s_tasks (run c rs) = ∅ → all_done (log rs).
Proof using Hw.
  clear Hq Hx v w hb now.
  intros Hp Hpd Hts. pose proof (fine_run c rs Hw Hp) as (xt & g & O & W). pose proof O as [Hc _]. pose proof (c_dead _ _ _ _ _ Hc) as Hd.
  pose proof (c_places _ _ _ _ _ Hc) as Hpl. rewrite (c_running _ _ _ _ _ Hc), (ledger_run _ _ _ _ _ Hc), Hts, dom_empty_L in Hpl. cbn in Hpl.
  assert (Hh : holder (log rs) = ∅). { apply dom_empty_iff_L. set_solver. }
  split; [exact Hpd| | |exact Hh].
  - intros cl gid Hg. destruct (wd_open _ _ _ _ W cl gid Hg) as [H|[[i Hi]|H]]; [rewrite Hpd in H; inversion H| |exact H]. exfalso.
    destruct (wd_calm _ _ _ _ W _ _ Hi ltac:(discriminate)) as ((c0 & fs0 & ts0 & ms & Hr' & gr & L & Hrdy & Hact) & Hset).
    assert (0 < outs (so_info (g_sorter i))) as Hout. { pose proof (lv_balanced _ _ _ _ _ _ _ _ _ L) as Hb. unfold balanced in Hb. lia. }
    apply out_some in Hout as (t & sc & Ht). assert (is_Some (s_tasks (run c rs) !! t)) as [k Hk]. { apply (lv_run _ _ _ _ _ _ _ _ _ L t sc Ht). intros H. inversion H. }
    rewrite Hts in Hk. discriminate.
  - intros cl t Ha Hng. destruct (answered_or t (log rs)) as [H|Hna]; [exact H|exfalso]. destruct (no_task_lost_lemma c rs cl t Hd Ha Hna Hng) as [H|[(k & Hk & Et)|(u & Hu & _)]].
    + apply (not_elem_of_empty (C := gset bytes) t). rewrite Hpl. set_solver.
    + apply (not_elem_of_empty (C := gset bytes) t). rewrite Hpl. unfold lim. rewrite Hk. set_solver.
    + rewrite Hh in Hu. discriminate.
Qed.
Lemma stuck_lemma rs : ok rs → pending_graphs (log rs) = [] → holder (log rs) = ∅ → next_task (run c rs) = None → all_done (log rs).
Proof using Hw.
  clear Hq Hx v w hb now.
  intros Hp Hpd Hh Hn. apply finished_run; [exact Hp|exact Hpd|]. pose proof (fine_run c rs Hw Hp) as (xt & g & [Hc _] & W). apply dom_empty_iff_L.
  rewrite (c_places _ _ _ _ _ Hc), (c_running _ _ _ _ _ Hc), (ledger_run _ _ _ _ _ Hc). cbn [lg_owner]. rewrite Hh, dom_empty_L. unfold next_task, lim in *.
  destruct (s_limbo (run c rs)); [discriminate|]. destruct (s_unassigned (run c rs)); [set_solver|discriminate].
Qed.
(** C75 *)
Lemma finish_lemma rs : ok rs → ∃ rs' l, log (rs ++ rs') = log rs ++ l ∧ (∀ before e after, l = before ++ e :: after → helpful now v (log rs ++ before) e) ∧ ok (rs ++ rs') ∧ all_done (log (rs ++ rs')).
Proof.
  intros Hp. destruct (finish_graphs _ rs Hp eq_refl) as (rs' & G & P & E). pose proof (go_polite _ _ _ _ _ G) as Hp'. destruct (go_log _ _ _ _ _ G) as (l & El & Hl). exists rs', l. repeat (split; [assumption|]). apply finished_run; assumption.
Qed.
End finish.

(** C36 with graphs *)
Lemma dispatch_graphs_lemma c rs now codes : let s := run c rs in let s' := step s (Round now codes EDispatch) in
  c_max_waiting c < 0 → always (polite_graphs utf8) (s_log s) →
  match next_task s with
  | None => s_log s' = s_log s ++ [LIn now EDispatch]
  | Some t =>
      (registered (s_log s) = ∅ ∧ s_log s' = s_log s ++ [LIn now EDispatch] ∧ next_task s' = Some t) ∨
      (registered (s_log s) ≠ ∅ ∧ (∀ w, w ∈ registered (s_log s) → outstanding (s_log s) w = c_queue_size c) ∧ s_log s' = s_log s ++ [LIn now EDispatch] ∧ last (s_unassigned s') = Some t) ∨
      (∃ w k mon, task_id k = t ∧ internal mon ∧ w ∈ registered (s_log s) ∧ (0 <= c_queue_size c → outstanding (s_log s) w < c_queue_size c) ∧
         (∀ w', w' ∈ registered (s_log s) → outstanding (s_log s) w <= outstanding (s_log s) w') ∧ s_log s' = s_log s ++ [LIn now EDispatch; LSend w (MTask k); mon])
  end.
Proof.
  intros s s' Hw Hp. pose proof (fine_run c rs Hw Hp) as (xt & g & [Hc _] & _). rewrite (ledger_run _ _ _ _ _ Hc) in Hc. exact (dispatch_any c rs now codes _ _ Hc).
Qed.
(** Workers without room never get a task. *)
Lemma no_room_lemma c rs : c_queue_size c = 0 → holder (s_log (run c rs)) = ∅.
Proof.
  intros Hq. assert (H : ∀ b w k a, s_log (run c rs) = b ++ LSend w (MTask k) :: a → False).
  { intros b w k a E. destruct (live_dispatch_lemma c rs b w k a E) as (_ & H & _). rewrite Hq in H. specialize (H ltac:(lia)). unfold outstanding in H. rewrite holder_snoc in H. cbn in H.
    assert (filter (λ p : bytes * bytes, p.2 = w) (<[task_id k:=w]> (holder b)) = ∅) as E0. { apply map_size_empty_inv. lia. }
    assert (filter (λ p : bytes * bytes, p.2 = w) (<[task_id k:=w]> (holder b)) !! task_id k = Some w) as E1; [|rewrite E0 in E1; discriminate].
    apply map_filter_lookup_Some. split; [apply lookup_insert|reflexivity]. }
  revert H. generalize (s_log (run c rs)). intros h. induction h as [|e h IH] using rev_ind; intros H; [reflexivity|]. rewrite holder_snoc, IH.
  - destruct e as [now ev|w m| | | | |]; try reflexivity.
    + destruct ev as [src m| | | | |]; try reflexivity. destruct m; try reflexivity; cbn; [apply delete_empty|]. clear; match goal with |- foldr _ _ ?l = _ => induction l as [|x l IHl] end; [reflexivity|]. cbn. rewrite IHl. apply delete_empty.
    + destruct m; try reflexivity. destruct (H h w t [] eq_refl).
  - intros b w k a ->. apply (H b w k (a ++ [e])). rewrite <- app_assoc. reflexivity.
Qed.
