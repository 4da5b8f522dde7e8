(** Graphs in progress: the sorter's state agrees with the history.  Consequences: a
    node is accepted once per submission, and a graph succeeds only when all its nodes
    did. *)

From Verif.Model Require Import Base OneToManyDict Allocator Message Sorter Scheduler.
From Verif.Spec Require Import DictSpec SchedulerSpec.
From Verif.Proofs Require Import BaseProofs SchedWp SchedCount SchedContent SchedGlobal SchedGraph SchedStep SorterProofs.

(** ** Counting graphs that still wait to start [t] *)
Global Instance unhanded_dec s n : Decision (unhanded s n).
Proof.
  unfold unhanded. destruct (so_info s !! n) as [[k sc]|]; [|right; intros (? & ? & ? & ?); discriminate].
  destruct (decide (0 <= k)); [left; eauto|right; intros (? & ? & [= <- <-] & ?); done].
Defined.
Definition waits (t : bytes) (i : graph) : Prop := t ∈ g_ids i ∧ unhanded (g_sorter i) t.
Definition waiting (t : bytes) (m : gmap bytes graph) : nat := size (filter (λ p, waits t p.2) m).
Lemma waiting_delete t g m : (waiting t (delete g m) <= waiting t m)%nat.
Proof. unfold waiting. rewrite map_filter_delete. destruct (filter (λ p : bytes * graph, waits t p.2) m !! g) as [i|] eqn:E.
  - rewrite (map_size_delete_Some _ _ (ex_intro _ _ E)). lia.
  - rewrite delete_notin by exact E. lia.
Qed.
Lemma waiting_insert t g i m : (waiting t (<[g := i]> m) <= waiting t m + (if decide (waits t i) then 1 else 0))%nat.
Proof.
  unfold waiting. destruct (decide (waits t i)) as [Hw|Hw].
  - rewrite map_filter_insert_True by exact Hw. rewrite map_size_insert. case_match; cbn; lia.
  - rewrite map_filter_insert_False by exact Hw. pose proof (waiting_delete t g m). unfold waiting in *. lia.
Qed.
Lemma waiting_update t g i i' m : m !! g = Some i →
  (waiting t (<[g := i']> m) + (if decide (waits t i) then 1 else 0) <= waiting t m + (if decide (waits t i') then 1 else 0))%nat.
Proof.
  intros Hg. unfold waiting. destruct (decide (waits t i)) as [Hw|Hw].
  - assert (filter (λ p : bytes * graph, waits t p.2) m !! g = Some i) as Hf by (apply map_filter_lookup_Some; auto).
    destruct (decide (waits t i')) as [Hw'|Hw'].
    + rewrite map_filter_insert_True by exact Hw'. rewrite map_size_insert, Hf. cbn. lia.
    + rewrite map_filter_insert_False by exact Hw'. rewrite map_filter_delete, (map_size_delete_Some _ _ (ex_intro _ _ Hf)).
      assert (size (filter (λ p : bytes * graph, waits t p.2) m) ≠ 0%nat); [|lia].
      intros H0. apply map_size_empty_inv in H0. rewrite H0, lookup_empty in Hf. discriminate.
  - pose proof (waiting_insert t g i' m). unfold waiting in *. lia.
Qed.
Definition queued (t : bytes) (q : list (bytes * graph_task)) : nat :=
  length (filter (λ p, t ∈ task_id <$> gt_graph p.2) q).
Definition pending (t : bytes) (l : list bytes) : nat := length (filter (λ x, x = t) l).

(** ** The invariant *)
Definition node_ok (before : history) (e : entry) : Prop :=
  match e with
  | LSend _ (MTaskEcho t SubmitOK) => (occurrences (is_accept t) before < occurrences (is_submission t) before)%nat
  | LSend c (MGraphTaskResult g Success _) =>
      ∃ fs ts ns, received c (MGraphTask g fs ts ns) before ∧ ∀ n, n ∈ ns → ∃ r, success before (task_id n) r
  | _ => True
  end.
Definition progress (strict : bool) (h : history) (g : bytes) (i : graph) : Prop :=
  ∃ fs ns gr, received (g_client i) (MGraphTask g fs (g_targets i) ns) h ∧
    sorted gr [] (g_sorter i) ∧ balanced (g_sorter i) ∧ acyclic gr ∧
    (∀ n, n ∈ ns → task_id n ∈ gr.*1) ∧
    (strict = true → ∀ t, is_done (g_sorter i) t → ∃ r, success h t r) ∧
    (∀ t n, g_nodes i !! t = Some n → task_id (ni_task n) = t ∧ t ∈ g_ids i).
Lemma progress_app b h l g i : progress b h g i → progress b (h ++ l) g i.
Proof.
  intros (fs & ns & gr & H1 & H2 & H3 & H4 & H5 & H6 & H7). exists fs, ns, gr. split; [apply received_app; exact H1|].
  repeat (split; [assumption|]). split; [|exact H7]. intros Hb t Ht. destruct (H6 Hb t Ht) as [r Hr]. exists r. auto with hist.
Qed.
Lemma progress_weaken b h g i : progress b h g i → progress false h g i.
Proof. intros (fs & ns & gr & H1 & H2 & H3 & H4 & H5 & H6 & H7). exists fs, ns, gr. repeat (split; [assumption|]). split; [discriminate|exact H7]. Qed.
Global Hint Resolve progress_app : hist.

Notation wellmade s := (always node_ok (s_log s)).
Record I6 (X L : list bytes) (ev : option event) (s : sched) : Prop := {
  i6_log : wellmade s;
  i6_ev : last_input (s_log s) = ev;
  i6_gqueue c gt : (c, gt) ∈ s_gqueue s → received c (graph_msg gt) (s_log s);
  i6_graphs g i : s_graphs s !! g = Some i → progress (negb (bool_decide (g ∈ X))) (s_log s) g i;
  i6_count t : (occurrences (is_accept t) (s_log s) + queued t (s_gqueue s) + waiting t (s_graphs s) + pending t L
                <= occurrences (is_submission t) (s_log s))%nat }.
Notation crash6 := (λ (_ : exn) s', wellmade s').

(** Entries that change no count and need no check. *)
Definition inert (e : entry) : Prop :=
  match e with
  | LIn _ _ => False
  | LSend _ (MTaskEcho _ SubmitOK) => False
  | LSend _ (MGraphTaskResult _ Success _) => False
  | _ => True
  end.
Lemma inert_ok b e : inert e → node_ok b e.
Proof. destruct e as [| ? [] | | | | |]; cbn; try done; case_match; done. Qed.
Lemma inert_accept t e : inert e → is_accept t e = false.
Proof. destruct e as [| ? [] | | | | |]; cbn; try done; case_match; done. Qed.
Lemma inert_sub t e : inert e → is_submission t e = false.
Proof. destruct e; cbn; done. Qed.
Lemma quiet_inert e : quiet e → inert e.
Proof. destruct e as [| ? [] | | | | |]; cbn; done. Qed.
Lemma occ_inert (p : entry → bool) l : (∀ e, inert e → p e = false) → Forall inert l → ∀ h, occurrences p (h ++ l) = occurrences p h.
Proof.
  intros Hp Hl h. rewrite occurrences_app. induction Hl as [|e l He Hl IH]; [cbn; lia|]. unfold occurrences in *. cbn. rewrite Hp by exact He. exact IH.
Qed.
Lemma I6_fm X L ev s s' : fm_same s s' → I6 X L ev s → I6 X L ev s'.
Proof.
  intros [[E1 _ _ _ E5 E6 _ E8 E9 E10 (l & El & Ql)] [F1 F2 F3]] [H1 H2 H3 H4 H5].
  assert (Ql' : Forall inert l) by (eapply Forall_impl; [exact Ql|exact quiet_inert]).
  split; rewrite ?El, ?F1, ?F2; eauto with hist.
  - apply always_quiet; auto using inert_ok, quiet_inert.
  - rewrite last_input_quiet; auto.
  - intros t. rewrite (occ_inert (is_accept t)), (occ_inert (is_submission t)); auto using inert_accept, inert_sub.
Qed.
Lemma wellmade_core s s' : same_core s s' → wellmade s → wellmade s'.
Proof.
  intros [E1 _ _ _ _ _ _ _ _ _ (l & El & Ql)] H. rewrite El. apply always_quiet; auto using inert_ok, quiet_inert.
Qed.
Definition keeps6 {A} (m : M A) : Prop := ∀ X L ev s, I6 X L ev s → wp m (λ _ s', I6 X L ev s') crash6 s.
Lemma keeps6_frame {A} (m : M A) :
  (∀ s, wp m (λ _ s', fm_same s s') (λ _ s', fm_same s s') s) → keeps6 m.
Proof.
  intros Hm X L ev s H. eapply wp_mono; [apply Hm| |]; cbv beta.
  - intros a s' Hs. eapply I6_fm; eauto.
  - intros e s' [Hs _]. eapply wellmade_core; [exact Hs|apply H].
Qed.
Lemma I6_use t f : keeps6 (fm_use t f). Proof. apply keeps6_frame. intros. apply fm_use_same, fm_same_refl. Qed.
Lemma I6_fdone t : keeps6 (fm_done t). Proof. apply keeps6_frame. intros. apply fm_done_same, fm_same_refl. Qed.
Lemma I6_on_function a b c d e : keeps6 (fm_on_function a b c d e).
Proof. apply keeps6_frame. intros. apply fm_on_function_same, fm_same_refl. Qed.
Lemma I6_fm_routine : keeps6 fm_routine. Proof. apply keeps6_frame. intros. apply fm_routine_same, fm_same_refl. Qed.
Lemma I6_monitor t st : keeps6 (tm_monitor t st). Proof. apply keeps6_frame. intros. apply tm_monitor_same, fm_same_refl. Qed.
Lemma I6_wcancel t : keeps6 (wm_cancel t). Proof. apply keeps6_frame. intros. apply wm_cancel_same, fm_same_refl. Qed.
Lemma I6_status : keeps6 st_routine. Proof. apply keeps6_frame. intros. apply st_routine_same, fm_same_refl. Qed.

Section I6_fields.
Context (X L : list bytes) (ev : option event) (s : sched).
Notation I := (I6 X L ev).
Lemma I6_running f : I s → I (set_running f s). Proof. intros []; split; auto. Qed.
Lemma I6_codes f : I s → I (set_codes f s). Proof. intros []; split; auto. Qed.
Lemma I6_clients f : I s → I (set_clients f s). Proof. intros []; split; auto. Qed.
Lemma I6_advice f : I s → I (set_last_advice f s). Proof. intros []; split; auto. Qed.
Lemma I6_same_count f : I s → I (set_same f s). Proof. intros []; split; auto. Qed.
Lemma I6_now f : I s → I (set_now f s). Proof. intros []; split; auto. Qed.
Lemma I6_n1 f : I s → I (set_nsuccess f s). Proof. intros []; split; auto. Qed.
Lemma I6_n2 f : I s → I (set_nfailed f s). Proof. intros []; split; auto. Qed.
Lemma I6_n3 f : I s → I (set_ncanceled f s). Proof. intros []; split; auto. Qed.
Lemma I6_n4 f : I s → I (set_nnotfound f s). Proof. intros []; split; auto. Qed.
Lemma I6_alloc f : I s → I (set_alloc f s). Proof. intros []; split; auto. Qed.
Lemma I6_alive f : I s → I (set_alive f s). Proof. intros []; split; auto. Qed.
Lemma I6_unassigned f : I s → I (set_unassigned f s). Proof. intros []; split; auto. Qed.
Lemma I6_limbo f : I s → I (set_limbo f s). Proof. intros []; split; auto. Qed.
Lemma I6_t2g f : I s → I (set_t2g f s). Proof. intros []; split; auto. Qed.
Lemma I6_tasks f : I s → I (set_tasks f s). Proof. intros []; split; auto. Qed.
Lemma I6_emit e : inert e → I s → I (set_log (λ l, l ++ [e]) s).
Proof.
  intros He [H1 H2 H3 H4 H5]. split; ss; eauto with hist.
  - apply always_snoc; [exact H1|apply inert_ok, He].
  - rewrite last_input_snoc. destruct e; [done|exact H2..].
  - intros t. rewrite !occ_inert; auto using inert_accept, inert_sub.
Qed.
Lemma I6_gdelete g : I s → I (set_graphs (delete g) s).
Proof.
  intros [H1 H2 H3 H4 H5]. split; ss; auto.
  - intros g' i [_ Hx]%lookup_delete_Some. auto.
  - intros t. pose proof (waiting_delete t g (s_graphs s)). specialize (H5 t). lia.
Qed.
Lemma I6_gupdate g i i' : s_graphs s !! g = Some i → progress (negb (bool_decide (g ∈ X))) (s_log s) g i' →
  (∀ t, waits t i' → waits t i) → I s → I (set_graphs (<[g := i']>) s).
Proof.
  intros Hg Hi Hw [H1 H2 H3 H4 H5]. split; ss; auto.
  - intros g' i0. rewrite lookup_insert_Some. intros [[<- <-]|[_ Hx]]; auto.
  - intros t. pose proof (waiting_update t g i i' (s_graphs s) Hg) as Hu. specialize (H5 t). specialize (Hw t).
    destruct (decide (waits t i)), (decide (waits t i')); tauto || lia.
Qed.
End I6_fields.
Global Hint Resolve I6_running I6_codes I6_clients I6_advice I6_same_count I6_now I6_n1 I6_n2 I6_n3 I6_n4
  I6_alloc I6_alive I6_unassigned I6_limbo I6_t2g I6_tasks I6_emit I6_gdelete i6_log : i6.
Global Hint Extern 1 (inert _) => exact I : i6.

Lemma I6_put t : keeps6 (tm_put t). Proof. intros X L ev s H. unfold tm_put. wsteps; eauto with i6. Qed.
Lemma I6_has_available : keeps6 wm_has_available. Proof. intros X L ev s H. unfold wm_has_available. wsteps; eauto with i6. Qed.
Lemma I6_cm_new c t : keeps6 (cm_new c t). Proof. intros X L ev s H. unfold cm_new. wsteps; eauto with i6. Qed.
Lemma I6_cm_done t : keeps6 (cm_done t). Proof. intros X L ev s H. unfold cm_done. wsteps; eauto with i6. Qed.
Lemma I6_pop X t L ev s : I6 X (t :: L) ev s → I6 X L ev s.
Proof.
  intros [H1 H2 H3 H4 H5]. split; auto. intros x. specialize (H5 x). unfold pending in *. rewrite filter_cons in H5. case_decide; cbn in H5; lia.
Qed.
Lemma I6_accept X t L ev c s : I6 X (t :: L) ev s → I6 X L ev (set_log (λ l, l ++ [LSend c (MTaskEcho t SubmitOK)]) s).
Proof.
  intros [H1 H2 H3 H4 H5]. split; ss; eauto with hist.
  - apply always_snoc; [exact H1|]. cbn. specialize (H5 t). unfold pending in H5. rewrite filter_cons_True in H5 by reflexivity. cbn in H5. lia.
  - rewrite last_input_snoc. exact H2.
  - intros x. rewrite !occurrences_snoc. cbn. specialize (H5 x). unfold pending in *. rewrite filter_cons in H5.
    destruct (String.eqb_spec t x) as [->|Hne]; [rewrite decide_True in H5 by reflexivity|rewrite decide_False in H5 by exact Hne]; cbn in H5; lia.
Qed.
Lemma I6_tm_new c k X L ev s : I6 X (task_id k :: L) ev s → wp (tm_new c k) (λ _ s', I6 X L ev s') crash6 s.
Proof.
  intros H. unfold tm_new, fm_has_function. wstep. wstep. destruct (negb _); [wsteps; apply I6_pop in H; eauto with i6|].
  wstep. wuse I6_has_available as s1 H1; [exact H|]. wsteps; [apply I6_pop in H1; eauto with i6|].
  apply (I6_accept _ _ _ _ c) in H1.
  wuse I6_use as s2 H2; [exact H1|]. wstep. wuse I6_cm_new as s3 H3; [exact H2|]. wsteps.
  wuse I6_put as s4 H4; [eauto with i6|apply I6_monitor; exact H4].
Qed.
Lemma I6_reroute t : keeps6 (tm_reroute t).
Proof. intros X L ev s H. unfold tm_reroute. wsteps; eauto with i6. wuse I6_put as s1 H1; [eauto with i6|]. apply I6_monitor. exact H1. Qed.
Lemma I6_tcount st : keeps6 (tm_count st). Proof. intros X L ev s H. unfold tm_count. wsteps; eauto with i6. Qed.
Lemma I6_forget r : keeps6 (tm_forget r).
Proof.
  intros X L ev s H. unfold tm_forget. wstep. wuse I6_tcount as s1 H1; [exact H|]. wstep. wstep. wstep.
  apply (wp_mono _ (λ _ s', I6 X L ev s') _ crash6); [case_match; wsteps; eauto with i6| |auto].
  intros u s2 H2. wstep. wuse I6_monitor as s3 H3; [exact H2|]. wsteps; [|eauto with i6].
  wuse I6_fdone as s4 H4; [eauto with i6|]. apply I6_cm_done. exact H4.
Qed.

(** ** Graphs *)
Definition cancels6 (cancel : bytes → M unit) : Prop := ∀ t ev s, I6 [] [] ev s → wp (cancel t) (λ _ s', I6 [] [] ev s') crash6 s.
Definition told (ev : option event) (r : result) : Prop :=
  r_status r = Success → ∃ src, ev = Some (ERecv src (MResult r)).
Lemma told_success ev h r : last_input h = ev → told ev r → r_status r = Success → success h (r_id r) (r_payload r).
Proof.
  intros He Ht Hs. destruct (Ht Hs) as [src ->]. apply last_input_in in He as [now Hin].
  exists src, (r_duration r). exists now. destruct r as [t st d p]; cbn in *. subst st. exact Hin.
Qed.
Lemma I6_X_weaken X X' L ev s : (∀ g, g ∈ X → g ∈ X') → I6 X L ev s → I6 X' L ev s.
Proof.
  intros HX [A1 A2 A3 A4 A5]; split; auto. intros g i Hg. apply A4 in Hg.
  case_bool_decide; case_bool_decide; auto; [exfalso; auto|]. eapply progress_weaken; exact Hg.
Qed.

Lemma I6_clean_nodes cancel ids : cancels6 cancel → ∀ nodes ev s, I6 [] [] ev s →
  wp (gm_clean_nodes cancel ids nodes) (λ _ s', I6 [] [] ev s') crash6 s.
Proof.
  intros Hc. induction ids as [|t ids IH]; intros nodes ev s H; cbn [gm_clean_nodes]; [wsteps; exact H|].
  destruct (nodes !! t) as [n|] eqn:En; [|apply IH; auto]. wstep.
  apply (wp_mono _ (λ _ s', I6 [] [] ev s') _ crash6).
  - destruct (ni_state n); [apply I6_fdone; exact H|apply Hc; exact H|wsteps; exact H..].
  - intros u s1 H1. wsteps. apply IH. eauto with i6.
  - auto.
Qed.
Lemma I6_clean cancel g : cancels6 cancel → ∀ ev s, I6 [g] [] ev s →
  wp (gm_clean cancel g) (λ i s', I6 [] [] ev s' ∧ s_graphs s !! g = Some i) crash6 s.
Proof.
  intros Hc ev s H. unfold gm_clean, gm_graph. wstep.
  assert (Hcm : wp (cm_done g) (λ _ s', I6 [g] [] ev s' ∧ s_graphs s' = s_graphs s) crash6 s).
  { unfold cm_done. wsteps; [|eauto with i6]. split; [eauto with i6|reflexivity]. }
  wuse Hcm as s1 [H1 Eg1]. wsteps; [|eauto with i6].
  destruct (s_graphs s1 !! g) as [i|] eqn:Eg; [|discriminate]. injection Hok as <-.
  eapply wp_mono; [apply (I6_clean_nodes _ _ Hc _ ev)| |auto].
  { apply I6_codes. destruct (I6_gdelete _ _ _ _ g H1) as [A1 A2 A3 A4 A5]; split; auto; ss. intros g' i' Hx. pose proof Hx as [Hne _]%lookup_delete_Some.
    apply A4 in Hx. replace (bool_decide (g' ∈ [])) with (bool_decide (g' ∈ [g])); [exact Hx|].
    apply bool_decide_ext. set_solver. }
  cbv beta. intros u s2 H2. wsteps. split; [exact H2|]. rewrite <- Eg1. exact Eg.
Qed.
Lemma I6_mark g r X L ev s : told ev r → (r_status r ≠ Success → g ∈ X) → I6 X L ev s →
  wp (gm_mark g r) (λ _ s', I6 X L ev s') crash6 s.
Proof.
  intros Hs HX H. unfold gm_mark, gm_graph, gm_store. wstep. wsteps; eauto with i6.
  all: destruct (s_graphs s !! g) as [i|] eqn:Eg; [|discriminate]; injection Hok as <-.
  all: destruct (i6_graphs _ _ _ _ H _ _ Eg) as (fs & ns & gr & P1 & P2 & P3 & P4 & P5 & P6 & P7).
  all: match goal with Hd : so_done _ _ = Ok _ |- _ => destruct (done_ok _ _ _ _ P2 P3 Hd) as (Q1 & Q2 & Q3 & Q4 & Q5 & Q6) end.
  all: eapply I6_gupdate; [exact Eg| | |exact H]; [|intros t [Ht1 Ht2]; split; [exact Ht1|apply Q4; exact Ht2]].
  all: exists fs, ns, gr; split; [exact P1|]; split; [exact Q1|]; split; [exact Q2|]; split; [exact P4|]; split; [exact P5|]; cbn.
  all: destruct (g_nodes i !! r_id r) as [n|] eqn:En; [|discriminate]; injection Hok0 as <-.
  all: split; [|intros t n'; rewrite lookup_insert_Some; intros [[<- <-]|[_ Hx]]; [exact (P7 _ _ En)|auto]].
  all: intros Hb t Ht; apply Q3 in Ht as [Ht| ->]; [auto|].
  1: exists (r_payload r); apply (told_success ev); [eapply i6_ev; exact H|exact Hs|exact Hm].
  all: exfalso; apply negb_true_iff, bool_decide_eq_false in Hb; apply Hb, HX; congruence.
Qed.
Lemma progress_same b h g (i i' : graph) : progress b h g i → g_client i' = g_client i → g_targets i' = g_targets i →
  g_sorter i' = g_sorter i → g_ids i' = g_ids i → (∀ t n, g_nodes i' !! t = Some n → task_id (ni_task n) = t ∧ t ∈ g_ids i) → progress b h g i'.
Proof.
  intros (fs & ns & gr & P1 & P2 & P3 & P4 & P5 & P6 & P7) E1 E2 E3 E4 Hn. exists fs, ns, gr. rewrite E1, E2, E3, E4. auto 10.
Qed.
Lemma I6_restore g i i' X L ev s : s_graphs s !! g = Some i → g_client i' = g_client i → g_targets i' = g_targets i →
  g_sorter i' = g_sorter i → g_ids i' = g_ids i → (∀ t n, g_nodes i' !! t = Some n → task_id (ni_task n) = t ∧ t ∈ g_ids i) →
  I6 X L ev s → I6 X L ev (set_graphs (<[g := i']>) s).
Proof.
  intros Eg E1 E2 E3 E4 Hn H. eapply I6_gupdate; [exact Eg| | |exact H].
  - eapply progress_same; [eapply i6_graphs; eauto|assumption..].
  - intros t. unfold waits. rewrite E3, E4. auto.
Qed.
Lemma I6_nodes_ok X L ev s g i : I6 X L ev s → s_graphs s !! g = Some i → ∀ t n, g_nodes i !! t = Some n → task_id (ni_task n) = t ∧ t ∈ g_ids i.
Proof. intros H Eg. destruct (i6_graphs _ _ _ _ H _ _ Eg) as (fs & ns & gr & P1 & P2 & P3 & P4 & P5 & P6 & P7). exact P7. Qed.
(** The set of ids of graph [g]. *)
Definition ids_are (g : bytes) (D : gset bytes) (s : sched) : Prop := ∀ i, s_graphs s !! g = Some i → g_ids i = D.
Lemma I6_task_result g D t a X L ev s : I6 X L ev s → ids_are g D s →
  wp (gm_task_result g t a) (λ _ s', I6 X L ev s' ∧ ids_are g D s') crash6 s.
Proof.
  intros H HD. unfold gm_task_result, gm_graph, gm_store. wsteps; eauto with i6.
  all: destruct (s_graphs s !! g) as [i|] eqn:Eg; [|discriminate]; injection Hok as <-.
  all: assert (Hd : ∀ d, I6 X L ev (set_graphs (<[g := set_deps d i]>) s)) by
    (intros d; eapply I6_restore; [exact Eg|reflexivity..| |exact H]; cbn; eapply I6_nodes_ok; eauto).
  all: eauto with i6.
  all: split; [eauto with i6|intros i'; ss; rewrite lookup_insert; intros [= <-]; cbn; auto].
  eapply (I6_restore g (set_deps a1 i)); [ss; apply lookup_insert|reflexivity..| |eauto with i6]. cbn.
  intros y n [_ Hy]%lookup_delete_Some. eapply I6_nodes_ok; eauto.
Qed.
Lemma I6_arguments g D t args X L ev s : I6 X L ev s → ids_are g D s →
  wp (gm_arguments g t args) (λ _ s', I6 X L ev s' ∧ ids_are g D s') crash6 s.
Proof.
  revert s; induction args as [|[d|a] args IH]; intros s H HD; cbn [gm_arguments].
  - wsteps. auto.
  - wstep. wuse IH as s1 [H1 D1]; [exact H|exact HD|]. wsteps. auto.
  - wstep. wuse I6_task_result as s1 [H1 D1]; [exact H|exact HD|]. wstep. wuse IH as s2 [H2 D2]; [exact H1|exact D1|]. wsteps. auto.
Qed.
Lemma tm_new_graphs c k s : wp (tm_new c k) (λ _ s', s_graphs s' = s_graphs s) (λ _ _, True) s.
Proof.
  unfold tm_new, fm_has_function, wm_has_available. wsteps; auto.
  eapply wp_mono; [apply fm_use_same, fm_same_refl| |auto]. cbv beta. intros u s1 [_ [_ E1 _]]. ss. unfold cm_new, tm_put. wsteps; auto.
  eapply wp_mono; [apply tm_monitor_same, fm_same_refl| |auto]. cbv beta. intros v s2 [_ [_ E2 _]]. ss. congruence.
Qed.
Lemma I6_start g D t X L ev s : I6 X (filter (.∈ D) (t :: L)) ev s → ids_are g D s →
  wp (gm_start g t) (λ _ s', I6 X (filter (.∈ D) L) ev s' ∧ ids_are g D s') crash6 s.
Proof.
  intros H HD. unfold gm_start, gm_graph, gm_store. wsteps; eauto with i6.
  destruct (s_graphs s !! g) as [i|] eqn:Eg; [|discriminate]. injection Hok as <-.
  destruct (g_nodes i !! t) as [n|] eqn:En; [|discriminate]. injection Hok0 as <-.
  destruct (I6_nodes_ok _ _ _ _ _ _ H Eg _ _ En) as [Hid Hin]. rewrite (HD _ Eg) in Hin. rewrite filter_cons_True in H by exact Hin.
  wuse I6_arguments as s1 [H1 D1]; [exact H|exact HD|]. wsteps; [|eauto with i6].
  destruct (s_graphs s1 !! g) as [i1|] eqn:Eg1; [|discriminate]. injection Hok as <-.
  eapply wp_mono; [apply wp_and; [apply (I6_tm_new _ _ X (filter (.∈ D) L))|apply tm_new_graphs]| |].
  - cbn. rewrite Hid. eapply I6_restore; [exact Eg1|reflexivity..| |exact H1]. cbn. intros y m. rewrite lookup_insert_Some.
    intros [[<- <-]|[_ Hy]]; [cbn; split; [first [exact Hid|reflexivity]|rewrite (D1 _ Eg1); exact Hin]|]. eapply I6_nodes_ok; eauto.
  - cbv beta. intros u s2 [H2 E2]. split; [exact H2|]. intros i2. rewrite E2. ss. rewrite lookup_insert. intros [= <-]. cbn. apply D1. exact Eg1.
  - cbv beta. tauto.
Qed.
Lemma pending_filter t (D : gset bytes) l : NoDup l → pending t (filter (.∈ D) l) = if decide (t ∈ D ∧ t ∈ l) then 1%nat else 0%nat.
Proof.
  unfold pending. induction 1 as [|x l Hx Hd IH]; [rewrite decide_False by set_solver; reflexivity|].
  rewrite filter_cons. destruct (decide (x = t)) as [->|Hne].
  - destruct (decide (t ∈ D)) as [HD|HD].
    + rewrite filter_cons_True by reflexivity. cbn. rewrite IH, decide_False by tauto. rewrite decide_True; [reflexivity|]. split; [exact HD|left].
    + rewrite IH, !decide_False; [reflexivity|tauto..].
  - assert ((if decide (t ∈ D ∧ t ∈ x :: l) then 1 else 0)%nat = (if decide (t ∈ D ∧ t ∈ l) then 1 else 0)%nat) as ->.
    { destruct (decide (t ∈ D ∧ t ∈ l)) as [[Hy1 Hy2]|Hy]; [rewrite decide_True by (split; [assumption|right; assumption])|rewrite decide_False by (intros [? [?|?]%elem_of_cons]; [congruence|tauto])]; reflexivity. }
    rewrite <- IH. destruct (decide (x ∈ D)); [rewrite filter_cons_False by exact Hne|]; reflexivity.
Qed.
Lemma pending_nodup t l : NoDup l → pending t l = if decide (t ∈ l) then 1%nat else 0%nat.
Proof.
  unfold pending. induction 1 as [|x l Hx Hd IH]; [reflexivity|]. rewrite filter_cons. destruct (decide (x = t)) as [->|Hne].
  - cbn. rewrite IH, decide_False by exact Hx. rewrite decide_True by left. reflexivity.
  - rewrite IH. destruct (decide (t ∈ l)); [rewrite decide_True by (right; assumption)|rewrite decide_False by (intros [?|?]%elem_of_cons; [congruence|tauto])]; reflexivity.
Qed.
(** Handing out the ready nodes of a graph. *)
Lemma I6_hand g i so l ev s : s_graphs s !! g = Some i → so_get_ready (g_sorter i) = (so, l) → I6 [] [] ev s →
  I6 [] (filter (.∈ g_ids i) l) ev (set_graphs (<[g := set_sorter so i]>) s).
Proof.
  intros Eg Er H. pose proof (i6_graphs _ _ _ _ H _ _ Eg) as (fs & ns & gr & P1 & P2 & P3 & P4 & P5 & P6 & P7).
  destruct (get_ready_ok _ _ _ _ P2 P3 Er) as (Q1 & Q2 & Q3 & Q4 & Q5 & Q6).
  destruct H as [H1 H2 H3 H4 H5]. split; ss; auto.
  - intros g' i0. rewrite lookup_insert_Some. intros [[<- <-]|[_ Hx]]; [|auto].
    exists fs, ns, gr. cbn. repeat (split; [assumption|]). split; [|exact P7]. intros Hb t Ht. apply P6; [exact Hb|]. apply Q5. exact Ht.
  - intros t. pose proof (waiting_update t g i (set_sorter so i) (s_graphs s) Eg) as Hu. specialize (H5 t). cbn in H5.
    rewrite pending_filter by exact Q3.
    destruct (decide (t ∈ g_ids i ∧ t ∈ l)) as [[Hi Hl]|Hn].
    + rewrite (decide_True (P := waits t i)) in Hu by (split; [exact Hi|apply Q4; exact Hl]).
      rewrite (decide_False (P := waits t (set_sorter so i))) in Hu; [lia|]. intros [_ Hw]. cbn in Hw. apply Q6 in Hw. tauto.
    + destruct (decide (waits t (set_sorter so i))) as [[Hw1 Hw2]|Hw]; [|lia]. cbn in Hw1, Hw2.
      rewrite (decide_True (P := waits t i)) in Hu; [lia|]. split; [exact Hw1|]. apply Q6 in Hw2. tauto.
Qed.
Lemma I6_check cancel g ev s : cancels6 cancel → (∀ t, grows (cancel t)) → I6 [] [] ev s →
  wp (gm_check cancel g) (λ _ s', I6 [] [] ev s') crash6 s.
Proof.
  intros Hc Hg H. assert (HX : g ∉ []) by set_solver. unfold gm_check, gm_graph. wsteps; eauto with i6.
  all: destruct (s_graphs s !! g) as [i|] eqn:Eg; [|discriminate]; injection Hok as <-.
  - pose proof (i6_graphs _ _ _ _ H _ _ Eg) as (fs & ns & gr & P1 & P2 & P3 & P4 & P5 & P6 & P7).
    eapply wp_mono; [apply wp_grows; [apply gm_clean_grows; exact Hg|]| |auto].
    { apply (I6_clean cancel g Hc ev). eapply I6_X_weaken; [|exact H]. set_solver. }
    2: auto.
    cbv beta. intros i' s1 [(H1 & Ei) [l1 E1]]. rewrite Eg in Ei. injection Ei as <-. wsteps.
    destruct H1 as [A1 A2 A3 A4 A5]. split; ss; eauto with hist.
    + apply always_snoc; [exact A1|]. cbn. exists fs, (g_targets i), ns. rewrite E1. split; [apply received_app; exact P1|].
      intros n Hn. rewrite bool_decide_eq_false_2 in P6 by exact HX. destruct (P6 eq_refl (task_id n)) as [r Hr].
      * eapply inactive_all_done; [exact P2|exact P3|exact P4| |left; auto]. apply negb_true_iff. assumption.
      * exists r. apply success_app. exact Hr.
    + rewrite last_input_snoc. exact A2.
    + intros t. rewrite !occurrences_snoc. cbn. specialize (A5 t). lia.
  - unfold gm_store. wsteps.
    eapply wp_mono; [apply (wp_foreach _ (λ l s', I6 [] (filter (.∈ g_ids i) l) ev s' ∧ ids_are g (g_ids i) s'))| |auto].
    + split; [eapply I6_hand; eauto|]. intros i'. ss. rewrite lookup_insert. intros [= <-]. reflexivity.
    + intros t l1 s1 [H1 D1]. apply I6_start; assumption.
    + cbv beta. intros u s' [H' _]. exact H'.
    + auto.
Qed.
Lemma I6_gm_done cancel r ev s : cancels6 cancel → (∀ t, grows (cancel t)) → told ev r → I6 [] [] ev s →
  wp (gm_done cancel r) (λ _ s', I6 [] [] ev s') crash6 s.
Proof.
  intros Hc Hg Hs H. unfold gm_done. wstep. wstep. destruct (s_t2g s !! r_id r) as [g|] eqn:Et; [|wsteps; exact H].
  wstep.
  assert (Hfail : r_status r ≠ Success →
    wp (gm_mark g r) (λ _ s1, wp (let* i := gm_clean cancel g in do* send (g_client i) (MGraphTaskResult g (r_status r) [r_payload r]) in ret true)
       (λ _ s', I6 [] [] ev s') crash6 s1) crash6 s).
  { intros Hne. wuse (I6_mark g r [g]) as s1 H1; [exact Hs|set_solver|eapply I6_X_weaken; [|exact H]; set_solver|]. wstep.
    wuse (I6_clean cancel g Hc) as s2 [H2 _]; [exact H1|]. wsteps. apply I6_emit; [|exact H2].
    cbn. destruct (r_status r); try exact I. done. }
  destruct (r_status r) eqn:Est; try (apply Hfail; discriminate).
  wuse I6_mark as s1 H1; [exact Hs|congruence|exact H|]. wstep. wuse I6_check as s2 H2; [exact Hc|exact Hg|exact H1|]. wsteps. exact H2.
Qed.
Lemma I6_done_fuel n r ev s : told ev r → I6 [] [] ev s → wp (tm_done_fuel n r) (λ _ s', I6 [] [] ev s') crash6 s.
Proof.
  revert r ev s; induction n as [|n IH]; intros r ev s Hs H; cbn [tm_done_fuel]; [wsteps; eauto with i6|].
  wstep. wuse I6_forget as s1 H1; [exact H|]. wstep.
  wuse I6_gm_done as s2 H2; [|auto with grows|exact Hs|exact H1|].
  - intros t ev2 s3 H3. unfold tm_cancel. wsteps; eauto with i6.
    + apply IH; [|exact H3]. intros E. discriminate.
    + wuse I6_wcancel as s4 H4; [exact H3|]. apply I6_monitor. exact H4.
  - wsteps; [exact H2|]. apply I6_emit; [exact I|exact H2].
Qed.
Lemma I6_done r ev s : told ev r → I6 [] [] ev s → wp (tm_done r) (λ _ s', I6 [] [] ev s') crash6 s.
Proof. intros Hs H. unfold tm_done. wstep. wstep. apply I6_done_fuel; assumption. Qed.
Lemma I6_cancels : cancels6 tm_cancel_any.
Proof.
  intros t ev s H. unfold tm_cancel_any, tm_cancel. wsteps; eauto with i6.
  - apply I6_done; [|exact H]. intros E. discriminate.
  - wuse I6_wcancel as s3 H3; [exact H|]. apply I6_monitor. exact H3.
Qed.

(** ** New graphs *)
Lemma dict_put_keys {A} k (v : A) d : (dict_put k v d).*1 = if decide (k ∈ d.*1) then d.*1 else d.*1 ++ [k].
Proof.
  induction d as [|[k' v'] d IH]; cbn; [rewrite decide_False by set_solver; reflexivity|].
  destruct (String.eqb_spec k k') as [->|Hne]; cbn; [rewrite decide_True by left; reflexivity|].
  rewrite IH. destruct (decide (k ∈ d.*1)); [rewrite decide_True by (right; assumption)|rewrite decide_False by set_solver]; reflexivity.
Qed.
Lemma dict_put_in {A} k (v : A) d x : x ∈ dict_put k v d → x = (k, v) ∨ x ∈ d.
Proof.
  induction d as [|[k' v'] d IH]; cbn; [set_solver|]. destruct (String.eqb k k'); intros [->|Hx]%elem_of_cons; [auto|right; right; exact Hx|right; left|].
  destruct (IH Hx); [auto|right; right; assumption].
Qed.
Lemma good_dict_put k v d : NoDup v → good_dict d → good_dict (dict_put k v d).
Proof.
  intros Hv [H1 H2]. split.
  - rewrite dict_put_keys. case_decide; [exact H1|]. apply NoDup_app. split; [exact H1|]. split; [set_solver|apply NoDup_singleton].
  - intros n ps Hn. apply dict_put_in in Hn as [[= -> ->]|Hn]; [exact Hv|eauto].
Qed.
Definition table6 (ns : list task) (done : list task) (p : gmap bytes node_info * kvs bytes bytes * list (bytes * list bytes)) : Prop :=
  good_dict p.2 ∧ (∀ n, n ∈ done → task_id n ∈ p.2.*1) ∧
  (∀ t n, p.1.1 !! t = Some n → task_id (ni_task n) = t ∧ t ∈ task_id <$> ns).
Lemma I6_nodes g targets ns ts done nodes deps gr X L ev s : (∀ t, t ∈ ts → t ∈ ns) →
  table6 ns done (nodes, deps, gr) → I6 X L ev s →
  wp (gm_nodes g targets ts nodes deps gr) (λ p s', I6 X L ev s' ∧ table6 ns (done ++ ts) p) crash6 s.
Proof.
  revert done nodes deps gr s; induction ts as [|t ts IH]; intros done nodes deps gr s Hts Ht H; cbn [gm_nodes].
  { wsteps. split; [exact H|]. rewrite app_nil_r. exact Ht. }
  wstep. wuse I6_use as s1 H1; [exact H|]. wsteps.
  replace (done ++ t :: ts) with ((done ++ [t]) ++ ts) by (rewrite <- app_assoc; reflexivity). apply IH.
  - intros x Hx. apply Hts. right. exact Hx.
  - destruct Ht as (A & B & C). split; [|split]; cbn in *.
    + apply good_dict_put; [|exact A]. rewrite Hp. apply NoDup_elements.
    + intros n Hn. rewrite dict_put_keys. apply elem_of_app in Hn as [Hn|Hn].
      * apply B in Hn. case_decide; [exact Hn|apply elem_of_app; auto].
      * apply elem_of_list_singleton in Hn as ->. case_decide; [assumption|apply elem_of_app; right; left].
    + intros x n. rewrite lookup_insert_Some. intros [[<- <-]|[_ Hx]]; [|auto]. cbn. split; [reflexivity|].
      apply elem_of_list_fmap_1, Hts. left.
  - eauto with i6.
Qed.
(** [I6] for a state whose queue has just lost [gt]. *)
Lemma I6_add client gt ev s : received client (graph_msg gt) (s_log s) → I6 [] (elements (list_to_set (task_id <$> gt_graph gt) : gset bytes)) ev s →
  wp (gm_add client gt) (λ _ s', I6 [] [] ev s') crash6 s.
Proof.
  set (L := elements _). intros Hr H. unfold gm_add. wstep.
  apply (wp_mono _ (λ _ s', I6 [] L ev s' ∧ received client (graph_msg gt) (s_log s')) _ crash6); [| |auto].
  { apply (wp_foreach _ (λ _ s', I6 [] L ev s' ∧ received client (graph_msg gt) (s_log s'))); [auto|].
    intros [f [n c]] l s1 [H1 Hr1]. eapply wp_mono; [apply wp_grows; [apply fm_on_function_grows|apply I6_on_function; exact H1]| |auto].
    cbv beta. intros u s2 [H2 [l2 E2]]. split; [exact H2|]. rewrite E2. apply received_app. exact Hr1. }
  clear s Hr H. intros u s [H Hr]. wstep.
  eapply wp_mono; [apply wp_grows; [apply cm_new_grows|apply I6_cm_new; exact H]| |auto].
  cbv beta. intros u1 s1 [H1 [l1 E1]]. wstep.
  assert (Hr1 : received client (graph_msg gt) (s_log s1)) by (rewrite E1; auto with hist).
  eapply wp_mono; [apply wp_grows; [apply gm_nodes_grows|]| |].
  { apply (I6_nodes _ _ (gt_graph gt) _ []); [auto| |exact H1]. split; [split; [constructor|intros n ps Hx; cbn in Hx; set_solver]|]. split; [intros n Hx; set_solver|].
    cbn. intros t n. rewrite lookup_empty. discriminate. }
  2: auto.
  cbv beta. intros p s2 [[H2 Ht] [l2 E2]]. destruct p as [[nodes deps] gr]. destruct Ht as (T1 & T2 & T3). cbn in T1, T2, T3.
  wsteps; [|eauto with i6]. unfold gm_store. wsteps.
  destruct (sorted_prepare _ _ T1 Hok) as (S1 & S2 & S3 & S4).
  apply I6_check; [apply I6_cancels|auto with grows|].
  destruct H2 as [A1 A2 A3 A4 A5]. split; ss; auto.
  - intros g i. rewrite lookup_insert_Some. intros [[<- <-]|[_ Hx]]; [|auto]. exists (gt_functions gt), (gt_graph gt), gr. cbn.
    split; [rewrite E2; apply received_app; exact Hr1|]. repeat (split; [assumption|]). split.
    + intros _ t [sc Hd]. apply S4 in Hd. lia.
    + intros t n Hn. destruct (T3 _ _ Hn) as [B1 B2]. split; [exact B1|]. apply elem_of_list_to_set. exact B2.
  - intros t. specialize (A5 t). cbn. set (i := Graph _ _ _ _ _ _). pose proof (waiting_insert t (gt_id gt) i (s_graphs s2)) as Hw.
    assert (pending t L = if decide (t ∈ task_id <$> gt_graph gt) then 1%nat else 0%nat) as HL.
    { unfold L. rewrite (pending_nodup t _ (NoDup_elements _)).
      destruct (decide (t ∈ task_id <$> gt_graph gt)) as [Hy|Hy]; [rewrite decide_True|rewrite decide_False]; rewrite ?elem_of_elements, ?elem_of_list_to_set; auto. }
    rewrite HL in A5. destruct (decide (waits t i)) as [[Hw1 _]|]; [|lia]. cbn in Hw1. apply elem_of_list_to_set in Hw1.
    rewrite decide_True in A5 by exact Hw1. lia.
Qed.
Lemma I6_gm_routine ev s : I6 [] [] ev s → wp gm_routine (λ _ s', I6 [] [] ev s') crash6 s.
Proof.
  intros H. unfold gm_routine. wstep. wstep. destruct (s_gqueue s) as [|[client gt] q] eqn:Hm; [wsteps; eauto with i6|].
  wstep. wstep. apply I6_add; ss.
  - apply (i6_gqueue _ _ _ _ H). rewrite Hm. left.
  - destruct H as [A1 A2 A3 A4 A5]; split; auto; ss.
    + intros c gt' Hx. apply A3. rewrite Hm. right. exact Hx.
    + intros t. specialize (A5 t). rewrite Hm in A5. unfold queued in *. rewrite filter_cons in A5. cbn in A5.
      rewrite (pending_nodup t _ (NoDup_elements _)).
      destruct (decide (t ∈ task_id <$> gt_graph gt)) as [Hy|Hy]; [rewrite decide_True|rewrite decide_False];
        rewrite ?elem_of_elements, ?elem_of_list_to_set; auto; cbn in A5; lia.
Qed.
Lemma I6_match k : keeps6 (tm_match k).
Proof.
  intros X L ev s H. unfold tm_match. wsteps; eauto with i6.
  - apply I6_monitor, I6_running, I6_emit; [exact I|]. eauto with i6.
  - apply I6_put. eauto with i6.
Qed.
Lemma I6_tm_routine : keeps6 tm_routine.
Proof.
  intros X L ev s H. unfold tm_routine. wstep. wstep. destruct (s_limbo s) as [k|] eqn:El.
  - apply I6_match. exact H.
  - wstep. wstep. destruct (s_unassigned s) as [|x q]; [wsteps; exact H|]. wsteps; [|eauto with i6].
    apply I6_match. eauto with i6.
Qed.
Lemma I6_wm_done r ev s : told ev r → I6 [] [] ev s → wp (wm_done r) (λ _ s', I6 [] [] ev s') crash6 s.
Proof. intros Hs H. unfold wm_done. wsteps; eauto with i6. apply I6_done; [exact Hs|]. eauto with i6. Qed.
Lemma I6_take_back ids : keeps6 (wm_take_back ids).
Proof.
  induction ids as [|x ids IH]; intros X L ev s H; cbn [wm_take_back]; wsteps; eauto with i6.
  wuse IH as s1 H1; [eauto with i6|]. wsteps; exact H1.
Qed.
Lemma I6_balance_response ids : keeps6 (wm_balance_response ids).
Proof.
  intros X L ev s H. unfold wm_balance_response. wstep. wuse I6_take_back as s1 H1; [exact H|].
  apply (wp_foreach _ (λ _ s', I6 X L ev s')); [exact H1|]. intros x l s2 H2. apply I6_reroute. exact H2.
Qed.
Lemma I6_heartbeat w h : keeps6 (wm_heartbeat w h).
Proof. intros X L ev s H. unfold wm_heartbeat. wsteps; eauto 8 with i6. Qed.
Lemma I6_drop w : keeps6 (wm_drop w).
Proof.
  intros X L ev s H. unfold wm_drop. wsteps; eauto with i6.
  apply (wp_mono _ (λ _ s', I6 X L ev s') _ crash6); [|intros u s1 H1; wsteps; exact H1|auto].
  apply (wp_foreach _ (λ _ s', I6 X L ev s')); [eauto 8 with i6|]. intros x l s2 H2. apply I6_reroute. exact H2.
Qed.
Lemma I6_disconnect src w : keeps6 (wm_disconnect src w).
Proof. intros X L ev s H. unfold wm_disconnect. wstep. wuse I6_drop as s1 H1; [exact H|]. wsteps; eauto with i6. Qed.
Lemma I6_balance : keeps6 wm_balance.
Proof.
  intros X L ev s H. unfold wm_balance. wsteps; eauto with i6.
  apply (wp_foreach _ (λ _ s', I6 X L ev s')); [eauto with i6|]. intros p l s2 H2. wsteps. eauto with i6.
Qed.
Lemma I6_wm_clean : keeps6 wm_clean.
Proof.
  intros X L ev s H. unfold wm_clean. wsteps.
  apply (wp_foreach _ (λ _ s', I6 X L ev s')); [eauto with i6|]. intros p l s2 H2. wstep. wuse I6_drop as s3 H3; [exact H2|]. wsteps. exact H3.
Qed.
Lemma I6_wm_routine : keeps6 wm_routine.
Proof. intros X L ev s H. unfold wm_routine. wstep. wuse I6_balance as s1 H1; [exact H|]. apply I6_wm_clean. exact H1. Qed.

(** An input; what it submits is pending. *)
Definition brings (e : event) : list bytes := match e with ERecv _ (MTask k) => [task_id k] | _ => [] end.
Definition no_graph (e : event) : Prop := match e with ERecv _ (MGraphTask _ _ _ _) => False | _ => True end.
Lemma I6_input now e ev s : I6 [] [] ev s → I6 [] (brings e) (Some e) (set_log (λ l, l ++ [LIn now e]) s).
Proof.
  intros [H1 H2 H3 H4 H5]. split; ss; eauto with hist.
  - apply always_snoc; [exact H1|exact I].
  - apply last_input_snoc.
  - intros t. rewrite !occurrences_snoc. specialize (H5 t). cbn in H5. cbn [is_accept]. destruct e as [src m| | | | |]; try (cbn; lia).
    destruct m; try (cbn; lia). cbn [brings is_submission]. unfold pending. rewrite filter_cons.
    destruct (String.eqb_spec (task_id t0) t) as [E|E]; [rewrite decide_True by exact E|rewrite decide_False by exact E]; cbn; lia.
Qed.
Lemma I6_round now e ev s : I6 [] [] ev s →
  wp (handle e) (λ _ s', I6 [] [] (Some e) s') crash6 (set_log (λ l, l ++ [LIn now e]) s).
Proof.
  intros H0. pose proof (I6_input now e ev s H0) as H. set (s0 := set_log _ s) in *.
  assert (Hrec : ∀ src m, e = ERecv src m → received src m (s_log s0)).
  { intros src m ->. exists now. subst s0. ss. set_solver. }
  destruct e as [src m| | | | |]; cbn [handle].
  - specialize (Hrec src m eq_refl). destruct m; cbn [on_receive]; try (wsteps; exact H).
    + apply I6_tm_new. exact H.
    + apply I6_cancels, H.
    + apply I6_wm_done; [|exact H]. intros _. exists src. reflexivity.
    + wsteps. destruct H as [A1 A2 A3 A4 A5]; split; auto; ss.
      * intros c gt. rewrite elem_of_app, elem_of_list_singleton. intros [Hx|[= -> ->]]; auto.
      * intros t. clear A5. pose proof (i6_count _ _ _ _ H0 t) as A5. unfold queued in *. rewrite filter_app, app_length.
        subst s0; ss; rewrite !occurrences_snoc. cbn [is_accept is_submission]. rewrite filter_cons. cbn [fst snd gt_graph].
        destruct (decide (t ∈ task_id <$> graph)) as [Hy|Hy]; [rewrite bool_decide_eq_true_2 by exact Hy|rewrite bool_decide_eq_false_2 by exact Hy]; cbn; lia.
    + wstep. wuse (I6_clean tm_cancel_any id I6_cancels) as s1 [H1 _]; [eapply I6_X_weaken; [|exact H]; set_solver|].
      wsteps. exact H1.
    + apply I6_balance_response, H.
    + apply I6_heartbeat, H.
    + apply I6_on_function, H.
    + apply I6_disconnect, H.
  - apply I6_gm_routine, H.
  - apply I6_tm_routine, H.
  - apply I6_fm_routine, H.
  - apply I6_wm_routine, H.
  - apply I6_status, H.
Qed.

Definition Inv6 (s : sched) : Prop := wellmade s ∧ (s_dead s = None → ∃ ev, I6 [] [] ev s).
Lemma Inv6_start c : Inv6 (start c).
Proof.
  split; [apply always_nil|]. intros _. exists None. split; cbn; try (intros *; rewrite ?lookup_empty; discriminate || set_solver).
  - apply always_nil.
Qed.
Lemma Inv6_step s r : Inv6 s → Inv6 (step s r).
Proof.
  intros [Ha H]. unfold step. destruct (s_dead s) eqn:Ed; [split; [exact Ha|congruence]|].
  specialize (H eq_refl) as [ev H]. set (s0 := set_now _ _).
  assert (H0 : I6 [] [] ev s0) by (apply I6_now, I6_codes, H).
  pose proof (I6_round (rd_now r) (rd_event r) ev s0 H0) as Hw. unfold wp in Hw.
  destruct (handle _ _) as [s' [u|e]]; split; eauto.
  - apply Hw.
  - ss. apply always_snoc; [exact Hw|exact I].
  - ss. discriminate.
Qed.
Lemma Inv6_run c rs : Inv6 (run c rs).
Proof.
  unfold run, run_from. assert (∀ s, Inv6 s → Inv6 (foldl step s rs)) as H; [|apply H, Inv6_start].
  induction rs as [|r rs IH]; cbn; auto using Inv6_step.
Qed.

(** ** Consequences *)
Lemma accept_once_lemma c rs t before after : s_log (run c rs) = before ++ after →
  (occurrences (is_accept t) before <= occurrences (is_submission t) before)%nat.
Proof.
  intros E. eapply occurrences_le; [|exact E]. intros b e a Eh Hp. destruct (Inv6_run c rs) as [H _]. specialize (H b e a Eh).
  destruct e as [|to m| | | | |]; try discriminate. destruct m; try discriminate. cbn in Hp. destruct status; try discriminate.
  apply String.eqb_eq in Hp as ->. exact H.
Qed.
Lemma all_nodes_lemma c rs before cl g rs' after :
  s_log (run c rs) = before ++ LSend cl (MGraphTaskResult g Success rs') :: after →
  ∃ fs ts ns, received cl (MGraphTask g fs ts ns) before ∧ ∀ n, n ∈ ns → ∃ r, success before (task_id n) r.
Proof. intros E. destruct (Inv6_run c rs) as [H _]. exact (H _ _ _ E). Qed.

(** ** Answers to graphs *)
Lemma graph_once_lemma c rs g before after : s_log (run c rs) = before ++ after →
  (occurrences (is_graph_result g) before <= occurrences (is_graph_submission g) before)%nat.
Proof.
  intros E. eapply occurrences_le; [|exact E]. intros b e a Eh Hp. destruct (Inv1_run c rs) as [H _]. specialize (H b e a Eh).
  destruct e as [|to m| | | | |]; try discriminate. destruct m; try discriminate. cbn in Hp.
  apply String.eqb_eq in Hp as ->. apply H.
Qed.
Lemma graph_failure_lemma c rs before cl g st rs' after :
  s_log (run c rs) = before ++ LSend cl (MGraphTaskResult g st rs') :: after → st ≠ Success →
  graph_from cl g before ∧ ∃ t d p, rs' = [p] ∧ node_of_graph t g before ∧
    ((∃ w, last_input before = Some (ERecv w (MTaskResult t st d p))) ∨ (st = Canceled ∧ d = 0 ∧ p = "")).
Proof.
  intros E Hst. destruct (Inv3_run c rs) as [H _]. specialize (H _ _ _ E).
  assert (Hx : graph_from cl g before ∧ ∃ t d p, rs' = [p] ∧ node_of_graph t g before ∧ sourced (last_input before) before (Result t st d p))
    by (destruct st; first [contradiction|exact H]).
  destruct Hx as (H1 & t & d & p & H2 & H3 & H4). split; [exact H1|]. exists t, d, p. split; [exact H2|]. split; [exact H3|].
  destruct H4 as [[w Hw]|[Hr _]]; [left; exists w; exact Hw|right]. cbn in Hr. injection Hr as -> -> ->. auto.
Qed.
Lemma repeated_lemma c rs before w k after : s_log (run c rs) = before ++ LSend w (MTask k) :: after →
  (¬ ∃ cl, received cl (MTask k) before) →
  (∀ cl g fs ts ns n, received cl (MGraphTask g fs ts ns) before → n ∈ ns → task_id n = task_id k →
     ∃ x l1 l2 l3, task_args n = l1 ++ ArgTask x :: l2 ++ ArgTask x :: l3) →
  False.
Proof.
  intros E Hn H. destruct (node_ready_lemma c rs before w k after E Hn) as (cl & g & fs & ts & ns & n & H1 & H2 & H3 & H4 & H5 & H6 & H7).
  destruct (H _ _ _ _ _ _ H1 H3 (eq_sym H4)) as (x & l1 & l2 & l3 & Ea). rewrite Ea in H7. unfold references in H7.
  rewrite omap_app in H7. cbn in H7. rewrite omap_app in H7. cbn in H7. apply NoDup_app in H7 as (_ & _ & H7).
  apply NoDup_cons in H7 as [H7 _]. apply H7. set_solver.
Qed.
