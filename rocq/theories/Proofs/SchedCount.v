(** Accepted tasks, answers and their clients: the invariant behind C20, C21, C23, C42. *)

From Verif.Model Require Import Base OneToManyDict Allocator Message Sorter Scheduler.
From Verif.Spec Require Import SchedulerSpec.
From Verif.Proofs Require Import BaseProofs SchedWp.
From Verif.Proofs Require Export HistoryProofs.

(** ** Histories *)
Lemma occ_quiet (p : entry → bool) h : (∀ e, quiet e → p e = false) → Forall quiet h → occurrences p h = 0%nat.
Proof.
  intros Hp. unfold occurrences. induction 1 as [|e h He Hh IH]; [reflexivity|]. cbn. rewrite Hp by exact He. exact IH.
Qed.
Lemma always_quiet (P : history → entry → Prop) h l : (∀ b e, quiet e → P b e) → Forall quiet l → always P h → always P (h ++ l).
Proof.
  intros HP Hl H. apply always_app; [exact H|]. intros b e a ->. apply HP.
  rewrite Forall_app, Forall_cons in Hl. tauto.
Qed.

Lemma received_app c m h l : received c m h → received c m (h ++ l).
Proof. intros [n H]. exists n. set_solver. Qed.
Lemma graph_from_app c g h l : graph_from c g h → graph_from c g (h ++ l).
Proof. intros (fs & ts & ns & H). exists fs, ts, ns. apply received_app. exact H. Qed.
Lemma graph_node_app t h l : graph_node t h → graph_node t (h ++ l).
Proof. intros (c & g & fs & ts & ns & n & H & ?). exists c, g, fs, ts, ns, n. split; [apply received_app; exact H|auto]. Qed.
Lemma accepted_app c t h l : accepted c t h → accepted c t (h ++ l).
Proof. unfold accepted. set_solver. Qed.
Lemma answered_app t h l : answered t h → answered t (h ++ l).
Proof. intros (c & st & d & p & H). exists c, st, d, p. set_solver. Qed.
Global Hint Resolve received_app graph_from_app graph_node_app accepted_app answered_app : hist.

Lemma accepted_quiet c t h l : Forall quiet l → accepted c t (h ++ l) → accepted c t h.
Proof.
  unfold accepted. intros Hl H. apply elem_of_app in H as [H|H]; [exact H|]. exfalso.
  rewrite Forall_forall in Hl. apply (Hl _ H).
Qed.

(** ** The invariant.
    [owed] lists tasks whose record has been dropped and that are about to be answered;
    [owedg] the same for graphs. *)
Definition occ (t : bytes) (l : list bytes) : nat := length (List.filter (String.eqb t) l).
Definition held {A} (m : gmap bytes A) (t : bytes) : nat := match m !! t with Some _ => 1 | None => 0 end.

(** Every answer is covered by an acceptance and goes to the right client. *)
Definition answer_ok (before : history) (e : entry) : Prop :=
  match e with
  | LSend c (MTaskResult t _ _ _) =>
      (occurrences (is_result t) before < occurrences (is_accept t) before)%nat ∧
      (accepted c t before ∨ graph_from c t before)
  | LSend c (MGraphTaskResult g _ _) =>
      (occurrences (is_graph_result g) before < occurrences (is_graph_submission g) before)%nat ∧
      graph_from c g before
  | _ => True
  end.
Definition answers (s : sched) : Prop := always answer_ok (s_log s).

Definition gq_ids (q : list (bytes * graph_task)) : list bytes := (λ p, gt_id p.2) <$> q.
Definition graph_msg (gt : graph_task) : message := MGraphTask (gt_id gt) (gt_functions gt) (gt_targets gt) (gt_graph gt).

Record I1 (owed owedg : list bytes) (s : sched) : Prop := {
  i1_log : answers s;
  i1_count t : (occurrences (is_result t) (s_log s) + held (s_tasks s) t + occ t owed
                <= occurrences (is_accept t) (s_log s))%nat;
  i1_client t c : o_v2k (s_clients s) !! t = Some c → accepted c t (s_log s) ∨ graph_from c t (s_log s);
  i1_accepted c t : accepted c t (s_log s) →
     is_Some (s_tasks s !! t) ∨ answered t (s_log s) ∨ graph_node t (s_log s) ∨ t ∈ owed;
  i1_t2g t : is_Some (s_t2g s !! t) → graph_node t (s_log s);
  i1_gqueue c gt : (c, gt) ∈ s_gqueue s → received c (graph_msg gt) (s_log s);
  i1_gclient g i : s_graphs s !! g = Some i → graph_from (g_client i) g (s_log s);
  i1_gcount g : (occurrences (is_graph_result g) (s_log s) + held (s_graphs s) g + occ g (gq_ids (s_gqueue s)) + occ g owedg
                 <= occurrences (is_graph_submission g) (s_log s))%nat }.

(** The graph tables may only lose entries. *)
Record shrinks (s s' : sched) : Prop := {
  sh_gqueue : s_gqueue s' = s_gqueue s;
  sh_graphs g i' : s_graphs s' !! g = Some i' → ∃ i, s_graphs s !! g = Some i ∧ g_client i' = g_client i;
  sh_t2g t : is_Some (s_t2g s' !! t) → is_Some (s_t2g s !! t) }.

Lemma same_graphs_shrinks s s' : same_graphs s s' → shrinks s s'.
Proof. intros [E1 E2 E3]. split; [exact E1| |]; intros *; rewrite ?E2, ?E3; eauto. Qed.
Lemma shrinks_refl s : shrinks s s. Proof. apply same_graphs_shrinks, same_graphs_refl. Qed.
Lemma shrinks_trans s1 s2 s3 : shrinks s1 s2 → shrinks s2 s3 → shrinks s1 s3.
Proof.
  intros [A1 A2 A3] [B1 B2 B3]. split; [congruence| |].
  - intros g i H. apply B2 in H as (i2 & H & ?). apply A2 in H as (i1 & H & ?). exists i1. split; congruence.
  - intros t H. auto.
Qed.

Lemma quiet_accept t e : quiet e → is_accept t e = false.
Proof. destruct e as [| ? [] | | | | |]; cbn; tauto. Qed.
Lemma quiet_result t e : quiet e → is_result t e = false.
Proof. destruct e as [| ? [] | | | | |]; cbn; tauto. Qed.
Lemma quiet_gresult t e : quiet e → is_graph_result t e = false.
Proof. destruct e as [| ? [] | | | | |]; cbn; tauto. Qed.
Lemma quiet_gsub t e : quiet e → is_graph_submission t e = false.
Proof. destruct e as [? [] | | | | | |]; cbn; tauto. Qed.
Lemma quiet_answer b e : quiet e → answer_ok b e.
Proof. destruct e as [| ? [] | | | | |]; cbn; tauto. Qed.

Lemma I1_same owed owedg s s' : same_core s s' → shrinks s s' → I1 owed owedg s → I1 owed owedg s'.
Proof.
  intros [_ _ _ Ec Et _ _ _ _ _ (l & El & Ql)] [Sq Sg St] [H1 H2 H3 H4 H5 H6 H7 H8].
  assert (Oz : ∀ p : entry → bool, (∀ e, quiet e → p e = false) → occurrences p (s_log s') = occurrences p (s_log s)).
  { intros p Hp. rewrite El, occ_app, (occ_quiet p l) by auto. lia. }
  split.
  - unfold answers. rewrite El. apply always_quiet; auto using quiet_answer.
  - intros t. rewrite !Oz by auto using quiet_accept, quiet_result. rewrite Et. apply H2.
  - intros t c. rewrite Ec, El. intros H. apply H3 in H as [H|H]; auto with hist.
  - intros c t. rewrite Et, El. intros H. apply accepted_quiet in H; [|exact Ql].
    apply H4 in H as [H|[H|[H|H]]]; auto with hist.
  - intros t H. rewrite El. apply St in H. apply H5 in H. auto with hist.
  - intros c gt. rewrite Sq, El. intros H. apply H6 in H. auto with hist.
  - intros g i H. rewrite El. apply Sg in H as (i0 & H & ->). apply H7 in H. auto with hist.
  - intros g. rewrite !Oz by auto using quiet_gresult, quiet_gsub. rewrite Sq.
    specialize (H8 g). unfold held in *. destruct (s_graphs s' !! g) as [i'|] eqn:E; [|destruct (s_graphs s !! g); lia].
    apply Sg in E as (i & E & _). rewrite E in H8. exact H8.
Qed.
Lemma I1_fm owed owedg s s' : fm_same s s' → I1 owed owedg s → I1 owed owedg s'.
Proof. intros [H1 H2]. apply I1_same; [exact H1|]. apply same_graphs_shrinks. exact H2. Qed.
Lemma answers_quiet s l : Forall quiet l → answers s → always answer_ok (s_log s ++ l).
Proof. intros Hl H. apply always_quiet; auto using quiet_answer. Qed.
Lemma answers_core s s' : same_core s s' → answers s → answers s'.
Proof. intros [_ _ _ _ _ _ _ _ _ _ (l & El & Ql)] H. unfold answers. rewrite El. apply answers_quiet; auto. Qed.

Lemma occ_cons t x l : occ t (x :: l) = ((if String.eqb t x then 1 else 0) + occ t l)%nat.
Proof. unfold occ; cbn. destruct (String.eqb t x); reflexivity. Qed.

(** The exceptional exit only has to keep the history right. *)
Notation crash_ok := (λ (_ : exn) s', answers s').

Lemma wp_frame {A} (m : M A) (s : sched) (P : sched → Prop) :
  wp m (λ _ s', fm_same s s') (λ _ s', fm_same s s') s →
  (∀ s', fm_same s s' → P s') → answers s →
  wp m (λ _ s', P s') crash_ok s.
Proof.
  intros H HP Ha. eapply wp_mono; [exact H| |]; cbn.
  - auto.
  - intros _ s' [Hs _]. eapply answers_core; eauto.
Qed.

Section I1_steps.
Implicit Types (o og : list bytes).

Lemma I1_use t f o og s : I1 o og s → wp (fm_use t f) (λ _ s', I1 o og s') crash_ok s.
Proof. intros H. eapply wp_frame; [apply fm_use_same, fm_same_refl| |apply H]. intros s' Hs. eapply I1_fm; eauto. Qed.
Lemma I1_fdone t o og s : I1 o og s → wp (fm_done t) (λ _ s', I1 o og s') crash_ok s.
Proof. intros H. eapply wp_frame; [apply fm_done_same, fm_same_refl| |apply H]. intros s' Hs. eapply I1_fm; eauto. Qed.
Lemma I1_on_function src ty f n c o og s : I1 o og s → wp (fm_on_function src ty f n c) (λ _ s', I1 o og s') crash_ok s.
Proof. intros H. eapply wp_frame; [apply fm_on_function_same, fm_same_refl| |apply H]. intros s' Hs. eapply I1_fm; eauto. Qed.
Lemma I1_fm_routine o og s : I1 o og s → wp fm_routine (λ _ s', I1 o og s') crash_ok s.
Proof. intros H. eapply wp_frame; [apply fm_routine_same, fm_same_refl| |apply H]. intros s' Hs. eapply I1_fm; eauto. Qed.
Lemma I1_monitor t st o og s : I1 o og s → wp (tm_monitor t st) (λ _ s', I1 o og s') crash_ok s.
Proof. intros H. eapply wp_frame; [apply tm_monitor_same, fm_same_refl| |apply H]. intros s' Hs. eapply I1_fm; eauto. Qed.
Lemma I1_wcancel t o og s : I1 o og s → wp (wm_cancel t) (λ _ s', I1 o og s') crash_ok s.
Proof. intros H. eapply wp_frame; [apply wm_cancel_same, fm_same_refl| |apply H]. intros s' Hs. eapply I1_fm; eauto. Qed.
Lemma I1_status o og s : I1 o og s → wp st_routine (λ _ s', I1 o og s') crash_ok s.
Proof. intros H. eapply wp_frame; [apply st_routine_same, fm_same_refl| |apply H]. intros s' Hs. eapply I1_fm; eauto. Qed.

(** Fields the invariant does not read. *)
Lemma I1_alloc o og s f : I1 o og s → I1 o og (set_alloc f s). Proof. intros []; split; auto. Qed.
Lemma I1_alive o og s f : I1 o og s → I1 o og (set_alive f s). Proof. intros []; split; auto. Qed.
Lemma I1_running o og s f : I1 o og s → I1 o og (set_running f s). Proof. intros []; split; auto. Qed.
Lemma I1_unassigned o og s f : I1 o og s → I1 o og (set_unassigned f s). Proof. intros []; split; auto. Qed.
Lemma I1_limbo o og s f : I1 o og s → I1 o og (set_limbo f s). Proof. intros []; split; auto. Qed.
Lemma I1_codes o og s f : I1 o og s → I1 o og (set_codes f s). Proof. intros []; split; auto. Qed.
Lemma I1_advice o og s f : I1 o og s → I1 o og (set_last_advice f s). Proof. intros []; split; auto. Qed.
Lemma I1_same_count o og s f : I1 o og s → I1 o og (set_same f s). Proof. intros []; split; auto. Qed.
Lemma I1_n1 o og s f : I1 o og s → I1 o og (set_nsuccess f s). Proof. intros []; split; auto. Qed.
Lemma I1_n2 o og s f : I1 o og s → I1 o og (set_nfailed f s). Proof. intros []; split; auto. Qed.
Lemma I1_n3 o og s f : I1 o og s → I1 o og (set_ncanceled f s). Proof. intros []; split; auto. Qed.
Lemma I1_n4 o og s f : I1 o og s → I1 o og (set_nnotfound f s). Proof. intros []; split; auto. Qed.

(** An entry that no count reads. *)
Definition inert (e : entry) : Prop :=
  match e with
  | LSend _ (MTaskEcho _ SubmitOK | MTaskResult _ _ _ _ | MGraphTaskResult _ _ _) => False
  | LIn _ (ERecv _ (MGraphTask _ _ _ _)) => False
  | _ => True
  end.
Lemma I1_emit o og s e : inert e → I1 o og s → I1 o og (set_log (λ l, l ++ [e]) s).
Proof.
  intros He [H1 H2 H3 H4 H5 H6 H7 H8].
  assert (Oz : ∀ p : entry → bool, p e = false → occurrences p (s_log s ++ [e]) = occurrences p (s_log s)).
  { intros p Hp. rewrite occ_app, occ_one, Hp. lia. }
  split; ss.
  - unfold answers; ss. apply always_snoc; [exact H1|]. destruct e as [| ? [] | | | | |]; cbn in *; tauto.
  - intros t. rewrite !Oz; [apply H2| |]; destruct e as [| ? [| ? [] | | | | | | | | | | | | | | | | | |] | | | | |]; cbn in *; tauto.
  - intros t c H. apply H3 in H as [H|H]; auto with hist.
  - intros c t H. assert (Ha : accepted c t (s_log s)).
    { unfold accepted in *. apply elem_of_app in H as [H|H]; [exact H|]. apply elem_of_list_singleton in H as <-. destruct He. }
    apply H4 in Ha as [Ha|[Ha|[Ha|Ha]]]; auto with hist.
  - intros t H. apply H5 in H. auto with hist.
  - intros c gt H. apply H6 in H. auto with hist.
  - intros g i H. apply H7 in H. auto with hist.
  - intros g. rewrite !Oz; [apply H8| |]; [destruct e as [? [? []| | | | |] | | | | | |]|destruct e as [|? []| | | | |]]; cbn in *; tauto.
Qed.
End I1_steps.

Global Hint Resolve I1_alloc I1_alive I1_running I1_unassigned I1_limbo I1_codes I1_advice I1_same_count
  I1_n1 I1_n2 I1_n3 I1_n4 : i1.
Global Hint Resolve i1_log : i1.
Global Hint Extern 1 (inert _) => exact I : i1.
Global Hint Resolve I1_emit : i1.

Lemma otm_add_v2k (d d' : otm bytes bytes) k v : otm_add d k v = Ok d' → o_v2k d' = <[v := k]> (o_v2k d).
Proof. unfold otm_add. intros H. case_match; [discriminate|]. injection H as <-. reflexivity. Qed.
Lemma otm_remove_value_v2k (d : otm bytes bytes) v p : otm_remove_value d v = Ok p →
  o_v2k d !! v = Some p.2 ∧ o_v2k p.1 = delete v (o_v2k d).
Proof. unfold otm_remove_value. intros H. repeat case_match; try discriminate; injection H as <-; auto. Qed.

Section I1_steps2.
Implicit Types (o og : list bytes).

Lemma I1_clients o og s d :
  (∀ t c, o_v2k d !! t = Some c → o_v2k (s_clients s) !! t = Some c ∨ accepted c t (s_log s) ∨ graph_from c t (s_log s)) →
  I1 o og s → I1 o og (set_clients (λ _, d) s).
Proof. intros Hd []; split; auto. ss. intros t c H. apply Hd in H as [H|H]; auto. Qed.

Lemma I1_cm_new c t o og s : accepted c t (s_log s) ∨ graph_from c t (s_log s) →
  I1 o og s → wp (cm_new c t) (λ _ s', I1 o og s' ∧ s_log s' = s_log s) crash_ok s.
Proof.
  intros Hc H. unfold cm_new. wsteps; [|eauto with i1]. split; [|reflexivity]. apply I1_clients; [|exact H].
  intros t' c'. rewrite (otm_add_v2k _ _ _ _ Hok).
  destruct (decide (t' = t)) as [->|Hne].
  - rewrite lookup_insert. intros [= <-]. auto.
  - rewrite lookup_insert_ne by done. auto.
Qed.
Lemma I1_cm_done t o og s : I1 o og s →
  wp (cm_done t) (λ c s', I1 o og s' ∧ (accepted c t (s_log s') ∨ graph_from c t (s_log s'))) crash_ok s.
Proof.
  intros H. unfold cm_done. wsteps; [|eauto with i1]. apply otm_remove_value_v2k in Hok as [E1 E2].
  split; [|apply (i1_client _ _ _ H) in E1; exact E1]. apply I1_clients; [|exact H].
  intros t' c'. rewrite E2. intros [_ Hx]%lookup_delete_Some. auto.
Qed.
Lemma I1_has_available o og s : I1 o og s → wp wm_has_available (λ _ s', I1 o og s' ∧ s_log s' = s_log s) crash_ok s.
Proof. intros H. unfold wm_has_available. wsteps; eauto with i1. Qed.
Lemma I1_put t o og s : I1 o og s → wp (tm_put t) (λ _ s', I1 o og s') crash_ok s.
Proof. intros H. unfold tm_put. wsteps; eauto with i1. Qed.

Lemma I1_echo_ok c t o og s : I1 o og s → I1 (t :: o) og (set_log (λ l, l ++ [LSend c (MTaskEcho t SubmitOK)]) s).
Proof.
  intros [H1 H2 H3 H4 H5 H6 H7 H8]. split; ss.
  - apply always_snoc; [exact H1|exact I].
  - intros x. rewrite !occ_app, !occ_one, occ_cons. specialize (H2 x). cbn [is_result is_accept].
    rewrite (String.eqb_sym x t). destruct (String.eqb t x); lia.
  - intros x c' H. apply H3 in H as [H|H]; auto with hist.
  - intros c' x H. unfold accepted in H. rewrite elem_of_app, elem_of_list_singleton in H.
    destruct H as [H|[= -> ->]]; [|set_solver].
    apply H4 in H as [H|[H|[H|H]]]; auto with hist. set_solver.
  - intros x H. apply H5 in H. auto with hist.
  - intros x gt H. apply H6 in H. auto with hist.
  - intros g i H. apply H7 in H. auto with hist.
  - intros g. rewrite !occ_app, !occ_one. specialize (H8 g). cbn [is_graph_result is_graph_submission]. lia.
Qed.

Lemma held_insert {A} (m : gmap bytes A) t a x : held (<[t := a]> m) x = if String.eqb x t then 1%nat else held m x.
Proof.
  unfold held. destruct (String.eqb_spec x t) as [->|Hne]; [rewrite lookup_insert; reflexivity|].
  rewrite lookup_insert_ne by done. reflexivity.
Qed.
Lemma held_delete {A} (m : gmap bytes A) t x : held (delete t m) x = if String.eqb x t then 0%nat else held m x.
Proof.
  unfold held. destruct (String.eqb_spec x t) as [->|Hne]; [rewrite lookup_delete; reflexivity|].
  rewrite lookup_delete_ne by done. reflexivity.
Qed.
Lemma held_le {A} (m : gmap bytes A) t : (held m t <= 1)%nat.
Proof. unfold held. destruct (m !! t); lia. Qed.
Lemma held_some {A} (m : gmap bytes A) t a : m !! t = Some a → held m t = 1%nat.
Proof. unfold held. intros ->. reflexivity. Qed.

Lemma I1_store t task o og s : I1 (t :: o) og s → I1 o og (set_tasks (<[t := task]>) s).
Proof.
  intros [H1 H2 H3 H4 H5 H6 H7 H8]. split; auto; ss.
  - intros x. specialize (H2 x). rewrite occ_cons in H2. rewrite held_insert. destruct (String.eqb x t); lia.
  - intros c x H. apply H4 in H as [H|[H|[H|H]]]; auto.
    + left. destruct (decide (x = t)) as [->|Hne]; [rewrite lookup_insert|rewrite lookup_insert_ne by done]; eauto.
    + apply elem_of_cons in H as [->|H]; [|auto]. left. rewrite lookup_insert. eauto.
Qed.

Lemma I1_unstore t task o og s : s_tasks s !! t = Some task → I1 o og s → I1 (t :: o) og (set_tasks (delete t) s).
Proof.
  intros Ht [H1 H2 H3 H4 H5 H6 H7 H8]. split; auto; ss.
  - intros x. specialize (H2 x). rewrite occ_cons, held_delete. destruct (String.eqb_spec x t) as [->|]; [|lia].
    rewrite (held_some _ _ _ Ht) in H2. lia.
  - intros c x H. apply H4 in H as [H|[H|[H|H]]]; auto; [|set_solver].
    destruct (decide (x = t)) as [->|Hne]; [set_solver|rewrite lookup_delete_ne by done]; auto.
Qed.

Lemma I1_result c t st d p o og s : accepted c t (s_log s) ∨ graph_from c t (s_log s) →
  I1 (t :: o) og s → I1 o og (set_log (λ l, l ++ [LSend c (MTaskResult t st d p)]) s).
Proof.
  intros Hc [H1 H2 H3 H4 H5 H6 H7 H8]. split; ss.
  - apply always_snoc; [exact H1|]. cbn. split; [|exact Hc]. specialize (H2 t).
    rewrite occ_cons, String.eqb_refl in H2. lia.
  - intros x. rewrite !occ_app, !occ_one. specialize (H2 x). rewrite occ_cons in H2. cbn [is_result is_accept].
    rewrite (String.eqb_sym t x). destruct (String.eqb x t); lia.
  - intros x c' H. apply H3 in H as [H|H]; auto with hist.
  - intros c' x H. unfold accepted in H. rewrite elem_of_app, elem_of_list_singleton in H.
    destruct H as [H|[=]]. apply H4 in H as [H|[H|[H|H]]]; auto with hist.
    apply elem_of_cons in H as [->|H]; [|auto]. right; left. exists c, st, d, p. set_solver.
  - intros x H. apply H5 in H. auto with hist.
  - intros x gt H. apply H6 in H. auto with hist.
  - intros g i H. apply H7 in H. auto with hist.
  - intros g. rewrite !occ_app, !occ_one. specialize (H8 g). cbn [is_graph_result is_graph_submission]. lia.
Qed.

(** A graph node is not owed an answer of its own. *)
Lemma I1_node_done t o og s : graph_node t (s_log s) → I1 (t :: o) og s → I1 o og s.
Proof.
  intros Hn [H1 H2 H3 H4 H5 H6 H7 H8]. split; auto.
  - intros x. specialize (H2 x). rewrite occ_cons in H2. lia.
  - intros c x H. apply H4 in H as [H|[H|[H|H]]]; auto. apply elem_of_cons in H as [->|H]; auto.
Qed.

Lemma I1_gresult c g st rs o og s : graph_from c g (s_log s) →
  I1 o (g :: og) s → I1 o og (set_log (λ l, l ++ [LSend c (MGraphTaskResult g st rs)]) s).
Proof.
  intros Hc [H1 H2 H3 H4 H5 H6 H7 H8]. split; ss.
  - apply always_snoc; [exact H1|]. cbn. split; [|exact Hc]. specialize (H8 g).
    rewrite occ_cons, String.eqb_refl in H8. lia.
  - intros x. rewrite !occ_app, !occ_one. specialize (H2 x). cbn [is_result is_accept]. lia.
  - intros x c' H. apply H3 in H as [H|H]; auto with hist.
  - intros c' x H. unfold accepted in H. rewrite elem_of_app, elem_of_list_singleton in H.
    destruct H as [H|[=]]. apply H4 in H as [H|[H|[H|H]]]; auto with hist.
  - intros x H. apply H5 in H. auto with hist.
  - intros x gt H. apply H6 in H. auto with hist.
  - intros g' i H. apply H7 in H. auto with hist.
  - intros x. rewrite !occ_app, !occ_one. specialize (H8 x). rewrite occ_cons in H8. cbn [is_graph_result is_graph_submission].
    rewrite (String.eqb_sym g x). destruct (String.eqb x g); lia.
Qed.
Lemma I1_gpop g i o og s : s_graphs s !! g = Some i → I1 o og s → I1 o (g :: og) (set_graphs (delete g) s).
Proof.
  intros Hg [H1 H2 H3 H4 H5 H6 H7 H8]. split; auto; ss.
  - intros g' i' [_ H]%lookup_delete_Some. auto.
  - intros x. specialize (H8 x). rewrite occ_cons, held_delete. destruct (String.eqb_spec x g) as [->|]; [|lia].
    rewrite (held_some _ _ _ Hg) in H8. lia.
Qed.
Lemma I1_gdrop g o og s : I1 o (g :: og) s → I1 o og s.
Proof. intros [H1 H2 H3 H4 H5 H6 H7 H8]. split; auto. intros x. specialize (H8 x). rewrite occ_cons in H8. lia. Qed.
Lemma I1_gupdate g i i' o og s : s_graphs s !! g = Some i → g_client i' = g_client i →
  I1 o og s → I1 o og (set_graphs (<[g := i']>) s).
Proof.
  intros Hg Hc [H1 H2 H3 H4 H5 H6 H7 H8]. split; auto; ss.
  - intros x j. destruct (decide (x = g)) as [->|Hne].
    + rewrite lookup_insert. intros [= <-]. rewrite Hc. auto.
    + rewrite lookup_insert_ne by done. auto.
  - intros x. specialize (H8 x). rewrite held_insert. destruct (String.eqb_spec x g) as [->|]; [|lia].
    rewrite (held_some _ _ _ Hg) in H8. lia.
Qed.
Lemma I1_gnew g i o og s : graph_from (g_client i) g (s_log s) → I1 o (g :: og) s → I1 o og (set_graphs (<[g := i]>) s).
Proof.
  intros Hc [H1 H2 H3 H4 H5 H6 H7 H8]. split; auto; ss.
  - intros x j. destruct (decide (x = g)) as [->|Hne].
    + rewrite lookup_insert. intros [= <-]. auto.
    + rewrite lookup_insert_ne by done. auto.
  - intros x. specialize (H8 x). rewrite occ_cons in H8. rewrite held_insert. destruct (String.eqb x g); lia.
Qed.
Lemma I1_t2g_delete t o og s : I1 o og s → I1 o og (set_t2g (delete t) s).
Proof.
  intros [H1 H2 H3 H4 H5 H6 H7 H8]. split; auto; ss. intros x [y Hy]. apply lookup_delete_Some in Hy as [Hn Hy]. eauto.
Qed.
Lemma I1_t2g_insert t g o og s : graph_node t (s_log s) → I1 o og s → I1 o og (set_t2g (<[t := g]>) s).
Proof.
  intros Hn [H1 H2 H3 H4 H5 H6 H7 H8]. split; auto; ss. intros x.
  destruct (decide (x = t)) as [->|Hne]; [auto|]. rewrite lookup_insert_ne by done. auto.
Qed.

(** ** The managers *)

Lemma I1_tm_new c task o og s : I1 o og s → wp (tm_new c task) (λ _ s', I1 o og s') crash_ok s.
Proof.
  intros H. unfold tm_new, fm_has_function. wstep. wstep. destruct (negb _).
  { wsteps. eauto with i1. }
  wstep. eapply wp_mono; [apply I1_has_available; exact H| |auto]. intros av s1 [H1 _]. wsteps.
  - eauto with i1.
  - eapply wp_mono; [apply (fm_use_same _ _ _ _ (fm_same_refl _))| |].
    2:{ intros u2 s2 [Hs _]. eapply answers_core; [exact Hs|]. exact (i1_log _ _ _ (I1_echo_ok _ _ _ _ _ H1)). }
    intros u2 s2 Hs. assert (H2 : I1 (task_id task :: o) og s2) by (eapply I1_fm; [exact Hs|]; apply I1_echo_ok; exact H1).
    assert (Hac : accepted c (task_id task) (s_log s2)).
    { destruct Hs as [[_ _ _ _ _ _ _ _ _ _ (l & -> & _)] _]. ss. unfold accepted. set_solver. }
    wstep. eapply wp_mono; [apply I1_cm_new; [left; exact Hac|exact H2]| |auto]. intros u3 s3 [H3 E3].
    wsteps. apply (I1_store _ task) in H3. eapply wp_mono; [apply I1_put; exact H3| |auto]. intros u4 s4 H4.
    apply I1_monitor. exact H4.
Qed.
Lemma I1_tm_reroute t o og s : I1 o og s → wp (tm_reroute t) (λ _ s', I1 o og s') crash_ok s.
Proof.
  intros H. unfold tm_reroute. wsteps; eauto with i1.
  eapply wp_mono; [apply I1_put; eauto with i1| |auto]. intros u4 s4 H4. apply I1_monitor. exact H4.
Qed.
Lemma I1_tm_count st o og s : I1 o og s → wp (tm_count st) (λ _ s', I1 o og s') crash_ok s.
Proof. intros H. unfold tm_count. wsteps; eauto with i1. Qed.
Lemma I1_forget r o og s : I1 o og s →
  wp (tm_forget r) (λ c s', I1 (r_id r :: o) og s' ∧ (accepted c (r_id r) (s_log s') ∨ graph_from c (r_id r) (s_log s')))
     crash_ok s.
Proof.
  intros H. unfold tm_forget. wstep. eapply wp_mono; [apply I1_tm_count; exact H| |auto]. intros u1 s1 H1.
  wstep. wstep. wstep. apply (wp_mono _ (λ _ s', I1 o og s') _ crash_ok); [case_match; wsteps; eauto with i1| |auto].
  intros u2 s2 H2. wstep. eapply wp_mono; [apply I1_monitor; exact H2| |auto]. cbv beta. intros u3 s3 H3.
  wsteps; [|eauto with i1]. 
  destruct (s_tasks s3 !! r_id r) as [task|] eqn:Et; [|discriminate]. 
  apply (I1_unstore _ _ _ _ _ Et) in H3.
  eapply wp_mono; [apply I1_fdone; exact H3| |auto]. intros u4 s4 H4. apply I1_cm_done. exact H4.
Qed.
End I1_steps2.

(** ** The graph manager *)
Definition keeps1 {A} (m : M A) : Prop := ∀ o og s, I1 o og s → wp m (λ _ s', I1 o og s') crash_ok s.

Lemma I1_clean_nodes cancel ids : (∀ t, keeps1 (cancel t)) → ∀ nodes, keeps1 (gm_clean_nodes cancel ids nodes).
Proof.
  intros Hc. induction ids as [|t ids IH]; intros nodes o og s H; cbn [gm_clean_nodes]; [wsteps; exact H|].
  destruct (nodes !! t) as [n|]; [|apply IH; exact H]. wstep.
  apply (wp_mono _ (λ _ s', I1 o og s') _ crash_ok).
  - destruct (ni_state n); [apply I1_fdone; exact H|apply Hc; exact H|wsteps; exact H..].
  - intros u s1 H1. wsteps. apply IH. apply I1_t2g_delete. exact H1.
  - auto.
Qed.
Lemma I1_gm_clean cancel g : (∀ t, keeps1 (cancel t)) → (∀ t, grows (cancel t)) → ∀ o og s, I1 o og s →
  wp (gm_clean cancel g) (λ i s', I1 o (g :: og) s' ∧ graph_from (g_client i) g (s_log s')) crash_ok s.
Proof.
  intros Hc Hg o og s H. unfold gm_clean, gm_graph. wstep. wuse I1_cm_done as s1 [H1 _]; [exact H|]. wsteps; [|eauto with i1].
  destruct (s_graphs s1 !! g) as [i|] eqn:Eg; [|discriminate]. injection Hok as <-.
  pose proof (i1_gclient _ _ _ H1 _ _ Eg) as Hf.
  eapply wp_mono; [apply wp_grows; [apply gm_clean_nodes_grows; exact Hg|apply (I1_clean_nodes _ _ Hc)]| |auto].
  { apply I1_codes. eapply I1_gpop; eauto. }
  cbv beta. intros u s2 [H2 [l2 E2]]. wsteps. split; [exact H2|]. rewrite E2. apply graph_from_app. exact Hf.
Qed.
Lemma I1_mark g r : keeps1 (gm_mark g r).
Proof.
  intros o og s H. unfold gm_mark, gm_graph, gm_store. wsteps; eauto with i1.
  destruct (s_graphs s !! g) as [i|] eqn:Eg; [|discriminate]. injection Hok as <-. 
  all: try (eapply I1_gupdate; [exact Eg|reflexivity|exact H]).
  all: destruct (s_graphs s !! g) as [i|] eqn:Eg; [|discriminate]; injection Hok as <-; eapply I1_gupdate; [exact Eg|reflexivity|exact H].
Qed.
Lemma I1_task_result g t a : keeps1 (gm_task_result g t a).
Proof.
  intros o og s H. unfold gm_task_result, gm_graph, gm_store. wsteps; eauto with i1.
  all: destruct (s_graphs s !! g) as [i|] eqn:Eg; [|discriminate]; injection Hok as <-.
  all: try match goal with |- answers _ => eapply i1_log end.
  all: repeat first [apply I1_t2g_delete | eapply I1_gupdate; [exact Eg|reflexivity|exact H]].
  eapply I1_gupdate; ss; [apply lookup_insert|reflexivity|].
  apply I1_t2g_delete. eapply I1_gupdate; [exact Eg|reflexivity|exact H].
Qed.
Lemma I1_arguments g t args : keeps1 (gm_arguments g t args).
Proof.
  induction args as [|[d|a] args IH]; intros o og s H; cbn [gm_arguments].
  - wsteps. exact H.
  - wstep. wuse IH as s1 H1; [exact H|]. wsteps. exact H1.
  - wstep. wuse I1_task_result as s1 H1; [exact H|]. wstep. wuse IH as s2 H2; [exact H1|]. wsteps. exact H2.
Qed.
Lemma I1_start g t : keeps1 (gm_start g t).
Proof.
  intros o og s H. unfold gm_start, gm_graph, gm_store. wsteps; eauto with i1.
  wuse I1_arguments as s1 H1; [exact H|]. wsteps; eauto with i1.
  destruct (s_graphs s1 !! g) as [i|] eqn:Eg; [|discriminate]. injection Hok1 as <-.
  apply I1_tm_new. eapply I1_gupdate; [exact Eg|reflexivity|exact H1].
Qed.
Lemma I1_check cancel g : (∀ t, keeps1 (cancel t)) → (∀ t, grows (cancel t)) → keeps1 (gm_check cancel g).
Proof.
  intros Hc Hg o og s H. unfold gm_check. wstep. unfold gm_graph. wsteps; eauto with i1.
  - wuse (I1_gm_clean cancel g Hc Hg) as s1 [H1 Hf]; [exact H|]. wsteps. apply I1_gresult; [exact Hf|exact H1].
  - unfold gm_store. wsteps.
    destruct (s_graphs s !! g) as [i|] eqn:Eg; [|discriminate]. injection Hok as <-.
    eapply (wp_foreach _ (λ _ s', I1 o og s')).
    + eapply I1_gupdate; [exact Eg|reflexivity|exact H].
    + intros t l1 s1 H1. apply I1_start. exact H1.
Qed.
Lemma I1_gm_done cancel r : (∀ t, keeps1 (cancel t)) → (∀ t, grows (cancel t)) → ∀ o og s, I1 o og s →
  wp (gm_done cancel r) (λ b s', I1 o og s' ∧ (b = true → graph_node (r_id r) (s_log s'))) crash_ok s.
Proof.
  intros Hc Hg o og s H.
  assert (Hn : is_Some (s_t2g s !! r_id r) → graph_node (r_id r) (s_log s)) by (apply H).
  assert (Hg' : grows (gm_done cancel r)) by auto with grows.
  assert (Hw : wp (gm_done cancel r) (λ b s', I1 o og s' ∧ (b = true → is_Some (s_t2g s !! r_id r))) crash_ok s).
  { unfold gm_done. wstep. wstep. destruct (s_t2g s !! r_id r) as [g|] eqn:Et; [|wsteps; split; [exact H|discriminate]].
    wstep. wuse I1_mark as s1 H1; [exact H|].
    assert (Hfail : ∀ st, wp (let* i := gm_clean cancel g in do* send (g_client i) (MGraphTaskResult g st [r_payload r]) in ret true)
       (λ b s', I1 o og s' ∧ (b = true → is_Some (Some g))) crash_ok s1).
    { intros st. wstep. wuse (I1_gm_clean cancel g Hc Hg) as s2 [H2 Hf]; [exact H1|]. wsteps. split; [|eauto].
      apply I1_gresult; [exact Hf|exact H2]. }
    destruct (r_status r); try apply Hfail. wstep. wuse I1_check as s2 H2; [exact Hc|exact Hg|exact H1|]. wsteps. split; [exact H2|eauto]. }
  eapply wp_mono; [apply wp_grows; [exact Hg'|exact Hw]| |auto]. cbv beta. intros b s' [[H1 H2] [l El]].
  split; [exact H1|]. intros Hb. rewrite El. apply graph_node_app. auto.
Qed.
Lemma I1_done_fuel n r : keeps1 (tm_done_fuel n r).
Proof.
  revert r; induction n as [|n IH]; intros r o og s H; cbn [tm_done_fuel]; [wsteps; eauto with i1|].
  wstep. wuse I1_forget as s1 [H1 Hc1]; [exact H|]. wstep.
  assert (Hcancel : ∀ t, keeps1 (tm_cancel (tm_done_fuel n) t)).
  { intros t o1 og1 s2 H2. unfold tm_cancel. wsteps; eauto with i1.
    - apply IH. exact H2.
    - wuse I1_wcancel as s3 H3; [exact H2|]. apply I1_monitor. exact H3. }
  eapply wp_mono; [apply wp_grows; [apply gm_done_grows; auto with grows|
                   apply (I1_gm_done _ r Hcancel); [auto with grows|exact H1]]| |auto].
  cbv beta. intros b s2 [[H2 Hn] [l El]]. destruct b; wsteps.
  - eapply I1_node_done; eauto.
  - apply I1_result; [|exact H2]. rewrite El. destruct Hc1; auto with hist.
Qed.
Lemma I1_done r : keeps1 (tm_done r).
Proof. intros o og s H. unfold tm_done. wsteps. apply I1_done_fuel. exact H. Qed.
Lemma I1_cancel_any t : keeps1 (tm_cancel_any t).
Proof.
  intros o og s H. unfold tm_cancel_any, tm_cancel. wsteps; eauto with i1.
  - apply I1_done. exact H.
  - wuse I1_wcancel as s3 H3; [exact H|]. apply I1_monitor. exact H3.
Qed.
Lemma I1_monitor_send m o og s : I1 o og s → I1 o og (set_log (λ l, l ++ [LMonitor m]) s).
Proof. apply I1_emit. exact I. Qed.

Lemma I1_nodes g targets ts nodes deps gr o og s :
  (∀ t, t ∈ ts → graph_node (task_id t) (s_log s)) → I1 o og s →
  wp (gm_nodes g targets ts nodes deps gr) (λ _ s', I1 o og s' ∧ ∃ l, s_log s' = s_log s ++ l) crash_ok s.
Proof.
  revert nodes deps gr s; induction ts as [|t ts IH]; intros nodes deps gr s Hn H; cbn [gm_nodes].
  { wsteps. split; [exact H|]. exists []. rewrite app_nil_r. reflexivity. }
  wstep. eapply wp_mono; [apply wp_grows; [apply fm_use_grows|apply I1_use; exact H]| |auto].
  cbv beta. intros u s1 [H1 [l1 E1]]. wsteps. eapply wp_mono; [apply IH| |auto].
  - ss. intros t' Ht'. rewrite E1, <- app_assoc. apply graph_node_app, Hn. set_solver.
  - apply I1_monitor_send, I1_codes, I1_t2g_insert; [|exact H1]. rewrite E1. apply graph_node_app, Hn. set_solver.
  - cbv beta. ss. intros u2 s2 [H2 [l2 E2]]. split; [exact H2|]. eexists. rewrite E2, E1, <- !app_assoc. reflexivity.
Qed.
Lemma gm_nodes_grows g targets ts nodes deps gr : grows (gm_nodes g targets ts nodes deps gr).
Proof. revert nodes deps gr; induction ts as [|t ts IH]; intros; cbn [gm_nodes]; grow. Qed.
Global Hint Resolve gm_nodes_grows : grows.

Lemma I1_add client gt o og s : received client (graph_msg gt) (s_log s) →
  I1 o (gt_id gt :: og) s → wp (gm_add client gt) (λ _ s', I1 o og s') crash_ok s.
Proof.
  intros Hr H. unfold gm_add. set (og' := gt_id gt :: og) in *. wstep.
  apply (wp_mono _ (λ _ s', I1 o og' s' ∧ received client (graph_msg gt) (s_log s')) _ crash_ok); [| |auto].
  { apply (wp_foreach _ (λ _ s', I1 o og' s' ∧ received client (graph_msg gt) (s_log s'))); [auto|].
    intros [f [n c]] l s1 [H1 Hr1]. eapply wp_mono; [apply wp_grows; [apply fm_on_function_grows|apply I1_on_function; exact H1]| |auto].
    cbv beta. intros u s2 [H2 [l2 E2]]. split; [exact H2|]. rewrite E2. apply received_app. exact Hr1. }
  clear s Hr H. intros u s [H Hr]. wstep.
  assert (Hf : graph_from client (gt_id gt) (s_log s)) by (do 3 eexists; exact Hr).
  wuse I1_cm_new as s1 [H1 E1]; [right; exact Hf|exact H|]. wstep.
  wuse I1_nodes as s2 [H2 [l2 E2]]; [|exact H1|].
  { intros t Ht. rewrite E1. do 5 eexists. exists t. split; [exact Hr|]. auto. }
  wsteps; [|eauto with i1]. unfold gm_store. wsteps.
  apply I1_check; [apply I1_cancel_any|auto with grows|].
  apply I1_gnew; [|exact H2]. cbn. rewrite E2, E1. apply graph_from_app. exact Hf.
Qed.
Lemma I1_gm_routine o og s : I1 o og s → wp gm_routine (λ _ s', I1 o og s') crash_ok s.
Proof.
  intros H. unfold gm_routine. wstep. wstep. destruct (s_gqueue s) as [|[client gt] q] eqn:Hm; [wsteps; eauto with i1|].
  wstep. wstep.
  assert (Hin : (client, gt) ∈ s_gqueue s) by (rewrite Hm; set_solver).
  apply I1_add; ss.
  - apply H. exact Hin.
  - destruct H as [H1 H2 H3 H4 H5 H6 H7 H8]. split; auto; ss.
    + intros c gt' Hx. apply H6. rewrite Hm. set_solver.
    + intros g. specialize (H8 g). rewrite Hm in H8. unfold gq_ids in *. rewrite fmap_cons, occ_cons in H8. cbn in H8.
      rewrite occ_cons. lia.
Qed.

(** ** Dispatch, workers *)
Lemma I1_match task : keeps1 (tm_match task).
Proof.
  intros o og s H. unfold tm_match. wsteps; eauto with i1.
  - apply I1_monitor. eauto with i1.
  - apply I1_put. eauto with i1.
Qed.
Lemma I1_tm_routine : keeps1 tm_routine.
Proof. intros o og s H. unfold tm_routine. wsteps; eauto with i1; apply I1_match; eauto with i1. Qed.
Lemma I1_wm_done r : keeps1 (wm_done r).
Proof. intros o og s H. unfold wm_done. wsteps; eauto with i1. apply I1_done. eauto with i1. Qed.
Lemma I1_take_back ids : keeps1 (wm_take_back ids).
Proof.
  induction ids as [|t ids IH]; intros o og s H; cbn [wm_take_back]; wsteps; eauto with i1.
  wuse IH as s1 H1; [eauto with i1|]. wsteps; exact H1.
Qed.
Lemma I1_balance_response ids : keeps1 (wm_balance_response ids).
Proof.
  intros o og s H. unfold wm_balance_response. wstep. wuse I1_take_back as s1 H1; [exact H|].
  apply (wp_foreach _ (λ _ s', I1 o og s')); [exact H1|]. intros t l s2 H2. apply I1_tm_reroute. exact H2.
Qed.
Lemma I1_heartbeat w h : keeps1 (wm_heartbeat w h).
Proof. intros o og s H. unfold wm_heartbeat. wsteps; eauto 8 with i1. Qed.
Lemma I1_drop w : keeps1 (wm_drop w).
Proof.
  intros o og s H. unfold wm_drop. wsteps; eauto with i1.
  apply (wp_mono _ (λ _ s', I1 o og s') _ crash_ok); [|intros u s1 H1; wsteps; exact H1|auto].
  apply (wp_foreach _ (λ _ s', I1 o og s')); [eauto 8 with i1|]. intros t l s2 H2. apply I1_tm_reroute. exact H2.
Qed.
Lemma I1_disconnect src w : keeps1 (wm_disconnect src w).
Proof. intros o og s H. unfold wm_disconnect. wstep. wuse I1_drop as s1 H1; [exact H|]. wsteps; eauto with i1. Qed.
Lemma I1_balance : keeps1 wm_balance.
Proof.
  intros o og s H. unfold wm_balance. wsteps; eauto with i1.
  apply (wp_foreach _ (λ _ s', I1 o og s')); [eauto with i1|]. intros p l s2 H2. wsteps. eauto with i1.
Qed.
Lemma I1_wm_clean : keeps1 wm_clean.
Proof.
  intros o og s H. unfold wm_clean. wsteps.
  apply (wp_foreach _ (λ _ s', I1 o og s')); [eauto with i1|]. intros p l s2 H2. wstep. wuse I1_drop as s3 H3; [exact H2|]. wsteps. exact H3.
Qed.
Lemma I1_wm_routine : keeps1 wm_routine.
Proof. intros o og s H. unfold wm_routine. wstep. wuse I1_balance as s1 H1; [exact H|]. apply I1_wm_clean. exact H1. Qed.

(** ** Rounds *)
Lemma I1_in_inert now e o og s : inert (LIn now e) → I1 o og s → I1 o og (set_log (λ l, l ++ [LIn now e]) s).
Proof. apply I1_emit. Qed.
Lemma I1_in_graph now src g fs ts ns o og s : I1 o og s →
  I1 o og (set_gqueue (λ q, q ++ [(src, GraphTask g fs ts ns)]) (set_log (λ l, l ++ [LIn now (ERecv src (MGraphTask g fs ts ns))]) s)).
Proof.
  intros [H1 H2 H3 H4 H5 H6 H7 H8]. split; ss.
  - apply always_snoc; [exact H1|exact I].
  - intros x. rewrite !occ_app, !occ_one. specialize (H2 x). cbn [is_result is_accept]. lia.
  - intros x c' H. apply H3 in H as [H|H]; auto with hist.
  - intros c' x H. unfold accepted in H. rewrite elem_of_app, elem_of_list_singleton in H.
    destruct H as [H|[=]]. apply H4 in H as [H|[H|[H|H]]]; auto with hist.
  - intros x H. apply H5 in H. auto with hist.
  - intros x gt H. rewrite elem_of_app, elem_of_list_singleton in H. destruct H as [H|[= -> ->]].
    + apply H6 in H. auto with hist.
    + exists now. unfold graph_msg; cbn. set_solver.
  - intros g' i H. apply H7 in H. auto with hist.
  - intros x. rewrite !occ_app, !occ_one. specialize (H8 x). cbn [is_graph_result is_graph_submission].
    unfold gq_ids in *. rewrite fmap_app. unfold occ in *. rewrite List.filter_app, app_length. cbn.
    rewrite (String.eqb_sym x g). destruct (String.eqb g x); cbn; lia.
Qed.
Lemma I1_now o og s f : I1 o og s → I1 o og (set_now f s). Proof. intros []; split; auto. Qed.

Lemma I1_round now e s : I1 [] [] s → wp (handle e) (λ _ s', I1 [] [] s') crash_ok (set_log (λ l, l ++ [LIn now e]) s).
Proof.
  intros H. destruct (match e with ERecv _ (MGraphTask _ _ _ _) => true | _ => false end) eqn:Eg.
  { destruct e as [src m| | | | |]; try discriminate. destruct m; try discriminate. cbn [handle on_receive]. wsteps.
    apply I1_in_graph. exact H. }
  assert (Hi : I1 [] [] (set_log (λ l, l ++ [LIn now e]) s)).
  { apply I1_in_inert; [|exact H]. destruct e as [src m| | | | |]; try exact I. destruct m; try exact I. discriminate. }
  destruct e as [src m| | | | |]; cbn [handle].
  - destruct m; try discriminate; cbn [on_receive]; try (wsteps; exact Hi).
    + apply I1_tm_new. exact Hi.
    + apply I1_cancel_any. exact Hi.
    + apply I1_wm_done. exact Hi.
    + wstep. wuse (I1_gm_clean tm_cancel_any id I1_cancel_any) as s1 [H1 _]; [auto with grows|exact Hi|]. wsteps.
      eapply I1_gdrop. exact H1.
    + apply I1_balance_response. exact Hi.
    + apply I1_heartbeat. exact Hi.
    + apply I1_on_function. exact Hi.
    + apply I1_disconnect. exact Hi.
  - apply I1_gm_routine. exact Hi.
  - apply I1_tm_routine. exact Hi.
  - apply I1_fm_routine. exact Hi.
  - apply I1_wm_routine. exact Hi.
  - apply I1_status. exact Hi.
Qed.

Definition Inv1 (s : sched) : Prop := answers s ∧ (s_dead s = None → I1 [] [] s).
Lemma Inv1_start c : Inv1 (start c).
Proof.
  split; [apply always_nil|]. intros _. split; cbn; try (intros; set_solver || lia).
  all: try (intros *; unfold held; rewrite ?lookup_empty; first [discriminate|intros [? ?]; discriminate|cbn; lia]).
  apply always_nil.
Qed.
Lemma Inv1_step s r : Inv1 s → Inv1 (step s r).
Proof.
  intros [Ha H]. unfold step. destruct (s_dead s) eqn:Ed; [split; [exact Ha|congruence]|].
  specialize (H eq_refl). set (s0 := set_now _ _).
  assert (H0 : I1 [] [] s0) by (apply I1_now, I1_codes, H).
  pose proof (I1_round (rd_now r) (rd_event r) s0 H0) as Hw. unfold wp in Hw.
  destruct (handle _ _) as [s' [u|e]]; split; auto.
  - apply Hw.
  - ss. apply always_snoc; [exact Hw|exact I].
  - ss. discriminate.
Qed.
Lemma Inv1_run c rs : Inv1 (run c rs).
Proof.
  unfold run, run_from. assert (∀ s, Inv1 s → Inv1 (foldl step s rs)) as H; [|apply H, Inv1_start].
  induction rs as [|r rs IH]; cbn; auto using Inv1_step.
Qed.
