(** Where every dispatched task and every answer comes from: the invariant behind
    C22, C24, C40-C42. *)

From Verif.Model Require Import Base OneToManyDict Allocator Message Sorter Scheduler.
From Verif.Spec Require Import SchedulerSpec.
From Verif.Proofs Require Import BaseProofs SchedWp SchedCount.

Lemma success_app t r h l : success h t r → success (h ++ l) t r.
Proof. intros (src & d & H). exists src, d. apply received_app. exact H. Qed.
Lemma filled_app h l a' a : filled h a' a → filled (h ++ l) a' a.
Proof. destruct a; cbn; [auto|]. intros (r & E & H). exists r. split; [exact E|]. apply success_app. exact H. Qed.
Lemma instance_app h l k n : instance_of h k n → instance_of (h ++ l) k n.
Proof.
  intros (E1 & E2 & H & Hd). split; [exact E1|]. split; [exact E2|]. split; [|exact Hd]. eapply Forall2_impl; [exact H|]. intros ? ?. apply filled_app.
Qed.
Lemma submitted_app c k h l : submitted c k h → submitted c k (h ++ l).
Proof.
  intros [H|(g & fs & ts & ns & n & H & Hn & Hi)]; [left; apply received_app; exact H|right].
  exists g, fs, ts, ns, n. split; [apply received_app; exact H|]. split; [exact Hn|]. apply instance_app. exact Hi.
Qed.
Lemma node_of_graph_app t g h l : node_of_graph t g h → node_of_graph t g (h ++ l).
Proof. intros (c & fs & ts & ns & n & H & ?). exists c, fs, ts, ns, n. split; [apply received_app; exact H|auto]. Qed.
Lemma node_of_graph_node t g h : node_of_graph t g h → graph_node t h.
Proof. intros (c & fs & ts & ns & n & H & ?). exists c, g, fs, ts, ns, n. auto. Qed.
Global Hint Resolve success_app filled_app instance_app submitted_app node_of_graph_app : hist.

Definition content (h : history) (k : task) : Prop := ∃ c, submitted c k h ∧ accepted c (task_id k) h.
Lemma content_app h l k : content h k → content (h ++ l) k.
Proof. intros (c & H1 & H2). exists c. auto with hist. Qed.
Global Hint Resolve content_app : hist.

(** What the answer [r] rests on: a worker's message being handled, or a cancellation. *)
Definition sourced (ev : option event) (h : history) (r : result) : Prop :=
  (∃ src, ev = Some (ERecv src (MResult r))) ∨
  (r = Result (r_id r) Canceled 0 "" ∧
   ((∃ src, ev = Some (ERecv src (MTaskCancel (r_id r)))) ∨ graph_node (r_id r) h)).
Lemma sourced_app ev h l r : sourced ev h r → sourced ev (h ++ l) r.
Proof. intros [?|(? & [?|?])]; [left|right..]; auto with hist. Qed.

Definition relayed_ok (before : history) (e : entry) : Prop :=
  match e with
  | LSend w (MTask k) => content before k
  | LSend c (MTaskResult t st d p) => sourced (last_input before) before (Result t st d p)
  | LSend c (MGraphTaskResult g Success rs) =>
      ∃ fs ts ns, received c (MGraphTask g fs ts ns) before ∧ Forall2 (success before) ts rs
  | LSend c (MGraphTaskResult g st rs) =>
      graph_from c g before ∧
      ∃ t d p, rs = [p] ∧ node_of_graph t g before ∧ sourced (last_input before) before (Result t st d p)
  | _ => True
  end.

Lemma last_input_snoc h e : last_input (h ++ [e]) = match e with LIn _ ev => Some ev | _ => last_input h end.
Proof. unfold last_input. rewrite foldl_app. reflexivity. Qed.
Lemma last_input_quiet h l : Forall quiet l → last_input (h ++ l) = last_input h.
Proof.
  intros Hl. revert h; induction Hl as [|e l He Hl IH]; intros h; [rewrite app_nil_r; reflexivity|].
  replace (h ++ e :: l) with ((h ++ [e]) ++ l) by (rewrite <- app_assoc; reflexivity).
  rewrite IH, last_input_snoc. destruct e; cbn in *; tauto.
Qed.
Lemma last_input_in h ev : last_input h = Some ev → ∃ now, LIn now ev ∈ h.
Proof.
  induction h as [|e h IH] using rev_ind; [discriminate|]. rewrite last_input_snoc.
  destruct e; try (intros H; apply IH in H as [n H]; exists n; set_solver).
  intros [= ->]. exists now. set_solver.
Qed.

(** Node [k] of a graph in progress stems from the submitted node [n]. *)
Definition stems (h : history) (k n : task) : Prop := k = n ∨ instance_of h k n.
Lemma stems_app h l k n : stems h k n → stems (h ++ l) k n.
Proof. intros [H|H]; [left; exact H|right; auto with hist]. Qed.
Definition node_good (h : history) (ns : list task) (t : bytes) (i : node_info) : Prop :=
  (∃ n, n ∈ ns ∧ task_id n = t ∧ stems h (ni_task i) n).
Definition graph_good (strict : bool) (h : history) (g : bytes) (i : graph) : Prop :=
  ∃ fs ns, received (g_client i) (MGraphTask g fs (g_targets i) ns) h ∧
    ∀ t n, g_nodes i !! t = Some n → node_good h ns t n ∧
      (strict = true → ∀ r, ni_result n = Some r → success h t r).
Lemma graph_good_app b h l g i : graph_good b h g i → graph_good b (h ++ l) g i.
Proof.
  intros (fs & ns & Hr & Hn). exists fs, ns. split; [apply received_app; exact Hr|]. intros t n Ht.
  destruct (Hn t n Ht) as [(n0 & H1 & H2 & H3) H4]. split; [|auto with hist].
  exists n0. split; [exact H1|]. split; [exact H2|]. apply stems_app. exact H3.
Qed.
Lemma graph_good_weaken b h g i : graph_good b h g i → graph_good false h g i.
Proof. intros (fs & ns & Hr & Hn). exists fs, ns. split; [exact Hr|]. intros t n Ht. split; [apply Hn; exact Ht|discriminate]. Qed.
Global Hint Resolve graph_good_app stems_app : hist.

(** [X]: graphs that have just failed and are about to be dropped. *)
Definition relays (s : sched) : Prop := always relayed_ok (s_log s).
Record I3 (X : list bytes) (ev : option event) (s : sched) : Prop := {
  i3_log : relays s;
  i3_ev : last_input (s_log s) = ev;
  i3_tasks t k : s_tasks s !! t = Some k → content (s_log s) k;
  i3_limbo k : s_limbo s = Some k → content (s_log s) k;
  i3_gqueue c gt : (c, gt) ∈ s_gqueue s → received c (graph_msg gt) (s_log s);
  i3_graphs g i : s_graphs s !! g = Some i → graph_good (negb (bool_decide (g ∈ X))) (s_log s) g i;
  i3_t2g t g : s_t2g s !! t = Some g → node_of_graph t g (s_log s) }.
Notation crash3 := (λ (_ : exn) s', relays s').

Lemma quiet_relay b e : quiet e → relayed_ok b e.
Proof. destruct e as [| ? [] | | | | |]; cbn; tauto. Qed.
Lemma I3_fm X ev s s' : fm_same s s' → I3 X ev s → I3 X ev s'.
Proof.
  intros [[E1 _ _ _ E5 E6 _ E8 E9 E10 (l & El & Ql)] [F1 F2 F3]] [H1 H2 H3 H4 H5 H6 H7].
  split; rewrite ?El, ?E5, ?E8, ?F1, ?F2, ?F3; eauto with hist.
  - unfold relays. rewrite El. apply always_quiet; auto using quiet_relay.
  - rewrite last_input_quiet; auto.
Qed.
Lemma relays_core s s' : same_core s s' → relays s → relays s'.
Proof.
  intros [E1 _ _ _ _ _ _ _ _ _ (l & El & Ql)] H. unfold relays. rewrite El. apply always_quiet; auto using quiet_relay.
Qed.
Definition keeps3 {A} (m : M A) : Prop := ∀ X ev s, I3 X ev s → wp m (λ _ s', I3 X ev s') crash3 s.
Lemma keeps3_frame {A} (m : M A) :
  (∀ s, wp m (λ _ s', fm_same s s') (λ _ s', fm_same s s') s) → keeps3 m.
Proof.
  intros Hm X ev s H. eapply wp_mono; [apply Hm| |]; cbv beta.
  - intros a s' Hs. eapply I3_fm; eauto.
  - intros e s' [Hs _]. eapply relays_core; [exact Hs|apply H].
Qed.
Lemma I3_use t f : keeps3 (fm_use t f). Proof. apply keeps3_frame. intros. apply fm_use_same, fm_same_refl. Qed.
Lemma I3_fdone t : keeps3 (fm_done t). Proof. apply keeps3_frame. intros. apply fm_done_same, fm_same_refl. Qed.
Lemma I3_on_function a b c d e : keeps3 (fm_on_function a b c d e).
Proof. apply keeps3_frame. intros. apply fm_on_function_same, fm_same_refl. Qed.
Lemma I3_fm_routine : keeps3 fm_routine. Proof. apply keeps3_frame. intros. apply fm_routine_same, fm_same_refl. Qed.
Lemma I3_monitor t st : keeps3 (tm_monitor t st). Proof. apply keeps3_frame. intros. apply tm_monitor_same, fm_same_refl. Qed.
Lemma I3_wcancel t : keeps3 (wm_cancel t). Proof. apply keeps3_frame. intros. apply wm_cancel_same, fm_same_refl. Qed.
Lemma I3_status : keeps3 st_routine. Proof. apply keeps3_frame. intros. apply st_routine_same, fm_same_refl. Qed.

Definition not_input (e : entry) : Prop := match e with LIn _ _ => False | _ => True end.
Section I3_fields.
Context (X : list bytes) (ev : option event) (s : sched).
Lemma I3_running f : I3 X ev s → I3 X ev (set_running f s). Proof. intros []; split; auto. Qed.
Lemma I3_codes f : I3 X ev s → I3 X ev (set_codes f s). Proof. intros []; split; auto. Qed.
Lemma I3_clients f : I3 X ev s → I3 X ev (set_clients f s). Proof. intros []; split; auto. Qed.
Lemma I3_advice f : I3 X ev s → I3 X ev (set_last_advice f s). Proof. intros []; split; auto. Qed.
Lemma I3_same_count f : I3 X ev s → I3 X ev (set_same f s). Proof. intros []; split; auto. Qed.
Lemma I3_now f : I3 X ev s → I3 X ev (set_now f s). Proof. intros []; split; auto. Qed.
Lemma I3_n1 f : I3 X ev s → I3 X ev (set_nsuccess f s). Proof. intros []; split; auto. Qed.
Lemma I3_n2 f : I3 X ev s → I3 X ev (set_nfailed f s). Proof. intros []; split; auto. Qed.
Lemma I3_n3 f : I3 X ev s → I3 X ev (set_ncanceled f s). Proof. intros []; split; auto. Qed.
Lemma I3_n4 f : I3 X ev s → I3 X ev (set_nnotfound f s). Proof. intros []; split; auto. Qed.
Lemma I3_alloc f : I3 X ev s → I3 X ev (set_alloc f s). Proof. intros []; split; auto. Qed.
Lemma I3_alive f : I3 X ev s → I3 X ev (set_alive f s). Proof. intros []; split; auto. Qed.
Lemma I3_unassigned f : I3 X ev s → I3 X ev (set_unassigned f s). Proof. intros []; split; auto. Qed.
Lemma I3_limbo_none : I3 X ev s → I3 X ev (set_limbo (λ _, None) s).
Proof. intros []; split; auto. ss. discriminate. Qed.
Lemma I3_limbo_some k : content (s_log s) k → I3 X ev s → I3 X ev (set_limbo (λ _, Some k) s).
Proof. intros Hk []; split; auto. ss. intros k' [= <-]. exact Hk. Qed.
Lemma I3_t2g_delete t : I3 X ev s → I3 X ev (set_t2g (delete t) s).
Proof. intros []; split; auto. ss. intros t' g [_ H]%lookup_delete_Some. auto. Qed.
Lemma I3_unstore t : I3 X ev s → I3 X ev (set_tasks (delete t) s).
Proof. intros []; split; auto. ss. intros t' k [_ H]%lookup_delete_Some. eauto. Qed.
Lemma I3_emit e : not_input e → relayed_ok (s_log s) e → I3 X ev s → I3 X ev (set_log (λ l, l ++ [e]) s).
Proof.
  intros He Hr [H1 H2 H3 H4 H5 H6 H7]. split; ss; eauto with hist.
  - apply always_snoc; [exact H1|exact Hr].
  - rewrite last_input_snoc. destruct e; [done|exact H2..].
Qed.
End I3_fields.
Global Hint Resolve I3_running I3_codes I3_clients I3_advice I3_same_count I3_now I3_n1 I3_n2 I3_n3 I3_n4
  I3_alloc I3_alive I3_unassigned I3_limbo_none I3_t2g_delete I3_unstore I3_emit i3_log : i3.
Global Hint Extern 1 (not_input _) => exact I : i3.
Global Hint Extern 1 (relayed_ok _ _) => exact I : i3.

Lemma I3_put t : keeps3 (tm_put t). Proof. intros X ev s H. unfold tm_put. wsteps; eauto with i3. Qed.
Lemma I3_has_available : keeps3 wm_has_available. Proof. intros X ev s H. unfold wm_has_available. wsteps; eauto with i3. Qed.
Lemma I3_cm_new c t : keeps3 (cm_new c t). Proof. intros X ev s H. unfold cm_new. wsteps; eauto with i3. Qed.
Lemma I3_cm_done t : keeps3 (cm_done t). Proof. intros X ev s H. unfold cm_done. wsteps; eauto with i3. Qed.
Lemma I3_tm_new c k X ev s : submitted c k (s_log s) → I3 X ev s → wp (tm_new c k) (λ _ s', I3 X ev s') crash3 s.
Proof.
  intros Hk H. unfold tm_new, fm_has_function. wstep. wstep. destruct (negb _); [wsteps; eauto with i3|].
  wstep. eapply wp_mono; [apply wp_grows; [apply wm_has_available_grows|apply I3_has_available; exact H]| |auto].
  cbv beta. intros av s1 [H1 [l1 E1]]. wsteps; [eauto with i3|].
  assert (Hc : content (s_log s1 ++ [LSend c (MTaskEcho (task_id k) SubmitOK)]) k).
  { exists c. split; [|unfold accepted; set_solver]. rewrite E1. auto with hist. }
  eapply wp_mono; [apply wp_grows; [apply fm_use_grows|apply I3_use; eauto with i3]| |auto].
  cbv beta. ss. intros u2 s2 [H2 [l2 E2]]. wstep.
  eapply wp_mono; [apply wp_grows; [apply cm_new_grows|apply I3_cm_new; exact H2]| |auto].
  cbv beta. intros u3 s3 [H3 [l3 E3]]. wsteps.
  wuse I3_put as s4 H4; [|apply I3_monitor; exact H4].
  destruct H3 as [A1 A2 A3 A4 A5 A6 A7]; split; auto; ss. intros t k'. rewrite lookup_insert_Some.
  intros [[<- <-]|[_ Hx]]; [|eauto]. rewrite E3, E2. auto with hist.
Qed.
Lemma I3_reroute t : keeps3 (tm_reroute t).
Proof. intros X ev s H. unfold tm_reroute. wsteps; eauto with i3. wuse I3_put as s1 H1; [eauto with i3|]. apply I3_monitor. exact H1. Qed.
Lemma I3_count st : keeps3 (tm_count st). Proof. intros X ev s H. unfold tm_count. wsteps; eauto with i3. Qed.
Lemma I3_forget r : keeps3 (tm_forget r).
Proof.
  intros X ev s H. unfold tm_forget. wstep. wuse I3_count as s1 H1; [exact H|]. wstep. wstep. wstep.
  apply (wp_mono _ (λ _ s', I3 X ev s') _ crash3); [case_match; wsteps; eauto with i3| |auto].
  intros u s2 H2. wstep. wuse I3_monitor as s3 H3; [exact H2|]. wsteps; [|eauto with i3].
  wuse I3_fdone as s4 H4; [eauto with i3|]. apply I3_cm_done. exact H4.
Qed.

(** ** Graphs *)
(** [cancel] as used on nodes of a graph. *)
Definition cancels3 (cancel : bytes → M unit) : Prop := ∀ t ev s, graph_node t (s_log s) → I3 [] ev s →
  wp (cancel t) (λ _ s', I3 [] ev s') crash3 s.

Lemma I3_clean_nodes cancel ids : cancels3 cancel → (∀ t, grows (cancel t)) → ∀ nodes ev s,
  (∀ t, is_Some (nodes !! t) → graph_node t (s_log s)) → I3 [] ev s →
  wp (gm_clean_nodes cancel ids nodes) (λ _ s', I3 [] ev s') crash3 s.
Proof.
  intros Hc Hg. induction ids as [|t ids IH]; intros nodes ev s Hn H; cbn [gm_clean_nodes]; [wsteps; exact H|].
  destruct (nodes !! t) as [n|] eqn:En; [|apply IH; auto]. wstep.
  apply (wp_mono _ (λ _ s', I3 [] ev s' ∧ ∃ l, s_log s' = s_log s ++ l) _ crash3).
  - apply wp_grows; [destruct (ni_state n); grow|]. destruct (ni_state n); [apply I3_fdone; exact H|apply Hc; eauto|wsteps; exact H..].
  - intros u s1 [H1 [l1 E1]]. wsteps. apply IH; [|eauto with i3]. ss. intros x [y Hy]. apply lookup_delete_Some in Hy as [_ Hy].
    rewrite E1. apply graph_node_app. eauto.
  - auto.
Qed.
Lemma I3_clean cancel g : cancels3 cancel → (∀ t, grows (cancel t)) → ∀ ev s, I3 [g] ev s →
  wp (gm_clean cancel g) (λ i s', I3 [] ev s' ∧ graph_from (g_client i) g (s_log s') ∧
      (s_graphs s !! g = Some i)) crash3 s.
Proof.
  intros Hc Hg ev s H. unfold gm_clean, gm_graph. wstep.
  assert (Hcm : wp (cm_done g) (λ _ s', I3 [g] ev s' ∧ s_graphs s' = s_graphs s) crash3 s).
  { unfold cm_done. wsteps; [|eauto with i3]. split; [eauto with i3|reflexivity]. }
  wuse Hcm as s1 [H1 Eg1]. wsteps; [|eauto with i3].
  destruct (s_graphs s1 !! g) as [i|] eqn:Eg; [|discriminate]. injection Hok as <-.
  pose proof (i3_graphs _ _ _ H1 _ _ Eg) as (fs & ns & Hr & Hn).
  eapply wp_mono; [apply wp_grows; [apply gm_clean_nodes_grows; exact Hg|]| |auto].
  { apply (I3_clean_nodes _ _ Hc Hg _ ev).
    - ss. intros t [n Ht]. destruct (Hn _ _ Ht) as [(n0 & Hin & E & _) _]. do 5 eexists. exists n0. eauto.
    - apply I3_codes. destruct H1 as [A1 A2 A3 A4 A5 A6 A7]; split; auto; ss. intros g' i' [Hne Hx]%lookup_delete_Some.
      apply A6 in Hx. replace (bool_decide (g' ∈ [])) with (bool_decide (g' ∈ [g])); [exact Hx|].
      apply bool_decide_ext. set_solver. }
  2: auto.
  cbv beta. intros u s2 [H2 [l2 E2]]. wsteps. split; [exact H2|]. split.
  - rewrite E2. apply graph_from_app. do 3 eexists. exact Hr.
  - rewrite <- Eg1. exact Eg.
Qed.
Lemma I3_X_weaken X X' ev s : (∀ g, g ∈ X → g ∈ X') → I3 X ev s → I3 X' ev s.
Proof.
  intros HX [A1 A2 A3 A4 A5 A6 A7]; split; auto. intros g i Hg. apply A6 in Hg.
  case_bool_decide; case_bool_decide; auto; [exfalso; auto|]. eapply graph_good_weaken; exact Hg.
Qed.
Lemma I3_gstore g i X ev s : graph_good (negb (bool_decide (g ∈ X))) (s_log s) g i → I3 X ev s → I3 X ev (set_graphs (<[g := i]>) s).
Proof.
  intros Hi [A1 A2 A3 A4 A5 A6 A7]; split; auto; ss. intros g' i'. rewrite lookup_insert_Some. intros [[<- <-]|[_ Hx]]; auto.
Qed.
Lemma sourced_success ev h r : last_input h = ev → sourced ev h r → r_status r = Success → success h (r_id r) (r_payload r).
Proof.
  intros He [[src ->]|(E & _)] Hs; [|rewrite E in Hs; discriminate]. apply last_input_in in He as [now Hin].
  exists src, (r_duration r). exists now. destruct r as [t st d p]; cbn in *. subst st. exact Hin.
Qed.

(** Marking a node: afterwards the graph is good, or it is to be dropped. *)
Lemma I3_mark g r X ev s : sourced ev (s_log s) r → (r_status r ≠ Success → g ∈ X) → I3 X ev s →
  wp (gm_mark g r) (λ _ s', I3 X ev s') crash3 s.
Proof.
  intros Hs HX H. unfold gm_mark, gm_graph, gm_store. wstep. wsteps; eauto with i3.
  all: destruct (s_graphs s !! g) as [i|] eqn:Eg; [|discriminate]; injection Hok as <-.
  all: apply I3_gstore; [|exact H].
  all: destruct (i3_graphs _ _ _ H _ _ Eg) as (fs & ns & Hr & Hn); exists fs, ns; split; [exact Hr|].
  all: cbn; intros t n; rewrite lookup_insert_Some; intros [[<- <-]|[_ Hx]]; [|auto].
  all: destruct (g_nodes i !! r_id r) as [n|] eqn:En; [|discriminate]; injection Hok0 as <-.
  all: destruct (Hn _ _ En) as [Hg Hstrict]; split; [exact Hg|].
  all: cbn; intros Hb x [= <-].
  1: apply (sourced_success ev); [eapply i3_ev; exact H|exact Hs|exact Hm].
  all: exfalso; apply negb_true_iff, bool_decide_eq_false in Hb; apply Hb, HX; discriminate.
Qed.
Lemma I3_task_result g t a X ev s : g ∉ X → I3 X ev s →
  wp (gm_task_result g t a) (λ r s', I3 X ev s' ∧ success (s_log s') a r) crash3 s.
Proof.
  intros HX H. unfold gm_task_result, gm_graph, gm_store. wsteps; eauto with i3.
  all: destruct (s_graphs s !! g) as [i|] eqn:Eg; [|discriminate]; injection Hok as <-.
  all: destruct (i3_graphs _ _ _ H _ _ Eg) as (fs & ns & Hr & Hn).
  all: rewrite bool_decide_eq_false_2 in Hn by exact HX; cbn in Hn.
  all: assert (Hd : ∀ d, graph_good (negb (bool_decide (g ∈ X))) (s_log s) g (set_deps d i)) by
    (intros d; rewrite bool_decide_eq_false_2 by exact HX; exists fs, ns; split; [exact Hr|exact Hn]).
  all: try match goal with |- relays _ => eapply i3_log, I3_gstore; [apply Hd|exact H] end.
  all: cbn in *; destruct (g_nodes i !! a) as [n|] eqn:En; [|discriminate]; injection Hok1 as <-.
  all: destruct (ni_result n) as [r|] eqn:Er; [|discriminate]; injection Hok2 as <-.
  all: (split; [|ss; eapply Hn; [exact En|reflexivity|exact Er]]).
  1, 2: apply I3_gstore; [apply Hd|exact H].
  apply I3_gstore; ss; [|apply I3_t2g_delete, I3_gstore; [apply Hd|exact H]].
  rewrite bool_decide_eq_false_2 by exact HX. exists fs, ns. split; [exact Hr|]. cbn. intros t' n' [_ Ht']%lookup_delete_Some. auto.
Qed.
Lemma task_result_grows_list g t args : grows (gm_arguments g t args). Proof. auto with grows. Qed.
Lemma I3_arguments g t args X ev s : g ∉ X → I3 X ev s →
  wp (gm_arguments g t args) (λ args' s', I3 X ev s' ∧ Forall2 (filled (s_log s')) args' args) crash3 s.
Proof.
  intros HX. revert s; induction args as [|[d|a] args IH]; intros s H; cbn [gm_arguments].
  - wsteps. split; [exact H|constructor].
  - wstep. wuse IH as s1 [H1 F1]; [exact H|]. wsteps. split; [exact H1|]. constructor; [reflexivity|exact F1].
  - wstep. wuse I3_task_result as s1 [H1 F1]; [exact HX|exact H|]. wstep.
    eapply wp_mono; [apply wp_grows; [apply gm_arguments_grows|apply IH; exact H1]| |auto].
    cbv beta. intros args' s2 [[H2 F2] [l2 E2]]. wsteps. split; [exact H2|]. constructor; [|exact F2].
    cbn. eexists. split; [reflexivity|]. rewrite E2. apply success_app. exact F1.
Qed.
(** A node refers to no node twice, or its arguments are not all found. *)
Definition gone (t a : bytes) (d : kvs bytes bytes) : Prop := ∀ v, d !! a = Some v → t ∉ v.
Definition ref_gone (g t a : bytes) (s : sched) : Prop := ∀ i, s_graphs s !! g = Some i → gone t a (g_deps i).
Lemma gone_remove t a b d d' : kvs_remove_value d b t = Ok d' → (b = a ∨ gone t a d) → gone t a d'.
Proof.
  unfold kvs_remove_value. destruct (d !! b) as [S|] eqn:E; [|discriminate]. case_bool_decide; [|discriminate]. intros [= <-] Hg v.
  destruct (decide (b = a)) as [->|Hne].
  - case_bool_decide; [rewrite lookup_delete; discriminate|]. rewrite lookup_insert. intros [= <-]. set_solver.
  - destruct Hg as [?|Hg]; [congruence|]. case_bool_decide; [rewrite lookup_delete_ne by exact Hne|rewrite lookup_insert_ne by exact Hne]; apply Hg.
Qed.
Lemma gone_raises t a d : gone t a d → kvs_remove_value d a t = Raise KeyError.
Proof.
  intros H. unfold kvs_remove_value. destruct (d !! a) as [S|] eqn:E; [|reflexivity]. rewrite bool_decide_eq_false_2; [reflexivity|]. eapply H; eauto.
Qed.
Lemma task_result_gone g t a b s : (b = a ∨ ref_gone g t a s) →
  wp (gm_task_result g t b) (λ _ s', ref_gone g t a s') (λ _ _, True) s.
Proof.
  intros H. unfold gm_task_result, gm_graph, gm_store. wsteps; auto.
  all: destruct (s_graphs s !! g) as [i|] eqn:Eg; [|discriminate]; injection Hok as <-.
  all: intros i'; ss; rewrite lookup_insert; intros [= <-]; cbn.
  all: eapply gone_remove; [exact Hok0|]; destruct H as [?|H]; [auto|right; apply H; exact Eg].
Qed.
Lemma task_result_twice g t a s : ref_gone g t a s → wp (gm_task_result g t a) (λ _ _, False) (λ e _, e = KeyError) s.
Proof.
  intros H. unfold gm_task_result, gm_graph. wstep. wstep. wstep. destruct (s_graphs s !! g) as [i|] eqn:Eg; cbn [from_option_exn].
  - apply wp_lift; [|intros e [=]]. intros i' [= <-]. wstep. rewrite (gone_raises t a); [reflexivity|]. apply H. exact Eg.
  - apply wp_lift; [intros ? [=]|intros e [= <-]; reflexivity].
Qed.
Lemma arguments_twice g t a args s : ref_gone g t a s → ArgTask a ∈ args →
  wp (gm_arguments g t args) (λ _ _, False) (λ _ _, True) s.
Proof.
  revert s; induction args as [|x args IH]; intros s H Hin; [set_solver|]. cbn [gm_arguments]. destruct x as [d|b].
  - wstep. eapply wp_mono; [apply IH; [exact H|]| |]; [apply elem_of_cons in Hin as [?|?]; [discriminate|assumption]|done|done].
  - wstep. apply elem_of_cons in Hin as [[= <-]|Hin].
    + eapply wp_mono; [apply task_result_twice; exact H|done|done].
    + wuse (task_result_gone g t a b) as s1 H1; [right; exact H|]. wstep. eapply wp_mono; [apply IH; [exact H1|exact Hin]|done|done].
Qed.
Lemma arguments_nodup g t args s : wp (gm_arguments g t args) (λ _ _, NoDup (references args)) (λ _ _, True) s.
Proof.
  revert s; induction args as [|[d|a] args IH]; intros s; cbn [gm_arguments].
  - wsteps. constructor.
  - wstep. wuse IH as s1 H1. wsteps. exact H1.
  - wstep. wuse (task_result_gone g t a a) as s1 H1; [auto|]. wstep. destruct (decide (ArgTask a ∈ args)) as [Hin|Hin].
    + eapply wp_mono; [apply (arguments_twice g t a); [exact H1|exact Hin]|done|done].
    + wuse IH as s2 H2. wsteps. cbn. constructor; [|exact H2].
      intros ([d|b] & Hb & E)%elem_of_list_omap; [discriminate|]. injection E as ->. contradiction.
Qed.
Lemma stems_filled h (k n : task) args : stems h k n → Forall2 (filled h) args (task_args k) → NoDup (references (task_args k)) →
  instance_of h (Task (task_id k) (task_function k) args) n.
Proof.
  intros [->|(E1 & E2 & H & Hd)] Hf Hk; [split; [|split; [|split]]; auto|].
  split; [exact E1|]. split; [exact E2|]. split; [|exact Hd]. cbn. clear Hd Hk. revert H Hf. generalize (task_args k) (task_args n).
  intros l1 l2 H. revert args; induction H as [|a1 a2 l1 l2 Ha H IH]; intros args Hf; inversion Hf; subst; constructor; auto.
  destruct a2 as [d|x2]; cbn in *.
  - subst a1. cbn in *. assumption.
  - destruct Ha as (r & -> & Hs). cbn in *. subst. eauto.
Qed.

Definition shrunk (i i' : graph) : Prop :=
  g_client i' = g_client i ∧ g_targets i' = g_targets i ∧ ∀ t n, g_nodes i' !! t = Some n → g_nodes i !! t = Some n.
Lemma shrunk_refl i : shrunk i i. Proof. split; [reflexivity|]. split; auto. Qed.
Lemma shrunk_trans i1 i2 i3 : shrunk i1 i2 → shrunk i2 i3 → shrunk i1 i3.
Proof. intros (A1 & A2 & A3) (B1 & B2 & B3). split; [congruence|]. split; [congruence|]. auto. Qed.
Definition graph_shrunk (g : bytes) (i : graph) (s : sched) : Prop := ∃ i', s_graphs s !! g = Some i' ∧ shrunk i i'.
Lemma task_result_shrinks g t a i s : graph_shrunk g i s →
  wp (gm_task_result g t a) (λ _ s', graph_shrunk g i s') (λ _ _, True) s.
Proof.
  intros (i0 & Eg & Hs). unfold gm_task_result, gm_graph, gm_store. wsteps; try exact I.
  all: rewrite Eg in Hok; injection Hok as <-; unfold graph_shrunk; ss; rewrite lookup_insert; eexists; (split; [reflexivity|]).
  all: eapply shrunk_trans; [exact Hs|]; split; [reflexivity|]; split; [reflexivity|]; cbn; auto.
  intros x n [_ Hx]%lookup_delete_Some. exact Hx.
Qed.
Lemma arguments_shrink g t args i s : graph_shrunk g i s →
  wp (gm_arguments g t args) (λ _ s', graph_shrunk g i s') (λ _ _, True) s.
Proof.
  revert s; induction args as [|[d|a] args IH]; intros s H; cbn [gm_arguments].
  - wsteps. exact H.
  - wstep. wuse IH as s1 H1; [exact H|]. wsteps. exact H1.
  - wstep. wuse task_result_shrinks as s1 H1; [exact H|]. wstep. wuse IH as s2 H2; [exact H1|]. wsteps. exact H2.
Qed.
Lemma I3_start g t X ev s : g ∉ X → I3 X ev s → wp (gm_start g t) (λ _ s', I3 X ev s') crash3 s.
Proof.
  intros HX H. unfold gm_start, gm_graph, gm_store. wsteps; eauto with i3.
  destruct (s_graphs s !! g) as [i|] eqn:Eg; [|discriminate]. injection Hok as <-.
  destruct (g_nodes i !! t) as [n|] eqn:En; [|discriminate]. injection Hok0 as <-.
  destruct (i3_graphs _ _ _ H _ _ Eg) as (fs & ns & Hr & Hn). destruct (Hn _ _ En) as [(n0 & Hin & Eid & Hst) Hres].
  eapply wp_mono; [apply wp_and; [apply wp_and; [apply wp_grows; [apply gm_arguments_grows|apply I3_arguments; [exact HX|exact H]]|
                                  apply (arguments_shrink g t _ i); exists i; split; [exact Eg|apply shrunk_refl]]|
                                  apply (arguments_nodup g t)]| |cbv beta; tauto].
  cbv beta. intros args s1 [[[[H1 F1] [l1 E1]] (i1 & Eg1 & Sc & St & Sn)] Hnd]. wsteps; eauto with i3.
  ss. rewrite Eg1 in Hok. injection Hok as <-.
  assert (Hinst : instance_of (s_log s1) (Task (task_id (ni_task n)) (task_function (ni_task n)) args) n0).
  { apply stems_filled; [|exact F1|exact Hnd]. rewrite E1. apply stems_app. exact Hst. }
  assert (Hrec : received (g_client i) (MGraphTask g fs (g_targets i) ns) (s_log s1)) by (rewrite E1; auto with hist).
  apply I3_tm_new.
  - ss. right. exists g, fs, (g_targets i), ns, n0. rewrite Sc. auto.
  - apply I3_gstore; [|exact H1]. exists fs, ns. cbn. rewrite Sc, St. split; [exact Hrec|].
    intros t' n'. rewrite lookup_insert_Some. intros [[<- <-]|[_ Hx]].
    + split; [|cbn; intros Hb r Hr'; rewrite E1; apply success_app; eauto]. exists n0. cbn. split; [exact Hin|]. split; [exact Eid|].
      right. exact Hinst.
    + apply Sn, Hn in Hx as [(m0 & ? & ? & ?) Hs]. split; [|intros Hb r Hr'; rewrite E1; apply success_app; eauto].
      exists m0. rewrite E1. auto with hist.
Qed.
Lemma results_success b h g i ts rs : graph_good b h g i → b = true → gm_results i ts = Ok rs → Forall2 (success h) ts rs.
Proof.
  intros (fs & ns & Hr & Hn) ->. revert rs; induction ts as [|t ts IH]; intros rs H; cbn in H; [injection H as <-; constructor|].
  destruct (g_nodes i !! t) as [n|] eqn:En; [|discriminate]. cbn in H.
  destruct (ni_result n) as [r|] eqn:Er; [|discriminate]. cbn in H.
  destruct (gm_results i ts) as [rs'|]; [|discriminate]. cbn in H. injection H as <-. constructor; [|auto].
  eapply Hn; eauto.
Qed.
Lemma I3_check cancel g ev s : cancels3 cancel → (∀ t, grows (cancel t)) → I3 [] ev s →
  wp (gm_check cancel g) (λ _ s', I3 [] ev s') crash3 s.
Proof.
  intros Hc Hg H. assert (HX : g ∉ []) by set_solver. unfold gm_check, gm_graph. wsteps; eauto with i3.
  all: destruct (s_graphs s !! g) as [i|] eqn:Eg; [|discriminate]; injection Hok as <-.
  - pose proof (i3_graphs _ _ _ H _ _ Eg) as Hgood.
    eapply wp_mono; [apply wp_grows; [apply gm_clean_grows; exact Hg|]| |auto].
    { apply (I3_clean cancel g Hc Hg ev). eapply I3_X_weaken; [|exact H]. set_solver. }
    2: auto.
    cbv beta. intros i' s1 [(H1 & Hf & Ei) [l1 E1]]. rewrite Eg in Ei. injection Ei as <-. wsteps.
    apply I3_emit; [exact I| |exact H1]. cbn.
    rewrite bool_decide_eq_false_2 in Hgood by exact HX. pose proof Hgood as (fs & ns & Hr & _).
    exists fs, (g_targets i), ns. rewrite E1. split; [apply received_app; exact Hr|].
    eapply results_success; [|reflexivity|exact Hok0]. apply graph_good_app. exact Hgood.
  - unfold gm_store. wsteps. eapply (wp_foreach _ (λ _ s', I3 [] ev s')).
    + apply I3_gstore; [|exact H]. destruct (i3_graphs _ _ _ H _ _ Eg) as (fs & ns & Hr & Hn). exists fs, ns. split; [exact Hr|exact Hn].
    + intros t l1 s1 H1. apply I3_start; [exact HX|exact H1].
Qed.
Lemma I3_gm_done cancel r ev s : cancels3 cancel → (∀ t, grows (cancel t)) → sourced ev (s_log s) r → I3 [] ev s →
  wp (gm_done cancel r) (λ _ s', I3 [] ev s') crash3 s.
Proof.
  intros Hc Hg Hs H. unfold gm_done. wstep. wstep. destruct (s_t2g s !! r_id r) as [g|] eqn:Et; [|wsteps; exact H].
  pose proof (i3_t2g _ _ _ H _ _ Et) as Hnode. wstep.
  assert (Hfail : r_status r ≠ Success →
    wp (gm_mark g r) (λ _ s1, wp (let* i := gm_clean cancel g in do* send (g_client i) (MGraphTaskResult g (r_status r) [r_payload r]) in ret true)
       (λ _ s', I3 [] ev s') crash3 s1) crash3 s).
  { intros Hne. eapply wp_mono; [apply wp_grows; [apply gm_mark_grows|apply (I3_mark g r [g])]| |]; [exact Hs|set_solver|
      eapply I3_X_weaken; [|exact H]; set_solver| |auto].
    cbv beta. intros u s1 [H1 [l1 E1]]. wstep.
    eapply wp_mono; [apply wp_grows; [apply gm_clean_grows; exact Hg|apply (I3_clean cancel g Hc Hg); exact H1]| |auto].
    cbv beta. intros i s2 [(H2 & Hf & _) [l2 E2]]. wsteps. apply I3_emit; [exact I| |exact H2].
    assert (Hgoal : graph_from (g_client i) g (s_log s2) ∧
      ∃ t d p, [r_payload r] = [p] ∧ node_of_graph t g (s_log s2) ∧ sourced (last_input (s_log s2)) (s_log s2) (Result t (r_status r) d p)).
    { split; [exact Hf|]. exists (r_id r), (r_duration r), (r_payload r). split; [reflexivity|].
      rewrite (i3_ev _ _ _ H2), E2, E1. split; [auto with hist|]. rewrite <- app_assoc.
      destruct r; cbn in *. apply sourced_app. exact Hs. }
    cbn. destruct (r_status r); try exact Hgoal. done. }
  destruct (r_status r) eqn:Est; try (apply Hfail; discriminate).
  wuse I3_mark as s1 H1; [exact Hs|congruence|exact H|]. wstep. wuse I3_check as s2 H2; [exact Hc|exact Hg|exact H1|]. wsteps. exact H2.
Qed.

Lemma I3_done_fuel n r ev s : sourced ev (s_log s) r → I3 [] ev s →
  wp (tm_done_fuel n r) (λ _ s', I3 [] ev s') crash3 s.
Proof.
  revert r ev s; induction n as [|n IH]; intros r ev s Hs H; cbn [tm_done_fuel]; [wsteps; eauto with i3|].
  wstep. eapply wp_mono; [apply wp_grows; [apply tm_forget_grows|apply I3_forget; exact H]| |auto].
  cbv beta. intros c s1 [H1 [l1 E1]]. wstep.
  assert (Hs1 : sourced ev (s_log s1) r) by (rewrite E1; apply sourced_app; exact Hs).
  eapply wp_mono; [apply wp_grows; [apply gm_done_grows; auto with grows|apply I3_gm_done; [|auto with grows|exact Hs1|exact H1]]| |].
  - intros t ev2 s2 Hn H2. unfold tm_cancel. wsteps; eauto with i3.
    + apply IH; [|exact H2]. right. cbn. auto.
    + wuse I3_wcancel as s3 H3; [exact H2|]. apply I3_monitor. exact H3.
  - cbv beta. intros b s2 [H2 [l2 E2]]. wsteps; [exact H2|]. apply I3_emit; [exact I| |exact H2]. cbn.
    rewrite (i3_ev _ _ _ H2), E2. destruct r; cbn in *. apply sourced_app. exact Hs1.
  - auto.
Qed.
Lemma I3_done r ev s : sourced ev (s_log s) r → I3 [] ev s → wp (tm_done r) (λ _ s', I3 [] ev s') crash3 s.
Proof. intros Hs H. unfold tm_done. wstep. wstep. apply I3_done_fuel; assumption. Qed.
Lemma I3_cancel_any t ev s : (∃ src, ev = Some (ERecv src (MTaskCancel t))) ∨ graph_node t (s_log s) →
  I3 [] ev s → wp (tm_cancel_any t) (λ _ s', I3 [] ev s') crash3 s.
Proof.
  intros Hs H. unfold tm_cancel_any, tm_cancel. wsteps; eauto with i3.
  - apply I3_done; [|exact H]. right. auto.
  - wuse I3_wcancel as s3 H3; [exact H|]. apply I3_monitor. exact H3.
Qed.
Lemma I3_cancels : cancels3 tm_cancel_any. Proof. intros t ev s Hn H. apply I3_cancel_any; auto. Qed.

(** New graphs: the table being built. *)
Definition table_good (h : history) (ns : list task) (nodes : gmap bytes node_info) : Prop :=
  ∀ t n, nodes !! t = Some n → ni_result n = None ∧ ∃ n0, n0 ∈ ns ∧ task_id n0 = t ∧ ni_task n = n0.
Lemma I3_nodes c g fs targets ns ts nodes deps gr X ev s :
  (∀ t, t ∈ ts → t ∈ ns) → received c (MGraphTask g fs targets ns) (s_log s) →
  table_good (s_log s) ns nodes → I3 X ev s →
  wp (gm_nodes g targets ts nodes deps gr) (λ p s', I3 X ev s' ∧ table_good (s_log s') ns p.1.1) crash3 s.
Proof.
  revert nodes deps gr s; induction ts as [|t ts IH]; intros nodes deps gr s Hts Hr Ht H; cbn [gm_nodes].
  { wsteps. split; [exact H|exact Ht]. }
  wstep. eapply wp_mono; [apply wp_grows; [apply fm_use_grows|apply I3_use; exact H]| |auto].
  cbv beta. intros u s1 [H1 [l1 E1]]. wsteps. apply IH.
  - set_solver.
  - ss. rewrite E1. auto with hist.
  - ss. intros x n. rewrite lookup_insert_Some. intros [[<- <-]|[_ Hx]].
    + split; [reflexivity|]. exists t. split; [apply Hts; set_solver|]. auto.
    + apply Ht in Hx as (Hx & n0 & A & B & C). split; [exact Hx|]. exists n0. rewrite C. auto.
  - apply I3_emit; [exact I|exact I|]. apply I3_codes. destruct H1 as [A1 A2 A3 A4 A5 A6 A7]; split; auto; ss.
    intros t' g'. rewrite lookup_insert_Some. intros [[<- <-]|[_ Hx]]; [|auto].
    exists c, fs, targets, ns, t. split; [rewrite E1; apply received_app; exact Hr|]. split; [apply Hts; set_solver|reflexivity].
Qed.
Lemma I3_add client gt ev s : received client (graph_msg gt) (s_log s) → I3 [] ev s →
  wp (gm_add client gt) (λ _ s', I3 [] ev s') crash3 s.
Proof.
  intros Hr H. unfold gm_add. wstep.
  apply (wp_mono _ (λ _ s', I3 [] ev s' ∧ received client (graph_msg gt) (s_log s')) _ crash3); [| |auto].
  { apply (wp_foreach _ (λ _ s', I3 [] ev s' ∧ received client (graph_msg gt) (s_log s'))); [auto|].
    intros [f [n c]] l s1 [H1 Hr1]. eapply wp_mono; [apply wp_grows; [apply fm_on_function_grows|apply I3_on_function; exact H1]| |auto].
    cbv beta. intros u s2 [H2 [l2 E2]]. split; [exact H2|]. rewrite E2. apply received_app. exact Hr1. }
  clear s Hr H. intros u s [H Hr]. wstep.
  eapply wp_mono; [apply wp_grows; [apply cm_new_grows|apply I3_cm_new; exact H]| |auto].
  cbv beta. intros u1 s1 [H1 [l1 E1]]. wstep.
  assert (Hr1 : received client (graph_msg gt) (s_log s1)) by (rewrite E1; auto with hist).
  eapply wp_mono; [apply wp_grows; [apply gm_nodes_grows|]| |].
  { apply (I3_nodes client _ (gt_functions gt) _ (gt_graph gt)); [auto|exact Hr1| |exact H1].
    intros t n. rewrite lookup_empty. discriminate. }
  2: auto.
  cbv beta. intros p s2 [[H2 Ht] [l2 E2]]. destruct p as [[nodes deps] gr]. cbn in Ht. wsteps; [|eauto with i3]. unfold gm_store. wsteps.
  apply I3_check; [apply I3_cancels|auto with grows|].
  apply I3_gstore; [|exact H2]. exists (gt_functions gt), (gt_graph gt). cbn.
  split; [rewrite E2; apply received_app; exact Hr1|]. intros t n Hn. apply Ht in Hn as (Hnone & n0 & A & B & C).
  split; [|intros _ r Hx; congruence]. exists n0. split; [exact A|]. split; [exact B|]. rewrite C.
  left. reflexivity.
Qed.
Lemma I3_gm_routine ev s : I3 [] ev s → wp gm_routine (λ _ s', I3 [] ev s') crash3 s.
Proof.
  intros H. unfold gm_routine. wstep. wstep. destruct (s_gqueue s) as [|[client gt] q] eqn:Hm; [wsteps; eauto with i3|].
  wstep. wstep. apply I3_add; ss.
  - apply H. rewrite Hm. set_solver.
  - destruct H as [A1 A2 A3 A4 A5 A6 A7]; split; auto; ss. intros c gt' Hx. apply A5. rewrite Hm. set_solver.
Qed.

Lemma I3_match k X ev s : content (s_log s) k → I3 X ev s → wp (tm_match k) (λ _ s', I3 X ev s') crash3 s.
Proof.
  intros Hk H. unfold tm_match. wsteps; eauto with i3.
  - apply I3_monitor, I3_running, I3_emit; [exact I|exact Hk|]. eauto with i3.
  - apply I3_put. eauto with i3.
  - apply I3_limbo_some; [exact Hk|]. eauto with i3.
Qed.
Lemma I3_tm_routine : keeps3 tm_routine.
Proof.
  intros X ev s H. unfold tm_routine. wstep. wstep. destruct (s_limbo s) as [k|] eqn:El.
  - apply I3_match; [|exact H]. eapply i3_limbo; eauto.
  - wstep. wstep. destruct (s_unassigned s) as [|t q]; [wsteps; exact H|]. wsteps; [|eauto with i3].
    ss. destruct (s_tasks s !! t) as [k|] eqn:Et; [|discriminate]. injection Hok as <-.
    apply I3_match; [|eauto with i3]. ss. eapply i3_tasks; eauto.
Qed.
Lemma I3_wm_done r ev s : sourced ev (s_log s) r → I3 [] ev s → wp (wm_done r) (λ _ s', I3 [] ev s') crash3 s.
Proof. intros Hs H. unfold wm_done. wsteps; eauto with i3. apply I3_done; [exact Hs|]. eauto with i3. Qed.
Lemma I3_take_back ids : keeps3 (wm_take_back ids).
Proof.
  induction ids as [|t ids IH]; intros X ev s H; cbn [wm_take_back]; wsteps; eauto with i3.
  wuse IH as s1 H1; [eauto with i3|]. wsteps; exact H1.
Qed.
Lemma I3_balance_response ids : keeps3 (wm_balance_response ids).
Proof.
  intros X ev s H. unfold wm_balance_response. wstep. wuse I3_take_back as s1 H1; [exact H|].
  apply (wp_foreach _ (λ _ s', I3 X ev s')); [exact H1|]. intros t l s2 H2. apply I3_reroute. exact H2.
Qed.
Lemma I3_heartbeat w h : keeps3 (wm_heartbeat w h).
Proof. intros X ev s H. unfold wm_heartbeat. wsteps; eauto 8 with i3. Qed.
Lemma I3_drop w : keeps3 (wm_drop w).
Proof.
  intros X ev s H. unfold wm_drop. wsteps; eauto with i3.
  apply (wp_mono _ (λ _ s', I3 X ev s') _ crash3); [|intros u s1 H1; wsteps; exact H1|auto].
  apply (wp_foreach _ (λ _ s', I3 X ev s')); [eauto 8 with i3|]. intros t l s2 H2. apply I3_reroute. exact H2.
Qed.
Lemma I3_disconnect src w : keeps3 (wm_disconnect src w).
Proof. intros X ev s H. unfold wm_disconnect. wstep. wuse I3_drop as s1 H1; [exact H|]. wsteps; eauto with i3. Qed.
Lemma I3_balance : keeps3 wm_balance.
Proof.
  intros X ev s H. unfold wm_balance. wsteps; eauto with i3.
  apply (wp_foreach _ (λ _ s', I3 X ev s')); [eauto with i3|]. intros p l s2 H2. wsteps. eauto with i3.
Qed.
Lemma I3_wm_clean : keeps3 wm_clean.
Proof.
  intros X ev s H. unfold wm_clean. wsteps.
  apply (wp_foreach _ (λ _ s', I3 X ev s')); [eauto with i3|]. intros p l s2 H2. wstep. wuse I3_drop as s3 H3; [exact H2|]. wsteps. exact H3.
Qed.
Lemma I3_wm_routine : keeps3 wm_routine.
Proof. intros X ev s H. unfold wm_routine. wstep. wuse I3_balance as s1 H1; [exact H|]. apply I3_wm_clean. exact H1. Qed.

Lemma I3_input now e ev s : I3 [] ev s → I3 [] (Some e) (set_log (λ l, l ++ [LIn now e]) s).
Proof.
  intros [H1 H2 H3 H4 H5 H6 H7]. split; ss; eauto with hist.
  - apply always_snoc; [exact H1|exact I].
  - apply last_input_snoc.
Qed.
Lemma I3_round now e ev s : I3 [] ev s →
  wp (handle e) (λ _ s', I3 [] (Some e) s') crash3 (set_log (λ l, l ++ [LIn now e]) s).
Proof.
  intros H. apply (I3_input now e) in H. set (s0 := set_log _ s) in *.
  assert (Hrec : ∀ src m, e = ERecv src m → received src m (s_log s0)).
  { intros src m ->. exists now. subst s0. ss. set_solver. }
  destruct e as [src m| | | | |]; cbn [handle].
  - specialize (Hrec src m eq_refl). destruct m; cbn [on_receive]; try (wsteps; exact H).
    + apply I3_tm_new; [left; exact Hrec|exact H].
    + apply I3_cancel_any; [|exact H]. eauto.
    + apply I3_wm_done; [|exact H]. left. exists src. reflexivity.
    + wsteps. destruct H as [A1 A2 A3 A4 A5 A6 A7]; split; auto; ss. intros c gt.
      rewrite elem_of_app, elem_of_list_singleton. intros [Hx|[= -> ->]]; auto.
    + wstep. wuse (I3_clean tm_cancel_any id I3_cancels) as s1 [H1 _]; [auto with grows|eapply I3_X_weaken; [|exact H]; set_solver|].
      wsteps. exact H1.
    + apply I3_balance_response, H.
    + apply I3_heartbeat, H.
    + apply I3_on_function, H.
    + apply I3_disconnect, H.
  - apply I3_gm_routine, H.
  - apply I3_tm_routine, H.
  - apply I3_fm_routine, H.
  - apply I3_wm_routine, H.
  - apply I3_status, H.
Qed.

Definition Inv3 (s : sched) : Prop := relays s ∧ (s_dead s = None → ∃ ev, I3 [] ev s).
Lemma Inv3_start c : Inv3 (start c).
Proof.
  split; [apply always_nil|]. intros _. exists None. split; cbn; try (intros *; rewrite ?lookup_empty; discriminate || set_solver).
  - apply always_nil.
Qed.
Lemma Inv3_step s r : Inv3 s → Inv3 (step s r).
Proof.
  intros [Ha H]. unfold step. destruct (s_dead s) eqn:Ed; [split; [exact Ha|congruence]|].
  specialize (H eq_refl) as [ev H]. set (s0 := set_now _ _).
  assert (H0 : I3 [] ev s0) by (apply I3_now, I3_codes, H).
  pose proof (I3_round (rd_now r) (rd_event r) ev s0 H0) as Hw. unfold wp in Hw.
  destruct (handle _ _) as [s' [u|e]]; split; eauto.
  - apply Hw.
  - ss. apply always_snoc; [exact Hw|exact I].
  - ss. discriminate.
Qed.
Lemma Inv3_run c rs : Inv3 (run c rs).
Proof.
  unfold run, run_from. assert (∀ s, Inv3 s → Inv3 (foldl step s rs)) as H; [|apply H, Inv3_start].
  induction rs as [|r rs IH]; cbn; auto using Inv3_step.
Qed.
