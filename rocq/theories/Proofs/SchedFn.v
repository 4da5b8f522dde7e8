(** The function cache and its users: the invariant behind C26, C28, C29 and C35. *)

From Verif.Model Require Import Base OneToManyDict Allocator Message Sorter Scheduler.
From Verif.Spec Require Import AllocatorSpec DictSpec SchedulerSpec.
From Verif.Proofs Require Import BaseProofs DictProofs AllocatorProofs SchedWp SchedCount SchedHold SchedContent.

Record I5 (s : sched) : Prop := {
  i5_otm : otm_inv (s_ftasks s);
  i5_used t f : o_v2k (s_ftasks s) !! t = Some f → is_Some (s_funcs s !! f);
  i5_tasks t k : s_tasks s !! t = Some k → ¬ graph_node t (s_log s) → o_v2k (s_ftasks s) !! t = Some (task_function k);
  i5_gqueue c gt n : (c, gt) ∈ s_gqueue s → n ∈ gt_graph gt → graph_node (task_id n) (s_log s);
  i5_graphs g i t n : s_graphs s !! g = Some i → g_nodes i !! t = Some n → graph_node t (s_log s) }.
Notation any5 := (λ (_ : exn) (_ : sched), True).
Definition keeps5 {A} (m : M A) : Prop := ∀ s, I5 s → wp m (λ _ s', I5 s') any5 s.

Lemma I5_set_running s f : I5 s → I5 (set_running f s). Proof. intros []; split; auto. Qed.
Lemma I5_set_codes s f : I5 s → I5 (set_codes f s). Proof. intros []; split; auto. Qed.
Lemma I5_set_clients s f : I5 s → I5 (set_clients f s). Proof. intros []; split; auto. Qed.
Lemma I5_set_unassigned s f : I5 s → I5 (set_unassigned f s). Proof. intros []; split; auto. Qed.
Lemma I5_set_limbo s f : I5 s → I5 (set_limbo f s). Proof. intros []; split; auto. Qed.
Lemma I5_set_alive s f : I5 s → I5 (set_alive f s). Proof. intros []; split; auto. Qed.
Lemma I5_set_alloc s f : I5 s → I5 (set_alloc f s). Proof. intros []; split; auto. Qed.
Lemma I5_set_last_advice s f : I5 s → I5 (set_last_advice f s). Proof. intros []; split; auto. Qed.
Lemma I5_set_same s f : I5 s → I5 (set_same f s). Proof. intros []; split; auto. Qed.
Lemma I5_set_now s f : I5 s → I5 (set_now f s). Proof. intros []; split; auto. Qed.
Lemma I5_set_nsuccess s f : I5 s → I5 (set_nsuccess f s). Proof. intros []; split; auto. Qed.
Lemma I5_set_nfailed s f : I5 s → I5 (set_nfailed f s). Proof. intros []; split; auto. Qed.
Lemma I5_set_ncanceled s f : I5 s → I5 (set_ncanceled f s). Proof. intros []; split; auto. Qed.
Lemma I5_set_nnotfound s f : I5 s → I5 (set_nnotfound f s). Proof. intros []; split; auto. Qed.
Lemma I5_set_t2g s f : I5 s → I5 (set_t2g f s). Proof. intros []; split; auto. Qed.
Lemma I5_emit e s : I5 s → I5 (logged e s).
Proof.
  intros [H1 H2 H3 H4 H5]; split; ss; auto.
  - intros t k Hk Hn. apply H3; [exact Hk|]. intros Hg. apply Hn. apply graph_node_app. exact Hg.
  - intros. apply graph_node_app. eauto.
  - intros. apply graph_node_app. eauto.
Qed.
Lemma I5_fn f i s : I5 s → I5 (set_funcs (<[f := i]>) s).
Proof.
  intros []; split; auto; ss. intros t f' Ht. destruct (decide (f' = f)) as [->|Hne]; [rewrite lookup_insert; eauto|].
  rewrite lookup_insert_ne by done. eauto.
Qed.
Lemma I5_fn_del f s : owned (o_v2k (s_ftasks s)) f = ∅ → I5 s → I5 (set_funcs (delete f) s).
Proof.
  intros Ho []; split; auto; ss. intros t f' Ht. rewrite lookup_delete_ne; [eauto|]. intros ->.
  apply (proj1 (owned_empty _ _) Ho t). exact Ht.
Qed.
Global Hint Resolve I5_set_running I5_set_codes I5_set_clients I5_set_unassigned I5_set_limbo I5_set_alive I5_set_alloc I5_set_last_advice
  I5_set_same I5_set_now I5_set_nsuccess I5_set_nfailed I5_set_ncanceled I5_set_nnotfound I5_set_t2g I5_emit I5_fn : i5.

(** A task that starts to use a function. *)
Lemma I5_use t f s : I5 s → wp (fm_use t f) (λ _ s', I5 s' ∧ o_v2k (s_ftasks s') !! t = Some f ∧ s_tasks s' = s_tasks s
                                                ∧ s_log s' = s_log s ∧ s_gqueue s' = s_gqueue s ∧ s_graphs s' = s_graphs s) any5 s.
Proof.
  intros H. unfold fm_use. wsteps; auto. ss. destruct (s_funcs s !! f) as [i|] eqn:Ef; [|discriminate].
  injection Hok as <-. pose proof (otm_add_spec (s_ftasks s) f t (i5_otm _ H)) as Ha.
  assert (HH : ∃ d', otm_add (s_ftasks s) f t = Ok d' ∧ otm_inv d' ∧ o_v2k d' = <[t := f]> (o_v2k (s_ftasks s))).
  { destruct (o_v2k (s_ftasks s) !! t) as [f'|] eqn:Et; [|exact Ha].
    destruct (decide (f' = f)) as [->|Hne]; [|congruence]. destruct Ha as (d' & E1 & E2 & E3). exists d'.
    rewrite insert_id by exact Et. auto. }
  destruct HH as (d' & E1 & E2 & E3). rewrite E1 in Hok0. injection Hok0 as <-.
  split; [|rewrite E3, lookup_insert; auto]. destruct H as [H1 H2 H3 H4 H5]; split; ss; auto; rewrite E3.
  - intros t' f'. rewrite lookup_insert_Some. intros [[<- <-]|[_ Ht]].
    + rewrite lookup_insert. eauto.
    + destruct (decide (f' = f)) as [->|Hne]; [rewrite lookup_insert; eauto|]. rewrite lookup_insert_ne by done. eauto.
  - intros t' k Hk Hn. specialize (H3 t' k Hk Hn). destruct (decide (t' = t)) as [->|Hne]; [|rewrite lookup_insert_ne by done; exact H3].
    rewrite lookup_insert. rewrite H3 in Ha. destruct (decide (task_function k = f)) as [->|]; [reflexivity|congruence].
Qed.
Lemma I5_fdone t s : s_tasks s !! t = None ∨ graph_node t (s_log s) → I5 s → wp (fm_done t) (λ _ s', I5 s') any5 s.
Proof.
  intros Ht H. unfold fm_done. wsteps; auto. pose proof (otm_remove_value_spec (s_ftasks s) t (i5_otm _ H)) as Ha.
  destruct (o_v2k (s_ftasks s) !! t) as [f|] eqn:Ev; [|congruence]. destruct Ha as (d' & E1 & E2 & E3).
  rewrite E1 in Hok. injection Hok as <-. cbn. destruct H as [H1 H2 H3 H4 H5]; split; ss; auto; rewrite E3.
  - intros x g [_ Hx]%lookup_delete_Some. eauto.
  - intros x k Hk Hn. rewrite lookup_delete_ne; [auto|]. intros ->. destruct Ht as [Ht|Ht]; [congruence|auto].
Qed.
Lemma I5_monitor t st : keeps5 (tm_monitor t st).
Proof. intros s H. unfold tm_monitor, fm_get_name. wsteps; eauto with i5. Qed.
Lemma I5_put t : keeps5 (tm_put t). Proof. intros s H. unfold tm_put. wsteps; eauto with i5. Qed.
Lemma I5_cm_new c t : keeps5 (cm_new c t). Proof. intros s H. unfold cm_new. wsteps; eauto with i5. Qed.
Lemma I5_cm_done t : keeps5 (cm_done t). Proof. intros s H. unfold cm_done. wsteps; eauto with i5. Qed.
Lemma I5_available : keeps5 wm_has_available. Proof. intros s H. unfold wm_has_available. wsteps; eauto with i5. Qed.
Lemma I5_wcancel t : keeps5 (wm_cancel t). Proof. intros s H. unfold wm_cancel. wsteps; eauto with i5. Qed.
Lemma I5_tm_new c k : keeps5 (tm_new c k).
Proof.
  intros s H. unfold tm_new, fm_has_function. wstep. wstep. destruct (negb _); [wsteps; eauto with i5|].
  wstep. wuse I5_available as s1 H1; [exact H|]. wsteps; [eauto with i5|].
  wuse I5_use as s2 (H2 & E2 & _ & _); [eauto with i5|]. wstep.
  eapply (wp_mono _ (λ _ s', I5 s' ∧ o_v2k (s_ftasks s') !! task_id k = Some (task_function k)) _ any5).
  { unfold cm_new. wsteps; eauto with i5. }
  2: auto.
  clear s2 H2 E2. intros u s2 [H2 E2]. wsteps. wuse I5_put as s3 H3; [|apply I5_monitor; exact H3].
  destruct H2 as [A1 A2 A3 A4 A5]; split; ss; auto. intros t k'. rewrite lookup_insert_Some. intros [[<- <-]|[_ Ht]]; auto.
Qed.
Lemma I5_reroute t : keeps5 (tm_reroute t).
Proof. intros s H. unfold tm_reroute. wsteps; auto. wuse I5_put as s1 H1; [eauto with i5|]. apply I5_monitor, H1. Qed.
Lemma I5_task_del t s : I5 s → I5 (set_tasks (delete t) s).
Proof. intros []; split; ss; auto. intros x k [_ Hk]%lookup_delete_Some. auto. Qed.
Lemma I5_forget r : keeps5 (tm_forget r).
Proof.
  intros s H. unfold tm_forget. wstep. apply (wp_mono _ (λ _ s', I5 s') _ any5); [unfold tm_count; wsteps; eauto with i5| |auto].
  intros u s1 H1. wstep. wstep. wstep. apply (wp_mono _ (λ _ s', I5 s') _ any5); [wsteps; eauto with i5| |auto].
  intros u2 s2 H2. wstep. wuse I5_monitor as s3 H3; [exact H2|]. wsteps; auto.
  wuse I5_fdone as s4 H4; [left; ss; apply lookup_delete|apply I5_task_del, H3|]. apply I5_cm_done, H4.
Qed.

(** Graphs. *)
Definition nodes_ok (h : history) (nodes : gmap bytes node_info) : Prop := ∀ t n, nodes !! t = Some n → graph_node t h.
Lemma I5_store g i s : nodes_ok (s_log s) (g_nodes i) → I5 s → I5 (set_graphs (<[g := i]>) s).
Proof.
  intros Hn []; split; ss; auto. intros g' i' t n. rewrite lookup_insert_Some. intros [[<- <-]|[_ Hg]]; eauto.
Qed.
Lemma I5_graph_del g s : I5 s → I5 (set_graphs (delete g) s).
Proof. intros []; split; ss; auto. intros g' i' t n [_ Hg]%lookup_delete_Some. eauto. Qed.
Lemma graph_nodes g i s : I5 s → s_graphs s !! g = Some i → nodes_ok (s_log s) (g_nodes i).
Proof. intros H Hg t n Hn. eapply i5_graphs; eauto. Qed.
Lemma nodes_ok_app h l nodes : nodes_ok h nodes → nodes_ok (h ++ l) nodes.
Proof. intros H t n Hn. apply graph_node_app. eauto. Qed.
Lemma I5_clean_nodes cancel ids : (∀ t, keeps5 (cancel t)) → (∀ t, grows (cancel t)) → ∀ nodes s,
  nodes_ok (s_log s) nodes → I5 s → wp (gm_clean_nodes cancel ids nodes) (λ _ s', I5 s') any5 s.
Proof.
  intros Hc Hgr. induction ids as [|t ids IH]; intros nodes s Hn H; cbn [gm_clean_nodes]; [wsteps; exact H|].
  destruct (nodes !! t) as [n|] eqn:Et; [|apply IH; assumption]. wstep.
  eapply (wp_mono _ (λ _ s', I5 s' ∧ ∃ l, s_log s' = s_log s ++ l) _ any5).
  - apply wp_grows; [destruct (ni_state n); [apply fm_done_grows|apply Hgr|apply grows_ret..]|].
    destruct (ni_state n); [apply I5_fdone; [right; eauto|exact H]|apply Hc; exact H|wsteps; exact H..].
  - intros u s1 [H1 [l El]]. wsteps. apply IH; [|eauto with i5]. ss. rewrite El. apply nodes_ok_app.
    intros x m [_ Hx]%lookup_delete_Some. eauto.
  - auto.
Qed.
Lemma I5_clean cancel g : (∀ t, keeps5 (cancel t)) → (∀ t, grows (cancel t)) → keeps5 (gm_clean cancel g).
Proof.
  intros Hc Hgr s H. unfold gm_clean, gm_graph. wstep. wuse I5_cm_done as s1 H1; [exact H|]. wsteps; auto.
  destruct (s_graphs s1 !! g) as [i|] eqn:Eg; [|discriminate]. injection Hok as <-.
  wuse I5_clean_nodes as s2 H2; [exact Hc|exact Hgr|ss; eapply graph_nodes; eauto|apply I5_set_codes, I5_graph_del, H1|].
  wsteps. exact H2.
Qed.
Lemma I5_mark g r : keeps5 (gm_mark g r).
Proof.
  intros s H. unfold gm_mark, gm_graph, gm_store. wsteps; auto; (destruct (s_graphs s !! g) as [i|] eqn:Eg; [|discriminate]); injection Hok as <-.
  all: apply I5_store; [|exact H]; cbn; intros t n; rewrite lookup_insert_Some; intros [[<- <-]|[_ Hx]];
    [destruct (g_nodes i !! r_id r) eqn:E; [|discriminate]|]; eapply graph_nodes; eauto.
Qed.
Lemma I5_task_result g t a : keeps5 (gm_task_result g t a).
Proof.
  intros s H. unfold gm_task_result, gm_graph, gm_store. wstep. wstep. wstep. wstep; [|auto].
  destruct (s_graphs s !! g) as [i|] eqn:Eg; [|discriminate]. injection Hok as <-. pose proof (graph_nodes _ _ _ H Eg) as Hn.
  assert (H' : ∀ d, I5 (set_graphs (<[g := set_deps d i]>) s)) by (intros d; apply I5_store; [exact Hn|exact H]).
  wsteps; eauto. apply I5_store; [|apply I5_set_t2g, H'].
  ss. cbn. intros x n [_ Hx]%lookup_delete_Some. eauto.
Qed.
Lemma I5_arguments g t args : keeps5 (gm_arguments g t args).
Proof.
  induction args as [|[d|a] args IH]; intros s H; cbn [gm_arguments].
  - wsteps. exact H.
  - wstep. wuse IH as s1 H1; [exact H|]. wsteps. exact H1.
  - wstep. wuse I5_task_result as s1 H1; [exact H|]. wstep. wuse IH as s2 H2; [exact H1|]. wsteps. exact H2.
Qed.
Lemma I5_start g t : keeps5 (gm_start g t).
Proof.
  intros s H. unfold gm_start, gm_graph, gm_store. wstep. wstep. wstep. wstep; [|auto].
  destruct (s_graphs s !! g) as [i|] eqn:Eg; [|discriminate]. injection Hok as <-. pose proof (graph_nodes _ _ _ H Eg) as Hn.
  wstep. wstep; [|auto]. destruct (g_nodes i !! t) as [n|] eqn:En; [|discriminate]. injection Hok as <-. wstep.
  eapply wp_mono; [apply wp_grows; [apply gm_arguments_grows|apply I5_arguments; exact H]| |auto].
  cbv beta. intros args s1 [H1 [l El]]. wsteps; auto. destruct (s_graphs s1 !! g) as [i1|] eqn:Eg1; [|discriminate]. injection Hok as <-.
  apply I5_tm_new, I5_store; [|exact H1]. cbn. intros x m. rewrite lookup_insert_Some. intros [[<- <-]|[_ Hx]].
  - rewrite El. apply graph_node_app. eauto.
  - eapply graph_nodes; eauto.
Qed.
Lemma I5_check cancel g : (∀ t, keeps5 (cancel t)) → (∀ t, grows (cancel t)) → keeps5 (gm_check cancel g).
Proof.
  intros Hc Hgr s H. unfold gm_check, gm_graph. wstep. wstep. wstep. wstep; [|auto].
  destruct (s_graphs s !! g) as [i|] eqn:Eg; [|discriminate]. injection Hok as <-.
  wsteps; auto.
  - wuse (I5_clean cancel g Hc Hgr) as s1 H1; [exact H|]. wsteps. eauto with i5.
  - unfold gm_store. wsteps. eapply (wp_foreach _ (λ _ s', I5 s')).
    + apply I5_store; [|exact H]. cbn. eapply graph_nodes; eauto.
    + intros t l1 s1 H1. apply I5_start. exact H1.
Qed.
Lemma I5_gm_done cancel r : (∀ t, keeps5 (cancel t)) → (∀ t, grows (cancel t)) → keeps5 (gm_done cancel r).
Proof.
  intros Hc Hgr s H. unfold gm_done. wstep. wstep. destruct (s_t2g s !! r_id r) as [g|] eqn:Et; [|wsteps; exact H].
  wstep. wuse I5_mark as s1 H1; [exact H|].
  assert (Hfail : ∀ st, wp (let* i := gm_clean cancel g in do* send (g_client i) (MGraphTaskResult g st [r_payload r]) in ret true)
       (λ b s', I5 s') any5 s1).
  { intros st. wstep. wuse (I5_clean cancel g Hc Hgr) as s2 H2; [exact H1|]. wsteps. eauto with i5. }
  destruct (r_status r); try apply Hfail. wstep. wuse I5_check as s2 H2; [exact Hc|exact Hgr|exact H1|]. wsteps. exact H2.
Qed.
Lemma I5_done_fuel n r : keeps5 (tm_done_fuel n r).
Proof.
  revert r; induction n as [|n IH]; intros r s H; cbn [tm_done_fuel]; [wsteps; auto|].
  wstep. wuse I5_forget as s1 H1; [exact H|]. wstep. wuse I5_gm_done as s2 H2; [|auto with grows|exact H1|].
  - intros t s2 H2. unfold tm_cancel. wsteps; eauto with i5.
    + apply IH. exact H2.
    + wuse I5_wcancel as s3 H3; [exact H2|]. apply I5_monitor. exact H3.
  - wsteps; eauto with i5.
Qed.
Lemma I5_done r : keeps5 (tm_done r).
Proof. intros s H. unfold tm_done. wstep. wstep. apply I5_done_fuel. exact H. Qed.
Lemma I5_cancel_any t : keeps5 (tm_cancel_any t).
Proof.
  intros s H. unfold tm_cancel_any, tm_cancel. wsteps; eauto with i5.
  - apply I5_done, H.
  - wuse I5_wcancel as s3 H3; [exact H|]. apply I5_monitor. exact H3.
Qed.
Lemma I5_nodes g targets ts nodes deps gr s : (∀ n, n ∈ ts → graph_node (task_id n) (s_log s)) → nodes_ok (s_log s) nodes → I5 s →
  wp (gm_nodes g targets ts nodes deps gr) (λ p s', I5 s' ∧ nodes_ok (s_log s') p.1.1) any5 s.
Proof.
  revert nodes deps gr s; induction ts as [|t ts IH]; intros nodes deps gr s Hts Hn H; cbn [gm_nodes]; [wsteps; auto|].
  wstep. wuse I5_use as s1 (H1 & _ & _ & El & _); [exact H|]. wsteps. apply IH; ss.
  - intros n Hi. rewrite El. apply graph_node_app, Hts. set_solver.
  - rewrite El. apply nodes_ok_app. intros x m. rewrite lookup_insert_Some. intros [[<- <-]|[_ Hx]]; [apply Hts; set_solver|eauto].
  - eauto with i5.
Qed.
Lemma I5_fm_add c f n ct : keeps5 (fm_on_function c FnAdd f n ct).
Proof. intros s H. cbn. unfold fm_add, fm_respond. wsteps; eauto with i5. Qed.
Lemma I5_add client gt s : (∀ n, n ∈ gt_graph gt → graph_node (task_id n) (s_log s)) → I5 s → wp (gm_add client gt) (λ _ s', I5 s') any5 s.
Proof.
  intros Hg H. unfold gm_add. wstep.
  apply (wp_mono _ (λ _ s', I5 s' ∧ (∀ n, n ∈ gt_graph gt → graph_node (task_id n) (s_log s'))) _ any5); [| |auto].
  { apply (wp_foreach _ (λ _ s', I5 s' ∧ (∀ n, n ∈ gt_graph gt → graph_node (task_id n) (s_log s')))); [auto|].
    intros p l s1 [H1 Hg1]. eapply wp_mono; [apply wp_grows; [apply fm_on_function_grows|apply I5_fm_add; exact H1]| |auto].
    cbv beta. intros u s2 [H2 [l2 E2]]. split; [exact H2|]. intros n Hn. rewrite E2. apply graph_node_app. eauto. }
  intros u s1 [H1 Hg1]. wstep.
  eapply wp_mono; [apply wp_grows; [apply cm_new_grows|apply I5_cm_new; exact H1]| |auto].
  cbv beta. intros u1 s2 [H2 [l2 E2]]. wstep.
  eapply wp_mono; [apply (I5_nodes (gt_id gt)); [|intros t n; rewrite lookup_empty; discriminate|exact H2]| |auto].
  { intros n Hn. rewrite E2. apply graph_node_app. eauto. }
  cbv beta. intros p s3 [H3 Hn3]. destruct p as [[nodes deps] gr]. cbn in Hn3. wsteps; auto. unfold gm_store. wsteps.
  apply I5_check; [apply I5_cancel_any|auto with grows|]. apply I5_store; [exact Hn3|exact H3].
Qed.
Lemma I5_gqueue_sub q s : (∀ x, x ∈ q → x ∈ s_gqueue s) → I5 s → I5 (set_gqueue (λ _, q) s).
Proof. intros Hq []; split; ss; auto. intros c gt n Hi. eapply i5_gqueue0. apply Hq, Hi. Qed.
Lemma I5_gm_routine : keeps5 gm_routine.
Proof.
  intros s H. unfold gm_routine. wstep. wstep. destruct (s_gqueue s) as [|[c gt] q] eqn:Eq; [wsteps; exact H|].
  wsteps. apply I5_add; ss.
  - intros n Hn. apply (i5_gqueue _ H c gt); [rewrite Eq; set_solver|exact Hn].
  - apply I5_gqueue_sub; [rewrite Eq; set_solver|exact H].
Qed.

(** The clean-up removes only unused functions. *)
Lemma I5_fm_routine : keeps5 fm_routine.
Proof.
  intros s H. unfold fm_routine. wsteps.
  assert (Hall : ∀ f, f ∈ l' → owned (o_v2k (s_ftasks s)) f = ∅).
  { intros f Hf. rewrite Hp in Hf. apply elem_of_list_fmap in Hf as ([f' i] & -> & Hf). apply elem_of_list_filter in Hf as [He _].
    unfold fm_expired in He. apply andb_true_iff in He as [_ He]. rewrite (otm_has_key_spec _ _ (i5_otm _ H)), negb_involutive in He.
    apply bool_decide_eq_true in He. exact He. }
  apply (wp_mono _ (λ _ s', I5 s') _ any5); [|auto|auto].
  assert (Hgen : ∀ l s1, (∀ f, f ∈ l → owned (o_v2k (s_ftasks s1)) f = ∅) → I5 s1 →
    wp (foreach l (λ f, do* modify (set_funcs (delete f)) in wm_delete_function f)) (λ _ s', I5 s') any5 s1).
  { induction l as [|f l IH]; intros s1 Hl H1; cbn [foreach]; [exact H1|]. wsteps.
    eapply (wp_mono _ (λ _ s', I5 s' ∧ s_ftasks s' = s_ftasks s1) _ any5).
    - unfold wm_delete_function. wsteps. apply (wp_foreach _ (λ _ s', I5 s' ∧ s_ftasks s' = s_ftasks s1)).
      + split; [|reflexivity]. apply I5_set_codes, I5_fn_del; [apply Hl; set_solver|exact H1].
      + intros w l2 s2 [H2 E2]. wsteps. split; [eauto with i5|exact E2].
    - intros u s2 [H2 E2]. apply IH; [|exact H2]. intros x Hx. rewrite E2. apply Hl. set_solver.
    - auto. }
  apply Hgen; [|eauto with i5]. exact Hall.
Qed.
Lemma I5_on_function c ty f n ct : keeps5 (fm_on_function c ty f n ct).
Proof.
  intros s H. destruct ty; cbn [fm_on_function]; try (unfold fm_check, fm_request, fm_respond, fm_has_function; wsteps; eauto with i5; fail).
  - apply (I5_fm_add c f n ct s H).
  - unfold fm_delete, fm_has_function, fm_respond. wsteps; eauto with i5.
    (* nothing is ever deleted: a known key has tasks *)
    exfalso. ss. unfold otm_get_values in Hok. destruct (o_k2v (s_ftasks s) !! f) as [ts|] eqn:Ek; [|discriminate].
    injection Hok as <-. apply (i5_otm _ H) in Ek as [_ Hne]. 
    destruct (decide (size ts = 0%nat)) as [E|E]; [apply size_empty_inv, leibniz_equiv in E; done|]. lia.
Qed.

(** The rest. *)
Lemma I5_match k : keeps5 (tm_match k).
Proof.
  intros s H. unfold tm_match. wsteps; eauto with i5.
  - apply I5_monitor. eauto with i5.
  - apply I5_put. eauto with i5.
Qed.
Lemma I5_tm_routine : keeps5 tm_routine.
Proof. intros s H. unfold tm_routine. wsteps; auto; try (apply I5_match; eauto with i5). Qed.
Lemma I5_wm_done r : keeps5 (wm_done r).
Proof. intros s H. unfold wm_done. wsteps; eauto with i5. apply I5_done. eauto with i5. Qed.
Lemma I5_take_back ids : keeps5 (wm_take_back ids).
Proof.
  induction ids as [|t ids IH]; intros s H; cbn [wm_take_back]; wsteps; eauto with i5.
Qed.
Lemma I5_balance_response ids : keeps5 (wm_balance_response ids).
Proof.
  intros s H. unfold wm_balance_response. wstep. wuse I5_take_back as s1 H1; [exact H|].
  apply (wp_foreach _ (λ _ s', I5 s')); [exact H1|]. intros t l s2 H2. apply I5_reroute. exact H2.
Qed.
Lemma I5_heartbeat w h : keeps5 (wm_heartbeat w h).
Proof. intros s H. unfold wm_heartbeat. wsteps; eauto 8 with i5. Qed.
Lemma I5_drop w : keeps5 (wm_drop w).
Proof.
  intros s H. unfold wm_drop. wsteps; eauto with i5.
  apply (wp_mono _ (λ _ s', I5 s') _ any5); [|intros u s1 H1; wsteps; exact H1|auto].
  apply (wp_foreach _ (λ _ s', I5 s')); [eauto 8 with i5|]. intros t l s2 H2. apply I5_reroute. exact H2.
Qed.
Lemma I5_disconnect src w : keeps5 (wm_disconnect src w).
Proof. intros s H. unfold wm_disconnect. wstep. wuse I5_drop as s1 H1; [exact H|]. wsteps; eauto with i5. Qed.
Lemma I5_balance : keeps5 wm_balance.
Proof.
  intros s H. unfold wm_balance. wsteps; eauto with i5.
  apply (wp_foreach _ (λ _ s', I5 s')); [eauto with i5|]. intros p l s2 H2. wsteps. eauto with i5.
Qed.
Lemma I5_wm_clean : keeps5 wm_clean.
Proof.
  intros s H. unfold wm_clean. wsteps.
  apply (wp_foreach _ (λ _ s', I5 s')); [eauto with i5|]. intros p l s2 H2. wstep. wuse I5_drop as s3 H3; [exact H2|]. wsteps. exact H3.
Qed.
Lemma I5_wm_routine : keeps5 wm_routine.
Proof. intros s H. unfold wm_routine. wstep. wuse I5_balance as s1 H1; [exact H|]. apply I5_wm_clean. exact H1. Qed.
Lemma I5_status : keeps5 st_routine.
Proof. intros s H. unfold st_routine. wsteps; eauto 8 with i5. Qed.

Lemma I5_round now e s : I5 s → wp (handle e) (λ _ s', I5 s') any5 (logged (LIn now e) s).
Proof.
  intros H. pose proof (I5_emit (LIn now e) s H) as H'.
  destruct e as [src m| | | | |]; cbn [handle].
  - destruct m; cbn [on_receive]; try (wsteps; exact H').
    + apply I5_tm_new, H'.
    + apply I5_cancel_any, H'.
    + apply I5_wm_done, H'.
    + wsteps. destruct H' as [A1 A2 A3 A4 A5]; split; ss; auto. intros c gt n.
      rewrite elem_of_app, elem_of_list_singleton. intros [Hx|[= -> ->]] Hn; [eauto|]. cbn in Hn.
      do 6 eexists. split; [|split; [exact Hn|reflexivity]]. exists now. apply elem_of_app; right. apply elem_of_list_singleton. reflexivity.
    + wstep. wuse (I5_clean tm_cancel_any id I5_cancel_any) as s1 H1; [auto with grows|exact H'|]. wsteps. exact H1.
    + apply I5_balance_response, H'.
    + apply I5_heartbeat, H'.
    + apply I5_on_function, H'.
    + apply I5_disconnect, H'.
  - apply I5_gm_routine, H'.
  - apply I5_tm_routine, H'.
  - apply I5_fm_routine, H'.
  - apply I5_wm_routine, H'.
  - apply I5_status, H'.
Qed.
Definition Inv5 (s : sched) : Prop := s_dead s = None → I5 s.
Lemma Inv5_start c : Inv5 (start c).
Proof.
  intros _. split; cbn; try (intros *; rewrite lookup_empty; discriminate).
  - apply otm_inv_empty.
  - set_solver.
Qed.
Lemma Inv5_step s r : Inv5 s → Inv5 (step s r).
Proof.
  intros H. unfold step. destruct (s_dead s) eqn:Ed; [exact H|]. specialize (H Ed). set (s0 := set_now _ _).
  assert (H0 : I5 s0) by (apply I5_set_now, I5_set_codes, H).
  pose proof (I5_round (rd_now r) (rd_event r) s0 H0) as Hw. unfold wp in Hw.
  destruct (handle _ _) as [s' [u|e]]; [intros _; apply Hw|intros Hd; discriminate].
Qed.
Lemma Inv5_run c rs : Inv5 (run c rs).
Proof.
  unfold run, run_from. assert (∀ s, Inv5 s → Inv5 (foldl step s rs)) as H; [|apply H, Inv5_start].
  induction rs as [|r rs IH]; cbn; auto using Inv5_step.
Qed.
