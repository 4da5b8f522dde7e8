(** * Orderly executions with graphs: the invariant of the whole system *)

From Verif.Model Require Import Base OneToManyDict PriorityQueue Allocator Message Sorter Client Worker Processor Scheduler System.
From Verif.Spec Require Import AllocatorSpec DictSpec SchedulerSpec SystemSpec FlowSpec TrafficSpec GraphFlowSpec.
From Verif.Proofs Require SchedContent.
From Verif.Proofs Require Import BaseProofs DictProofs AllocatorProofs SchedWp SchedCount SchedHold SchedGlobal SchedStep SchedRemove SchedPlain SchedPolite SchedLive SchedBegin SchedTraffic SchedFinish SystemParts SystemProofs FlowSched FlowWorker FlowClient FlowSystem GraphClient GraphRounds.
From Verif.Proofs Require ClientProofs.

Notation the_clients y := (o_v2k (s_clients (y_sched y))).
Notation is_graph m := (is_Some (graph_id m)).
(** [Gn] are workers the scheduler has given up: nothing is said about them. *)
Record gflowd (cfg : config) (Gn X : gset bytes) (g : ledger) (y : system) : Prop := {
  gl_ok : ok cfg y;
  gl_fine : ∃ xt, okay xt g (y_sched y) ∧ world None (s_log (y_sched y)) xt (s_tasks (y_sched y));
  gl_known w : w ∈ lg_workers g → is_Some (y_workers y !! w);
  gl_text i : unused y i = false → utf8 i = true;
  gl_fresh i : unused y i = true → sent_to i (s_log (y_sched y)) = [] ∧ heard_from i (s_log (y_sched y)) = [];
  gl_prefix i : heard_from i (s_log (y_sched y)) `prefix_of` sent_by_part y i;
  gl_clen c x : y_clients y !! c = Some x → (length (client_heard x.2) <= length (sent_to c (s_log (y_sched y))))%nat;
  gl_wlen w x : y_workers y !! w = Some x → (length (agent_heard (n_history x)) <= length (sent_to w (s_log (y_sched y))))%nat;
  gl_cl t c : the_clients y !! t = Some c → is_Some (y_clients y !! c);
  gl_apart c c' x x' t : y_clients y !! c = Some x → y_clients y !! c' = Some x' → t ∈ subs x.2 → t ∈ subs x'.2 → c = c';
  gl_client c x : y_clients y !! c = Some x → client_flow (off X (the_clients y)) c x (plain X (to_scheduler y c)) (plain X (to_client y c));
  gl_gone w : w ∈ Gn → w ∉ lg_workers g ∧ is_Some (y_workers y !! w);
  gl_worker_but w x : y_workers y !! w = Some x → w ∉ Gn → worker_flow (s_tasks (y_sched y)) (lg_owner g) (w ∈ lg_workers g) w x (to_scheduler y w) (to_agent y w x);
  gl_names t : t ∈ X ↔ of_graph y t;
  gl_subs c x t : y_clients y !! c = Some x → t ∈ subs x.2 → t ∉ X;
  gl_graphs c x : y_clients y !! c = Some x → graphs_ok x;
  gl_once c c' x x' m m' t : y_clients y !! c = Some x → y_clients y !! c' = Some x' → COut m ∈ x.2 → COut m' ∈ x'.2 → is_graph m → is_graph m' → named t m → named t m' → c = c' ∧ m = m';
  gl_answers c m : LSend c m ∈ s_log (y_sched y) → match m with MGraphTask _ _ _ _ => False | MGraphTaskResult _ st _ => st = Success | _ => True end;
  gl_accepted c t : accepted c t (s_log (y_sched y)) →
    t ∈ X ∨ ∃ x, y_clients y !! c = Some x ∧ (the_clients y !! t = Some c ∨ t ∈ results (to_client y c) ∨ ∃ v, CSet (FTask t) v ∈ x.2);
  gl_polite : always (polite_graphs utf8) (s_log (y_sched y)) }.
Arguments gl_ok {_ _ _ _ _} _.  Arguments gl_fine {_ _ _ _ _} _.  Arguments gl_known {_ _ _ _ _} _.  Arguments gl_text {_ _ _ _ _} _.
Arguments gl_fresh {_ _ _ _ _} _.  Arguments gl_prefix {_ _ _ _ _} _.  Arguments gl_clen {_ _ _ _ _} _.  Arguments gl_wlen {_ _ _ _ _} _.  Arguments gl_cl {_ _ _ _ _} _.  Arguments gl_apart {_ _ _ _ _} _.
Arguments gl_client {_ _ _ _ _} _.  Arguments gl_worker_but {_ _ _ _ _} _.  Arguments gl_gone {_ _ _ _ _} _.  Arguments gl_names {_ _ _ _ _} _.  Arguments gl_subs {_ _ _ _ _} _.  Arguments gl_graphs {_ _ _ _ _} _.
Arguments gl_once {_ _ _ _ _} _.  Arguments gl_answers {_ _ _ _ _} _.  Arguments gl_accepted {_ _ _ _ _} _.  Arguments gl_polite {_ _ _ _ _} _.
Notation gflow cfg X g y := (gflowd cfg ∅ X g y).
Lemma gl_worker {cfg X g y} : gflow cfg X g y → ∀ w x, y_workers y !! w = Some x → worker_flow (s_tasks (y_sched y)) (lg_owner g) (w ∈ lg_workers g) w x (to_scheduler y w) (to_agent y w x).
Proof. intros H w x Hx. exact (gl_worker_but H w x Hx (not_elem_of_empty _)). Qed.
Lemma gl_heard {cfg Gn X g y} : gflowd cfg Gn X g y → ∀ i, (length (heard_from i (s_log (y_sched y))) <= length (sent_by_part y i))%nat.
Proof. intros H i. apply prefix_length, (gl_prefix H). Qed.

(** ** Where graphs come from *)
Lemma results_plain X q t : t ∉ X → t ∈ results (plain X q) ↔ t ∈ results q.
Proof.
  intros Ht. unfold results. rewrite !elem_of_list_omap. split; intros (m & Hm & E); exists m; (split; [|exact E]); [apply plain_in in Hm; tauto|].
  apply plain_in. split; [exact Hm|]. destruct m; try discriminate. injection E as ->. cbn. apply bool_decide_eq_true_2, Ht.
Qed.
Section origin.
  Context (cfg : config) (X : gset bytes) (y : system) (Hok : ok cfg y) (HX : ∀ t, of_graph y t → t ∈ X) (HG : ∀ c x, y_clients y !! c = Some x → graphs_ok x).
  Lemma sent_names c x m t : y_clients y !! c = Some x → COut m ∈ x.2 → is_graph m → named t m → t ∈ X.
  Proof.
    intros Hx Hm Hg Ht. destruct m; try (by destruct Hg). destruct (go_fit _ (HG _ _ Hx) _ _ _ _ Hm) as (_ & n & Hn). apply HX. exists c. eexists _, n. split; [|exact Ht]. unfold history_of. rewrite Hx. exact Hn.
  Qed.
  Lemma graph_sender c gid fs ts ns : received c (MGraphTask gid fs ts ns) (s_log (y_sched y)) → ∃ x, y_clients y !! c = Some x ∧ COut (MGraphTask gid fs ts ns) ∈ x.2.
  Proof. intros Hr. destruct (ok_sent _ _ Hok _ _ Hr) as [?|(x & Hx & Hm)]; [assumption|]. destruct (sent_by_worker _ _ _ _ _ Hok Hx Hm). Qed.
  Lemma graph_names c gid fs ts ns t : received c (MGraphTask gid fs ts ns) (s_log (y_sched y)) → named t (MGraphTask gid fs ts ns) → t ∈ X.
  Proof. intros (x & Hx & Hm)%graph_sender Ht. eapply sent_names; [exact Hx|exact Hm|eexists; reflexivity|exact Ht]. Qed.
  Context (xt : ext) (tk : gmap bytes task) (W : world None (s_log (y_sched y)) xt tk).
  Lemma world_graph gid i : x_graphs xt !! gid = Some i → gid ∈ X ∧ g_ids i ⊆ X ∧ is_Some (y_clients y !! g_client i).
  Proof.
    intros Hi. destruct (wd_graph _ _ _ _ W _ _ Hi) as (_ & c & fs & ts & ns & Hr & Eids & <-). split; [eapply graph_names; [exact Hr|left; reflexivity]|]. split.
    - rewrite Eids. intros t Ht%elem_of_list_to_set. eapply graph_names; [exact Hr|right; exact Ht].
    - destruct (graph_sender _ _ _ _ _ Hr) as (x & Hx & _). eauto.
  Qed.
  Lemma world_ids t : t ∈ x_ids xt → t ∈ X.
  Proof. rewrite (wd_ids _ _ _ _ W). intros [i Hi]%elem_of_dom. exact (proj1 (world_graph _ _ Hi)). Qed.
  Lemma world_t2g t gid : x_t2g xt !! t = Some gid → t ∈ X.
  Proof. intros E. destruct (wd_t2g _ _ _ _ W _ _ E) as (i & Hi & Ht). destruct (world_graph _ _ Hi) as (_ & H & _). auto. Qed.
  Lemma world_queue c gt : (c, gt) ∈ x_queue xt → (list_to_set (names (c, gt)) : gset bytes) ⊆ X ∧ is_Some (y_clients y !! c).
  Proof.
    intros Hq. destruct (wd_q _ _ _ _ W _ _ Hq) as (_ & _ & Hr). split; [|destruct (graph_sender _ _ _ _ _ Hr) as (x & Hx & _); eauto].
    intros t Ht%elem_of_list_to_set. eapply graph_names; [exact Hr|]. unfold names in Ht. cbn in Ht. apply elem_of_cons in Ht. exact Ht.
  Qed.
  Context (g : ledger) (O : okay xt g (y_sched y)).
  Lemma task_owner t w : lg_owner g !! t = Some w → is_Some (s_tasks (y_sched y) !! t).
  Proof. intros Ho. apply elem_of_dom. rewrite (c_places _ _ _ _ _ (proj1 O)), (c_running _ _ _ _ _ (proj1 O)). apply elem_of_union_r, elem_of_union_l, elem_of_dom. eauto. Qed.
  Lemma known_owner t w : lg_owner g !! t = Some w → w ∈ lg_workers g.
  Proof. intros Ho. destruct (c_alloc _ _ _ _ _ (proj1 O)) as (mq & ml & st & R & _). exact (ar_owner _ _ _ _ _ R _ _ Ho). Qed.
  Lemma client_task t : t ∉ X → is_Some (the_clients y !! t) ↔ is_Some (s_tasks (y_sched y) !! t).
  Proof. intros Ht. rewrite <- !elem_of_dom, (c_cldom _ _ _ _ _ (proj1 O)), elem_of_union. split; [intros [?|?%world_ids]; tauto|auto]. Qed.
End origin.

(** ** Steps of the scheduler *)
Lemma next_fine cfg {Gn} X g y r xt0 pk0 g' : gflowd cfg Gn X g y → c_max_waiting cfg < 0 → polite_graphs utf8 (s_log (y_sched y)) (LIn (rd_now r) (rd_event r)) →
  core xt0 pk0 g' [] (step (y_sched y) r) →
  ∃ xt', okay xt' g' (step (y_sched y) r) ∧ world None (s_log (step (y_sched y) r)) xt' (s_tasks (step (y_sched y) r)).
Proof.
  intros H Hw Hp Hc. destruct (ok_run _ _ (gl_ok H)) as [rs Hrs]. destruct (gl_fine H) as (xt & O & W).
  assert (Hf : fine (step (y_sched y) r)). { rewrite Hrs in *. apply fine_step; [exact Hw|exists xt, g; auto|exact Hp]. }
  destruct Hf as (xt' & g2 & O' & W'). exists xt'. assert (E : g2 = g'); [|subst g2; auto].
  assert (Hr : step (y_sched y) r = run cfg (rs ++ [r])) by (rewrite Hrs; unfold run, run_from; rewrite foldl_app; reflexivity).
  destruct O' as [O' _]. rewrite Hr in O', Hc. rewrite (ledger_run _ _ _ _ _ O'), (ledger_run _ _ _ _ _ Hc). reflexivity.
Qed.
Lemma gflow_sched cfg {Gn} Gn' X g y r g' out xt' : gflowd cfg Gn X g y → ok cfg (set_sched (step (y_sched y) r) y) → polite_graphs utf8 (s_log (y_sched y)) (LIn (rd_now r) (rd_event r)) →
  okay xt' g' (step (y_sched y) r) → world None (s_log (step (y_sched y) r)) xt' (s_tasks (step (y_sched y) r)) →
  posted (s_log (step (y_sched y) r)) = posted (s_log (y_sched y)) ++ out →
  (∀ j m, rd_event r = ERecv j m → unused y j = false ∧ j ∉ Gn') → (∀ i m, (i, m) ∈ out → unused y i = false) →
  (∀ w, w ∈ lg_workers g' → is_Some (y_workers y !! w)) → (∀ w, w ∈ Gn' → w ∉ lg_workers g' ∧ is_Some (y_workers y !! w)) →
  (∀ t c, o_v2k (s_clients (step (y_sched y) r)) !! t = Some c → is_Some (y_clients y !! c)) →
  (∀ c x, y_clients y !! c = Some x → ∃ Q, to_scheduler y c = rcvd c (rd_event r) ++ Q ∧
     client_flow (off X (o_v2k (s_clients (step (y_sched y) r)))) c x (plain X Q) (plain X (to_client y c) ++ plain X (for_part c out))) →
  (∀ w x, y_workers y !! w = Some x → w ∉ Gn' → ∃ Q, to_scheduler y w = rcvd w (rd_event r) ++ Q ∧
     worker_flow (s_tasks (step (y_sched y) r)) (lg_owner g') (w ∈ lg_workers g') w x Q (to_agent y w x ++ for_part w out)) →
  (∀ i m, (i, m) ∈ out → match m with MGraphTask _ _ _ _ => False | MGraphTaskResult _ st _ => st = Success | MTaskEcho t SubmitOK => t ∈ X ∨ is_Some (y_clients y !! i) ∧ o_v2k (s_clients (step (y_sched y) r)) !! t = Some i | _ => True end) →
  (∀ t i, t ∉ X → the_clients y !! t = Some i → o_v2k (s_clients (step (y_sched y) r)) !! t = Some i ∨ t ∈ results (for_part i out)) →
  gflowd cfg Gn' X g' (set_sched (step (y_sched y) r) y).
Proof.
  intros H Hok Hpol O' W' Hpo Hev Hout Hk Hgone Hcl HC HW HA HR. destruct (gl_fine H) as (xt & [Hc _] & _). pose proof (c_dead _ _ _ _ _ Hc) as Hd.
  assert (Hs : ∀ i, sent_to i (s_log (step (y_sched y) r)) = sent_to i (s_log (y_sched y)) ++ for_part i out). { intros i. rewrite !sent_to_posted, Hpo, for_part_app. reflexivity. }
  assert (Hh : ∀ i, heard_from i (s_log (step (y_sched y) r)) = heard_from i (s_log (y_sched y)) ++ rcvd i (rd_event r)) by (intros i; exact (step_heard _ _ i Hd)).
  assert (HQ : ∀ i Q, to_scheduler y i = rcvd i (rd_event r) ++ Q → heard_from i (s_log (y_sched y)) ++ rcvd i (rd_event r) `prefix_of` sent_by_part y i ∧ to_scheduler (set_sched (step (y_sched y) r) y) i = Q).
  { intros i Q E. destruct (on_the_way_grow _ _ _ _ [] (gl_heard H i) E) as [G1 G2]. clear G1. rewrite app_nil_r in G2. split; [destruct (gl_prefix H i) as [k Ek]; unfold to_scheduler, on_the_way in E; rewrite Ek, drop_app in E; exists Q; rewrite Ek, E, app_assoc; reflexivity|]. unfold to_scheduler. cbn. rewrite Hh. change (sent_by_part (set_sched _ y) i) with (sent_by_part y i). rewrite G2, app_nil_r. reflexivity. }
  assert (Hr : ∀ i, unused y i = true → rcvd i (rd_event r) = []).
  { intros i Hi. unfold rcvd. destruct (rd_event r) as [j m| | | | |] eqn:Ev; try reflexivity. destruct (String.eqb_spec j i) as [->|]; [|reflexivity]. rewrite (proj1 (Hev i m eq_refl)) in Hi. discriminate. }
  assert (Hr' : ∀ i, i ∈ Gn' → rcvd i (rd_event r) = []).
  { intros i Hi. unfold rcvd. destruct (rd_event r) as [j m| | | | |] eqn:Ev; try reflexivity. destruct (String.eqb_spec j i) as [->|]; [|reflexivity]. destruct (proj2 (Hev i m eq_refl) Hi). }
  assert (Htc : ∀ c x, y_clients y !! c = Some x → to_client (set_sched (step (y_sched y) r) y) c = to_client y c ++ for_part c out).
  { intros c x Hx. unfold to_client. cbn [y_sched set_sched]. rewrite Hs. unfold history_of. cbn. rewrite on_the_way_sent; [reflexivity|]. rewrite Hx. exact (gl_clen H c x Hx). }
  assert (Hlog : ∀ i m, LSend i m ∈ s_log (step (y_sched y) r) → LSend i m ∈ s_log (y_sched y) ∨ (i, m) ∈ out).
  { intros i m Hi. assert (Hp : ∀ l, LSend i m ∈ l ↔ m ∈ sent_to i l).
    { intros l. split; [|apply sent_entry]. intros Hl. unfold sent_to. apply elem_of_list_omap. exists (LSend i m). split; [exact Hl|]. cbn. rewrite String.eqb_refl. reflexivity. }
    apply Hp in Hi. rewrite Hs in Hi. apply elem_of_app in Hi as [Hi|Hi]; [left; apply Hp, Hi|right; apply elem_of_for_part, Hi]. }
  split; cbn; try (destruct H; assumption); auto.
  - exists xt'. auto.
  - intros i Hi. change (unused y i = true) in Hi. destruct (gl_fresh H i Hi) as [F1 F2]. rewrite Hs, Hh, F1, F2, (Hr i Hi). split; [|reflexivity]. cbn.
    destruct (for_part i out) as [|m l] eqn:E; [reflexivity|]. assert (Hi' : m ∈ for_part i out) by (rewrite E; left). apply elem_of_for_part in Hi'. rewrite (Hout _ _ Hi') in Hi. discriminate.
  - intros i. rewrite Hh. change (sent_by_part (set_sched _ y) i) with (sent_by_part y i). destruct (unused y i) eqn:Ei.
    + rewrite (Hr i Ei), app_nil_r. exact (gl_prefix H i).
    + destruct (decide (i ∈ Gn')) as [HX|HX]; [rewrite (Hr' i HX), app_nil_r; exact (gl_prefix H i)|].
      destruct (used_part _ _ Ei) as [[x Hx]|[x Hx]]; [destruct (HC _ _ Hx) as (Q & E & _)|destruct (HW _ _ Hx HX) as (Q & E & _)]; exact (proj1 (HQ _ _ E)).
  - intros c x Hx. rewrite Hs, app_length. pose proof (gl_clen H c x Hx). lia.
  - intros w x Hx. rewrite Hs, app_length. pose proof (gl_wlen H w x Hx). lia.
  - intros c x Hx. destruct (HC _ _ Hx) as (Q & E & HF). rewrite (proj2 (HQ _ _ E)), (Htc _ _ Hx), plain_app. exact HF.
  - intros w x Hx HX. destruct (HW _ _ Hx HX) as (Q & E & HF). rewrite (proj2 (HQ _ _ E)). unfold to_agent. cbn [y_sched set_sched]. rewrite Hs. rewrite on_the_way_sent; [exact HF|exact (gl_wlen H w x Hx)].
  - intros c m [Hi|Hi]%Hlog; [exact (gl_answers H _ _ Hi)|]. apply HA in Hi. by destruct m.
  - intros c t [Hi|Hi]%Hlog.
    + destruct (decide (t ∈ X)) as [Ht|Ht]; [auto|]. right. destruct (gl_accepted H c t Hi) as [?|(x & Hx & Hcase)]; [done|]. exists x. split; [exact Hx|]. rewrite (Htc _ _ Hx), results_app, elem_of_app.
      destruct Hcase as [E|[E|E]]; [|auto|auto]. destruct (HR t c Ht E); auto.
    + destruct (HA _ _ Hi) as [?|[[x Hx] E]]; [auto|]. right. exists x. auto.
  - destruct (step_log_inner (y_sched y) r Hd) as (l & -> & Hl). change (LIn (rd_now r) (rd_event r) :: l) with ([LIn (rd_now r) (rd_event r)] ++ l). rewrite app_assoc.
    apply always_inner; [exact Hl|intros b [ | | | | | |]; exact I|]. apply always_snoc; [exact (gl_polite H)|exact Hpol].
Qed.

Lemma off_insert X CL t c : t ∉ X → off X (<[t := c]> CL) = <[t := c]> (off X CL).
Proof.
  intros Ht. apply map_eq. intros u. apply option_eq. intros v. rewrite off_Some, !lookup_insert_Some, off_Some. split; [|intros [[<- <-]|(?&?&?)]; auto]. intros [Hu [[<- <-]|[? ?]]]; auto.
Qed.
Lemma off_delete X CL t : off X (delete t CL) = delete t (off X CL).
Proof. apply map_eq. intros u. apply option_eq. intros v. rewrite off_Some, !lookup_delete_Some, off_Some. tauto. Qed.
Lemma plain_none X m q : keeps X m = false → plain X (m :: q) = plain X q.
Proof. intros E. rewrite plain_cons, E. reflexivity. Qed.
Lemma plain_keep X m q : keeps X m = true → plain X (m :: q) = m :: plain X q.
Proof. intros E. rewrite plain_cons, E. reflexivity. Qed.
Lemma for_part_nil i out : (∀ j m, (j, m) ∈ out → j ≠ i) → for_part i out = [].
Proof. intros H. destruct (for_part i out) as [|m l] eqn:E; [reflexivity|]. assert (Hi : m ∈ for_part i out) by (rewrite E; left). apply elem_of_for_part in Hi. by destruct (H _ _ Hi). Qed.

Section receive.
  Context (cfg : config) {Gn : gset bytes} (X : gset bytes) (g : ledger) (y : system) (now : Z) (codes : list (list nat)).
  Context (H : gflowd cfg Gn X g y) (Hu : undispatched (s_log (y_sched y)) = false) (Hmax : c_max_waiting cfg < 0).
  Notation s := (y_sched y).
  Let HX t : of_graph y t → t ∈ X := proj2 (gl_names H t).

  Lemma cfg_of : s_cfg s = cfg.
  Proof. destruct (ok_run _ _ (gl_ok H)) as [rs ->]. apply run_cfg. Qed.
  (** Everyone was told only of tasks that some user submitted. *)
  Lemma accepted_subs c t : accepted c t (s_log s) → t ∉ X → ∃ x, y_clients y !! c = Some x ∧ t ∈ subs x.2 ∧
    (off X (the_clients y) !! t = Some c ∨ t ∈ results (plain X (to_client y c)) ∨ ∃ v, CSet (FTask t) v ∈ x.2).
  Proof.
    intros Ha Ht. destruct (gl_accepted H _ _ Ha) as [?|(x & Hx & Hcase)]; [done|]. exists x. split; [exact Hx|]. rewrite off_Some, results_plain by exact Ht.
    split; [|destruct Hcase as [?|[?|?]]; auto]. destruct (flow_ids _ _ _ _ _ (gl_client H c x Hx)) as (I1 & I2 & I3 & _). destruct Hcase as [E|[E|[v E]]].
    - apply I2. apply off_Some. auto.
    - apply (results_plain X _ _ Ht) in E. apply elem_of_list_omap in E as (m & Hm & E). specialize (I1 _ Hm). destruct m; try discriminate. injection E as ->. exact I1.
    - eapply I3, E.
  Qed.
  Lemma free_task c x z Q : y_clients y !! c = Some x → to_scheduler y c = MTask z :: Q → task_id z ∉ X ∧ s_tasks s !! task_id z = None ∧ free_id (task_id z) (s_log s).
  Proof.
    intros Hx HQ. pose proof (gl_client H c x Hx) as HF. rewrite HQ, plain_keep in HF by reflexivity.
    destruct (sent_nodup _ _ _ _ _ _ HF) as [N1 N2]. pose proof (gl_subs H _ _ _ Hx N2) as HnX. split; [exact HnX|]. destruct (gl_fine H) as (xt & O & W). split.
    - apply eq_None_not_Some. intros Hz. apply (client_task cfg X y (gl_ok H) HX (gl_graphs H) _ _ W _ O _ HnX) in Hz as [i Hi]. destruct (gl_cl H _ _ Hi) as [xi Hxi].
      destruct (flow_ids _ _ _ _ _ (gl_client H _ _ Hxi)) as (_ & I2 & _). pose proof (gl_apart H _ _ _ _ _ Hx Hxi N2 (I2 _ (proj2 (off_Some _ _ _ _) (conj HnX Hi)))) as <-. apply N1, off_Some. auto.
    - split.
      + intros c' gid fs ts ns Hr Hn. apply HnX. eapply (graph_names cfg X y (gl_ok H) HX (gl_graphs H)); eassumption.
      + intros c' Ha. destruct (accepted_subs _ _ Ha HnX) as (x' & Hx' & Hs & Hcase). pose proof (gl_apart H _ _ _ _ _ Hx Hx' N2 Hs) as <-. rewrite Hx in Hx'. injection Hx' as <-.
        eapply flow_sent; [exact HF|left|exact Hcase].
  Qed.
  Lemma heard_sent c : heard_from c (s_log s) ++ to_scheduler y c = sent_by_part y c.
  Proof. unfold to_scheduler, on_the_way. destruct (gl_prefix H c) as [k Ek]. rewrite Ek, drop_app. reflexivity. Qed.
  Lemma received_heard c m : received c m (s_log s) → m ∈ heard_from c (s_log s).
  Proof. intros (t & Ht). unfold heard_from. apply elem_of_list_omap. eexists. split; [exact Ht|]. cbn. rewrite String.eqb_refl. reflexivity. Qed.
  Lemma new_graph c x gid fs ts ns Q : y_clients y !! c = Some x → to_scheduler y c = MGraphTask gid fs ts ns :: Q →
    graph_fit utf8 gid fs ts ns ∧ ∀ t, named t (MGraphTask gid fs ts ns) → new_id t (s_log s).
  Proof.
    intros Hx HQ. set (m := MGraphTask gid fs ts ns) in *. pose proof (heard_sent c) as Es. unfold sent_by_part in Es. rewrite Hx, HQ in Es.
    assert (Hm : COut m ∈ x.2). { apply sent_in. rewrite <- Es, elem_of_app. right. left. }
    split; [exact (proj1 (go_fit _ (gl_graphs H _ _ Hx) _ _ _ _ Hm))|]. intros t Ht c' m' Hr Ht'.
    assert (HtX : t ∈ X) by (eapply (sent_names X y HX (gl_graphs H)); [exact Hx|exact Hm|eexists; reflexivity|exact Ht]).
    destruct (ok_sent _ _ (gl_ok H) _ _ Hr) as [(x' & Hx' & Hm')|(x' & Hx' & Hm')].
    - pose proof (sent_by_client _ _ _ _ _ (gl_ok H) Hx' Hm') as Ho. destruct m' as [z| | | |gid' fs' ts' ns'| | | | | | | | | | | | | | |]; try done.
      + cbn in Ho, Ht'. destruct Ho as (t' & f & n & ct & a & Hs & Ez). apply (gl_subs H _ _ t Hx'); [|exact HtX]. apply subs_in. subst t. rewrite Ez. cbn. eauto 10.
      + destruct (gl_once H _ _ _ _ _ _ t Hx Hx' Hm Hm' ltac:(eexists; reflexivity) ltac:(eexists; reflexivity) Ht Ht') as [<- E].
        pose proof (go_nodup _ (gl_graphs H _ _ Hx)) as Hn. unfold graphs_sent in Hn. rewrite <- Es, omap_app in Hn. apply NoDup_app in Hn as (_ & Hn & _). apply (Hn gid).
        * apply elem_of_list_omap. exists m. split; [|reflexivity]. apply received_heard. rewrite E. exact Hr.
        * cbn. left.
    - pose proof (sent_by_worker _ _ _ _ _ (gl_ok H) Hx' Hm') as Ho. destruct m'; try done.
  Qed.

  Lemma recv_client c x m Q : y_clients y !! c = Some x → to_scheduler y c = m :: Q → ok cfg (set_sched (step s (Round now codes (ERecv c m))) y) →
    gflowd cfg Gn X g (set_sched (step s (Round now codes (ERecv c m))) y).
  Proof.
    intros Hx HQ Hok. destruct (gl_fine H) as (xt & O & W). pose proof O as [Hc Hq]. rewrite Hu in Hc, Hq.
    pose proof (gl_client H c x Hx) as HF. rewrite HQ in HF.
    assert (Hpk : false = undispatched (s_log s)) by (symmetry; exact Hu).
    assert (Hdd : ∀ j, j ≠ c → rcvd j (ERecv c m) = []) by (intros j Hj; cbn; rewrite eqb_ne by done; reflexivity).
    assert (Hcc : rcvd c (ERecv c m) = [m]) by (cbn; rewrite String.eqb_refl; reflexivity).
    assert (Htext : utf8 c = true) by exact (gl_text H c (used_client _ _ _ Hx)).
    (* the general part *)
    assert (Hgo : ∀ xt0 pk0 out, core xt0 pk0 g [] (step s (Round now codes (ERecv c m))) →
      polite_graphs utf8 (s_log s) (LIn now (ERecv c m)) →
      posted (s_log (step s (Round now codes (ERecv c m)))) = posted (s_log s) ++ out →
      (∀ i a, (i, a) ∈ out → i = c ∧ match a with MGraphTask _ _ _ _ | MGraphTaskResult _ _ _ => False | MTaskEcho t SubmitOK => o_v2k (s_clients (step s (Round now codes (ERecv c m)))) !! t = Some c | _ => True end) →
      client_flow (off X (o_v2k (s_clients (step s (Round now codes (ERecv c m)))))) c x (plain X Q) (plain X (to_client y c) ++ plain X (for_part c out)) →
      (∀ i t, i ≠ c → o_v2k (s_clients (step s (Round now codes (ERecv c m)))) !! t = Some i ↔ the_clients y !! t = Some i) →
      (∀ t, the_clients y !! t = Some c → o_v2k (s_clients (step s (Round now codes (ERecv c m)))) !! t = Some c) →
      (∀ t w, lg_owner g !! t = Some w → s_tasks (step s (Round now codes (ERecv c m))) !! t = s_tasks s !! t) →
      gflowd cfg Gn X g (set_sched (step s (Round now codes (ERecv c m))) y)).
    { intros xt0 pk0 out Hc0 Hp Hpo Hout HF' HCL HCc HT.
      assert (Hnw : ∀ w z, y_workers y !! w = Some z → w ≠ c) by (intros w z Hw ->; exact (ok_apart _ _ (gl_ok H) _ _ _ Hx Hw)).
      assert (Hno : ∀ i, i ≠ c → for_part i out = []) by (intros i Hi; apply for_part_nil; intros j a Hj; destruct (Hout _ _ Hj) as [-> _]; done).
      destruct (next_fine _ _ _ _ (Round now codes (ERecv c m)) _ _ _ H Hmax Hp Hc0) as (xt' & O' & W').
      eapply gflow_sched; [exact H|exact Hok|exact Hp|exact O'|exact W'|exact Hpo|..].
      - intros j m' [= <- <-]. split; [eapply used_client, Hx|]. intros Hi. destruct (gl_gone H _ Hi) as (_ & [z Hz]). exact (ok_apart _ _ (gl_ok H) _ _ _ Hx Hz).
      - intros i a Hi. destruct (Hout _ _ Hi) as [-> _]. eapply used_client, Hx.
      - exact (gl_known H).
      - exact (gl_gone H).
      - intros t i Ht. destruct (decide (i = c)) as [->|Hne]; [eauto|]. apply (gl_cl H t). apply HCL; assumption.
      - intros i z Hz. cbn [rd_event]. destruct (decide (i = c)) as [->|Hne].
        + exists Q. rewrite Hx in Hz. injection Hz as <-. rewrite Hcc. auto.
        + exists (to_scheduler y i). rewrite Hdd, Hno by done. split; [reflexivity|]. cbn. rewrite app_nil_r. eapply effect_other; [exact (gl_client H i z Hz)|]. intros t. rewrite !off_Some, HCL by done. reflexivity.
      - intros w z Hz HG. pose proof (Hnw _ _ Hz) as Hne. exists (to_scheduler y w). cbn [rd_event]. rewrite Hdd, Hno by done. split; [reflexivity|].
        eapply effect_none; [exact (gl_worker_but H w z Hz HG)|constructor|auto|reflexivity|]. intros t Ht. eapply HT, Ht.
      - intros i a Hi. destruct (Hout _ _ Hi) as [-> Ha]. destruct a as [|t' st'| | | | | | | | | | | | | | | | | |]; try done. destruct st'; try done. right. split; [eauto|exact Ha].
      - intros t i _ Ht. left. destruct (decide (i = c)) as [->|Hne]; [apply HCc, Ht|apply HCL; assumption]. }
    assert (Hms : COut m ∈ x.2). { apply sent_in. pose proof (heard_sent c) as Es. unfold sent_by_part in Es. rewrite Hx, HQ in Es. rewrite <- Es, elem_of_app. right. left. }
    assert (Hcs : (∃ z, m = MTask z) ∨ (∃ f n ct, m = MFunctionRequest FnAdd f n ct ∧ utf8 n = true) ∨ ∃ gid fs ts ns, m = MGraphTask gid fs ts ns).
    { destruct (keeps X m) eqn:Ek.
      - rewrite plain_keep in HF by exact Ek. destruct HF as (F & B & A & D & HF). pose proof (ko_cs HF) as Hcs. apply Forall_cons in Hcs as [Hcs _]. destruct m; try done; [eauto|]. destruct Hcs as [-> Hn]. right. left. eauto 10.
      - pose proof (sent_by_client _ _ _ _ _ (gl_ok H) Hx Hms) as Ho. destruct m; try done. eauto 10. }
    destruct Hcs as [[z ->]|[(f & n & ct & -> & Hn)|(gid & fs & ts & ns & ->)]].
    - (* a task *)
      rewrite plain_keep in HF by reflexivity. destruct (free_task _ _ _ _ Hx HQ) as (HnX & Hno & Hfree).
      assert (Hids : task_id z ∉ x_ids xt) by (intros Hi%(world_ids cfg X y (gl_ok H) HX (gl_graphs H) _ _ W); done).
      assert (HN : x_inactive xt !! task_id z = None).
      { destruct (x_inactive xt !! task_id z) eqn:E; [|reflexivity]. destruct (wd_N _ _ _ _ W (task_id z) ltac:(eauto)) as [gid Eg]. apply (world_t2g cfg X y (gl_ok H) HX (gl_graphs H) _ _ W) in Eg. done. }
      pose proof (round_task xt s false g now codes Hc Hpk c z eq_refl Htext Hno Hids HN) as HR. rewrite cfg_of in HR. specialize (HR Hmax). cbv zeta in HR.
      assert (Hkp : ∀ st, keeps X (MTaskEcho (task_id z) st) = true) by (intros st; cbn; apply bool_decide_eq_true_2, HnX).
      assert (Hpol : polite_graphs utf8 (s_log s) (LIn now (ERecv c (MTask z)))) by (split; [exact Hu|split; [exact Htext|exact Hfree]]).
      destruct (s_funcs s !! task_function z).
      + destruct HR as (Hm & T & CL & Fn). eapply Hgo; [exact (mv_core _ _ _ _ _ _ _ Hm)|exact Hpol|exact (mv_posted _ _ _ _ _ _ _ Hm)|..].
        * intros i a [= -> ->]%elem_of_list_singleton. split; [reflexivity|]. rewrite CL. apply lookup_insert.
        * rewrite CL, for_part_one, String.eqb_refl, off_insert by exact HnX. rewrite plain_keep by apply Hkp. apply effect_accept, HF.
        * intros i t Hi. rewrite CL. rewrite lookup_insert_Some. split; [|intros E; right; split; [|exact E]]; [naive_solver|]. intros <-.
          assert (is_Some (s_tasks s !! task_id z)) as [? ?] by (apply (client_task cfg X y (gl_ok H) HX (gl_graphs H) _ _ W _ O _ HnX); eauto). congruence.
        * intros t Ht. rewrite CL, lookup_insert_Some. destruct (decide (task_id z = t)); auto.
        * intros t w Ht. rewrite T. rewrite lookup_insert_ne; [reflexivity|]. intros <-. destruct (task_owner y _ _ O _ _ Ht). congruence.
      + destruct HR as (Hm & T & CL & Fn). eapply Hgo; [exact (mv_core _ _ _ _ _ _ _ Hm)|exact Hpol|exact (mv_posted _ _ _ _ _ _ _ Hm)|..].
        * intros i a [= -> ->]%elem_of_list_singleton. split; [reflexivity|exact I].
        * rewrite CL, for_part_one, String.eqb_refl. rewrite plain_keep by apply Hkp. apply effect_refuse, HF.
        * intros i t Hi. rewrite CL. reflexivity.
        * intros t. rewrite CL. auto.
        * intros t w Ht. rewrite T. reflexivity.
    - (* a function *)
      rewrite plain_keep in HF by reflexivity. destruct (round_add xt s false g now codes Hc Hpk Hq c f n ct Hn) as (st & Hst & Hm & T & CL & Fn).
      eapply Hgo; [exact (mv_core _ _ _ _ _ _ _ Hm)|split; [exact Hu|split; [exact Htext|exact Hn]]|exact (mv_posted _ _ _ _ _ _ _ Hm)|..].
      + intros i a [= -> ->]%elem_of_list_singleton. split; [reflexivity|exact I].
      + rewrite CL, for_part_one, String.eqb_refl. apply (effect_add _ _ _ _ _ _ _ _ _ HF). exact Hst.
      + intros i t Hi. rewrite CL. reflexivity.
      + intros t. rewrite CL. auto.
      + intros t w Ht. rewrite T. reflexivity.
    - (* a graph *)
      rewrite plain_none in HF by reflexivity. destruct (round_graph xt g s now codes O W c (MGraphTask gid fs ts ns) ltac:(eauto)) as ((xt0 & pk0 & Hc0) & Hpo & T & CL & _).
      eapply (Hgo xt0 pk0 []); [exact Hc0|split; [exact Hu|split; [exact Htext|exact (new_graph _ _ _ _ _ _ _ Hx HQ)]]|rewrite app_nil_r; exact Hpo|..].
      + intros i a []%elem_of_nil.
      + cbn. rewrite CL, app_nil_r. exact HF.
      + intros i t Hi. rewrite CL. reflexivity.
      + intros t. rewrite CL. auto.
      + intros t w Ht. rewrite T. reflexivity.
  Qed.

  (** Nodes are started. *)
  Lemma nodes_go don ids c out g' r xt0 pk0 : ok cfg (set_sched (step s r) y) → core xt0 pk0 g' [] (step s r) → polite_graphs utf8 (s_log s) (LIn (rd_now r) (rd_event r)) →
    nodes_step don ids c s out (step s r) → ids ⊆ X → is_Some (y_clients y !! c) → lg_workers g' = lg_workers g →
    (∀ j m, rd_event r = ERecv j m → is_Some (y_workers y !! j) ∧ j ∉ Gn) →
    (∀ w x, y_workers y !! w = Some x → w ∉ Gn → ∃ Q, to_scheduler y w = rcvd w (rd_event r) ++ Q ∧ worker_flow (s_tasks (step s r)) (lg_owner g') (w ∈ lg_workers g) w x Q (to_agent y w x)) →
    gflowd cfg Gn X g' (set_sched (step s r) y).
  Proof.
    clear Hu. intros Hok Hc0 Hp [A1 A2 A3 A4 A5 A6] Hids [xc Hxc] Ew Hev HW. rewrite Forall_forall in A2.
    destruct (next_fine _ _ _ _ r _ _ _ H Hmax Hp Hc0) as (xt' & O' & W'). destruct (gl_fine H) as (xt & O & W).
    assert (HCL : ∀ t, t ∉ X → o_v2k (s_clients (step s r)) !! t = the_clients y !! t).
    { intros t Ht. destruct (s_tasks s !! t) as [k|] eqn:Ek; [apply A5; [set_solver|eauto]|].
      assert (E1 : the_clients y !! t = None). { apply eq_None_not_Some. intros E. apply (client_task cfg X y (gl_ok H) HX (gl_graphs H) _ _ W _ O _ Ht) in E as [? ?]. congruence. }
      rewrite E1. apply eq_None_not_Some. intros E. pose proof (client_task cfg X (set_sched (step s r) y) Hok HX (gl_graphs H) _ _ W' _ O' _ Ht) as E'. cbn [y_sched set_sched] in E'. apply E' in E as [? E].
      rewrite (A3 t) in E by set_solver. congruence. }
    assert (Hnw : ∀ w z, y_workers y !! w = Some z → for_part w out = []). { intros w z Hw. apply for_part_nil. intros j m Hj ->. destruct (A2 _ Hj) as [E _]. cbn in E. subst w. exact (ok_apart _ _ (gl_ok H) _ _ _ Hxc Hw). }
    eapply gflow_sched; [exact H|exact Hok|exact Hp|exact O'|exact W'|exact A1|..].
    - intros j m E. destruct (Hev _ _ E) as [[z Hz] HG]. split; [eapply used_worker, Hz|exact HG].
    - intros i m Hi. destruct (A2 _ Hi) as [E _]. cbn in E. subst i. eapply used_client, Hxc.
    - rewrite Ew. exact (gl_known H).
    - rewrite Ew. exact (gl_gone H).
    - intros t i Ht. destruct (A6 _ _ Ht) as [Ht'| ->]; [exact (gl_cl H _ _ Ht')|eauto].
    - intros i z Hz. exists (to_scheduler y i). assert (Er : rcvd i (rd_event r) = []).
      { unfold rcvd. destruct (rd_event r) as [j m| | | | |] eqn:Ev; try reflexivity. destruct (String.eqb_spec j i) as [->|]; [|reflexivity]. destruct (Hev _ _ eq_refl) as [[z' Hz'] _]. destruct (ok_apart _ _ (gl_ok H) _ _ _ Hz Hz'). }
      rewrite Er. split; [reflexivity|]. rewrite (off_eq _ _ _ HCL). apply client_extras; [exact (gl_client H _ _ Hz)|].
      apply Forall_forall. intros m [Hm Hk]%plain_in. apply elem_of_for_part in Hm. destruct (A2 _ Hm) as [_ Hg]. cbn in Hg. destruct m; try done. cbn in Hk. apply bool_decide_eq_true in Hk. set_solver.
    - intros w x Hx HG. destruct (HW _ _ Hx HG) as (Q & E & HF). exists Q. split; [exact E|]. rewrite Ew, (Hnw _ _ Hx), app_nil_r. exact HF.
    - intros i m Hi. destruct (A2 _ Hi) as [_ Hg]. cbn in Hg. destruct m; try done. destruct Hg as [-> Hg]. left. set_solver.
    - intros t i Ht E. left. rewrite HCL by exact Ht. exact E.
  Qed.

  Lemma recv_worker_but w x m Q : w ∉ Gn → y_workers y !! w = Some x → to_scheduler y w = m :: Q → ok cfg (set_sched (step s (Round now codes (ERecv w m))) y) →
    match m with MTaskResult t st _ _ => t ∈ X → st = Success | _ => True end →
    ∃ g', gflowd cfg Gn X g' (set_sched (step s (Round now codes (ERecv w m))) y).
  Proof.
    intros HwG Hx HQ Hok HS. destruct (gl_fine H) as (xt & O & W). pose proof O as [Hc Hq]. rewrite Hu in Hc, Hq.
    pose proof (gl_worker_but H w x Hx HwG) as HF. rewrite HQ in HF.
    assert (Hws : from_worker m) by (destruct HF as (L & qs & _ & HF); pose proof (wo_ws _ _ _ _ _ _ _ HF) as Hcs; apply Forall_cons in Hcs as [Hcs _]; exact Hcs).
    assert (Hpk : false = undispatched (s_log s)) by (symmetry; exact Hu).
    assert (Hdd : ∀ j, j ≠ w → rcvd j (ERecv w m) = []) by (intros j Hj; cbn; rewrite eqb_ne by done; reflexivity).
    assert (Hcc : rcvd w (ERecv w m) = [m]) by (cbn; rewrite String.eqb_refl; reflexivity).
    assert (Htext : utf8 w = true) by exact (gl_text H w (used_worker _ _ _ Hx)).
    assert (Hnc : ∀ i z, y_clients y !! i = Some z → i ≠ w) by (intros i z Hz ->; exact (ok_apart _ _ (gl_ok H) _ _ _ Hz Hx)).
    assert (Hp : polite_graphs utf8 (s_log s) (LIn now (ERecv w m))).
    { split; [exact Hu|]. split; [exact Htext|]. destruct m; cbn in Hws; try done; [|by subst].
      intros _ Hne gid _ (c0 & fs & ts & ns & n & Hr & Hn & E). destruct Hne. apply HS. eapply (graph_names cfg X y (gl_ok H) HX (gl_graphs H)); [exact Hr|]. right. apply elem_of_list_fmap. eauto. }
    (* the general part *)
    assert (Hgo : ∀ xt0 pk0 g' a, core xt0 pk0 g' [] (step s (Round now codes (ERecv w m))) →
      posted (s_log (step s (Round now codes (ERecv w m)))) = posted (s_log s) ++ a →
      (∀ i a', (i, a') ∈ a → unused y i = false ∧ match a' with MGraphTask _ _ _ _ | MGraphTaskResult _ _ _ | MTaskEcho _ _ => False | _ => True end) → (∀ i z, i ≠ w → y_workers y !! i = Some z → for_part i a = []) →
      worker_flow (s_tasks (step s (Round now codes (ERecv w m)))) (lg_owner g') (w ∈ lg_workers g') w x Q (to_agent y w x ++ for_part w a) →
      (∀ w', w' ∈ lg_workers g' → w' = w ∨ w' ∈ lg_workers g) → (∀ w', w' ∈ lg_workers g → w' ∈ lg_workers g') →
      (∀ i t, i ≠ w → lg_owner g' !! t = Some i ↔ lg_owner g !! t = Some i) →
      (∀ i t, i ≠ w → lg_owner g !! t = Some i → s_tasks (step s (Round now codes (ERecv w m))) !! t = s_tasks s !! t) →
      (∀ t i, o_v2k (s_clients (step s (Round now codes (ERecv w m)))) !! t = Some i → the_clients y !! t = Some i) →
      (∀ i z, y_clients y !! i = Some z → client_flow (off X (o_v2k (s_clients (step s (Round now codes (ERecv w m)))))) i z (plain X (to_scheduler y i)) (plain X (to_client y i) ++ plain X (for_part i a))) →
      (∀ t i, t ∉ X → the_clients y !! t = Some i → o_v2k (s_clients (step s (Round now codes (ERecv w m)))) !! t = Some i ∨ t ∈ results (for_part i a)) →
      ∃ g', gflowd cfg Gn X g' (set_sched (step s (Round now codes (ERecv w m))) y)).
    { intros xt0 pk0 g' a Hc0 Hpo Ha1 Ha2 HF' HL1 HL2 HO HT HCL HC HRs. exists g'.
      destruct (next_fine _ _ _ _ (Round now codes (ERecv w m)) _ _ _ H Hmax Hp Hc0) as (xt' & O' & W').
      eapply gflow_sched; [exact H|exact Hok|exact Hp|exact O'|exact W'|exact Hpo|..].
      - intros j m' [= <- <-]. split; [eapply used_worker, Hx|exact HwG].
      - intros i a' Hi. exact (proj1 (Ha1 _ _ Hi)).
      - intros w' [-> |Hw']%HL1; [eauto|exact (gl_known H _ Hw')].
      - intros w' Hw'. destruct (gl_gone H _ Hw') as (G1 & G2). split; [intros [-> |?]%HL1; auto|exact G2].
      - intros t i Ht. apply (gl_cl H t), HCL, Ht.
      - intros i z Hz. cbn [rd_event]. exists (to_scheduler y i). rewrite Hdd by (eapply Hnc; eauto). split; [reflexivity|]. apply HC, Hz.
      - intros i z Hz HG. cbn [rd_event]. destruct (decide (i = w)) as [->|Hne].
        + exists Q. rewrite Hx in Hz. injection Hz as <-. rewrite Hcc. auto.
        + exists (to_scheduler y i). rewrite Hdd by done. split; [reflexivity|]. rewrite (Ha2 i z Hne Hz).
          eapply effect_none; [exact (gl_worker_but H i z Hz HG)|constructor|apply HL2|intros t; apply HO, Hne|]. intros t Ht. eapply HT; [exact Hne|exact Ht].
      - intros i a' Hi. destruct (Ha1 _ _ Hi) as [_ Ha]. destruct a'; try done.
      - exact HRs. }
    assert (Hown : ∀ a', match a' with MGraphTask _ _ _ _ | MGraphTaskResult _ _ _ | MTaskEcho _ _ => False | _ => True end →
       (∀ i a0, (i, a0) ∈ [(w, a')] → unused y i = false ∧ match a0 with MGraphTask _ _ _ _ | MGraphTaskResult _ _ _ | MTaskEcho _ _ => False | _ => True end) ∧ (∀ i z, i ≠ w → y_workers y !! i = Some z → for_part i [(w, a')] = []) ∧
       (∀ i z, y_clients y !! i = Some z → for_part i [(w, a')] = []) ∧ for_part w [(w, a')] = [a']).
    { intros a' Ha'. split; [intros i a0 [= -> ->]%elem_of_list_singleton; split; [eapply used_worker, Hx|exact Ha']|]. split; [intros i z Hi Hz; rewrite for_part_one, eqb_ne by done; reflexivity|].
      split; [intros i z Hz; rewrite for_part_one, eqb_ne by (intros ->; eapply Hnc; eauto); reflexivity|]. rewrite for_part_one, String.eqb_refl. reflexivity. }
    destruct m as [| | |t st d p| | | | | |ids|h| |ty f n ct| | | | | | |]; cbn in Hws; try done.
    - (* a result *)
      destruct (effect_result _ _ _ _ _ _ _ _ _ _ _ HF) as (Ho & Hst & HF').
      destruct (x_t2g xt !! t) as [gid|] eqn:ET.
      + (* of a node *)
        pose proof (world_t2g cfg X y (gl_ok H) HX (gl_graphs H) _ _ W _ _ ET) as HtX. rewrite (HS HtX) in *.
        destruct (round_node xt g s now codes O W ltac:(rewrite cfg_of; exact Hmax) w t d p gid Hu Ho ET) as ((xt0 & Hc0) & i & out & HG & Hti & Hns).
        destruct (world_graph cfg X y (gl_ok H) HX (gl_graphs H) _ _ W _ _ HG) as (_ & Hids & Hcl).
        eexists. eapply (nodes_go _ _ _ _ _ (Round now codes (ERecv w (MTaskResult t Success d p)))); [exact Hok|exact (proj1 Hc0)|exact Hp|exact Hns|exact Hids|exact Hcl|reflexivity|..].
        * intros j m' [= <- <-]. eauto.
        * cbn [lg_owner rd_event]. intros i' z Hz HG'. destruct (decide (i' = w)) as [->|Hne].
          -- exists Q. rewrite Hcc. split; [exact HQ|]. rewrite Hx in Hz. injection Hz as <-. rewrite <- (app_nil_r (to_agent _ _ _)). eapply effect_none; [exact HF'|constructor|auto|reflexivity|].
             intros t' [Hne' Ht']%lookup_delete_Some. rewrite lookup_delete_ne by done. destruct (task_owner y _ _ O _ _ Ht') as [k Hk]. rewrite Hk. eapply ns_old; [exact Hns|exact Hk|congruence].
          -- exists (to_scheduler y i'). rewrite Hdd by done. split; [reflexivity|]. rewrite <- (app_nil_r (to_agent _ _ _)).
             assert (Hne' : ∀ t', lg_owner g !! t' = Some i' → t' ≠ t) by (intros t' E ->; congruence).
             eapply effect_none; [exact (gl_worker_but H i' z Hz HG')|constructor|auto| |].
             ++ intros t'. rewrite lookup_delete_Some. split; [tauto|]. intros E. split; [|exact E]. intros ->. eapply Hne'; eauto.
             ++ intros t' Ht'. destruct (task_owner y _ _ O _ _ Ht') as [k Hk]. rewrite Hk. eapply ns_old; [exact Hns|exact Hk|]. intros [= ->]. eapply Hne'; eauto.
      + destruct (round_result xt s false g now codes Hc Hpk w (Result t st d p) eq_refl Ho ET) as (cl & Hcl & Hm & T & CL & _ & _). cbn [r_id MResult] in *. unfold MResult in *. cbn [r_id r_status r_duration r_payload] in *.
        destruct (gl_cl H _ _ Hcl) as [xc Hxc]. pose proof (Hnc _ _ Hxc) as Hne.
        eapply Hgo; [exact (mv_core _ _ _ _ _ _ _ Hm)|exact (mv_posted _ _ _ _ _ _ _ Hm)|..]; cbn [lg_workers lg_owner].
        * intros i a' [= -> ->]%elem_of_list_singleton. split; [eapply used_client, Hxc|exact I].
        * intros i z Hi Hz. rewrite for_part_one, eqb_ne; [reflexivity|]. intros ->. exact (ok_apart _ _ (gl_ok H) _ _ _ Hxc Hz).
        * rewrite T, for_part_one, eqb_ne, app_nil_r by done. exact HF'.
        * auto.
        * auto.
        * intros i t' Hi. rewrite lookup_delete_Some. split; [tauto|]. intros E. split; [|exact E]. intros <-. congruence.
        * intros i t' Hi E. rewrite T, lookup_delete_ne; [reflexivity|]. intros <-. congruence.
        * intros t' i. rewrite CL, lookup_delete_Some. tauto.
        * intros i z Hz. rewrite CL, for_part_one, off_delete. destruct (decide (t ∈ X)) as [HtX|HtX].
          { replace (delete t (off X (the_clients y))) with (off X (the_clients y)).
            - assert (Ep : plain X (if String.eqb cl i then [MTaskResult t st d p] else []) = []). { destruct (String.eqb cl i); [|reflexivity]. rewrite plain_none; [reflexivity|]. cbn. apply bool_decide_eq_false_2. tauto. }
              rewrite Ep, app_nil_r. exact (gl_client H _ _ Hz).
            - symmetry. apply delete_notin. apply eq_None_not_Some. intros [? [? _]%off_Some]. done. }
          assert (Hoff : off X (the_clients y) !! t = Some cl) by (apply off_Some; auto).
          destruct (String.eqb_spec cl i) as [<-|Hi].
          -- rewrite plain_keep by (cbn; apply bool_decide_eq_true_2, HtX). eapply effect_done; [exact (gl_client H _ _ Hz)|exact Hoff|exact Hst].
          -- cbn. rewrite app_nil_r. eapply effect_other; [exact (gl_client H _ _ Hz)|]. intros t'. rewrite lookup_delete_Some. split; [tauto|]. intros E. split; [|exact E]. intros <-. congruence.
        * intros t' i HtX' E. rewrite CL, lookup_delete_Some. destruct (decide (t = t')) as [->|Hne']; [|auto]. right. rewrite Hcl in E. injection E as ->. rewrite for_part_one, String.eqb_refl. left.
    - (* tasks given back *)
      destruct (effect_balance _ _ _ _ _ _ _ _ HF) as (Ho & HF').
      destruct (round_balance_response xt s false g now codes Hc Hpk w ids eq_refl) as (Hm & T & CL & _).
      eapply Hgo; [exact (mv_core _ _ _ _ _ _ _ Hm)|exact (mv_posted _ _ _ _ _ _ _ Hm)|..]; cbn [lg_workers lg_owner].
      + intros i a' []%elem_of_nil.
      + reflexivity.
      + rewrite T, app_nil_r. exact HF'.
      + auto.
      + auto.
      + intros i t Hi. rewrite lookup_deletes. split; [tauto|]. intros E. split; [|exact E]. intros Ht. rewrite (Ho _ Ht) in E. congruence.
      + intros i t Hi E. rewrite T. reflexivity.
      + intros t i. rewrite CL. auto.
      + intros i z Hz. cbn. rewrite CL, app_nil_r. exact (gl_client H _ _ Hz).
      + intros t i _. rewrite CL. auto.
    - (* a heartbeat *)
      pose proof (effect_heartbeat _ _ _ _ _ _ _ _ HF) as HF'.
      destruct (round_heartbeat xt s false g now codes Hc Hpk w h eq_refl Htext) as (Hm & T & CL & _).
      destruct (Hown MHeartbeatEcho I) as (O1 & O2 & O3 & O4).
      eapply Hgo; [exact (mv_core _ _ _ _ _ _ _ Hm)|exact (mv_posted _ _ _ _ _ _ _ Hm)|exact O1|exact O2|..]; cbn [lg_workers lg_owner].
      + rewrite T, O4. rewrite <- (app_nil_r (_ ++ [_])). eapply effect_none; [exact HF'|constructor|set_solver|reflexivity|reflexivity].
      + intros w'. rewrite elem_of_union, elem_of_singleton. tauto.
      + intros w'. rewrite elem_of_union, elem_of_singleton. tauto.
      + reflexivity.
      + intros i t Hi E. rewrite T. reflexivity.
      + intros t i. rewrite CL. auto.
      + intros i z Hz. rewrite CL, (O3 i z Hz). cbn. rewrite app_nil_r. exact (gl_client H _ _ Hz).
      + intros t i _. rewrite CL. auto.
    - (* a function is asked for *)
      destruct (effect_request _ _ _ _ _ _ _ _ _ "" "" _ _ HF) as (-> & (k & Hk1 & Hk2 & Hk3) & _).
      assert (Hfn : is_Some (s_funcs s !! f)) by (rewrite <- Hk3; exact (c_fn _ _ _ _ _ Hc _ _ Hk2)).
      destruct (round_request xt s false g now codes Hc Hpk Hq w f n ct Hfn) as (n' & ct' & Hm & T & CL & _).
      destruct (effect_request _ _ _ _ _ _ _ _ _ n' ct' _ _ HF) as (_ & _ & HF').
      destruct (Hown (MFunctionResponse FnOK f n' ct') I) as (O1 & O2 & O3 & O4).
      eapply Hgo; [exact (mv_core _ _ _ _ _ _ _ Hm)|exact (mv_posted _ _ _ _ _ _ _ Hm)|exact O1|exact O2|..].
      + rewrite T, O4. exact HF'.
      + auto.
      + auto.
      + reflexivity.
      + intros i t Hi E. rewrite T. reflexivity.
      + intros t i. rewrite CL. auto.
      + intros i z Hz. rewrite CL, (O3 i z Hz). cbn. rewrite app_nil_r. exact (gl_client H _ _ Hz).
      + intros t i _. rewrite CL. auto.
  Qed.
End receive.

(** ** The loops of the scheduler *)
Section loops.
  Context (cfg : config) {Gn : gset bytes} (X : gset bytes) (g : ledger) (y : system) (now : Z) (codes : list (list nat)).
  Context (H : gflowd cfg Gn X g y) (Hmax : c_max_waiting cfg < 0).
  Notation s := (y_sched y).
  Notation pk := (undispatched (s_log s)).
  (** Messages to workers. *)
  Lemma loop_go ev out pk' xt0 g' : ok cfg (set_sched (step s (Round now codes ev)) y) → (∀ i m, ev ≠ ERecv i m) →
    polite_graphs utf8 (s_log s) (LIn now ev) → moved xt0 s ev out pk' g' (step s (Round now codes ev)) → lg_workers g' = lg_workers g → (∀ w m, (w, m) ∈ out → w ∈ lg_workers g ∧ match m with MGraphTask _ _ _ _ | MGraphTaskResult _ _ _ | MTaskEcho _ _ => False | _ => True end) →
    o_v2k (s_clients (step s (Round now codes ev))) = o_v2k (s_clients s) →
    (∀ w x, y_workers y !! w = Some x → w ∉ Gn → worker_flow (s_tasks (step s (Round now codes ev))) (lg_owner g') (w ∈ lg_workers g) w x (to_scheduler y w) (to_agent y w x ++ for_part w out)) →
    gflowd cfg Gn X g' (set_sched (step s (Round now codes ev)) y).
  Proof.
    intros Hok Hev Hp Hm Ew Hout CL HW. assert (Hr : ∀ i, rcvd i ev = []). { intros i. destruct ev as [j m| | | | |]; try reflexivity. by destruct (Hev j m). }
    destruct (next_fine _ _ _ _ (Round now codes ev) _ _ _ H Hmax Hp (mv_core _ _ _ _ _ _ _ Hm)) as (xt' & O' & W').
    eapply gflow_sched; [exact H|exact Hok|exact Hp|exact O'|exact W'|exact (mv_posted _ _ _ _ _ _ _ Hm)|..].
    - intros j m E. cbn in E. by destruct (Hev j m).
    - intros i m [Hi _]%Hout. destruct (gl_known H _ Hi) as [x Hx]. eapply used_worker, Hx.
    - rewrite Ew. intros w Hw. exact (gl_known H w Hw).
    - rewrite Ew. exact (gl_gone H).
    - intros t c. rewrite CL. exact (gl_cl H t c).
    - intros c x Hx. cbn [rd_event]. exists (to_scheduler y c). rewrite Hr, CL. split; [reflexivity|].
      assert (E : for_part c out = []). { apply for_part_nil. intros j m Hi ->. destruct (Hout _ _ Hi) as [Hi' _]. destruct (gl_known H _ Hi') as [z Hz]. destruct (ok_apart _ _ (gl_ok H) _ _ _ Hx Hz). }
      rewrite E. cbn. rewrite app_nil_r. exact (gl_client H c x Hx).
    - intros w x Hx HG. cbn [rd_event]. exists (to_scheduler y w). rewrite Hr, Ew. split; [reflexivity|]. exact (HW _ _ Hx HG).
    - intros i m Hi. destruct (Hout _ _ Hi) as [_ Hm']. destruct m; done.
    - intros t i _. rewrite CL. auto.
  Qed.
  Lemma loop_chat ev out pk' xt0 : ok cfg (set_sched (step s (Round now codes ev)) y) → (∀ i m, ev ≠ ERecv i m) → polite_graphs utf8 (s_log s) (LIn now ev) →
    moved xt0 s ev out pk' g (step s (Round now codes ev)) → (∀ w m, (w, m) ∈ out → w ∈ lg_workers g ∧ chatter m) →
    s_tasks (step s (Round now codes ev)) = s_tasks s → o_v2k (s_clients (step s (Round now codes ev))) = o_v2k (s_clients s) →
    gflowd cfg Gn X g (set_sched (step s (Round now codes ev)) y).
  Proof.
    intros Hok Hev Hp Hm Hout T CL. eapply loop_go; [exact Hok|exact Hev|exact Hp|exact Hm|reflexivity| |exact CL|].
    - intros w m [H1 H2]%Hout. split; [exact H1|]. destruct m; done.
    - intros w x Hx HG. rewrite T. eapply effect_none; [exact (gl_worker_but H w x Hx HG)| |auto|reflexivity|reflexivity]. apply Forall_forall. intros m Hi%elem_of_for_part. exact (proj2 (Hout _ _ Hi)).
  Qed.
  Lemma loop_graph : ok cfg (set_sched (step s (Round now codes EGraph)) y) → gflowd cfg Gn X g (set_sched (step s (Round now codes EGraph)) y).
  Proof.
    intros Hok. destruct (gl_fine H) as (xt & O & W). pose proof O as [Hc Hq]. destruct (x_queue xt) as [|[c gt] Q] eqn:EQ.
    - destruct (round_quiet xt s pk g now codes Hc eq_refl Hq EGraph ltac:(auto)) as (Hm & T & CL & _).
      eapply loop_chat; [exact Hok|discriminate|exact I|exact Hm|intros w m []%elem_of_nil|exact T|exact CL].
    - destruct (round_begin xt g s now codes O W ltac:(rewrite (cfg_of _ _ _ _ H); exact Hmax) c gt Q EQ) as ((xt0 & Hc0) & out & Hns).
      destruct (world_queue cfg X y (gl_ok H) (λ t, proj2 (gl_names H t)) (gl_graphs H) _ _ W c gt ltac:(rewrite EQ; left)) as [Hids Hcl].
      eapply (nodes_go _ _ _ _ H Hmax _ _ _ _ _ (Round now codes EGraph)); [exact Hok|exact (proj1 Hc0)|exact I|exact Hns|exact Hids|exact Hcl|reflexivity|discriminate|].
      intros w x Hx HG'. exists (to_scheduler y w). split; [reflexivity|]. rewrite <- (app_nil_r (to_agent _ _ _)). eapply effect_none; [exact (gl_worker_but H w x Hx HG')|constructor|auto|reflexivity|].
      intros t Ht. destruct (task_owner y _ _ O _ _ Ht) as [k Hk]. rewrite Hk. eapply ns_old; [exact Hns|exact Hk|discriminate].
  Qed.
  Lemma loop_status : ok cfg (set_sched (step s (Round now codes EStatus)) y) → gflowd cfg Gn X g (set_sched (step s (Round now codes EStatus)) y).
  Proof.
    intros Hok. destruct (gl_fine H) as (xt & [Hc Hq] & W). destruct (round_quiet xt s pk g now codes Hc eq_refl Hq EStatus ltac:(auto)) as (Hm & T & CL & _).
    eapply loop_chat; [exact Hok|discriminate|exact I|exact Hm|intros w m []%elem_of_nil|exact T|exact CL].
  Qed.
  Lemma loop_functions : ok cfg (set_sched (step s (Round now codes EFunctions)) y) → gflowd cfg Gn X g (set_sched (step s (Round now codes EFunctions)) y).
  Proof.
    intros Hok. destruct (gl_fine H) as (xt & [Hc Hq] & W). destruct (round_functions xt s pk g now codes Hc eq_refl Hq) as (out & Hm & Ho & T & CL).
    eapply loop_chat; [exact Hok|discriminate|exact I|exact Hm| |exact T|exact CL]. intros w m (Hw & f & ->)%Ho. split; [exact Hw|reflexivity].
  Qed.
  Lemma loop_workers : ok cfg (set_sched (step s (Round now codes EWorkers)) y) → pk = false → (∀ w, ¬ silent (c_timeout cfg) now (s_log s) w) →
    gflowd cfg Gn X g (set_sched (step s (Round now codes EWorkers)) y).
  Proof.
    intros Hok Hu Hs. destruct (gl_fine H) as (xt & [Hc Hq] & W). destruct (ok_run _ _ (gl_ok H)) as [rs Hrs].
    destruct (round_workers xt s pk g now codes Hc eq_refl Hq Hu) as (out & Hm & Ho & T & CL & _).
    { rewrite (cfg_of _ _ _ _ H). intros w p Hp Ht. apply (Hs w). pose proof (silent_iff cfg rs now w) as Hi. rewrite <- Hrs in Hi. apply Hi; [exact (c_dead _ _ _ _ _ Hc)|eauto]. }
    eapply loop_chat; [exact Hok|discriminate|exact Hu|exact Hm| |exact T|exact CL]. intros w m (Hw & n & Hn & ->)%Ho. split; [exact Hw|exact Hn].
  Qed.
  Lemma loop_dispatch : ok cfg (set_sched (step s (Round now codes EDispatch)) y) → ∃ g', gflowd cfg Gn X g' (set_sched (step s (Round now codes EDispatch)) y).
  Proof.
    intros Hok. destruct (gl_fine H) as (xt & [Hc Hq] & W). destruct (round_dispatch xt s pk g now codes Hc eq_refl Hq) as (T & CL & F & [(Hm & Hwhy)|(k & w & Hwk & Hk & Hn & Hw & Hm)]).
    - exists g. eapply loop_chat; [exact Hok|discriminate|exact I|exact Hm|intros i m []%elem_of_nil|exact T|exact CL].
    - eexists. eapply loop_go; [exact Hok|discriminate|exact I|exact Hm|reflexivity| |exact CL|].
      + intros i m [= -> ->]%elem_of_list_singleton. auto.
      + intros i z Hz HG. rewrite T, for_part_one. destruct (String.eqb_spec w i) as [<-|Hi].
        * eapply effect_task; [exact (gl_worker_but H w z Hz HG)|exact Hn|exact Hk].
        * eapply effect_none; [exact (gl_worker_but H i z Hz HG)|constructor|auto| |reflexivity]. intros t. cbn. rewrite lookup_insert_Some. split; [intros [[_ ?]|[_ ?]]; congruence|]. intros E. right. split; [|exact E]. intros <-. congruence.
  Qed.
End loops.

(** ** Steps of clients and workers *)
Lemma flow_grow X X' CL c x Q1 Q2 : client_flow (off X CL) c x (plain X Q1) (plain X Q2) → X ⊆ X' → (∀ t, t ∈ subs x.2 → t ∉ X') →
  client_flow (off X' CL) c x (plain X' Q1) (plain X' Q2).
Proof.
  intros HF Hs Hn. pose proof (flow_ids _ _ _ _ _ HF) as (I1 & I2 & _).
  assert (E2 : plain X' Q2 = plain X Q2).
  { apply plain_grow; [exact Hs|]. intros m Hm. pose proof (I1 _ Hm) as Hi. apply plain_in in Hm as [_ Hk]. destruct m; try exact Hk; cbn; apply bool_decide_eq_true_2, Hn, Hi. }
  assert (E1 : plain X' Q1 = plain X Q1).
  { apply plain_grow; [exact Hs|]. intros m Hm. destruct HF as (F & B & A & D & HC). pose proof (ko_cs HC) as Hcs. rewrite Forall_forall in Hcs. specialize (Hcs _ Hm). destruct m; done. }
  rewrite E1, E2. eapply effect_other; [exact HF|]. intros t. rewrite !off_Some. split; [intros [Ht E]; split; [set_solver|exact E]|]. intros [Ht E]. split; [|exact E]. apply Hn, I2, off_Some. auto.
Qed.
Section parts.
  Context (cfg : config) {Gn : gset bytes} (X : gset bytes) (g : ledger) (y : system) (H : gflowd cfg Gn X g y).
  Lemma client_moves X' c x x' out hd Q : y_clients y !! c = Some x → ok cfg (set_client c x' y) → (∃ l, x'.2 = x.2 ++ l) →
    client_sent x'.2 = client_sent x.2 ++ out → client_heard x'.2 = client_heard x.2 ++ hd → to_client y c = hd ++ Q →
    X ⊆ X' → (∀ t, t ∈ X' ↔ of_graph (set_client c x' y) t) → (∀ i z t, i ≠ c → y_clients y !! i = Some z → t ∈ subs z.2 → t ∉ X') → (∀ t, t ∈ subs x'.2 → t ∉ X') →
    (∀ t, t ∈ subs x'.2 → t ∉ subs x.2 → ∀ i z, y_clients y !! i = Some z → t ∉ subs z.2) →
    client_flow (off X' (the_clients y)) c x' (plain X' (to_scheduler y c ++ out)) (plain X' Q) → graphs_ok x' →
    (∀ m t, m ∈ out → is_graph m → named t m → t ∉ X) → (∀ m m', m ∈ out → m' ∈ out → m = m' ∨ ¬ is_graph m) →
    (∀ t, t ∈ results hd → t ∈ X ∨ ∃ v, CSet (FTask t) v ∈ x'.2) →
    gflowd cfg Gn X' g (set_client c x' y).
  Proof.
    intros Hx Hok [l El] Hs Hh HQ HXX HX HsX HsX' Hn HF HG Hnew Huniq Hres. pose proof (not_worker _ _ _ _ (gl_ok H) Hx) as Hw.
    assert (Ep : sent_by_part (set_client c x' y) c = sent_by_part y c ++ out) by (unfold sent_by_part; cbn; rewrite lookup_insert, Hx; exact Hs).
    assert (E1 : to_scheduler (set_client c x' y) c = to_scheduler y c ++ out) by (unfold to_scheduler; rewrite Ep; apply on_the_way_sent, (gl_heard H c)).
    pose proof HQ as HQ0. unfold to_client, history_of in HQ. rewrite Hx in HQ. destruct (on_the_way_grow _ _ _ _ [] (gl_clen H c x Hx) HQ) as [G1 G2]. rewrite app_nil_r in G1. rewrite !app_nil_r in G2.
    assert (E2 : to_client (set_client c x' y) c = Q) by (unfold to_client, history_of; cbn; rewrite lookup_insert, Hh; exact G2).
    assert (Hcase : ∀ i z, <[c:=x']> (y_clients y) !! i = Some z → i = c ∧ z = x' ∨ i ≠ c ∧ y_clients y !! i = Some z).
    { intros j u Hu. destruct (decide (j = c)) as [->|Hj]; [rewrite lookup_insert in Hu; injection Hu as <-; auto|rewrite lookup_insert_ne in Hu by done; auto]. }
    assert (Hold : ∀ i z m t, y_clients y !! i = Some z → COut m ∈ z.2 → is_graph m → named t m → t ∈ X) by (intros i z m t; apply (sent_names X y (λ t, proj2 (gl_names H t)) (gl_graphs H))).
    assert (Hsent : ∀ m, COut m ∈ x'.2 → COut m ∈ x.2 ∨ m ∈ out). { intros m Hm. apply sent_in in Hm. rewrite Hs in Hm. apply elem_of_app in Hm as [Hm|Hm]; [left; apply sent_in, Hm|auto]. }
    split; try (destruct H; assumption); auto.
    - intros i. rewrite (unused_client y c x i Hx). exact (gl_text H i).
    - intros i. rewrite (unused_client y c x i Hx). exact (gl_fresh H i).
    - intros i. destruct (decide (i = c)) as [->|Hi]; [rewrite Ep; apply prefix_app_r, (gl_prefix H c)|rewrite part_client by done; exact (gl_prefix H i)].
    - cbn. intros i z [[-> ->]|[Hi Hz]]%Hcase; [rewrite Hh; exact G1|exact (gl_clen H i z Hz)].
    - intros t i Ht. cbn. destruct (decide (i = c)) as [->|Hi]; [rewrite lookup_insert; eauto|rewrite lookup_insert_ne by done; exact (gl_cl H t i Ht)].
    - cbn. intros i i' z z' t [[-> ->]|[Hi Hz0]]%Hcase [[-> ->]|[Hi' Hz0']]%Hcase Ht Ht'; [reflexivity|..].
      + destruct (decide (t ∈ subs x.2)) as [Hi0|Hi0]; [exact (gl_apart H _ _ _ _ _ Hx Hz0' Hi0 Ht')|by destruct (Hn t Ht Hi0 _ _ Hz0')].
      + destruct (decide (t ∈ subs x.2)) as [Hi0|Hi0]; [exact (gl_apart H _ _ _ _ _ Hz0 Hx Ht Hi0)|by destruct (Hn t Ht' Hi0 _ _ Hz0)].
      + exact (gl_apart H _ _ _ _ _ Hz0 Hz0' Ht Ht').
    - cbn [y_clients set_client y_sched]. intros i z [[-> ->]|[Hi Hz]]%Hcase; [rewrite E1, E2; exact HF|].
      destruct (queue_other_client y c x' i Hi) as [-> ->]. eapply flow_grow; [exact (gl_client H i z Hz)|exact HXX|eauto].
    - cbn [y_workers set_client y_sched]. intros w z Hz. assert (w ≠ c) by congruence. rewrite (proj1 (queue_other_client y c x' w ltac:(done))). exact (gl_worker_but H w z Hz).
    - cbn. intros i z t [[-> ->]|[Hi Hz]]%Hcase; eauto.
    - cbn. intros i z [[-> ->]|[Hi Hz]]%Hcase; [exact HG|exact (gl_graphs H _ _ Hz)].
    - cbn. intros i i' z z' m m' t [[-> ->]|[Hi Hz]]%Hcase [[-> ->]|[Hi' Hz']]%Hcase Hm Hm' Hg Hg' Ht Ht'.
      + destruct (Hsent _ Hm) as [Hm1|Hm1], (Hsent _ Hm') as [Hm2|Hm2].
        * exact (gl_once H _ _ _ _ _ _ _ Hx Hx Hm1 Hm2 Hg Hg' Ht Ht').
        * destruct (Hnew _ _ Hm2 Hg' Ht'). eauto.
        * destruct (Hnew _ _ Hm1 Hg Ht). eauto.
        * destruct (Huniq _ _ Hm1 Hm2) as [?|[]]; [auto|exact Hg].
      + destruct (Hsent _ Hm) as [Hm1|Hm1]; [exact (gl_once H _ _ _ _ _ _ _ Hx Hz' Hm1 Hm' Hg Hg' Ht Ht')|]. destruct (Hnew _ _ Hm1 Hg Ht). eauto.
      + destruct (Hsent _ Hm') as [Hm1|Hm1]; [exact (gl_once H _ _ _ _ _ _ _ Hz Hx Hm Hm1 Hg Hg' Ht Ht')|]. destruct (Hnew _ _ Hm1 Hg' Ht'). eauto.
      + exact (gl_once H _ _ _ _ _ _ _ Hz Hz' Hm Hm' Hg Hg' Ht Ht').
    - intros i t Ha. destruct (gl_accepted H i t Ha) as [?|(z & Hz & Hc)]; [left; auto|]. cbn [y_clients set_client y_sched]. destruct (decide (i = c)) as [->|Hi].
      + rewrite Hx in Hz. injection Hz as <-. rewrite lookup_insert. destruct Hc as [Hc|[Hc|[v Hc]]].
        * right. exists x'. auto.
        * rewrite HQ0, results_app in Hc. apply elem_of_app in Hc as [Hc|Hc]; [destruct (Hres _ Hc); [left; auto|right; exists x'; auto]|]. right. exists x'. rewrite E2. auto.
        * right. exists x'. split; [reflexivity|]. right. right. exists v. rewrite El. apply elem_of_app. auto.
      + rewrite lookup_insert_ne by done. right. exists z. split; [exact Hz|]. rewrite (proj2 (queue_other_client y c x' i Hi)). exact Hc.
  Qed.
  Lemma worker_moves w x x' out hd Q : y_workers y !! w = Some x → ok cfg (set_worker w x' y) →
    agent_sent (n_history x') = agent_sent (n_history x) ++ out → agent_heard (n_history x') = agent_heard (n_history x) ++ hd → to_agent y w x = hd ++ Q →
    worker_flow (s_tasks (y_sched y)) (lg_owner g) (w ∈ lg_workers g) w x' (to_scheduler y w ++ out) Q →
    gflowd cfg Gn X g (set_worker w x' y).
  Proof.
    intros Hx Hok Hs Hh HQ HF. pose proof (not_client _ _ _ _ (gl_ok H) Hx) as Hc.
    assert (Ep : sent_by_part (set_worker w x' y) w = sent_by_part y w ++ out) by (unfold sent_by_part; cbn; rewrite lookup_insert, Hx, Hc; exact Hs).
    assert (E1 : to_scheduler (set_worker w x' y) w = to_scheduler y w ++ out) by (unfold to_scheduler; rewrite Ep; apply on_the_way_sent, (gl_heard H w)).
    destruct (on_the_way_grow _ _ _ _ [] (gl_wlen H w x Hx) HQ) as [G1 G2]. rewrite app_nil_r in G1. rewrite !app_nil_r in G2.
    assert (E2 : to_agent (set_worker w x' y) w x' = Q) by (unfold to_agent; rewrite Hh; exact G2).
    split; try (destruct H; assumption); auto.
    - cbn. intros i Hi. destruct (decide (i = w)) as [->|Hne]; [rewrite lookup_insert; eauto|rewrite lookup_insert_ne by done; exact (gl_known H i Hi)].
    - intros i. rewrite (unused_worker y w x i Hx). exact (gl_text H i).
    - intros i. rewrite (unused_worker y w x i Hx). exact (gl_fresh H i).
    - intros i. destruct (decide (i = w)) as [->|Hi]; [rewrite Ep; apply prefix_app_r, (gl_prefix H w)|rewrite part_worker by done; exact (gl_prefix H i)].
    - cbn. intros i z. destruct (decide (i = w)) as [->|Hi]; [rewrite lookup_insert; intros [= <-]; rewrite Hh; exact G1|rewrite lookup_insert_ne by done; exact (gl_wlen H i z)].
    - cbn [y_clients set_worker y_sched]. intros c z Hz. assert (c ≠ w) by congruence. rewrite (queue_other_worker y w x' c ltac:(done)). exact (gl_client H c z Hz).
    - cbn [y_workers set_worker y_sched]. intros i HX. destruct (gl_gone H _ HX) as (G3 & G4). split; [exact G3|]. destruct (decide (i = w)) as [->|Hi]; [rewrite lookup_insert; eauto|rewrite lookup_insert_ne by done; exact G4].
    - cbn [y_workers set_worker y_sched]. intros i z. destruct (decide (i = w)) as [->|Hi]; [rewrite lookup_insert; intros [= <-] _; rewrite E1, E2; exact HF|].
      rewrite lookup_insert_ne by done. rewrite (queue_other_worker y w x' i Hi). exact (gl_worker_but H i z).
  Qed.
End parts.

(** ** New parts *)
Section newcomers.
  Context (cfg : config) {Gn : gset bytes} (X : gset bytes) (g : ledger) (y : system) (H : gflowd cfg Gn X g y) (i : bytes) (Hu : unused y i = true) (Ht : utf8 i = true).
  Lemma not_a_client : y_clients y !! i = None.
  Proof. exact (proj1 (ok_unused _ _ _ (gl_ok H) Hu)). Qed.
  Lemma not_a_worker : y_workers y !! i = None.
  Proof. exact (proj2 (ok_unused _ _ _ (gl_ok H) Hu)). Qed.
  Lemma new_client : ok cfg (set_client i (k_init, []) y) → gflowd cfg Gn X g (set_client i (k_init, []) y).
  Proof.
    intros Hok. pose proof not_a_client as Hc. pose proof not_a_worker as Hw. destruct (gl_fresh H i Hu) as [F1 F2].
    assert (Hun : ∀ j, unused (set_client i (k_init, []) y) j = if decide (j = i) then false else unused y j).
    { intros j. unfold unused. cbn. destruct (decide (j = i)) as [->|Hj]; [rewrite lookup_insert; reflexivity|rewrite lookup_insert_ne by done; reflexivity]. }
    assert (Hcase : ∀ j z, <[i:=(k_init, [])]> (y_clients y) !! j = Some z → j = i ∧ z = (k_init, []) ∨ j ≠ i ∧ y_clients y !! j = Some z).
    { intros j u Hj. destruct (decide (j = i)) as [->|Hne]; [rewrite lookup_insert in Hj; injection Hj as <-; auto|rewrite lookup_insert_ne in Hj by done; auto]. }
    split; try (destruct H; assumption); auto.
    - intros j. rewrite Hun. destruct (decide (j = i)) as [->|]; [intros _; exact Ht|exact (gl_text H j)].
    - intros j. rewrite Hun. destruct (decide (j = i)) as [->|]; [discriminate|exact (gl_fresh H j)].
    - intros j. destruct (decide (j = i)) as [->|Hj]; [cbn; rewrite F2; apply prefix_nil|rewrite part_client by done; exact (gl_prefix H j)].
    - cbn. intros j z [[-> ->]|[Hj Hz]]%Hcase; [cbn; lia|exact (gl_clen H j z Hz)].
    - intros t j Hj. cbn. destruct (decide (j = i)) as [->|Hne]; [rewrite lookup_insert; eauto|rewrite lookup_insert_ne by done; exact (gl_cl H t j Hj)].
    - cbn. intros j j' z z' t [[-> ->]|[Hj Hz]]%Hcase [[-> ->]|[Hj' Hz']]%Hcase Hi Hi'; try (by apply elem_of_nil in Hi); try (by apply elem_of_nil in Hi').
      exact (gl_apart H _ _ _ _ _ Hz Hz' Hi Hi').
    - cbn [y_clients set_client y_sched]. intros j z [[-> ->]|[Hj Hz]]%Hcase.
      + unfold to_scheduler, to_client, history_of, sent_by_part. cbn. rewrite lookup_insert, F1, F2. cbn.
        apply client_new. intros t [_ Hi]%off_Some. destruct (gl_cl H t i Hi) as [z Hz]. congruence.
      + destruct (queue_other_client y i (k_init, []) j Hj) as [-> ->]. exact (gl_client H j z Hz).
    - cbn [y_workers set_client y_sched]. intros w z Hz. assert (w ≠ i) by congruence. rewrite (proj1 (queue_other_client y i (k_init, []) w ltac:(done))). exact (gl_worker_but H w z Hz).
    - intros t. rewrite (gl_names H t). assert (Eh : ∀ j, history_of (set_client i (k_init, []) y) j = history_of y j).
      { intros j. unfold history_of. cbn. destruct (decide (j = i)) as [->|Hj]; [rewrite lookup_insert, Hc; reflexivity|rewrite lookup_insert_ne by done; reflexivity]. }
      unfold of_graph. split; intros (c & m & n & Hm & Hn); exists c, m, n; rewrite Eh in *; auto.
    - cbn. intros j z t [[-> ->]|[Hj Hz]]%Hcase; [intros []%elem_of_nil|exact (gl_subs H _ _ _ Hz)].
    - cbn. intros j z [[-> ->]|[Hj Hz]]%Hcase; [exact graphs_new|exact (gl_graphs H _ _ Hz)].
    - cbn. intros j j' z z' m m' t [[-> ->]|[Hj Hz]]%Hcase [[-> ->]|[Hj' Hz']]%Hcase Hi Hi'; try (by apply elem_of_nil in Hi); try (by apply elem_of_nil in Hi').
      exact (gl_once H _ _ _ _ _ _ _ Hz Hz' Hi Hi').
    - intros c t Ha. destruct (gl_accepted H c t Ha) as [?|(z & Hz & Hcs)]; [auto|]. right. exists z. assert (c ≠ i) by congruence. cbn. rewrite lookup_insert_ne by done. split; [exact Hz|].
      rewrite (proj2 (queue_other_client y i (k_init, []) c ltac:(done))). exact Hcs.
  Qed.
  Lemma new_worker death now retention : ok cfg (act y (NewWorker i death now retention)) → gflowd cfg Gn X g (act y (NewWorker i death now retention)).
  Proof.
    intros Hok. pose proof not_a_client as Hc. pose proof not_a_worker as Hw. destruct (gl_fresh H i Hu) as [F1 F2]. destruct (gl_fine H) as (xt & O & W).
    assert (Ho : ∀ t, lg_owner g !! t ≠ Some i). { intros t Hi. pose proof (known_owner y _ _ O _ _ Hi) as Hi'. destruct (gl_known H _ Hi') as [z Hz]. congruence. }
    pose proof (worker_new (s_tasks (y_sched y)) (lg_owner g) (i ∈ lg_workers g) i death now retention Ho) as HF.
    cbn [act] in Hok |- *. rewrite Hu in Hok |- *. destruct (w_init i death now) as [a h] eqn:Ew. destruct (p_init retention) as [p out] eqn:Ep.
    set (x := Node a h p out retention) in *.
    assert (Hh : agent_heard h = []) by (cbn in Ew; injection Ew as _ <-; reflexivity).
    assert (Hun : ∀ j, unused (set_worker i x y) j = if decide (j = i) then false else unused y j).
    { intros j. unfold unused. cbn. destruct (decide (j = i)) as [->|Hj]; [rewrite lookup_insert, andb_false_r; reflexivity|rewrite lookup_insert_ne by done; reflexivity]. }
    split; try (destruct H; assumption); auto.
    - cbn. intros j Hj. destruct (decide (j = i)) as [->|Hne]; [rewrite lookup_insert; eauto|rewrite lookup_insert_ne by done; exact (gl_known H j Hj)].
    - intros j. rewrite Hun. destruct (decide (j = i)) as [->|]; [intros _; exact Ht|exact (gl_text H j)].
    - intros j. rewrite Hun. destruct (decide (j = i)) as [->|]; [discriminate|exact (gl_fresh H j)].
    - intros j. destruct (decide (j = i)) as [->|Hj]; [cbn; rewrite F2; apply prefix_nil|rewrite part_worker by done; exact (gl_prefix H j)].
    - cbn [y_workers set_worker y_sched]. intros j z. destruct (decide (j = i)) as [->|Hj]; [rewrite lookup_insert; intros [= <-]; change (n_history x) with h; rewrite Hh; cbn; lia|rewrite lookup_insert_ne by done; exact (gl_wlen H j z)].
    - cbn [y_clients set_worker y_sched]. intros c z Hz. assert (c ≠ i) by congruence. rewrite (queue_other_worker y i x c ltac:(done)). exact (gl_client H c z Hz).
    - cbn [y_workers set_worker y_sched]. intros j HX. destruct (gl_gone H _ HX) as (G3 & G4). split; [exact G3|]. destruct (decide (j = i)) as [->|Hj]; [rewrite lookup_insert; eauto|rewrite lookup_insert_ne by done; exact G4].
    - cbn [y_workers set_worker y_sched]. intros j z. destruct (decide (j = i)) as [->|Hj].
      + rewrite lookup_insert. intros [= <-] _. unfold to_scheduler, to_agent, sent_by_part. cbn [y_clients y_workers set_worker y_sched]. rewrite lookup_insert, Hc. change (n_history x) with h. rewrite F1, F2, Hh. exact HF.
      + rewrite lookup_insert_ne by done. rewrite (queue_other_worker y i x j Hj). exact (gl_worker_but H j z).
  Qed.
End newcomers.

(** ** Every orderly action *)
Lemma gflow_boot cfg : gflow cfg ∅ lg_empty (boot cfg).
Proof.
  split; cbn; try (intros *; rewrite ?lookup_empty; discriminate).
  - apply boot_ok.
  - destruct (fine_start cfg) as (xt & g & O & W). exists xt. assert (E : g = lg_empty); [|subst g; auto]. exact (ledger_run cfg [] xt _ g (proj1 O)).
  - done.
  - intros i. apply prefix_nil.
  - intros t. split; [intros []%elem_of_empty|]. intros (c & m & n & Hm & _). unfold history_of in Hm. cbn in Hm. rewrite lookup_empty in Hm. by apply elem_of_nil in Hm.
  - intros c m []%elem_of_nil.
  - intros c t []%elem_of_nil.
  - intros [|? ?] e0 after E0; discriminate.
Qed.
Lemma plain_id X q : Forall from_client q → plain X q = q.
Proof. induction 1 as [|m q Hm _ IH]; [reflexivity|]. rewrite plain_cons, IH. by destruct m. Qed.
Lemma flow_out CL c x Q out Q' : client_flow CL c x (Q ++ out) Q' → Forall from_client out.
Proof. intros (F & B & A & D & H). pose proof (ko_cs H) as Hcs. apply Forall_app in Hcs. tauto. Qed.
Lemma from_client_plain m : from_client m → ¬ is_graph m.
Proof. destruct m; try done; intros _ [? ?]; discriminate. Qed.

Section gactions.
  Context (cfg : config) {Gn : gset bytes} (X : gset bytes) (g : ledger) (y : system) (H : gflowd cfg Gn X g y).
  Lemma gact_step a : ok cfg (act y a).
  Proof. apply act_ok, (gl_ok H). Qed.
  Lemma of_graph_step c x x' l t : y_clients y !! c = Some x → x'.2 = x.2 ++ l → of_graph (set_client c x' y) t ↔ of_graph y t ∨ ∃ m n, CIn (KGraph m n) ∈ l ∧ named t m.
  Proof.
    intros Hx El. unfold of_graph, history_of. cbn. split.
    - intros (i & m & n & Hm & Ht). destruct (decide (i = c)) as [->|Hi].
      + rewrite lookup_insert, El in Hm. apply elem_of_app in Hm as [Hm|Hm]; [|eauto]. left. exists c, m, n. rewrite Hx. auto.
      + rewrite lookup_insert_ne in Hm by done. left. exists i, m, n. auto.
    - intros [(i & m & n & Hm & Ht)|(m & n & Hm & Ht)].
      + exists i, m, n. split; [|exact Ht]. destruct (decide (i = c)) as [->|Hi]; [rewrite lookup_insert, El; rewrite Hx in Hm; apply elem_of_app; auto|rewrite lookup_insert_ne by done; exact Hm].
      + exists c, m, n. split; [|exact Ht]. rewrite lookup_insert, El. apply elem_of_app. auto.
  Qed.
  (** No new graph. *)
  Lemma client_quiet c x e out hd Q : y_clients y !! c = Some x → ok cfg (set_client c (k_step x e) y) → (k_step x e).2 = x.2 ++ CIn e :: out →
    match e with KGraph _ _ => False | _ => True end → (∀ e', CIn e' ∉ out) →
    client_heard (k_step x e).2 = client_heard x.2 ++ hd → to_client y c = hd ++ Q →
    (∀ t, t ∈ subs (k_step x e).2 → t ∉ subs x.2 → t ∉ X ∧ ∀ i z, y_clients y !! i = Some z → t ∉ subs z.2) →
    client_flow (off X (the_clients y)) c (k_step x e) (plain X (to_scheduler y c) ++ client_sent out) (plain X Q) → graphs_ok (k_step x e) →
    (∀ t, t ∈ results hd → t ∈ X ∨ ∃ v, CSet (FTask t) v ∈ (k_step x e).2) →
    gflowd cfg Gn X g (set_client c (k_step x e) y).
  Proof.
    intros Hx Hok El He Hin Hh HQ Hn HF HG Hres. pose proof (flow_out _ _ _ _ _ _ HF) as Hfc.
    assert (Es : client_sent (k_step x e).2 = client_sent x.2 ++ client_sent out) by (rewrite El; apply sent_app).
    eapply (client_moves _ _ _ _ H X c x (k_step x e) (client_sent out) hd Q Hx Hok); [eauto|exact Es|exact Hh|exact HQ|reflexivity|..].
    - intros t. rewrite (of_graph_step _ _ _ _ t Hx El), (gl_names H t). split; [auto|]. intros [?|(m & n & [E|Hm]%elem_of_cons & _)]; [assumption|injection E as <-; done|by apply Hin in Hm].
    - intros i z t _ Hz. exact (gl_subs H _ _ _ Hz).
    - intros t Ht. destruct (decide (t ∈ subs x.2)) as [Hi|Hi]; [exact (gl_subs H _ _ _ Hx Hi)|exact (proj1 (Hn _ Ht Hi))].
    - intros t Ht Hi. exact (proj2 (Hn _ Ht Hi)).
    - rewrite plain_app, (plain_id _ _ Hfc). exact HF.
    - exact HG.
    - intros m t Hm Hg. rewrite Forall_forall in Hfc. destruct (from_client_plain _ (Hfc _ Hm) Hg).
    - intros m m' Hm _. right. rewrite Forall_forall in Hfc. apply from_client_plain, Hfc, Hm.
    - exact Hres.
  Qed.
  Lemma kstep_in x e out : (k_step x e).2 = x.2 ++ CIn e :: out → ∀ e', CIn e' ∉ out.
  Proof.
    destruct x as [k h]. unfold k_step. destruct (k_handle e k) as [k' o] eqn:E. pose proof (ClientProofs.k_handle_out e k) as Ho. rewrite E in Ho. cbn [snd fst] in *. intros Eh%app_inv_head. injection Eh as <-.
    intros e' He'. rewrite Forall_forall in Ho. by specialize (Ho _ He').
  Qed.
  Lemma user_quiet c x e : y_clients y !! c = Some x →
    match e with KSubmit t _ name _ _ => utf8 name = true ∧ free y t | KStep t => True | _ => False end → gflowd cfg Gn X g (act y (UserDoes c e)).
  Proof.
    intros Hx He. pose proof (gact_step (UserDoes c e)) as Hok. assert (Ea : act y (UserDoes c e) = set_client c (k_step x e) y) by (cbn; rewrite Hx; destruct e; done). rewrite Ea in *.
    assert (Hfree : ∀ t, free y t → t ∉ X ∧ ∀ i z, y_clients y !! i = Some z → t ∉ subs z.2).
    { intros t Hf. split; [|intros i z Hz (f & n & ct & a & Hi)%subs_in; assert (Hi' : CIn (KSubmit t f n ct a) ∈ history_of y i) by (unfold history_of; rewrite Hz; exact Hi); by apply (Hf _ _ Hi')].
      intros (i & m & n & Hm & Hn)%(gl_names H). exact (Hf _ _ Hm Hn). }
    destruct (kstep_history x e) as (out' & E0 & E1 & E2 & E3).
    destruct (user_ok _ _ x e _ _ (gl_client H c x Hx)) as (out & Eo & HF & _). { destruct e; try done. destruct He as [Hn Hs]. split; [exact Hn|exact (proj2 (Hfree _ Hs) _ _ Hx)]. }
    eapply (client_quiet c x e out [] (to_client y c) Hx Hok Eo).
    - by destruct e.
    - eapply kstep_in, Eo.
    - rewrite E2. f_equal. by destruct e.
    - reflexivity.
    - intros t Ht Hn. rewrite E3 in Ht. apply elem_of_app in Ht as [Ht|Ht]; [done|]. destruct e; try (by apply elem_of_nil in Ht). apply elem_of_list_singleton in Ht as ->. apply Hfree, He.
    - exact HF.
    - eapply still_ok; [apply quiet_still; by destruct e|exact (gl_graphs H _ _ Hx)].
    - intros t []%elem_of_nil.
  Qed.
  Lemma user_register c x gid : y_clients y !! c = Some x → gflowd cfg Gn X g (act y (UserDoes c (KGraphStep gid))).
  Proof.
    intros Hx. pose proof (gact_step (UserDoes c (KGraphStep gid))) as Hok. assert (Ea : act y (UserDoes c (KGraphStep gid)) = set_client c (k_step x (KGraphStep gid)) y) by (cbn; rewrite Hx; done). rewrite Ea in *.
    destruct (kstep_history x (KGraphStep gid)) as (out' & E0 & E1 & E2 & E3).
    destruct (register_graph_ok _ _ x gid _ _ (gl_client H c x Hx) (gl_graphs H c x Hx)) as (El & HF & HG). cbv zeta in *.
    eapply (client_quiet c x (KGraphStep gid) [] [] (to_client y c) Hx Hok El I); auto.
    - intros e. apply not_elem_of_nil.
    - intros t Ht Hn. rewrite E3, app_nil_r in Ht. done.
    - cbn. rewrite app_nil_r. exact HF.
    - intros t []%elem_of_nil.
  Qed.
  Lemma user_graph c x gid fs ts ns : y_clients y !! c = Some x → let m := MGraphTask gid fs ts ns in graph_fit utf8 gid fs ts ns → (∀ t, named t m → free y t) →
    ∃ X', gflowd cfg Gn X' g (act y (UserDoes c (KGraph m (length ts)))).
  Proof.
    intros Hx m Hfit Hfree. pose proof (gact_step (UserDoes c (KGraph m (length ts)))) as Hok. assert (Ea : act y (UserDoes c (KGraph m (length ts))) = set_client c (k_step x (KGraph m (length ts))) y) by (cbn; rewrite Hx; done). rewrite Ea in *.
    set (X' := X ∪ list_to_set (gid :: (task_id <$> ns))). exists X'.
    assert (HX' : ∀ t, t ∈ X' ↔ t ∈ X ∨ named t m). { intros t. unfold X'. rewrite elem_of_union, elem_of_list_to_set, elem_of_cons. reflexivity. }
    assert (Hnew : ∀ t, named t m → t ∉ X). { intros t Ht (i & m' & n & Hm & Hn)%(gl_names H). exact (Hfree _ Ht _ _ Hm Hn). }
    assert (Hsub : ∀ i z t, y_clients y !! i = Some z → t ∈ subs z.2 → t ∉ X').
    { intros i z t Hz Hs. rewrite HX'. intros [Ht|Ht]; [exact (gl_subs H _ _ _ Hz Hs Ht)|]. apply subs_in in Hs as (f & n & ct & a & Hi).
      assert (Hi' : CIn (KSubmit t f n ct a) ∈ history_of y i) by (unfold history_of; rewrite Hz; exact Hi). by apply (Hfree _ Ht _ _ Hi'). }
    pose proof (flow_grow _ X' _ _ _ _ _ (gl_client H c x Hx) ltac:(set_solver) (λ t, Hsub c x t Hx)) as HF0.
    destruct (send_graph_ok _ _ x gid fs ts ns _ _ HF0 (gl_graphs H c x Hx) Hfit) as (El & HF & HG).
    { intros (m' & Hm' & E)%elem_of_list_omap. apply sent_in in Hm'. destruct m'; try discriminate. injection E as ->. apply (Hnew gid); [left; reflexivity|].
      eapply (sent_names X y (λ t, proj2 (gl_names H t)) (gl_graphs H)); [exact Hx|exact Hm'|eexists; reflexivity|left; reflexivity]. }
    cbv zeta in *. fold m in El, HF, HG. destruct (kstep_history x (KGraph m (length ts))) as (out' & E0 & E1 & E2 & E3).
    assert (Es : client_sent (k_step x (KGraph m (length ts))).2 = client_sent x.2 ++ [m]) by (rewrite El; apply sent_app).
    eapply (client_moves _ _ _ _ H X' c x _ [m] [] (to_client y c) Hx Hok); [eauto|exact Es|exact E2|reflexivity|set_solver|..].
    - intros t. rewrite HX', (of_graph_step _ _ _ _ t Hx El), (gl_names H t). split.
      + intros [?|Ht]; [auto|]. right. exists m, (length ts). split; [left|exact Ht].
      + intros [?|(m' & n & Hm & Ht)]; [auto|]. right. apply elem_of_cons in Hm as [[= -> ->]|Hm]; [exact Ht|]. apply elem_of_list_singleton in Hm. discriminate.
    - intros i z t _ Hz. apply Hsub with i, Hz.
    - intros t. rewrite E3, app_nil_r. apply (Hsub c x t Hx).
    - intros t Ht Hn. rewrite E3, app_nil_r in Ht. done.
    - rewrite plain_app, (plain_none _ m) by reflexivity. cbn. rewrite app_nil_r. exact HF.
    - exact HG.
    - intros m' t ->%elem_of_list_singleton _. apply Hnew.
    - intros m1 m2 ->%elem_of_list_singleton ->%elem_of_list_singleton. auto.
    - intros t []%elem_of_nil.
  Qed.
  Lemma message_to_client c x m Q : y_clients y !! c = Some x → to_client y c = m :: Q → k_flight x.1 = ∅ → k_sending x.1 = ∅ → gflowd cfg Gn X g (act y (ToClient c m true)).
  Proof.
    intros Hx HQ Hfl Hsn. pose proof (gact_step (ToClient c m true)) as Hok. assert (Hsent : LSend c m ∈ s_log (y_sched y)) by (apply sent_entry; eapply on_the_way_in, HQ).
    assert (Ea : act y (ToClient c m true) = set_client c (k_step x (KRecv m true)) y) by (cbn [act]; rewrite Hx, bool_decide_eq_true_2; [reflexivity|exact Hsent]).
    rewrite Ea in *. destruct (kstep_history x (KRecv m true)) as (out' & E0 & E1 & E2 & E3).
    pose proof (gl_client H c x Hx) as HF0. rewrite HQ in HF0. destruct (keeps X m) eqn:Ek.
    - rewrite plain_keep in HF0 by exact Ek. destruct (message_ok _ _ x m _ _ HF0 Hfl) as (out & Eo & HF & _).
      eapply (client_quiet c x (KRecv m true) out [m] Q Hx Hok Eo I); auto.
      + eapply kstep_in, Eo.
      + intros t Ht Hn. rewrite E3, app_nil_r in Ht. done.
      + eapply still_ok; [apply quiet_still|exact (gl_graphs H _ _ Hx)]. destruct HF0 as (F & B & A & D & HC). pose proof (ko_sc HC) as Hsc. apply Forall_cons in Hsc as [Hsc _]. by destruct m.
      + intros t Ht. right. destruct m; cbn in Ht; try (by apply elem_of_nil in Ht). apply elem_of_list_singleton in Ht as ->. eapply flow_result; [exact HF0|exact Hfl].
    - rewrite plain_none in HF0 by exact Ek.
      destruct (ghost_ok _ _ X x m _ _ HF0 (gl_graphs H _ _ Hx) Ek (λ t, gl_subs H _ _ t Hx) Hsn) as ((out & Eo & Es) & HF & HG & _).
      { destruct m as [| | | |gid fs ts ns| | |gid st rs| | | | | | | | | | | |]; try exact I.
        - exact (gl_answers H _ _ Hsent).
        - pose proof (gl_answers H _ _ Hsent) as ->. split; [reflexivity|]. intros n Hn.
          destruct (go_wait _ (gl_graphs H _ _ Hx) gid n (or_introl Hn)) as [(fs & ts & ns & Hm & ->) _].
          destruct (ok_run _ _ (gl_ok H)) as [rr Hrs]. pose proof Hsent as Hs2. rewrite Hrs in Hs2. apply elem_of_list_split in Hs2 as (before & after & Eb).
          destruct (SchedContent.Inv3_run cfg rr) as [H3 _]. destruct (H3 _ _ _ Eb) as (fs' & ts' & ns' & Hr & Hall).
          assert (Hr' : received c (MGraphTask gid fs' ts' ns') (s_log (y_sched y))). { destruct Hr as [now Hr]. exists now. rewrite Hrs, Eb. apply elem_of_app. auto. }
          destruct (graph_sender cfg y (gl_ok H) _ _ _ _ _ Hr') as (x' & Hx' & Hm'). rewrite Hx in Hx'. injection Hx' as <-.
          destruct (same_graph _ _ _ _ _ _ _ _ (gl_graphs H _ _ Hx) Hm Hm') as (_ & <- & _). exact (Forall2_length _ _ _ Hall). }
      cbv zeta in *. eapply (client_quiet c x (KRecv m true) out [m] Q Hx Hok Eo I); auto.
      + eapply kstep_in, Eo.
      + intros t Ht Hn. rewrite E3, app_nil_r in Ht. done.
      + rewrite Es, app_nil_r. exact HF.
      + intros t Ht. left. destruct m as [| | |t' st d p| | | | | | | | | | | | | | | |]; cbn in Ht; try (by apply elem_of_nil in Ht). apply elem_of_list_singleton in Ht as ->. cbn in Ek. apply bool_decide_eq_false in Ek. destruct (decide (t' ∈ X)); [assumption|done].
  Qed.
  Lemma agent_moves_but w x now e Q : w ∉ Gn → y_workers y !! w = Some x → to_agent y w x = match e with WExt m => [m] | _ => [] end ++ Q →
    match e with WProc m => head (from_processor x) = Some m | WTimeout => now - a_seen (n_agent x) < a_death (n_agent x) | _ => True end →
    gflowd cfg Gn X g (act y (match e with WExt m => ToAgent w m now | WProc m => ToAgentInside w m now | _ => AgentDoes w now e end)).
  Proof.
    intros HwG Hx HQ He. set (a := match e with WExt m => ToAgent w m now | WProc m => ToAgentInside w m now | _ => AgentDoes w now e end).
    pose proof (gact_step a) as Hok.
    assert (Ea : act y a = set_worker w (agent_step now e x) y).
    { subst a. destruct e as [m|m| | |]; cbn [act]; rewrite Hx; try reflexivity.
      - rewrite bool_decide_eq_true_2; [reflexivity|]. apply sent_entry. eapply on_the_way_in, HQ.
      - rewrite bool_decide_eq_true_2; [reflexivity|]. apply head_cons in He as [Q' E]. apply on_the_way_in in E. apply elem_of_list_omap in E as (o & Ho & E). destruct o; try discriminate. injection E as ->. exact Ho. }
    rewrite Ea in *. destruct (gl_worker_but H w x Hx HwG) as (L & qs & HL & HF).
    assert (Hgo : ∃ qs' out, agent_sent (n_history (agent_step now e x)) = agent_sent (n_history x) ++ out ∧
      agent_heard (n_history (agent_step now e x)) = agent_heard (n_history x) ++ match e with WExt m => [m] | _ => [] end ∧
      worker_ok (s_tasks (y_sched y)) L (w ∈ lg_workers g) qs' (agent_step now e x) (to_scheduler y w ++ out) Q).
    { destruct e as [m|m| | |]; cbn [app] in *; rewrite ?HQ in HF.
      - exact (external_ok _ _ _ _ _ _ _ now m HF).
      - exact (internal_ok _ _ _ _ _ _ _ now m HF He).
      - exact (loop_ok _ _ _ _ _ _ _ now HF).
      - exact (heartbeat_ok _ _ _ _ _ _ _ now _ _ _ _ HF).
      - exact (timeout_ok _ _ _ _ _ _ _ now HF He). }
    destruct Hgo as (qs' & out & G1 & G2 & G3).
    eapply worker_moves; [exact H|exact Hx|exact Hok|exact G1|exact G2|exact HQ|]. exists L, qs'. auto.
  Qed.
  Lemma processor_moves_but w x now e : w ∉ Gn → y_workers y !! w = Some x →
    match e with PRun o _ => o ≠ Ended | PMsg m loads => loads = true ∧ head (to_processor x) = Some m | _ => True end →
    gflowd cfg Gn X g (act y (match e with PMsg m loads => ToProcessor w m loads now | _ => ProcessorDoes w now e end)).
  Proof.
    intros HwG Hx He. set (a := match e with PMsg m loads => ToProcessor w m loads now | _ => ProcessorDoes w now e end).
    pose proof (gact_step a) as Hok.
    assert (Ea : act y a = set_worker w (processor_step now e x) y).
    { subst a. destruct e as [m loads| | | |]; cbn [act]; rewrite Hx; try reflexivity. destruct He as [-> He].
      rewrite bool_decide_eq_true_2; [reflexivity|]. apply head_cons in He as [Q' E]. apply on_the_way_in in E. apply elem_of_list_omap in E as (o & Ho & E). destruct o; try discriminate. injection E as ->. exact Ho. }
    rewrite Ea in *. destruct (gl_worker_but H w x Hx HwG) as (L & qs & HL & HF).
    destruct (processor_ok _ _ _ _ _ _ _ now e HF He) as (G1 & G2 & G3).
    apply (worker_moves _ _ _ _ H w x (processor_step now e x) [] [] (to_agent y w x) Hx Hok); rewrite ?app_nil_r; [rewrite G2; reflexivity|rewrite G2; reflexivity|reflexivity|]. exists L, qs. auto.
  Qed.

  Theorem gflow_act_but a : c_max_waiting cfg < 0 → orderly_graphs y a → (∀ w, worker_of a = Some w → w ∉ Gn) → ∃ X' g', gflowd cfg Gn X' g' (act y a).
  Proof.
    intros Hmax Ho HG. assert (H0 : ∃ X' g', gflowd cfg Gn X' g' y) by eauto. pose proof (gact_step a) as Hok.
    destruct a as [c|w death now retention|c e|c m loads|now codes e|from m now codes|w now e|w m now|w m now|w now e|w m loads now].
    - cbn [act] in *. destruct (unused y c) eqn:Eu; [|exact H0]. exists X, g. apply new_client; auto.
    - destruct (unused y w) eqn:Eu; [|cbn [act]; rewrite Eu; exact H0]. exists X, g. apply new_worker; auto.
    - destruct (y_clients y !! c) as [x|] eqn:Hx; [|cbn [act]; rewrite Hx; exact H0]. destruct e as [t f name ct args|t|m n|gid| | |]; try done.
      + exists X, g. exact (user_quiet c x (KSubmit t f name ct args) Hx Ho).
      + exists X, g. exact (user_quiet c x (KStep t) Hx I).
      + destruct Ho as (gid & fs & ts & ns & -> & -> & Hfit & Hfree). destruct (user_graph c x gid fs ts ns Hx Hfit Hfree) as [X' HX']. eauto.
      + exists X, g. exact (user_register c x gid Hx).
    - cbn [orderly_graphs orderly] in Ho. destruct Ho as ((Hn & -> & Hfl) & Hs). destruct (y_clients y !! c) as [x|] eqn:Hx; [|cbn [act]; rewrite Hx; exact H0].
      apply head_cons in Hn as [Q HQ]. exists X, g. exact (message_to_client c x m Q Hx HQ (Hfl _ eq_refl) (Hs _ eq_refl)).
    - cbn [act] in *. destruct e as [i m| | | | |]; [exact H0|..].
      + exists X, g. eapply loop_graph; eauto.
      + exists X. eapply loop_dispatch; eauto.
      + exists X, g. eapply loop_functions; eauto.
      + exists X, g. destruct Ho as [Hu Ho]. rewrite (cfg_of _ _ _ _ H) in Ho. eapply loop_workers; eauto.
      + exists X, g. eapply loop_status; eauto.
    - assert (Ho' : orderly y (ToScheduler from m now codes) ∧ match m with MTaskResult t st _ _ => of_graph y t → st = Success | _ => True end) by (destruct m; try (split; [exact Ho|exact I]); exact Ho).
      destruct Ho' as [[Hn Hu] HS]. apply head_cons in Hn as [Q HQ]. cbn [act] in *.
      destruct (y_clients y !! from) as [x|] eqn:Hx.
      + assert (Es : sent_by y from m = true). { unfold sent_by. rewrite Hx, bool_decide_eq_true_2; [reflexivity|]. apply on_the_way_in in HQ. unfold sent_by_part in HQ. rewrite Hx in HQ. apply sent_in, HQ. }
        rewrite Es in *. exists X, g. eapply recv_client; eauto.
      + destruct (y_workers y !! from) as [x|] eqn:Hw.
        * assert (Es : sent_by y from m = true). { unfold sent_by. rewrite Hx, Hw, bool_decide_eq_true_2; [reflexivity|]. apply on_the_way_in in HQ. unfold sent_by_part in HQ. rewrite Hx, Hw in HQ. apply elem_of_list_omap in HQ as (o & Hi & E). destruct o; try discriminate. injection E as ->. exact Hi. }
          rewrite Es in *. exists X. eapply recv_worker_but; eauto. destruct m; try exact I. intros Ht. apply HS, (gl_names H), Ht.
        * unfold to_scheduler, sent_by_part in HQ. rewrite Hx, Hw in HQ. unfold on_the_way in HQ. rewrite drop_nil in HQ. discriminate.
    - exists X, g. destruct (y_workers y !! w) as [x|] eqn:Hx; [|cbn [act]; rewrite Hx; exact H].
      destruct e as [m|m| |agent_cpu agent_rss worker_cpu worker_rss|]; try (cbn [act]; rewrite Hx; exact H).
      + exact (agent_moves_but w x now WLoop _ (HG _ eq_refl) Hx eq_refl I).
      + exact (agent_moves_but w x now (WHeartbeat agent_cpu agent_rss worker_cpu worker_rss) _ (HG _ eq_refl) Hx eq_refl I).
      + cbn in Ho. exact (agent_moves_but w x now WTimeout _ (HG _ eq_refl) Hx eq_refl (Ho _ Hx)).
    - exists X, g. destruct (y_workers y !! w) as [x|] eqn:Hx; [|cbn [act]; rewrite Hx; exact H]. cbn in Ho. destruct (head_cons _ _ (Ho _ Hx)) as [Q HQ].
      exact (agent_moves_but w x now (WExt m) Q (HG _ eq_refl) Hx HQ I).
    - exists X, g. destruct (y_workers y !! w) as [x|] eqn:Hx; [|cbn [act]; rewrite Hx; exact H]. cbn in Ho. exact (agent_moves_but w x now (WProc m) _ (HG _ eq_refl) Hx eq_refl (Ho _ Hx)).
    - exists X, g. destruct (y_workers y !! w) as [x|] eqn:Hx; [|cbn [act]; rewrite Hx; exact H]. destruct e as [m loads| |o d| |]; [cbn [act]; rewrite Hx; exact H|..].
      + exact (processor_moves_but w x now PLook (HG _ eq_refl) Hx I).
      + exact (processor_moves_but w x now (PRun o d) (HG _ eq_refl) Hx Ho).
      + exact (processor_moves_but w x now PScan (HG _ eq_refl) Hx I).
      + exact (processor_moves_but w x now PDelete (HG _ eq_refl) Hx I).
    - exists X, g. destruct (y_workers y !! w) as [x|] eqn:Hx; [|cbn [act]; rewrite Hx; exact H]. cbn in Ho. destruct Ho as [-> Ho].
      exact (processor_moves_but w x now (PMsg m true) (HG _ eq_refl) Hx (conj eq_refl (Ho _ Hx))).
  Qed.
End gactions.
(** Nobody given up. *)
Theorem gflow_act cfg X g y (H : gflow cfg X g y) a : c_max_waiting cfg < 0 → orderly_graphs y a → ∃ X' g', gflow cfg X' g' (act y a).
Proof. intros Hmax Ho. apply (gflow_act_but _ _ _ _ H a Hmax Ho). intros w _. apply not_elem_of_empty. Qed.
Definition recv_worker cfg X g y now codes (H : gflow cfg X g y) Hu Hmax w x m Q := recv_worker_but cfg X g y now codes H Hu Hmax w x m Q (not_elem_of_empty _).
Definition agent_moves cfg X g y (H : gflow cfg X g y) w x now e Q := agent_moves_but cfg X g y H w x now e Q (not_elem_of_empty _).
Definition processor_moves cfg X g y (H : gflow cfg X g y) w x now e := processor_moves_but cfg X g y H w x now e (not_elem_of_empty _).

Lemma orderly_graphs_snoc c acts a : orderly_graphs_run c (acts ++ [a]) ↔ orderly_graphs_run c acts ∧ orderly_graphs (execute c acts) a.
Proof.
  split.
  - intros H. split; [|exact (H acts a [] eq_refl)]. intros before b after E. apply (H before b (after ++ [a])). rewrite E, <- app_assoc. reflexivity.
  - intros [H Ha] before b after E. destruct (snoc_split _ _ _ _ _ E) as [(_ & -> & ->)|(l & _ & E')]; [exact Ha|exact (H _ _ _ E')].
Qed.
Theorem gflow_run c acts : c_max_waiting c < 0 → orderly_graphs_run c acts → ∃ X g, gflow c X g (execute c acts).
Proof.
  intros Hmax. induction acts as [|a acts IH] using rev_ind; [intros _; exists ∅, lg_empty; apply gflow_boot|].
  intros [H Ha]%orderly_graphs_snoc. destruct (IH H) as (X & g & HF). rewrite execute_snoc. eapply gflow_act; eassumption.
Qed.
Lemma gflow_well c X g y : gflow c X g y → all_well y.
Proof.
  intros H. split; [destruct (gl_fine H) as (xt & [Hc _] & _); exact (c_dead _ _ _ _ _ Hc)|]. split.
  - intros i x Hx. destruct (gl_client H i x Hx) as (F & B & A & D & HC). split; [exact (ko_up HC)|exact (ko_crash HC)].
  - intros w x Hx. destruct (gl_worker H w x Hx) as (L & qs & _ & HW). split; [exact (wo_alive _ _ _ _ _ _ _ HW)|exact (worker_running _ _ _ _ _ _ _ HW)].
Qed.
Theorem orderly_graphs_well c acts : c_max_waiting c < 0 → orderly_graphs_run c acts → all_well (execute c acts).
Proof. intros Hmax Ho. destruct (gflow_run c acts Hmax Ho) as (X & g & H). exact (gflow_well _ _ _ _ H). Qed.
(** Executions without graphs are a special case. *)
Definition graphless (y : system) : Prop := ∀ c x, y_clients y !! c = Some x → (∀ m n, CIn (KGraph m n) ∉ x.2) ∧ k_sending x.1 = ∅.
Lemma graphless_client y c x e : graphless y → y_clients y !! c = Some x → quiet_k e → graphless (set_client c (k_step x e) y).
Proof.
  intros H Hx He i z. cbn. destruct (decide (i = c)) as [->|Hne]; [rewrite lookup_insert|rewrite lookup_insert_ne by done; apply H]. intros [= <-]. destruct (H _ _ Hx) as [H1 H2].
  destruct (kstep_history x e) as (out & E & _). split.
  - rewrite E. intros m n [Hi|[Ei|Hi]%elem_of_cons]%elem_of_app; [exact (H1 _ _ Hi)|injection Ei as <-; done|exact (kstep_in _ _ _ E _ Hi)].
  - rewrite (sl_sending _ _ (quiet_still e x He)). exact H2.
Qed.
Lemma graphless_same y y' : y_clients y' = y_clients y → graphless y → graphless y'.
Proof. intros E H c x. rewrite E. apply H. Qed.
Lemma graphless_act c g y a : flow c ∅ g y → graphless y → orderly y a → graphless (act y a).
Proof.
  intros HF H Ho. destruct a as [i|w death now retention|i e|i m loads|now codes e|from m now codes|w now e|w m now|w m now|w now e|w m loads now]; cbn [act].
  - destruct (unused y i); [|exact H]. intros j z. cbn. destruct (decide (j = i)) as [->|Hne]; [rewrite lookup_insert|rewrite lookup_insert_ne by done; apply H]. intros [= <-]. split; [|reflexivity]. intros m n []%elem_of_nil.
  - destruct (unused y w); [|exact H]. destruct (w_init _ _ _), (p_init _). revert H. apply graphless_same. reflexivity.
  - destruct (y_clients y !! i) as [x|] eqn:Hx; [|exact H]. destruct e; try done; apply graphless_client; try done.
  - destruct Ho as (Hn & -> & _). destruct (y_clients y !! i) as [x|] eqn:Hx; [|exact H]. apply head_cons in Hn as [Q HQ].
    case_bool_decide; [|exact H]. apply graphless_client; [exact H|exact Hx|]. destruct (fl_client HF i x Hx) as (F & B & A & D & HC). pose proof (ko_sc HC) as Hsc. rewrite HQ in Hsc. apply Forall_cons in Hsc as [Hsc _]. by destruct m.
  - destruct e; try exact H; revert H; apply graphless_same; reflexivity.
  - destruct (sent_by _ _ _); [|exact H]. revert H. apply graphless_same. reflexivity.
  - destruct (y_workers y !! w), e; try exact H; revert H; apply graphless_same; reflexivity.
  - destruct (y_workers y !! w); [|exact H]. case_bool_decide; [|exact H]. revert H. apply graphless_same. reflexivity.
  - destruct (y_workers y !! w); [|exact H]. case_bool_decide; [|exact H]. revert H. apply graphless_same. reflexivity.
  - destruct (y_workers y !! w), e; try exact H; revert H; apply graphless_same; reflexivity.
  - destruct (y_workers y !! w); [|exact H]. case_bool_decide; [|exact H]. revert H. apply graphless_same. reflexivity.
Qed.
Lemma orderly_graphless c acts : c_max_waiting c < 0 → orderly_run c acts → graphless (execute c acts) ∧ orderly_graphs_run c acts.
Proof.
  intros Hmax. induction acts as [|a acts IH] using rev_ind.
  - intros _. split; [intros i x Hx; cbn in Hx; rewrite lookup_empty in Hx; discriminate|]. intros [|? ?] b after E; discriminate.
  - intros [H Ha]%orderly_snoc. destruct (IH H) as [IH1 IH2]. destruct (flow_run c acts Hmax H) as [g HF]. split; [rewrite execute_snoc; exact (graphless_act _ _ _ _ HF IH1 Ha)|].
    apply orderly_graphs_snoc. split; [exact IH2|]. clear IH2.
    assert (Hn : ∀ i m n, CIn (KGraph m n) ∉ history_of (execute c acts) i). { intros i m n. unfold history_of. destruct (y_clients _ !! i) as [x|] eqn:Hx; [apply (IH1 _ _ Hx)|apply not_elem_of_nil]. }
    destruct a as [i|w death now retention|i e|i m loads|now codes e|from m now codes|w now e|w m now|w m now|w now e|w m loads now]; try exact Ha.
    + destruct e; try done. destruct Ha as [Hu Ha]. split; [exact Hu|]. intros j e Hi. destruct e; try done; [intros ->; exact (Ha _ _ _ _ _ Hi)|by apply Hn in Hi].
    + split; [exact Ha|]. intros x Hx. apply (IH1 _ _ Hx).
    + destruct m; try exact Ha. split; [exact Ha|]. intros (j & m & n & Hi & _). by apply Hn in Hi.
Qed.
Lemma orderly_no_graphs c acts : c_max_waiting c < 0 → orderly_run c acts → orderly_graphs_run c acts.
Proof. intros Hmax H. exact (proj2 (orderly_graphless c acts Hmax H)). Qed.
