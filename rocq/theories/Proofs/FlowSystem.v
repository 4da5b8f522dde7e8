(** * Orderly executions: the invariant of the whole system *)

From Verif.Model Require Import Base OneToManyDict PriorityQueue Allocator Message Client Worker Processor Scheduler System.
From Verif.Spec Require Import AllocatorSpec DictSpec SchedulerSpec SystemSpec FlowSpec.
From Verif.Proofs Require Import BaseProofs DictProofs AllocatorProofs SchedWp SchedCount SchedHold SchedRemove SchedPlain SchedPolite SystemProofs FlowSched FlowWorker FlowClient.
From Verif.Proofs Require ClientProofs.

(** [X] are workers the scheduler has given up: nothing is said about them. *)
Record flow (cfg : config) (X : gset bytes) (g : ledger) (y : system) : Prop := {
  fl_ok : ok cfg y;
  fl_cfg : s_cfg (y_sched y) = cfg;
  fl_core : core no_graphs (undispatched (s_log (y_sched y))) g [] (y_sched y);
  fl_queue : undispatched (s_log (y_sched y)) = true → s_unassigned (y_sched y) ≠ [];
  fl_known w : w ∈ lg_workers g → is_Some (y_workers y !! w);
  fl_text i : unused y i = false → utf8 i = true;
  fl_fresh i : unused y i = true → sent_to i (s_log (y_sched y)) = [] ∧ heard_from i (s_log (y_sched y)) = [];
  fl_heard i : (length (heard_from i (s_log (y_sched y))) <= length (sent_by_part y i))%nat;
  fl_clen c x : y_clients y !! c = Some x → (length (client_heard x.2) <= length (sent_to c (s_log (y_sched y))))%nat;
  fl_wlen w x : y_workers y !! w = Some x → (length (agent_heard (n_history x)) <= length (sent_to w (s_log (y_sched y))))%nat;
  fl_cl t c : o_v2k (s_clients (y_sched y)) !! t = Some c → is_Some (y_clients y !! c);
  fl_apart c c' x x' t : y_clients y !! c = Some x → y_clients y !! c' = Some x' → t ∈ subs x.2 → t ∈ subs x'.2 → c = c';
  fl_client c x : y_clients y !! c = Some x → client_flow (o_v2k (s_clients (y_sched y))) c x (to_scheduler y c) (to_client y c);
  fl_gone w : w ∈ X → w ∉ lg_workers g ∧ is_Some (y_workers y !! w);
  fl_worker_but w x : y_workers y !! w = Some x → w ∉ X → worker_flow (s_tasks (y_sched y)) (lg_owner g) (w ∈ lg_workers g) w x (to_scheduler y w) (to_agent y w x) }.
Arguments fl_ok {_ _ _ _} _.  Arguments fl_cfg {_ _ _ _} _.  Arguments fl_core {_ _ _ _} _.  Arguments fl_queue {_ _ _ _} _.  Arguments fl_known {_ _ _ _} _.  Arguments fl_text {_ _ _ _} _.
Arguments fl_fresh {_ _ _ _} _.  Arguments fl_heard {_ _ _ _} _.  Arguments fl_clen {_ _ _ _} _.  Arguments fl_wlen {_ _ _ _} _.  Arguments fl_cl {_ _ _ _} _.  Arguments fl_apart {_ _ _ _} _.
Arguments fl_client {_ _ _ _} _.  Arguments fl_worker_but {_ _ _ _} _.  Arguments fl_gone {_ _ _ _} _.
Lemma fl_worker {cfg g y} : flow cfg ∅ g y → ∀ w x, y_workers y !! w = Some x → worker_flow (s_tasks (y_sched y)) (lg_owner g) (w ∈ lg_workers g) w x (to_scheduler y w) (to_agent y w x).
Proof. intros H w x Hx. exact (fl_worker_but H w x Hx (not_elem_of_empty _)). Qed.

Lemma used_client y c x : y_clients y !! c = Some x → unused y c = false.
Proof. intros E. unfold unused. rewrite E. reflexivity. Qed.
Lemma used_worker y w x : y_workers y !! w = Some x → unused y w = false.
Proof. intros E. unfold unused. rewrite E. destruct (y_clients y !! w); reflexivity. Qed.
Lemma used_part y i : unused y i = false → (∃ x, y_clients y !! i = Some x) ∨ ∃ x, y_workers y !! i = Some x.
Proof. unfold unused. destruct (y_clients y !! i); [eauto|]. destruct (y_workers y !! i); [eauto|discriminate]. Qed.
Lemma not_client cfg y w x : ok cfg y → y_workers y !! w = Some x → y_clients y !! w = None.
Proof. intros H Hw. destruct (y_clients y !! w) eqn:E; [|reflexivity]. destruct (ok_apart _ _ H _ _ _ E Hw). Qed.
Lemma not_worker cfg y c x : ok cfg y → y_clients y !! c = Some x → y_workers y !! c = None.
Proof. intros H Hc. destruct (y_workers y !! c) eqn:E; [|reflexivity]. destruct (ok_apart _ _ H _ _ _ Hc E). Qed.

(** ** Steps of the scheduler *)
Definition rcvd (i : bytes) (ev : event) : list message := match ev with ERecv j m => if String.eqb j i then [m] else [] | _ => [] end.
Lemma on_the_way_grow sent heard hd Q out : (length heard <= length sent)%nat → on_the_way sent heard = hd ++ Q →
  (length (heard ++ hd) <= length (sent ++ out))%nat ∧ on_the_way (sent ++ out) (heard ++ hd) = Q ++ out.
Proof.
  intros Hl E. assert (El : length (on_the_way sent heard) = (length hd + length Q)%nat) by (rewrite E, app_length; reflexivity).
  unfold on_the_way in *. rewrite drop_length in El. rewrite !app_length. split; [lia|]. rewrite <- drop_drop, drop_app_le, E by lia. rewrite <- app_assoc. apply drop_app.
Qed.
Lemma flow_sched cfg {X} X' g y r g' out pk : flow cfg X g y → ok cfg (set_sched (step (y_sched y) r) y) → moved no_graphs (y_sched y) (rd_event r) out pk g' (step (y_sched y) r) →
  (∀ j m, rd_event r = ERecv j m → unused y j = false ∧ j ∉ X') → (∀ i m, (i, m) ∈ out → unused y i = false) →
  (∀ w, w ∈ lg_workers g' → is_Some (y_workers y !! w)) → (∀ w, w ∈ X' → w ∉ lg_workers g' ∧ is_Some (y_workers y !! w)) →
  (∀ t c, o_v2k (s_clients (step (y_sched y) r)) !! t = Some c → is_Some (y_clients y !! c)) →
  (∀ c x, y_clients y !! c = Some x → ∃ Q, to_scheduler y c = rcvd c (rd_event r) ++ Q ∧ client_flow (o_v2k (s_clients (step (y_sched y) r))) c x Q (to_client y c ++ for_part c out)) →
  (∀ w x, y_workers y !! w = Some x → w ∉ X' → ∃ Q, to_scheduler y w = rcvd w (rd_event r) ++ Q ∧
     worker_flow (s_tasks (step (y_sched y) r)) (lg_owner g') (w ∈ lg_workers g') w x Q (to_agent y w x ++ for_part w out)) →
  flow cfg X' g' (set_sched (step (y_sched y) r) y).
Proof.
  intros H Hok Hm Hev Hout Hk Hgone Hcl HC HW. pose proof (c_dead _ _ _ _ _ (fl_core H)) as Hd.
  assert (Hs : ∀ i, sent_to i (s_log (step (y_sched y) r)) = sent_to i (s_log (y_sched y)) ++ for_part i out). { intros i. rewrite !sent_to_posted, (mv_posted _ _ _ _ _ _ _ Hm), for_part_app. reflexivity. }
  assert (Hh : ∀ i, heard_from i (s_log (step (y_sched y) r)) = heard_from i (s_log (y_sched y)) ++ rcvd i (rd_event r)) by (intros i; exact (step_heard _ _ i Hd)).
  assert (Hu : undispatched (s_log (step (y_sched y) r)) = pk). { rewrite (step_undispatched _ _ _ Hd (mv_posted _ _ _ _ _ _ _ Hm)). symmetry. exact (mv_pk _ _ _ _ _ _ _ Hm). }
  assert (HQ : ∀ i Q, to_scheduler y i = rcvd i (rd_event r) ++ Q → (length (heard_from i (s_log (y_sched y)) ++ rcvd i (rd_event r)) <= length (sent_by_part y i))%nat ∧ to_scheduler (set_sched (step (y_sched y) r) y) i = Q).
  { intros i Q E. destruct (on_the_way_grow _ _ _ _ [] (fl_heard H i) E) as [G1 G2]. rewrite app_nil_r in G1, G2. split; [exact G1|]. unfold to_scheduler. cbn. rewrite Hh. change (sent_by_part (set_sched _ y) i) with (sent_by_part y i). rewrite G2, app_nil_r. reflexivity. }
  assert (Hr : ∀ i, unused y i = true → rcvd i (rd_event r) = []).
  { intros i Hi. unfold rcvd. destruct (rd_event r) as [j m| | | | |] eqn:Ev; try reflexivity. destruct (String.eqb_spec j i) as [->|]; [|reflexivity]. rewrite (proj1 (Hev i m eq_refl)) in Hi. discriminate. }
  assert (Hr' : ∀ i, i ∈ X' → rcvd i (rd_event r) = []).
  { intros i Hi. unfold rcvd. destruct (rd_event r) as [j m| | | | |] eqn:Ev; try reflexivity. destruct (String.eqb_spec j i) as [->|]; [|reflexivity]. destruct (proj2 (Hev i m eq_refl) Hi). }
  split; cbn; try (destruct H; assumption); auto.
  - rewrite (mv_cfg _ _ _ _ _ _ _ Hm). exact (fl_cfg H).
  - rewrite Hu. exact (mv_core _ _ _ _ _ _ _ Hm).
  - rewrite Hu. exact (mv_queue _ _ _ _ _ _ _ Hm).
  - intros i Hi. change (unused y i = true) in Hi. destruct (fl_fresh H i Hi) as [F1 F2]. rewrite Hs, Hh, F1, F2, (Hr i Hi). split; [|reflexivity]. cbn.
    destruct (for_part i out) as [|m l] eqn:E; [reflexivity|]. assert (Hi' : m ∈ for_part i out) by (rewrite E; left). apply elem_of_for_part in Hi'. rewrite (Hout _ _ Hi') in Hi. discriminate.
  - intros i. rewrite Hh. change (sent_by_part (set_sched _ y) i) with (sent_by_part y i). destruct (unused y i) eqn:Ei.
    + rewrite (Hr i Ei), app_nil_r. exact (fl_heard H i).
    + destruct (decide (i ∈ X')) as [HX|HX]; [rewrite (Hr' i HX), app_nil_r; exact (fl_heard H i)|].
      destruct (used_part _ _ Ei) as [[x Hx]|[x Hx]]; [destruct (HC _ _ Hx) as (Q & E & _)|destruct (HW _ _ Hx HX) as (Q & E & _)]; exact (proj1 (HQ _ _ E)).
  - intros c x Hx. rewrite Hs, app_length. pose proof (fl_clen H c x Hx). lia.
  - intros w x Hx. rewrite Hs, app_length. pose proof (fl_wlen H w x Hx). lia.
  - intros c x Hx. destruct (HC _ _ Hx) as (Q & E & HF). rewrite (proj2 (HQ _ _ E)). unfold to_client. cbn [y_sched set_sched]. rewrite Hs.
    unfold history_of. cbn. rewrite on_the_way_sent; [unfold to_client, history_of in HF; rewrite Hx in *; exact HF|]. rewrite Hx. exact (fl_clen H c x Hx).
  - intros w x Hx HX. destruct (HW _ _ Hx HX) as (Q & E & HF). rewrite (proj2 (HQ _ _ E)). unfold to_agent. cbn [y_sched set_sched]. rewrite Hs. rewrite on_the_way_sent; [exact HF|exact (fl_wlen H w x Hx)].
Qed.

(** How the queues change. *)
Section queues.
  Context (cfg : config) {X : gset bytes} (g : ledger) (y : system) (r : round) (out : list (bytes * message)) (pk : bool) (g' : ledger).
  Context (H : flow cfg X g y) (Hm : moved no_graphs (y_sched y) (rd_event r) out pk g' (step (y_sched y) r)).
  Notation y' := (set_sched (step (y_sched y) r) y).
  Lemma queue_in i Q : to_scheduler y i = rcvd i (rd_event r) ++ Q → to_scheduler y' i = Q.
  Proof.
    intros E. destruct (on_the_way_grow _ _ _ _ [] (fl_heard H i) E) as [_ G]. rewrite !app_nil_r in G. unfold to_scheduler. cbn [y_sched set_sched].
    change (heard_from i (s_log (step (y_sched y) r)) = _) with (heard_from i (s_log (step (y_sched y) r)) = heard_from i (s_log (y_sched y)) ++ rcvd i (rd_event r)).
    assert (Eh : heard_from i (s_log (step (y_sched y) r)) = heard_from i (s_log (y_sched y)) ++ rcvd i (rd_event r)) by exact (step_heard _ _ i (c_dead _ _ _ _ _ (fl_core H))).
    rewrite Eh. exact G.
  Qed.
  Lemma queue_sent i : sent_to i (s_log (step (y_sched y) r)) = sent_to i (s_log (y_sched y)) ++ for_part i out.
  Proof. rewrite !sent_to_posted, (mv_posted _ _ _ _ _ _ _ Hm), for_part_app. reflexivity. Qed.
  Lemma queue_client c x : y_clients y !! c = Some x → to_client y' c = to_client y c ++ for_part c out.
  Proof. intros Hx. unfold to_client. cbn [y_sched set_sched]. rewrite queue_sent. unfold history_of. cbn. rewrite Hx. apply on_the_way_sent, (fl_clen H c x Hx). Qed.
  Lemma queue_agent w x : y_workers y !! w = Some x → to_agent y' w x = to_agent y w x ++ for_part w out.
  Proof. intros Hx. unfold to_agent. cbn [y_sched set_sched]. rewrite queue_sent. apply on_the_way_sent, (fl_wlen H w x Hx). Qed.
End queues.

Lemma for_part_one i j m : for_part i [(j, m)] = if String.eqb j i then [m] else [].
Proof. cbn. destruct (String.eqb j i); reflexivity. Qed.
Lemma eqb_ne i j : i ≠ j → String.eqb i j = false.
Proof. apply String.eqb_neq. Qed.
Lemma owner_worker cfg {X} g y t w : flow cfg X g y → lg_owner g !! t = Some w → w ∈ lg_workers g.
Proof. intros H Ho. destruct (c_alloc _ _ _ _ _ (fl_core H)) as (mq & ml & st & R & _). exact (ar_owner _ _ _ _ _ R _ _ Ho). Qed.
Lemma owner_task cfg {X} g y t w : flow cfg X g y → lg_owner g !! t = Some w → is_Some (s_tasks (y_sched y) !! t).
Proof.
  intros H Ho. apply elem_of_dom. rewrite (c_places _ _ _ _ _ (fl_core H)), (c_running _ _ _ _ _ (fl_core H)). apply elem_of_union_r, elem_of_union_l, elem_of_dom. eauto.
Qed.
Lemma task_client cfg {X} g y t : flow cfg X g y → is_Some (o_v2k (s_clients (y_sched y)) !! t) ↔ is_Some (s_tasks (y_sched y) !! t).
Proof. intros H. rewrite <- !elem_of_dom, (c_cldom _ _ _ _ _ (fl_core H)). set_solver. Qed.
Lemma flow_subs cfg {X} g y t c x : flow cfg X g y → y_clients y !! c = Some x → o_v2k (s_clients (y_sched y)) !! t = Some c → t ∈ subs x.2.
Proof. intros H Hx Ht. destruct (fl_client H c x Hx) as (F & B & A & D & HC). apply (ko_A HC) in Ht. rewrite (ko_all HC), !elem_of_app. tauto. Qed.

(** What a step of the scheduler leaves alone. *)
Definition same_queue (y y' : system) (i : bytes) : Prop :=
  to_scheduler y' i = to_scheduler y i ∧ to_client y' i = to_client y i ∧ ∀ x, y_workers y !! i = Some x → to_agent y' i x = to_agent y i x.
Section receive.
  Context (cfg : config) {X : gset bytes} (g : ledger) (y : system) (now : Z) (codes : list (list nat)).
  Context (H : flow cfg X g y) (Hu : undispatched (s_log (y_sched y)) = false).
  Notation s := (y_sched y).
  Lemma flow_recv_client c x m Q : c_max_waiting cfg < 0 → y_clients y !! c = Some x → to_scheduler y c = m :: Q → ok cfg (set_sched (step s (Round now codes (ERecv c m))) y) →
    let s' := step s (Round now codes (ERecv c m)) in let y' := set_sched s' y in
    flow cfg X g y' ∧ to_scheduler y' c = Q ∧ (∀ i, i ≠ c → to_scheduler y' i = to_scheduler y i) ∧ (∀ i z, i ≠ c → y_clients y !! i = Some z → to_client y' i = to_client y i) ∧
    (∀ w z, y_workers y !! w = Some z → to_agent y' w z = to_agent y w z) ∧
    match m with
    | MFunctionRequest _ f _ _ => (∃ st, to_client y' c = to_client y c ++ [MFunctionResponse st f "" ""]) ∧ dom (s_funcs s') = {[f]} ∪ dom (s_funcs s) ∧ s_tasks s' = s_tasks s
    | MTask z => dom (s_funcs s') = dom (s_funcs s) ∧
       match s_funcs s !! task_function z with
       | None => to_client y' c = to_client y c ++ [MTaskEcho (task_id z) FunctionNotExists] ∧ s_tasks s' = s_tasks s
       | Some _ => to_client y' c = to_client y c ++ [MTaskEcho (task_id z) SubmitOK] ∧ s_tasks s' = <[task_id z := z]> (s_tasks s)
       end
    | _ => False
    end.
  Proof.
    intros Hmax Hx HQ Hok. cbv zeta. pose proof (fl_core H) as Hc. rewrite Hu in Hc.
    pose proof (fl_client H c x Hx) as HF. rewrite HQ in HF.
    pose proof (fl_queue H) as Hq. rewrite Hu in Hq.
    assert (Hcs : from_client m) by (destruct HF as (F & B & A & D & HF); pose proof (ko_cs HF) as Hcs; apply Forall_cons in Hcs as [Hcs _]; exact Hcs).
    assert (Hpk : false = undispatched (s_log s)) by (symmetry; exact Hu).
    assert (Hdd : ∀ j, j ≠ c → rcvd j (ERecv c m) = []) by (intros j Hj; cbn; rewrite eqb_ne by done; reflexivity).
    assert (Hcc : rcvd c (ERecv c m) = [m]) by (cbn; rewrite String.eqb_refl; reflexivity).
    (* the general part *)
    assert (Hgo : ∀ pk a, moved no_graphs s (ERecv c m) [(c, a)] pk g (step s (Round now codes (ERecv c m))) →
      client_flow (o_v2k (s_clients (step s (Round now codes (ERecv c m))))) c x Q (to_client y c ++ [a]) →
      (∀ i t, i ≠ c → o_v2k (s_clients (step s (Round now codes (ERecv c m)))) !! t = Some i ↔ o_v2k (s_clients s) !! t = Some i) →
      (∀ t w, lg_owner g !! t = Some w → s_tasks (step s (Round now codes (ERecv c m))) !! t = s_tasks s !! t) →
      flow cfg X g (set_sched (step s (Round now codes (ERecv c m))) y) ∧ to_scheduler (set_sched (step s (Round now codes (ERecv c m))) y) c = Q ∧
      (∀ i, i ≠ c → to_scheduler (set_sched (step s (Round now codes (ERecv c m))) y) i = to_scheduler y i) ∧
      (∀ i z, i ≠ c → y_clients y !! i = Some z → to_client (set_sched (step s (Round now codes (ERecv c m))) y) i = to_client y i) ∧
      (∀ w z, y_workers y !! w = Some z → to_agent (set_sched (step s (Round now codes (ERecv c m))) y) w z = to_agent y w z) ∧
      to_client (set_sched (step s (Round now codes (ERecv c m))) y) c = to_client y c ++ [a]).
    { intros pk a Hm HF' HCL HT.
      assert (Hnw : ∀ w z, y_workers y !! w = Some z → w ≠ c) by (intros w z Hw ->; exact (ok_apart _ _ (fl_ok H) _ _ _ Hx Hw)).
      split.
      { eapply flow_sched; [exact H|exact Hok|exact Hm|..].
        - intros j m' [= <- <-]. split; [eapply used_client, Hx|]. intros Hi. destruct (fl_gone H _ Hi) as (_ & [z Hz]). exact (ok_apart _ _ (fl_ok H) _ _ _ Hx Hz).
        - intros i m' [= -> ->]%elem_of_list_singleton. eapply used_client, Hx.
        - exact (fl_known H).
        - intros w' Hw'. destruct (fl_gone H _ Hw') as (G1 & G2). split; [exact G1|exact G2].
        - intros t i Ht. destruct (decide (i = c)) as [->|Hne]; [eauto|]. apply (fl_cl H t). apply HCL; assumption.
        - intros i z Hz. cbn [rd_event]. destruct (decide (i = c)) as [->|Hne].
          + exists Q. rewrite Hx in Hz. injection Hz as <-. rewrite Hcc, for_part_one, String.eqb_refl. auto.
          + exists (to_scheduler y i). rewrite Hdd, for_part_one, eqb_ne, app_nil_r by done. split; [reflexivity|]. eapply effect_other; [exact (fl_client H i z Hz)|]. intros t. apply HCL, Hne.
        - intros w z Hz HX. pose proof (Hnw _ _ Hz) as Hne. exists (to_scheduler y w). cbn [rd_event]. rewrite Hdd, for_part_one, eqb_ne by done. split; [reflexivity|].
          eapply effect_none; [exact (fl_worker_but H w z Hz HX)|constructor|auto|reflexivity|]. intros t Ht. eapply HT, Ht. }
      split; [eapply (queue_in _ _ _ (Round now codes (ERecv c m)) H); cbn [rd_event]; rewrite Hcc; exact HQ|].
      split; [intros i Hi; eapply (queue_in _ _ _ (Round now codes (ERecv c m)) H); cbn [rd_event]; rewrite Hdd by done; reflexivity|].
      split; [intros i z Hi Hz; rewrite (queue_client _ _ _ (Round now codes (ERecv c m)) _ _ _ H Hm i z Hz), for_part_one, eqb_ne, app_nil_r by done; reflexivity|].
      split; [intros w z Hz; rewrite (queue_agent _ _ _ (Round now codes (ERecv c m)) _ _ _ H Hm w z Hz), for_part_one, eqb_ne, app_nil_r by (intros ->; eapply Hnw; eauto); reflexivity|].
      rewrite (queue_client _ _ _ (Round now codes (ERecv c m)) _ _ _ H Hm c x Hx), for_part_one, String.eqb_refl. reflexivity. }
    destruct m as [z| | | | | | | | | | | |ty f n ct| | | | | | |]; cbn in Hcs; try done.
    - (* a task *)
      assert (Hno : s_tasks s !! task_id z = None).
      { apply eq_None_not_Some. intros Hz. apply (task_client _ _ _ _ H) in Hz as [i Hi]. destruct (fl_cl H _ _ Hi) as [xi Hxi].
        destruct (sent_nodup _ _ _ _ _ _ HF) as [N1 N2]. pose proof (fl_apart H _ _ _ _ _ Hx Hxi N2 (flow_subs _ _ _ _ _ _ H Hxi Hi)) as <-. auto. }
      pose proof (round_task no_graphs s false g now codes Hc Hpk c z eq_refl (fl_text H c (used_client _ _ _ Hx)) Hno (not_elem_of_empty _) (lookup_empty _)) as HR. rewrite (fl_cfg H) in HR. specialize (HR Hmax). cbv zeta in HR.
      destruct (s_funcs s !! task_function z).
      + destruct HR as (Hm & T & CL & Fn). destruct (Hgo _ _ Hm) as (G1 & G2 & G3 & G4 & G5 & G6).
        * rewrite CL. apply effect_accept, HF.
        * intros i t Hi. rewrite CL. rewrite lookup_insert_Some. split; [|intros E; right; split; [|exact E]]; [naive_solver|]. intros <-.
          assert (is_Some (s_tasks s !! task_id z)) as [? ?] by (apply (task_client _ _ _ _ H); eauto). congruence.
        * intros t w Ht. rewrite T. rewrite lookup_insert_ne; [reflexivity|]. intros <-. destruct (owner_task _ _ _ _ _ H Ht). congruence.
        * split; [exact G1|]. split; [exact G2|]. split; [exact G3|]. split; [exact G4|]. split; [exact G5|]. split; [exact Fn|]. split; [exact G6|exact T].
      + destruct HR as (Hm & T & CL & Fn). destruct (Hgo _ _ Hm) as (G1 & G2 & G3 & G4 & G5 & G6).
        * rewrite CL. apply effect_refuse, HF.
        * intros i t Hi. rewrite CL. reflexivity.
        * intros t w Ht. rewrite T. reflexivity.
        * split; [exact G1|]. split; [exact G2|]. split; [exact G3|]. split; [exact G4|]. split; [exact G5|]. split; [rewrite Fn; reflexivity|]. split; [exact G6|exact T].
    - (* a function *)
      destruct Hcs as [-> Hn]. destruct (round_add no_graphs s false g now codes Hc Hpk Hq c f n ct Hn) as (st & Hst & Hm & T & CL & Fn).
      destruct (Hgo _ _ Hm) as (G1 & G2 & G3 & G4 & G5 & G6).
      + rewrite CL. apply (effect_add _ _ _ _ _ _ _ _ _ HF). exact Hst.
      + intros i t Hi. rewrite CL. reflexivity.
      + intros t w Ht. rewrite T. reflexivity.
      + split; [exact G1|]. split; [exact G2|]. split; [exact G3|]. split; [exact G4|]. split; [exact G5|]. split; [exists st; exact G6|]. split; [exact Fn|exact T].
  Qed.

  (** What a worker sends. *)
  Definition heard_worker (g' : ledger) (s' : sched) (y' : system) (w : bytes) (x : worker) (m : message) : Prop :=
    match m with
    | MHeartbeat _ => g' = Ledger ({[w]} ∪ lg_workers g) (lg_owner g) ∧ s_tasks s' = s_tasks s ∧ to_agent y' w x = to_agent y w x ++ [MHeartbeatEcho]
    | MBalanceResponse ids => g' = Ledger (lg_workers g) (foldr delete (lg_owner g) ids) ∧ s_tasks s' = s_tasks s ∧ to_agent y' w x = to_agent y w x
    | MTaskResult t _ _ _ => g' = Ledger (lg_workers g) (delete t (lg_owner g)) ∧ s_tasks s' = delete t (s_tasks s) ∧ lg_owner g !! t = Some w ∧ to_agent y' w x = to_agent y w x
    | MFunctionRequest _ f _ _ => g' = g ∧ s_tasks s' = s_tasks s ∧ ∃ n ct, to_agent y' w x = to_agent y w x ++ [MFunctionResponse FnOK f n ct]
    | _ => False
    end.
  Lemma flow_recv_worker_but w x m Q : w ∉ X → y_workers y !! w = Some x → to_scheduler y w = m :: Q → ok cfg (set_sched (step s (Round now codes (ERecv w m))) y) →
    let s' := step s (Round now codes (ERecv w m)) in let y' := set_sched s' y in
    ∃ g', flow cfg X g' y' ∧ undispatched (s_log s') = false ∧ to_scheduler y' w = Q ∧ (∀ i, i ≠ w → to_scheduler y' i = to_scheduler y i) ∧
      (∀ i z, i ≠ w → y_workers y !! i = Some z → to_agent y' i z = to_agent y i z) ∧
      (∀ i z, y_clients y !! i = Some z → refused (to_client y' i) = refused (to_client y i)) ∧ heard_worker g' s' y' w x m.
  Proof.
    intros HwX Hx HQ Hok. cbv zeta. pose proof (fl_core H) as Hc. rewrite Hu in Hc.
    pose proof (fl_worker_but H w x Hx HwX) as HF. rewrite HQ in HF.
    pose proof (fl_queue H) as Hq. rewrite Hu in Hq.
    assert (Hws : from_worker m) by (destruct HF as (L & qs & _ & HF); pose proof (wo_ws _ _ _ _ _ _ _ HF) as Hcs; apply Forall_cons in Hcs as [Hcs _]; exact Hcs).
    assert (Hpk : false = undispatched (s_log s)) by (symmetry; exact Hu).
    assert (Hdd : ∀ j, j ≠ w → rcvd j (ERecv w m) = []) by (intros j Hj; cbn; rewrite eqb_ne by done; reflexivity).
    assert (Hcc : rcvd w (ERecv w m) = [m]) by (cbn; rewrite String.eqb_refl; reflexivity).
    assert (Hnc : ∀ i z, y_clients y !! i = Some z → i ≠ w) by (intros i z Hz ->; exact (ok_apart _ _ (fl_ok H) _ _ _ Hz Hx)).
    (* the general part *)
    assert (Hgo : ∀ g' a, moved no_graphs s (ERecv w m) a false g' (step s (Round now codes (ERecv w m))) →
      (∀ i a', (i, a') ∈ a → unused y i = false) → (∀ i z, i ≠ w → y_workers y !! i = Some z → for_part i a = []) →
      worker_flow (s_tasks (step s (Round now codes (ERecv w m)))) (lg_owner g') (w ∈ lg_workers g') w x Q (to_agent y w x ++ for_part w a) →
      (∀ w', w' ∈ lg_workers g' → w' = w ∨ w' ∈ lg_workers g) → (∀ w', w' ∈ lg_workers g → w' ∈ lg_workers g') →
      (∀ i t, i ≠ w → lg_owner g' !! t = Some i ↔ lg_owner g !! t = Some i) →
      (∀ i t, i ≠ w → lg_owner g !! t = Some i → s_tasks (step s (Round now codes (ERecv w m))) !! t = s_tasks s !! t) →
      (∀ t i, o_v2k (s_clients (step s (Round now codes (ERecv w m)))) !! t = Some i → o_v2k (s_clients s) !! t = Some i) →
      (∀ i z, y_clients y !! i = Some z → client_flow (o_v2k (s_clients (step s (Round now codes (ERecv w m))))) i z (to_scheduler y i) (to_client y i ++ for_part i a)) →
      (∀ i z, y_clients y !! i = Some z → refused (for_part i a) = []) →
      flow cfg X g' (set_sched (step s (Round now codes (ERecv w m))) y) ∧ undispatched (s_log (step s (Round now codes (ERecv w m)))) = false ∧
      to_scheduler (set_sched (step s (Round now codes (ERecv w m))) y) w = Q ∧
      (∀ i, i ≠ w → to_scheduler (set_sched (step s (Round now codes (ERecv w m))) y) i = to_scheduler y i) ∧
      (∀ i z, i ≠ w → y_workers y !! i = Some z → to_agent (set_sched (step s (Round now codes (ERecv w m))) y) i z = to_agent y i z) ∧
      (∀ i z, y_clients y !! i = Some z → refused (to_client (set_sched (step s (Round now codes (ERecv w m))) y) i) = refused (to_client y i)) ∧
      to_agent (set_sched (step s (Round now codes (ERecv w m))) y) w x = to_agent y w x ++ for_part w a).
    { intros g' a Hm Ha1 Ha2 HF' HL1 HL2 HO HT HCL HC HRf. split.
      { eapply flow_sched; [exact H|exact Hok|exact Hm|..].
        - intros j m' [= <- <-]. split; [eapply used_worker, Hx|exact HwX].
        - exact Ha1.
        - intros w' [-> |Hw']%HL1; [eauto|exact (fl_known H _ Hw')].
        - intros w' Hw'. destruct (fl_gone H _ Hw') as (G1 & G2). split; [intros [-> |?]%HL1; auto|exact G2].
        - intros t i Ht. apply (fl_cl H t), HCL, Ht.
        - intros i z Hz. cbn [rd_event]. exists (to_scheduler y i). rewrite Hdd by (eapply Hnc; eauto). split; [reflexivity|]. apply HC, Hz.
        - intros i z Hz HX. cbn [rd_event]. destruct (decide (i = w)) as [->|Hne].
          + exists Q. rewrite Hx in Hz. injection Hz as <-. rewrite Hcc. auto.
          + exists (to_scheduler y i). rewrite Hdd by done. split; [reflexivity|]. rewrite (Ha2 i z Hne Hz).
            eapply effect_none; [exact (fl_worker_but H i z Hz HX)|constructor|apply HL2|intros t; apply HO, Hne|]. intros t Ht. eapply HT; [exact Hne|exact Ht]. }
      split; [rewrite (step_undispatched s (Round now codes (ERecv w m)) a (c_dead _ _ _ _ _ Hc) (mv_posted _ _ _ _ _ _ _ Hm)); symmetry; exact (mv_pk _ _ _ _ _ _ _ Hm)|].
      split; [eapply (queue_in _ _ _ (Round now codes (ERecv w m)) H); cbn [rd_event]; rewrite Hcc; exact HQ|].
      split; [intros i Hi; eapply (queue_in _ _ _ (Round now codes (ERecv w m)) H); cbn [rd_event]; rewrite Hdd by done; reflexivity|].
      split; [intros i z Hi Hz; rewrite (queue_agent _ _ _ (Round now codes (ERecv w m)) _ _ _ H Hm i z Hz), (Ha2 i z Hi Hz), app_nil_r; reflexivity|].
      split; [intros i z Hz; rewrite (queue_client _ _ _ (Round now codes (ERecv w m)) _ _ _ H Hm i z Hz), refused_app, (HRf i z Hz), app_nil_r; reflexivity|].
      exact (queue_agent _ _ _ (Round now codes (ERecv w m)) _ _ _ H Hm w x Hx). }
    assert (Hown : ∀ a', (∀ i a0, (i, a0) ∈ [(w, a')] → unused y i = false) ∧ (∀ i z, i ≠ w → y_workers y !! i = Some z → for_part i [(w, a')] = []) ∧
       (∀ i z, y_clients y !! i = Some z → for_part i [(w, a')] = []) ∧ for_part w [(w, a')] = [a']).
    { intros a'. split; [intros i a0 [= -> ->]%elem_of_list_singleton; eapply used_worker, Hx|]. split; [intros i z Hi Hz; rewrite for_part_one, eqb_ne by done; reflexivity|].
      split; [intros i z Hz; rewrite for_part_one, eqb_ne by (intros ->; eapply Hnc; eauto); reflexivity|]. rewrite for_part_one, String.eqb_refl. reflexivity. }
    destruct m as [| | |t st d p| | | | | |ids|h| |ty f n ct| | | | | | |]; cbn in Hws; try done.
    - (* a result *)
      destruct (effect_result _ _ _ _ _ _ _ _ _ _ _ HF) as (Ho & Hst & HF').
      destruct (round_result no_graphs s false g now codes Hc Hpk w (Result t st d p) eq_refl Ho (lookup_empty _)) as (cl & Hcl & Hm & T & CL & _ & _). cbn [r_id MResult] in *. unfold MResult in *. cbn [r_id r_status r_duration r_payload] in *.
      destruct (fl_cl H _ _ Hcl) as [xc Hxc]. pose proof (Hnc _ _ Hxc) as Hne.
      exists (Ledger (lg_workers g) (delete t (lg_owner g))). unfold heard_worker.
      destruct (Hgo _ _ Hm) as (G1 & G2 & G3 & G4 & G5 & G7 & G6); cbn [lg_workers lg_owner].
      + intros i a' [= -> ->]%elem_of_list_singleton. eapply used_client, Hxc.
      + intros i z Hi Hz. rewrite for_part_one, eqb_ne; [reflexivity|]. intros ->. exact (ok_apart _ _ (fl_ok H) _ _ _ Hxc Hz).
      + rewrite T, for_part_one, eqb_ne, app_nil_r by done. exact HF'.
      + auto.
      + auto.
      + intros i t' Hi. rewrite lookup_delete_Some. split; [tauto|]. intros E. split; [|exact E]. intros <-. congruence.
      + intros i t' Hi E. rewrite T, lookup_delete_ne; [reflexivity|]. intros <-. congruence.
      + intros t' i. rewrite CL, lookup_delete_Some. tauto.
      + intros i z Hz. rewrite CL, for_part_one. destruct (String.eqb_spec cl i) as [<-|Hi].
        * eapply effect_done; [exact (fl_client H _ _ Hz)|exact Hcl|exact Hst].
        * rewrite app_nil_r. eapply effect_other; [exact (fl_client H _ _ Hz)|]. intros t'. rewrite lookup_delete_Some. split; [tauto|]. intros E. split; [|exact E]. intros <-. congruence.
      + intros i z Hz. rewrite for_part_one. by destruct (String.eqb cl i).
      + split; [exact G1|]. split; [exact G2|]. split; [exact G3|]. split; [exact G4|]. split; [exact G5|]. split; [exact G7|]. split; [reflexivity|]. split; [exact T|]. split; [exact Ho|].
        rewrite G6, for_part_one, eqb_ne, app_nil_r by done. reflexivity.
    - (* tasks given back *)
      destruct (effect_balance _ _ _ _ _ _ _ _ HF) as (Ho & HF').
      destruct (round_balance_response no_graphs s false g now codes Hc Hpk w ids eq_refl) as (Hm & T & CL & _).
      exists (Ledger (lg_workers g) (foldr delete (lg_owner g) ids)). unfold heard_worker.
      destruct (Hgo _ _ Hm) as (G1 & G2 & G3 & G4 & G5 & G7 & G6); cbn [lg_workers lg_owner].
      + intros i a' []%elem_of_nil.
      + reflexivity.
      + rewrite T, app_nil_r. exact HF'.
      + auto.
      + auto.
      + intros i t Hi. rewrite lookup_deletes. split; [tauto|]. intros E. split; [|exact E]. intros Ht. rewrite (Ho _ Ht) in E. congruence.
      + intros i t Hi E. rewrite T. reflexivity.
      + intros t i. rewrite CL. auto.
      + intros i z Hz. rewrite CL, app_nil_r. exact (fl_client H _ _ Hz).
      + reflexivity.
      + split; [exact G1|]. split; [exact G2|]. split; [exact G3|]. split; [exact G4|]. split; [exact G5|]. split; [exact G7|]. split; [reflexivity|]. split; [exact T|]. rewrite G6, app_nil_r. reflexivity.
    - (* a heartbeat *)
      pose proof (effect_heartbeat _ _ _ _ _ _ _ _ HF) as HF'.
      destruct (round_heartbeat no_graphs s false g now codes Hc Hpk w h eq_refl (fl_text H w (used_worker _ _ _ Hx))) as (Hm & T & CL & _).
      exists (Ledger ({[w]} ∪ lg_workers g) (lg_owner g)). unfold heard_worker. destruct (Hown MHeartbeatEcho) as (O1 & O2 & O3 & O4).
      destruct (Hgo _ _ Hm O1 O2) as (G1 & G2 & G3 & G4 & G5 & G7 & G6); cbn [lg_workers lg_owner].
      + rewrite T, O4. rewrite <- (app_nil_r (_ ++ [_])). eapply effect_none; [exact HF'|constructor|set_solver|reflexivity|reflexivity].
      + intros w'. rewrite elem_of_union, elem_of_singleton. tauto.
      + intros w'. rewrite elem_of_union, elem_of_singleton. tauto.
      + reflexivity.
      + intros i t Hi E. rewrite T. reflexivity.
      + intros t i. rewrite CL. auto.
      + intros i z Hz. rewrite CL, (O3 i z Hz), app_nil_r. exact (fl_client H _ _ Hz).
      + intros i z Hz. rewrite (O3 i z Hz). reflexivity.
      + split; [exact G1|]. split; [exact G2|]. split; [exact G3|]. split; [exact G4|]. split; [exact G5|]. split; [exact G7|]. split; [reflexivity|]. split; [exact T|]. rewrite G6, O4. reflexivity.
    - (* a function is asked for *)
      destruct (effect_request _ _ _ _ _ _ _ _ _ "" "" _ _ HF) as (-> & (k & Hk1 & Hk2 & Hk3) & _).
      assert (Hfn : is_Some (s_funcs s !! f)) by (rewrite <- Hk3; exact (c_fn _ _ _ _ _ Hc _ _ Hk2)).
      destruct (round_request no_graphs s false g now codes Hc Hpk Hq w f n ct Hfn) as (n' & ct' & Hm & T & CL & _).
      destruct (effect_request _ _ _ _ _ _ _ _ _ n' ct' _ _ HF) as (_ & _ & HF').
      exists g. unfold heard_worker. destruct (Hown (MFunctionResponse FnOK f n' ct')) as (O1 & O2 & O3 & O4).
      destruct (Hgo _ _ Hm O1 O2) as (G1 & G2 & G3 & G4 & G5 & G7 & G6).
      + rewrite T, O4. exact HF'.
      + auto.
      + auto.
      + reflexivity.
      + intros i t Hi E. rewrite T. reflexivity.
      + intros t i. rewrite CL. auto.
      + intros i z Hz. rewrite CL, (O3 i z Hz), app_nil_r. exact (fl_client H _ _ Hz).
      + intros i z Hz. rewrite (O3 i z Hz). reflexivity.
      + split; [exact G1|]. split; [exact G2|]. split; [exact G3|]. split; [exact G4|]. split; [exact G5|]. split; [exact G7|]. split; [reflexivity|]. split; [exact T|]. exists n', ct'. rewrite G6, O4. reflexivity.
  Qed.
End receive.

(** ** The loops of the scheduler *)
Section loops.
  Context (cfg : config) {X : gset bytes} (g : ledger) (y : system) (now : Z) (codes : list (list nat)).
  Context (H : flow cfg X g y).
  Notation s := (y_sched y).
  Notation pk := (undispatched (s_log s)).
  (** Messages to workers that carry no tasks. *)
  Lemma flow_chat ev out pk' : ok cfg (set_sched (step s (Round now codes ev)) y) → (∀ i m, ev ≠ ERecv i m) →
    moved no_graphs s ev out pk' g (step s (Round now codes ev)) → (∀ w m, (w, m) ∈ out → w ∈ lg_workers g ∧ chatter m) →
    s_tasks (step s (Round now codes ev)) = s_tasks s → o_v2k (s_clients (step s (Round now codes ev))) = o_v2k (s_clients s) →
    flow cfg X g (set_sched (step s (Round now codes ev)) y).
  Proof.
    intros Hok Hev Hm Hout T CL. assert (Hr : ∀ i, rcvd i ev = []). { intros i. destruct ev as [j m| | | | |]; try reflexivity. by destruct (Hev j m). }
    eapply flow_sched; [exact H|exact Hok|exact Hm|..].
    - intros j m E. cbn in E. by destruct (Hev j m).
    - intros i m [Hi _]%Hout. destruct (fl_known H _ Hi) as [x Hx]. eapply used_worker, Hx.
    - intros w Hw. exact (fl_known H w Hw).
    - intros w' Hw'. destruct (fl_gone H _ Hw') as (G1 & G2). split; [exact G1|exact G2].
    - intros t c. rewrite CL. exact (fl_cl H t c).
    - intros c x Hx. cbn [rd_event]. exists (to_scheduler y c). rewrite Hr, CL. split; [reflexivity|].
      assert (E : for_part c out = []). { destruct (for_part c out) as [|m l] eqn:E; [reflexivity|]. assert (Hi : m ∈ for_part c out) by (rewrite E; left). apply elem_of_for_part in Hi. destruct (Hout _ _ Hi) as [Hi' _].
        destruct (fl_known H _ Hi') as [z Hz]. destruct (ok_apart _ _ (fl_ok H) _ _ _ Hx Hz). }
      rewrite E, app_nil_r. exact (fl_client H c x Hx).
    - intros w x Hx HX. cbn [rd_event]. exists (to_scheduler y w). rewrite Hr, T. split; [reflexivity|]. eapply effect_none; [exact (fl_worker_but H w x Hx HX)| |auto|reflexivity|reflexivity].
      apply Forall_forall. intros m Hi%elem_of_for_part. exact (proj2 (Hout _ _ Hi)).
  Qed.
  Lemma flow_quiet ev : ev = EGraph ∨ ev = EStatus → ok cfg (set_sched (step s (Round now codes ev)) y) → flow cfg X g (set_sched (step s (Round now codes ev)) y).
  Proof.
    intros Hev Hok. destruct (round_quiet no_graphs s pk g now codes (fl_core H) eq_refl (fl_queue H) ev ltac:(destruct Hev; auto)) as (Hm & T & CL & _).
    eapply flow_chat; [exact Hok|intros i m; destruct Hev as [-> | ->]; discriminate|exact Hm|intros w m []%elem_of_nil|exact T|exact CL].
  Qed.
  Lemma flow_functions : ok cfg (set_sched (step s (Round now codes EFunctions)) y) → flow cfg X g (set_sched (step s (Round now codes EFunctions)) y).
  Proof.
    intros Hok. destruct (round_functions no_graphs s pk g now codes (fl_core H) eq_refl (fl_queue H)) as (out & Hm & Ho & T & CL).
    eapply flow_chat; [exact Hok|discriminate|exact Hm| |exact T|exact CL]. intros w m (Hw & f & ->)%Ho. split; [exact Hw|reflexivity].
  Qed.
  Lemma flow_workers : ok cfg (set_sched (step s (Round now codes EWorkers)) y) → pk = false → (∀ w, ¬ silent (c_timeout cfg) now (s_log s) w) →
    flow cfg X g (set_sched (step s (Round now codes EWorkers)) y).
  Proof.
    intros Hok Hu Hs. destruct (ok_run _ _ (fl_ok H)) as [rs Hrs].
    destruct (round_workers no_graphs s pk g now codes (fl_core H) eq_refl (fl_queue H) Hu) as (out & Hm & Ho & T & CL & _).
    { rewrite (fl_cfg H). intros w p Hp Ht. apply (Hs w). pose proof (silent_iff cfg rs now w) as Hi. rewrite <- Hrs in Hi. apply Hi; [exact (c_dead _ _ _ _ _ (fl_core H))|eauto]. }
    eapply flow_chat; [exact Hok|discriminate|exact Hm| |exact T|exact CL]. intros w m (Hw & n & Hn & ->)%Ho. split; [exact Hw|exact Hn].
  Qed.
  Lemma flow_dispatch : ok cfg (set_sched (step s (Round now codes EDispatch)) y) →
    let s' := step s (Round now codes EDispatch) in let y' := set_sched s' y in
    ∃ g', flow cfg X g' y' ∧ undispatched (s_log s') = false ∧ s_tasks s' = s_tasks s ∧ s_funcs s' = s_funcs s ∧ (∀ i, to_scheduler y' i = to_scheduler y i) ∧
      (∀ c x, y_clients y !! c = Some x → to_client y' c = to_client y c) ∧
      ((g' = g ∧ (∀ w x, y_workers y !! w = Some x → to_agent y' w x = to_agent y w x) ∧
         (waiting_task s = None ∨ lg_workers g = ∅ ∨ ∀ w, w ∈ lg_workers g → load g w = al_max (s_alloc s))) ∨
       ∃ k w x, y_workers y !! w = Some x ∧ s_tasks s !! task_id k = Some k ∧ lg_owner g !! task_id k = None ∧ w ∈ lg_workers g ∧
         g' = Ledger (lg_workers g) (<[task_id k := w]> (lg_owner g)) ∧ to_agent y' w x = to_agent y w x ++ [MTask k] ∧
         ∀ i z, i ≠ w → y_workers y !! i = Some z → to_agent y' i z = to_agent y i z).
  Proof.
    intros Hok. cbv zeta. destruct (round_dispatch no_graphs s pk g now codes (fl_core H) eq_refl (fl_queue H)) as (T & CL & F & [(Hm & Hwhy)|(k & w & Hwk & Hk & Hn & Hw & Hm)]).
    - exists g. split; [eapply flow_chat; [exact Hok|discriminate|exact Hm|intros i m []%elem_of_nil|exact T|exact CL]|].
      split; [rewrite (step_undispatched s (Round now codes EDispatch) [] (c_dead _ _ _ _ _ (fl_core H)) (mv_posted _ _ _ _ _ _ _ Hm)); symmetry; exact (mv_pk _ _ _ _ _ _ _ Hm)|].
      split; [exact T|]. split; [exact F|].
      split; [intros i; apply (queue_in _ _ _ (Round now codes EDispatch) H); reflexivity|].
      split; [intros c x Hx; rewrite (queue_client _ _ _ (Round now codes EDispatch) _ _ _ H Hm c x Hx), app_nil_r; reflexivity|].
      left. split; [reflexivity|]. split; [|exact Hwhy]. intros w x Hx. rewrite (queue_agent _ _ _ (Round now codes EDispatch) _ _ _ H Hm w x Hx), app_nil_r. reflexivity.
    - destruct (fl_known H w Hw) as [x Hx]. set (g' := Ledger (lg_workers g) (<[task_id k := w]> (lg_owner g))) in *. exists g'.
      assert (Hnc : ∀ i z, y_clients y !! i = Some z → i ≠ w) by (intros i z Hz ->; exact (ok_apart _ _ (fl_ok H) _ _ _ Hz Hx)).
      split.
      { eapply flow_sched; [exact H|exact Hok|exact Hm|..]; cbn [rd_event rcvd app].
        - discriminate.
        - intros i m [= -> ->]%elem_of_list_singleton. eapply used_worker, Hx.
        - exact (fl_known H).
        - intros w' Hw'. destruct (fl_gone H _ Hw') as (G1 & G2). split; [exact G1|exact G2].
        - intros t c. rewrite CL. exact (fl_cl H t c).
        - intros c z Hz. exists (to_scheduler y c). split; [reflexivity|]. rewrite CL, for_part_one, eqb_ne, app_nil_r by (intros ->; eapply Hnc; eauto). exact (fl_client H c z Hz).
        - intros i z Hz HX. exists (to_scheduler y i). split; [reflexivity|]. rewrite T, for_part_one. destruct (String.eqb_spec w i) as [<-|Hi].
          + eapply effect_task; [exact (fl_worker_but H w z Hz HX)|exact Hn|exact Hk].
          + eapply effect_none; [exact (fl_worker_but H i z Hz HX)|constructor|auto| |reflexivity]. intros t. cbn. rewrite lookup_insert_Some. split; [intros [[_ ?]|[_ ?]]; congruence|]. intros E. right. split; [|exact E]. intros <-. congruence. }
      split; [rewrite (step_undispatched s (Round now codes EDispatch) [(w, MTask k)] (c_dead _ _ _ _ _ (fl_core H)) (mv_posted _ _ _ _ _ _ _ Hm)); symmetry; exact (mv_pk _ _ _ _ _ _ _ Hm)|].
      split; [exact T|]. split; [exact F|].
      split; [intros i; apply (queue_in _ _ _ (Round now codes EDispatch) H); reflexivity|].
      split; [intros c z Hz; rewrite (queue_client _ _ _ (Round now codes EDispatch) _ _ _ H Hm c z Hz), for_part_one, eqb_ne, app_nil_r by (intros ->; eapply Hnc; eauto); reflexivity|].
      right. exists k, w, x. split; [exact Hx|]. split; [exact Hk|]. split; [exact Hn|]. split; [exact Hw|]. split; [reflexivity|].
      split; [rewrite (queue_agent _ _ _ (Round now codes EDispatch) _ _ _ H Hm w x Hx), for_part_one, String.eqb_refl; reflexivity|].
      intros i z Hi Hz. rewrite (queue_agent _ _ _ (Round now codes EDispatch) _ _ _ H Hm i z Hz), for_part_one, eqb_ne, app_nil_r by done. reflexivity.
  Qed.
End loops.

(** ** Steps of clients and workers *)
Section parts.
  Context (cfg : config) {X : gset bytes} (g : ledger) (y : system) (H : flow cfg X g y).
  Lemma unused_client c x i : y_clients y !! c = Some x → ∀ x', unused (set_client c x' y) i = unused y i.
  Proof. intros Hx x'. unfold unused. cbn. destruct (decide (i = c)) as [->|Hi]; [rewrite lookup_insert, Hx; reflexivity|rewrite lookup_insert_ne by done; reflexivity]. Qed.
  Lemma unused_worker w x i : y_workers y !! w = Some x → ∀ x', unused (set_worker w x' y) i = unused y i.
  Proof. intros Hx x'. unfold unused. cbn. destruct (decide (i = w)) as [->|Hi]; [rewrite lookup_insert, Hx; reflexivity|rewrite lookup_insert_ne by done; reflexivity]. Qed.
  Lemma part_client c x' i : i ≠ c → sent_by_part (set_client c x' y) i = sent_by_part y i.
  Proof. intros Hi. unfold sent_by_part. cbn. rewrite lookup_insert_ne by done. reflexivity. Qed.
  Lemma part_worker w x' i : i ≠ w → sent_by_part (set_worker w x' y) i = sent_by_part y i.
  Proof. intros Hi. unfold sent_by_part. cbn. rewrite lookup_insert_ne by done. reflexivity. Qed.
  Lemma queue_other_client c x' i : i ≠ c → to_scheduler (set_client c x' y) i = to_scheduler y i ∧ to_client (set_client c x' y) i = to_client y i.
  Proof. intros Hi. unfold to_scheduler, to_client, history_of. rewrite part_client by done. cbn. rewrite lookup_insert_ne by done. auto. Qed.
  Lemma queue_other_worker w x' i : i ≠ w → to_scheduler (set_worker w x' y) i = to_scheduler y i.
  Proof. intros Hi. unfold to_scheduler. rewrite part_worker by done. reflexivity. Qed.

  Lemma flow_client_step c x x' out hd Q : y_clients y !! c = Some x → ok cfg (set_client c x' y) →
    client_sent x'.2 = client_sent x.2 ++ out → client_heard x'.2 = client_heard x.2 ++ hd → to_client y c = hd ++ Q →
    (∀ t, t ∈ subs x'.2 → t ∉ subs x.2 → ∀ i z, y_clients y !! i = Some z → t ∉ subs z.2) →
    client_flow (o_v2k (s_clients (y_sched y))) c x' (to_scheduler y c ++ out) Q →
    flow cfg X g (set_client c x' y) ∧ to_scheduler (set_client c x' y) c = to_scheduler y c ++ out ∧ to_client (set_client c x' y) c = Q.
  Proof.
    intros Hx Hok Hs Hh HQ Hn HF. pose proof (not_worker _ _ _ _ (fl_ok H) Hx) as Hw.
    assert (Ep : sent_by_part (set_client c x' y) c = sent_by_part y c ++ out) by (unfold sent_by_part; cbn; rewrite lookup_insert, Hx; exact Hs).
    assert (E1 : to_scheduler (set_client c x' y) c = to_scheduler y c ++ out) by (unfold to_scheduler; rewrite Ep; apply on_the_way_sent, (fl_heard H c)).
    unfold to_client, history_of in HQ. rewrite Hx in HQ. destruct (on_the_way_grow _ _ _ _ [] (fl_clen H c x Hx) HQ) as [G1 G2]. rewrite app_nil_r in G1. rewrite !app_nil_r in G2.
    assert (E2 : to_client (set_client c x' y) c = Q) by (unfold to_client, history_of; cbn; rewrite lookup_insert, Hh; exact G2).
    split; [|auto]. split; try (destruct H; assumption); auto.
    - intros i. rewrite (unused_client c x i Hx). exact (fl_text H i).
    - intros i. rewrite (unused_client c x i Hx). exact (fl_fresh H i).
    - intros i. destruct (decide (i = c)) as [->|Hi]; [rewrite Ep, app_length; pose proof (fl_heard H c); cbn; lia|rewrite part_client by done; exact (fl_heard H i)].
    - cbn. intros i z. destruct (decide (i = c)) as [->|Hi]; [rewrite lookup_insert; intros [= <-]; rewrite Hh; exact G1|rewrite lookup_insert_ne by done; exact (fl_clen H i z)].
    - intros t i Ht. cbn. destruct (decide (i = c)) as [->|Hi]; [rewrite lookup_insert; eauto|rewrite lookup_insert_ne by done; exact (fl_cl H t i Ht)].
    - cbn. intros i i' z z' t Hz Hz' Ht Ht'.
      assert (Hcase : ∀ i z, <[c:=x']> (y_clients y) !! i = Some z → t ∈ subs z.2 → i = c ∧ z = x' ∨ i ≠ c ∧ y_clients y !! i = Some z).
      { intros j u Hu _. destruct (decide (j = c)) as [->|Hj]; [rewrite lookup_insert in Hu; injection Hu as <-; auto|rewrite lookup_insert_ne in Hu by done; auto]. }
      destruct (Hcase _ _ Hz Ht) as [[-> ->]|[Hi Hz0]], (Hcase _ _ Hz' Ht') as [[-> ->]|[Hi' Hz0']]; [reflexivity|..].
      + destruct (decide (t ∈ subs x.2)) as [Hi0|Hi0]; [exact (fl_apart H _ _ _ _ _ Hx Hz0' Hi0 Ht')|by destruct (Hn t Ht Hi0 _ _ Hz0')].
      + destruct (decide (t ∈ subs x.2)) as [Hi0|Hi0]; [exact (fl_apart H _ _ _ _ _ Hz0 Hx Ht Hi0)|by destruct (Hn t Ht' Hi0 _ _ Hz0)].
      + exact (fl_apart H _ _ _ _ _ Hz0 Hz0' Ht Ht').
    - cbn [y_clients set_client y_sched]. intros i z. destruct (decide (i = c)) as [->|Hi]; [rewrite lookup_insert; intros [= <-]; rewrite E1, E2; exact HF|].
      rewrite lookup_insert_ne by done. destruct (queue_other_client c x' i Hi) as [-> ->]. exact (fl_client H i z).
    - cbn [y_workers set_client y_sched]. intros w z Hz. assert (w ≠ c) by congruence. rewrite (proj1 (queue_other_client c x' w ltac:(done))). exact (fl_worker_but H w z Hz).
  Qed.
  Lemma flow_worker_step w x x' out hd Q : y_workers y !! w = Some x → ok cfg (set_worker w x' y) →
    agent_sent (n_history x') = agent_sent (n_history x) ++ out → agent_heard (n_history x') = agent_heard (n_history x) ++ hd → to_agent y w x = hd ++ Q →
    worker_flow (s_tasks (y_sched y)) (lg_owner g) (w ∈ lg_workers g) w x' (to_scheduler y w ++ out) Q →
    flow cfg X g (set_worker w x' y) ∧ to_scheduler (set_worker w x' y) w = to_scheduler y w ++ out ∧ to_agent (set_worker w x' y) w x' = Q.
  Proof.
    intros Hx Hok Hs Hh HQ HF. pose proof (not_client _ _ _ _ (fl_ok H) Hx) as Hc.
    assert (Ep : sent_by_part (set_worker w x' y) w = sent_by_part y w ++ out) by (unfold sent_by_part; cbn; rewrite lookup_insert, Hx, Hc; exact Hs).
    assert (E1 : to_scheduler (set_worker w x' y) w = to_scheduler y w ++ out) by (unfold to_scheduler; rewrite Ep; apply on_the_way_sent, (fl_heard H w)).
    destruct (on_the_way_grow _ _ _ _ [] (fl_wlen H w x Hx) HQ) as [G1 G2]. rewrite app_nil_r in G1. rewrite !app_nil_r in G2.
    assert (E2 : to_agent (set_worker w x' y) w x' = Q) by (unfold to_agent; rewrite Hh; exact G2).
    split; [|auto]. split; try (destruct H; assumption); auto.
    - cbn. intros i Hi. destruct (decide (i = w)) as [->|Hne]; [rewrite lookup_insert; eauto|rewrite lookup_insert_ne by done; exact (fl_known H i Hi)].
    - intros i. rewrite (unused_worker w x i Hx). exact (fl_text H i).
    - intros i. rewrite (unused_worker w x i Hx). exact (fl_fresh H i).
    - intros i. destruct (decide (i = w)) as [->|Hi]; [rewrite Ep, app_length; pose proof (fl_heard H w); cbn; lia|rewrite part_worker by done; exact (fl_heard H i)].
    - cbn. intros i z. destruct (decide (i = w)) as [->|Hi]; [rewrite lookup_insert; intros [= <-]; rewrite Hh; exact G1|rewrite lookup_insert_ne by done; exact (fl_wlen H i z)].
    - cbn [y_clients set_worker y_sched]. intros c z Hz. assert (c ≠ w) by congruence. rewrite (queue_other_worker w x' c ltac:(done)). exact (fl_client H c z Hz).
    - cbn [y_workers set_worker y_sched]. intros i HX. destruct (fl_gone H _ HX) as (G3 & G4). split; [exact G3|]. destruct (decide (i = w)) as [->|Hi]; [rewrite lookup_insert; eauto|rewrite lookup_insert_ne by done; exact G4].
    - cbn [y_workers set_worker y_sched]. intros i z. destruct (decide (i = w)) as [->|Hi]; [rewrite lookup_insert; intros [= <-] _; rewrite E1, E2; exact HF|].
      rewrite lookup_insert_ne by done. rewrite (queue_other_worker w x' i Hi). exact (fl_worker_but H i z).
  Qed.
End parts.

(** ** New parts *)
Section newcomers.
  Context (cfg : config) {X : gset bytes} (g : ledger) (y : system) (H : flow cfg X g y) (i : bytes) (Hu : unused y i = true) (Ht : utf8 i = true).
  Lemma no_client : y_clients y !! i = None.
  Proof. exact (proj1 (ok_unused _ _ _ (fl_ok H) Hu)). Qed.
  Lemma no_worker : y_workers y !! i = None.
  Proof. exact (proj2 (ok_unused _ _ _ (fl_ok H) Hu)). Qed.
  Lemma no_part : sent_by_part y i = [].
  Proof. unfold sent_by_part. rewrite no_client, no_worker. reflexivity. Qed.
  Lemma flow_new_client : ok cfg (set_client i (k_init, []) y) → flow cfg X g (set_client i (k_init, []) y).
  Proof.
    intros Hok. pose proof no_client as Hc. pose proof no_worker as Hw. destruct (fl_fresh H i Hu) as [F1 F2].
    assert (Hun : ∀ j, unused (set_client i (k_init, []) y) j = if decide (j = i) then false else unused y j).
    { intros j. unfold unused. cbn. destruct (decide (j = i)) as [->|Hj]; [rewrite lookup_insert; reflexivity|rewrite lookup_insert_ne by done; reflexivity]. }
    split; try (destruct H; assumption); auto.
    - intros j. rewrite Hun. destruct (decide (j = i)) as [->|]; [intros _; exact Ht|exact (fl_text H j)].
    - intros j. rewrite Hun. destruct (decide (j = i)) as [->|]; [discriminate|exact (fl_fresh H j)].
    - intros j. destruct (decide (j = i)) as [->|Hj]; [cbn; rewrite F2; cbn; lia|rewrite part_client by done; exact (fl_heard H j)].
    - cbn. intros j z. destruct (decide (j = i)) as [->|Hj]; [rewrite lookup_insert; intros [= <-]; cbn; lia|rewrite lookup_insert_ne by done; exact (fl_clen H j z)].
    - intros t j Hj. cbn. destruct (decide (j = i)) as [->|Hne]; [rewrite lookup_insert; eauto|rewrite lookup_insert_ne by done; exact (fl_cl H t j Hj)].
    - cbn. intros j j' z z' t Hz Hz' Hi Hi'.
      destruct (decide (j = i)) as [->|Hj]; [rewrite lookup_insert in Hz; injection Hz as <-; by apply elem_of_nil in Hi|rewrite lookup_insert_ne in Hz by done].
      destruct (decide (j' = i)) as [->|Hj']; [rewrite lookup_insert in Hz'; injection Hz' as <-; by apply elem_of_nil in Hi'|rewrite lookup_insert_ne in Hz' by done].
      exact (fl_apart H _ _ _ _ _ Hz Hz' Hi Hi').
    - cbn [y_clients set_client y_sched]. intros j z. destruct (decide (j = i)) as [->|Hj].
      + rewrite lookup_insert. intros [= <-]. unfold to_scheduler, to_client, history_of, sent_by_part. cbn. rewrite lookup_insert, F1, F2. cbn.
        apply client_new. intros t Hi. destruct (fl_cl H t i Hi) as [z Hz]. congruence.
      + rewrite lookup_insert_ne by done. destruct (queue_other_client y i (k_init, []) j Hj) as [-> ->]. exact (fl_client H j z).
    - cbn [y_workers set_client y_sched]. intros w z Hz. assert (w ≠ i) by congruence. rewrite (proj1 (queue_other_client y i (k_init, []) w ltac:(done))). exact (fl_worker_but H w z Hz).
  Qed.
  Lemma flow_new_worker death now retention : ok cfg (act y (NewWorker i death now retention)) → flow cfg X g (act y (NewWorker i death now retention)).
  Proof.
    intros Hok. pose proof no_client as Hc. pose proof no_worker as Hw. destruct (fl_fresh H i Hu) as [F1 F2].
    assert (Ho : ∀ t, lg_owner g !! t ≠ Some i). { intros t Hi. pose proof (owner_worker _ _ _ _ _ H Hi) as Hi'. destruct (fl_known H _ Hi') as [z Hz]. congruence. }
    pose proof (worker_new (s_tasks (y_sched y)) (lg_owner g) (i ∈ lg_workers g) i death now retention Ho) as HF.
    cbn [act] in Hok |- *. rewrite Hu in Hok |- *. destruct (w_init i death now) as [a h] eqn:Ew. destruct (p_init retention) as [p out] eqn:Ep.
    set (x := Node a h p out retention) in *.
    assert (Hh : agent_heard h = []) by (cbn in Ew; injection Ew as _ <-; reflexivity).
    assert (Hun : ∀ j, unused (set_worker i x y) j = if decide (j = i) then false else unused y j).
    { intros j. unfold unused. cbn. destruct (decide (j = i)) as [->|Hj]; [rewrite lookup_insert, andb_false_r; reflexivity|rewrite lookup_insert_ne by done; reflexivity]. }
    split; try (destruct H; assumption); auto.
    - cbn. intros j Hj. destruct (decide (j = i)) as [->|Hne]; [rewrite lookup_insert; eauto|rewrite lookup_insert_ne by done; exact (fl_known H j Hj)].
    - intros j. rewrite Hun. destruct (decide (j = i)) as [->|]; [intros _; exact Ht|exact (fl_text H j)].
    - intros j. rewrite Hun. destruct (decide (j = i)) as [->|]; [discriminate|exact (fl_fresh H j)].
    - intros j. destruct (decide (j = i)) as [->|Hj]; [cbn; rewrite F2; cbn; lia|rewrite part_worker by done; exact (fl_heard H j)].
    - cbn [y_workers set_worker y_sched]. intros j z. destruct (decide (j = i)) as [->|Hj]; [rewrite lookup_insert; intros [= <-]; change (n_history x) with h; rewrite Hh; cbn; lia|rewrite lookup_insert_ne by done; exact (fl_wlen H j z)].
    - cbn [y_clients set_worker y_sched]. intros c z Hz. assert (c ≠ i) by congruence. rewrite (queue_other_worker y i x c ltac:(done)). exact (fl_client H c z Hz).
    - cbn [y_workers set_worker y_sched]. intros j HX. destruct (fl_gone H _ HX) as (G3 & G4). split; [exact G3|]. destruct (decide (j = i)) as [->|Hj]; [rewrite lookup_insert; eauto|rewrite lookup_insert_ne by done; exact G4].
    - cbn [y_workers set_worker y_sched]. intros j z. destruct (decide (j = i)) as [->|Hj].
      + rewrite lookup_insert. intros [= <-] _. unfold to_scheduler, to_agent, sent_by_part. cbn [y_clients y_workers set_worker y_sched]. rewrite lookup_insert, Hc. change (n_history x) with h. rewrite F1, F2, Hh. exact HF.
      + rewrite lookup_insert_ne by done. rewrite (queue_other_worker y i x j Hj). exact (fl_worker_but H j z).
  Qed.
End newcomers.

(** One may forget about workers that are not registered. *)
Lemma flow_forget cfg X X' g y : flow cfg X g y → X ⊆ X' → (∀ w, w ∈ X' → w ∉ lg_workers g ∧ is_Some (y_workers y !! w)) → flow cfg X' g y.
Proof. intros H HX HG. split; try (destruct H; assumption); auto. intros w x Hx Hw. apply (fl_worker_but H w x Hx). set_solver. Qed.
Lemma client_not_gone cfg {X} g y c x : flow cfg X g y → y_clients y !! c = Some x → c ∉ X.
Proof. intros H Hx Hi. destruct (fl_gone H _ Hi) as (_ & [z Hz]). exact (ok_apart _ _ (fl_ok H) _ _ _ Hx Hz). Qed.

(** ** Every orderly action *)
Lemma flow_boot cfg : flow cfg ∅ lg_empty (boot cfg).
Proof.
  split; cbn; try (intros *; rewrite ?lookup_empty; discriminate); try done.
  - apply boot_ok.
  - apply core_start.
Qed.
Lemma on_the_way_in sent heard m Q : on_the_way sent heard = m :: Q → m ∈ sent.
Proof. unfold on_the_way. intros E. rewrite <- (take_drop (length heard) sent), E, elem_of_app. right. left. Qed.
Lemma head_cons {A} (l : list A) m : head l = Some m → ∃ Q, l = m :: Q.
Proof. destruct l; cbn; intros [= <-]; eauto. Qed.
Lemma subs_in t h : t ∈ subs h ↔ ∃ f name content args, CIn (KSubmit t f name content args) ∈ h.
Proof.
  unfold subs. rewrite elem_of_list_omap. split.
  - intros (e & He & E). destruct e as [e| | |]; try discriminate. destruct e; try discriminate. injection E as ->. eauto 10.
  - intros (f & n & ct & a & Hi). eexists. split; [exact Hi|reflexivity].
Qed.
Lemma sent_app h e out : client_sent (h ++ CIn e :: out) = client_sent h ++ client_sent out.
Proof. unfold client_sent. rewrite omap_app. reflexivity. Qed.

(** Whose worker an action is about. *)
Definition worker_of (a : action) : option bytes :=
  match a with
  | ToScheduler w _ _ _ | AgentDoes w _ _ | ToAgent w _ _ | ToAgentInside w _ _ | ProcessorDoes w _ _ | ToProcessor w _ _ _ => Some w
  | _ => None
  end.
Section actions.
  Context (cfg : config) {X : gset bytes} (g : ledger) (y : system) (H : flow cfg X g y).
  Lemma act_step a : ok cfg (act y a).
  Proof. apply act_ok, (fl_ok H). Qed.


  Lemma kstep_history x e : ∃ out, (k_step x e).2 = x.2 ++ CIn e :: out ∧ client_sent (k_step x e).2 = client_sent x.2 ++ client_sent out ∧
    client_heard (k_step x e).2 = client_heard x.2 ++ match e with KRecv m _ => [m] | _ => [] end ∧ subs (k_step x e).2 = subs x.2 ++ match e with KSubmit t _ _ _ _ => [t] | _ => [] end.
  Proof.
    destruct x as [k h]. unfold k_step. destruct (k_handle e k) as [k' out] eqn:E. pose proof (ClientProofs.k_handle_out e k) as Ho. rewrite E in Ho. cbn [snd] in *.
    exists out. split; [reflexivity|]. split; [apply sent_app|].
    assert (E1 : client_heard out = [] ∧ subs out = []).
    { clear E. induction Ho as [|o out Ho _ [IH1 IH2]]; [done|]. unfold client_heard, subs in *. cbn. rewrite IH1, IH2. by destruct o. }
    destruct E1 as [E1 E2]. split.
    - unfold client_heard in *. rewrite omap_app. cbn. rewrite E1. by destruct e.
    - unfold subs in *. rewrite omap_app. cbn. rewrite E2. by destruct e.
  Qed.
  Lemma flow_user c x e : y_clients y !! c = Some x →
    match e with KSubmit t _ name _ _ => utf8 name = true ∧ ∀ i z, y_clients y !! i = Some z → t ∉ subs z.2 | KStep t => True | _ => False end →
    ∃ out, act y (UserDoes c e) = set_client c (k_step x e) y ∧ flow cfg X g (set_client c (k_step x e) y) ∧
      to_scheduler (set_client c (k_step x e) y) c = to_scheduler y c ++ out ∧ to_client (set_client c (k_step x e) y) c = to_client y c ∧
      ∀ t, e = KStep t → k_flight (k_step x e).1 = stepped t (k_flight x.1).
  Proof.
    intros Hx He. pose proof (act_step (UserDoes c e)) as Hok. assert (Ea : act y (UserDoes c e) = set_client c (k_step x e) y) by (cbn; rewrite Hx; destruct e; done). rewrite Ea in *.
    destruct (kstep_history x e) as (out' & E0 & E1 & E2 & E3).
    destruct (user_ok _ _ x e _ _ (fl_client H c x Hx)) as (out & Eo & HF & Hfl). { destruct e; try done. destruct He as [Hn Hs]. split; [exact Hn|exact (Hs _ _ Hx)]. }
    rewrite E0 in Eo. apply app_inv_head in Eo. injection Eo as ->.
    exists (client_sent out). split; [reflexivity|]. cut (flow cfg X g (set_client c (k_step x e) y) ∧ to_scheduler (set_client c (k_step x e) y) c = to_scheduler y c ++ client_sent out ∧ to_client (set_client c (k_step x e) y) c = to_client y c); [tauto|].
    apply (flow_client_step _ _ _ H c x _ _ [] _ Hx Hok E1).
    - rewrite E2. f_equal. by destruct e.
    - reflexivity.
    - intros t Ht Hn i z Hz. rewrite E3 in Ht. apply elem_of_app in Ht as [Ht|Ht]; [done|]. destruct e; try (by apply elem_of_nil in Ht). apply elem_of_list_singleton in Ht as ->. exact (proj2 He _ _ Hz).
    - exact HF.
  Qed.
  Lemma sent_entry i m l : m ∈ sent_to i l → LSend i m ∈ l.
  Proof. unfold sent_to. rewrite elem_of_list_omap. intros (e & He & E). destruct e as [|j| | | | |]; try discriminate. destruct (String.eqb_spec j i) as [->|]; [|discriminate]. injection E as ->. exact He. Qed.
  Lemma flow_to_client c x m Q : y_clients y !! c = Some x → to_client y c = m :: Q → k_flight x.1 = ∅ →
    ∃ out, let x' := k_step x (KRecv m true) in act y (ToClient c m true) = set_client c x' y ∧ x'.2 = x.2 ++ CIn (KRecv m true) :: out ∧ flow cfg X g (set_client c x' y) ∧
      to_scheduler (set_client c x' y) c = to_scheduler y c ++ client_sent out ∧ to_client (set_client c x' y) c = Q ∧ k_flight x'.1 = ∅.
  Proof.
    intros Hx HQ Hfl. pose proof (act_step (ToClient c m true)) as Hok. assert (Ea : act y (ToClient c m true) = set_client c (k_step x (KRecv m true)) y).
    { cbn [act]. rewrite Hx, bool_decide_eq_true_2; [reflexivity|]. apply sent_entry. eapply on_the_way_in, HQ. }
    rewrite Ea in *. destruct (kstep_history x (KRecv m true)) as (out' & E0 & E1 & E2 & E3).
    pose proof (fl_client H c x Hx) as HF0. rewrite HQ in HF0. destruct (message_ok _ _ x m _ _ HF0 Hfl) as (out & Eo & HF & Hfl').
    rewrite E0 in Eo. apply app_inv_head in Eo. injection Eo as ->.
    exists out. cbv zeta. split; [reflexivity|]. split; [exact E0|].
    destruct (flow_client_step _ _ _ H c x (k_step x (KRecv m true)) (client_sent out) [m] Q Hx Hok E1 E2 HQ) as (G1 & G2 & G3); [|exact HF|auto].
    intros t Ht Hn i z Hz. rewrite E3, app_nil_r in Ht. done.
  Qed.
  Lemma flow_agent_but w x now e Q : w ∉ X → y_workers y !! w = Some x → to_agent y w x = match e with WExt m => [m] | _ => [] end ++ Q →
    match e with WProc m => head (from_processor x) = Some m | WTimeout => now - a_seen (n_agent x) < a_death (n_agent x) | _ => True end →
    let a := match e with WExt m => ToAgent w m now | WProc m => ToAgentInside w m now | _ => AgentDoes w now e end in
    let x' := agent_step now e x in
    ∃ out, act y a = set_worker w x' y ∧ agent_sent (n_history x') = agent_sent (n_history x) ++ out ∧ flow cfg X g (set_worker w x' y) ∧
      to_scheduler (set_worker w x' y) w = to_scheduler y w ++ out ∧ to_agent (set_worker w x' y) w x' = Q.
  Proof.
    intros HwX Hx HQ He. cbv zeta. set (a := match e with WExt m => ToAgent w m now | WProc m => ToAgentInside w m now | _ => AgentDoes w now e end).
    pose proof (act_step a) as Hok.
    assert (Ea : act y a = set_worker w (agent_step now e x) y).
    { subst a. destruct e as [m|m| | |]; cbn [act]; rewrite Hx; try reflexivity.
      - rewrite bool_decide_eq_true_2; [reflexivity|]. apply sent_entry. eapply on_the_way_in, HQ.
      - rewrite bool_decide_eq_true_2; [reflexivity|]. apply head_cons in He as [Q' E]. apply on_the_way_in in E. apply elem_of_list_omap in E as (o & Ho & E). destruct o; try discriminate. injection E as ->. exact Ho. }
    rewrite Ea in *. destruct (fl_worker_but H w x Hx HwX) as (L & qs & HL & HF).
    assert (Hgo : ∃ qs' out, agent_sent (n_history (agent_step now e x)) = agent_sent (n_history x) ++ out ∧
      agent_heard (n_history (agent_step now e x)) = agent_heard (n_history x) ++ match e with WExt m => [m] | _ => [] end ∧
      worker_ok (s_tasks (y_sched y)) L (w ∈ lg_workers g) qs' (agent_step now e x) (to_scheduler y w ++ out) Q).
    { destruct e as [m|m| | |]; cbn [app] in *; rewrite ?HQ in HF.
      - exact (external_ok _ _ _ _ _ _ _ now m HF).
      - exact (internal_ok _ _ _ _ _ _ _ now m HF He).
      - exact (loop_ok _ _ _ _ _ _ _ now HF).
      - exact (heartbeat_ok _ _ _ _ _ _ _ now _ _ _ _ HF).
      - exact (timeout_ok _ _ _ _ _ _ _ now HF He). }
    destruct Hgo as (qs' & out & G1 & G2 & G3). exists out. split; [reflexivity|]. split; [exact G1|].
    eapply flow_worker_step; [exact H|exact Hx|exact Hok|exact G1|exact G2|exact HQ|]. exists L, qs'. auto.
  Qed.
  Lemma flow_processor_but w x now e : w ∉ X → y_workers y !! w = Some x →
    match e with PRun o _ => o ≠ Ended | PMsg m loads => loads = true ∧ head (to_processor x) = Some m | _ => True end →
    let a := match e with PMsg m loads => ToProcessor w m loads now | _ => ProcessorDoes w now e end in
    let x' := processor_step now e x in
    act y a = set_worker w x' y ∧ n_agent x' = n_agent x ∧ n_history x' = n_history x ∧ flow cfg X g (set_worker w x' y) ∧
      to_scheduler (set_worker w x' y) w = to_scheduler y w ∧ to_agent (set_worker w x' y) w x' = to_agent y w x.
  Proof.
    intros HwX Hx He. cbv zeta. set (a := match e with PMsg m loads => ToProcessor w m loads now | _ => ProcessorDoes w now e end).
    pose proof (act_step a) as Hok.
    assert (Ea : act y a = set_worker w (processor_step now e x) y).
    { subst a. destruct e as [m loads| | | |]; cbn [act]; rewrite Hx; try reflexivity. destruct He as [-> He].
      rewrite bool_decide_eq_true_2; [reflexivity|]. apply head_cons in He as [Q' E]. apply on_the_way_in in E. apply elem_of_list_omap in E as (o & Ho & E). destruct o; try discriminate. injection E as ->. exact Ho. }
    rewrite Ea in *. destruct (fl_worker_but H w x Hx HwX) as (L & qs & HL & HF).
    destruct (processor_ok _ _ _ _ _ _ _ now e HF He) as (G1 & G2 & G3). split; [reflexivity|]. split; [exact G1|]. split; [exact G2|].
    destruct (flow_worker_step _ _ _ H w x (processor_step now e x) [] [] (to_agent y w x) Hx Hok) as (X1 & X2 & X3); rewrite ?app_nil_r in *.
    - rewrite G2. reflexivity.
    - rewrite G2. reflexivity.
    - reflexivity.
    - exists L, qs. auto.
    - auto.
  Qed.
  Lemma sent_of_client c x m Q : y_clients y !! c = Some x → to_scheduler y c = m :: Q → sent_by y c m = true.
  Proof.
    intros Hx HQ. unfold sent_by. rewrite Hx, bool_decide_eq_true_2; [reflexivity|]. apply on_the_way_in in HQ. unfold sent_by_part in HQ. rewrite Hx in HQ.
    apply elem_of_list_omap in HQ as (o & Ho & E). destruct o; try discriminate. injection E as ->. exact Ho.
  Qed.
  Lemma sent_of_worker w x m Q : y_workers y !! w = Some x → to_scheduler y w = m :: Q → sent_by y w m = true.
  Proof.
    intros Hx HQ. pose proof (not_client _ _ _ _ (fl_ok H) Hx) as Hc. unfold sent_by. rewrite Hx, Hc, bool_decide_eq_true_2; [reflexivity|]. apply on_the_way_in in HQ. unfold sent_by_part in HQ. rewrite Hx, Hc in HQ.
    apply elem_of_list_omap in HQ as (o & Ho & E). destruct o; try discriminate. injection E as ->. exact Ho.
  Qed.

  Theorem flow_act_but a : c_max_waiting cfg < 0 → orderly y a → (∀ w, worker_of a = Some w → w ∉ X) → ∃ g', flow cfg X g' (act y a).
  Proof.
    intros Hmax Ho HX. assert (H0 : ∃ g', flow cfg X g' y) by eauto. pose proof (act_step a) as Hok.
    destruct a as [c|w death now retention|c e|c m loads|now codes e|from m now codes|w now e|w m now|w m now|w now e|w m loads now].
    - cbn [act] in *. destruct (unused y c) eqn:Eu; [|exact H0]. exists g. apply flow_new_client; auto.
    - destruct (unused y w) eqn:Eu; [|cbn [act]; rewrite Eu; exact H0]. exists g. apply flow_new_worker; auto.
    - destruct (y_clients y !! c) as [x|] eqn:Hx; [|cbn [act]; rewrite Hx; exact H0].
      destruct (flow_user c x e Hx) as (out & E & HF & _); [|rewrite E; eauto]. destruct e; try done. cbn in Ho. destruct Ho as [Hn Ho]. split; [exact Hn|].
      intros i z Hz (f' & n' & ct' & a' & Hi)%subs_in. eapply (Ho i). unfold history_of. rewrite Hz. exact Hi.
    - cbn [orderly] in Ho. destruct Ho as (Hn & -> & Hfl). destruct (y_clients y !! c) as [x|] eqn:Hx; [|cbn [act]; rewrite Hx; exact H0].
      apply head_cons in Hn as [Q HQ]. destruct (flow_to_client c x m Q Hx HQ (Hfl _ eq_refl)) as (out & E & _ & HF & _). rewrite E. eauto.
    - cbn [act] in *. destruct e as [i m| | | | |]; [exact H0|..].
      + exists g. apply flow_quiet; auto.
      + destruct (flow_dispatch _ _ _ now codes H Hok) as (g' & HF & _). eauto.
      + exists g. apply flow_functions; auto.
      + destruct Ho as [Hu Ho]. rewrite (fl_cfg H) in Ho. exists g. apply flow_workers; auto.
      + exists g. apply flow_quiet; auto.
    - destruct Ho as [Hn Hu]. apply head_cons in Hn as [Q HQ]. cbn [act] in *.
      destruct (y_clients y !! from) as [x|] eqn:Hx.
      + rewrite (sent_of_client _ _ _ _ Hx HQ) in *. exists g. exact (proj1 (flow_recv_client _ _ _ now codes H Hu from x m Q Hmax Hx HQ Hok)).
      + destruct (y_workers y !! from) as [x|] eqn:Hw.
        * rewrite (sent_of_worker _ _ _ _ Hw HQ) in *. destruct (flow_recv_worker_but _ _ _ now codes H Hu from x m Q (HX _ eq_refl) Hw HQ Hok) as (g' & HF & _). eauto.
        * unfold to_scheduler, sent_by_part in HQ. rewrite Hx, Hw in HQ. unfold on_the_way in HQ. rewrite drop_nil in HQ. discriminate.
    - destruct (y_workers y !! w) as [x|] eqn:Hx; [|cbn [act]; rewrite Hx; exact H0].
      destruct e as [m|m| | |]; try (cbn [act]; rewrite Hx; exact H0).
      + destruct (flow_agent_but w x now WLoop _ (HX _ eq_refl) Hx eq_refl I) as (out & E & _ & HF & _). rewrite E. eauto.
      + destruct (flow_agent_but w x now (WHeartbeat agent_cpu agent_rss worker_cpu worker_rss) _ (HX _ eq_refl) Hx eq_refl I) as (out & E & _ & HF & _). rewrite E. eauto.
      + cbn in Ho. destruct (flow_agent_but w x now WTimeout _ (HX _ eq_refl) Hx eq_refl (Ho _ Hx)) as (out & E & _ & HF & _). rewrite E. eauto.
    - destruct (y_workers y !! w) as [x|] eqn:Hx; [|cbn [act]; rewrite Hx; exact H0]. cbn in Ho. destruct (head_cons _ _ (Ho _ Hx)) as [Q HQ].
      destruct (flow_agent_but w x now (WExt m) Q (HX _ eq_refl) Hx HQ I) as (out & E & _ & HF & _). rewrite E. eauto.
    - destruct (y_workers y !! w) as [x|] eqn:Hx; [|cbn [act]; rewrite Hx; exact H0]. cbn in Ho.
      destruct (flow_agent_but w x now (WProc m) _ (HX _ eq_refl) Hx eq_refl (Ho _ Hx)) as (out & E & _ & HF & _). rewrite E. eauto.
    - destruct (y_workers y !! w) as [x|] eqn:Hx; [|cbn [act]; rewrite Hx; exact H0]. destruct e as [m loads| |o d| |]; [cbn [act]; rewrite Hx; exact H0|..].
      + destruct (flow_processor_but w x now PLook (HX _ eq_refl) Hx I) as (E & _ & _ & HF & _). rewrite E. eauto.
      + destruct (flow_processor_but w x now (PRun o d) (HX _ eq_refl) Hx Ho) as (E & _ & _ & HF & _). rewrite E. eauto.
      + destruct (flow_processor_but w x now PScan (HX _ eq_refl) Hx I) as (E & _ & _ & HF & _). rewrite E. eauto.
      + destruct (flow_processor_but w x now PDelete (HX _ eq_refl) Hx I) as (E & _ & _ & HF & _). rewrite E. eauto.
    - destruct (y_workers y !! w) as [x|] eqn:Hx; [|cbn [act]; rewrite Hx; exact H0]. cbn in Ho. destruct Ho as [-> Ho].
      destruct (flow_processor_but w x now (PMsg m true) (HX _ eq_refl) Hx (conj eq_refl (Ho _ Hx))) as (E & _ & _ & HF & _). rewrite E. eauto.
  Qed.
End actions.

(** Nobody given up. *)
Theorem flow_act cfg g y : flow cfg ∅ g y → ∀ a, c_max_waiting cfg < 0 → orderly y a → ∃ g', flow cfg ∅ g' (act y a).
Proof. intros H a Hmax Ho. apply (flow_act_but _ _ _ H a Hmax Ho). intros w _. apply not_elem_of_empty. Qed.
Definition flow_recv_worker cfg g y now codes (H : flow cfg ∅ g y) Hu w x m Q := flow_recv_worker_but cfg g y now codes H Hu w x m Q (not_elem_of_empty _).
Definition flow_agent cfg g y (H : flow cfg ∅ g y) w x now e Q := flow_agent_but cfg g y H w x now e Q (not_elem_of_empty _).
Definition flow_processor cfg g y (H : flow cfg ∅ g y) w x now e := flow_processor_but cfg g y H w x now e (not_elem_of_empty _).

Lemma orderly_snoc c acts a : orderly_run c (acts ++ [a]) ↔ orderly_run c acts ∧ orderly (execute c acts) a.
Proof.
  split.
  - intros H. split; [|exact (H acts a [] eq_refl)]. intros before b after E. apply (H before b (after ++ [a])). rewrite E, <- app_assoc. reflexivity.
  - intros [H Ha] before b after E. destruct (snoc_split _ _ _ _ _ E) as [(_ & -> & ->)|(l & _ & E')]; [exact Ha|exact (H _ _ _ E')].
Qed.
Theorem flow_run c acts : c_max_waiting c < 0 → orderly_run c acts → ∃ g, flow c ∅ g (execute c acts).
Proof.
  intros Hmax. induction acts as [|a acts IH] using rev_ind; [intros _; exists lg_empty; apply flow_boot|].
  intros [H Ha]%orderly_snoc. destruct (IH H) as [g HF]. rewrite execute_snoc. eapply flow_act; eassumption.
Qed.

(** ** Nobody crashes *)
Lemma flow_well c g y : flow c ∅ g y → all_well y.
Proof.
  intros H. split; [exact (c_dead _ _ _ _ _ (fl_core H))|]. split.
  - intros i x Hx. destruct (fl_client H i x Hx) as (F & B & A & D & HC). split; [exact (ko_up HC)|exact (ko_crash HC)].
  - intros w x Hx. destruct (fl_worker H w x Hx) as (L & qs & _ & HW). split; [exact (wo_alive _ _ _ _ _ _ _ HW)|exact (worker_running _ _ _ _ _ _ _ HW)].
Qed.
Theorem orderly_well c acts : c_max_waiting c < 0 → orderly_run c acts → all_well (execute c acts).
Proof. intros Hmax Ho. destruct (flow_run c acts Hmax Ho) as [g H]. exact (flow_well _ _ _ H). Qed.
