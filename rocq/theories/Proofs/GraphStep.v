(** * What the actions of orderly executions with graphs do to the messages on their way *)

From Verif.Model Require Import Base OneToManyDict PriorityQueue Allocator Message Sorter Client Worker Processor Scheduler System.
From Verif.Spec Require Import AllocatorSpec DictSpec SchedulerSpec SystemSpec FlowSpec TrafficSpec GraphFlowSpec.
From Verif.Proofs Require SchedContent ClientProofs FlowFinish.
From Verif.Proofs Require Import BaseProofs DictProofs AllocatorProofs SchedWp SchedCount SchedHold SchedGlobal SchedStep SchedRemove SchedPlain SchedPolite SchedLive SchedBegin SchedTraffic SchedFinish SystemParts SystemProofs FlowSched FlowWorker FlowWork FlowClient FlowSystem GraphClient GraphRounds GraphFlow.
Import FlowFinish(fold_len, fold_len_zero, cost_out, cost_in, cost, stale, recv_buffer, sum_tasks, stale_mono, cost_out_mono, sum_mono, dom_set_client, dom_set_worker).

(** ** Continuations in which the workers [lost] do nothing *)
Section continuations.
Context {lost : gset bytes} (verdict : task → outcome).
Definition leads (y y' : system) : Prop :=
  ∃ more, Forall no_news more ∧ y' = foldl act y more ∧ ∀ before a after, more = before ++ a :: after → orderly_graphs (foldl act y before) a ∧ as_decided verdict (foldl act y before) a ∧ ∀ w x, worker_of a = Some w → y_workers (foldl act y before) !! w = Some x → w ∉ lost.
Lemma leads_refl y : leads y y.
Proof. exists []. split; [constructor|]. split; [reflexivity|]. intros [|b before] a after E; discriminate. Qed.
Lemma leads_one y a : orderly_graphs y a → no_news a → as_decided verdict y a → (∀ w x, worker_of a = Some w → y_workers y !! w = Some x → w ∉ lost) → leads y (act y a).
Proof. intros Ho Hn Hv Hl. exists [a]. split; [by constructor|]. split; [reflexivity|]. intros [|b [|b' before]] a' after E; injection E as -> E; try discriminate. auto. Qed.
Lemma leads_trans y y' y'' : leads y y' → leads y' y'' → leads y y''.
Proof.
  intros (m1 & N1 & -> & O1) (m2 & N2 & -> & O2). exists (m1 ++ m2). split; [by apply Forall_app|]. split; [rewrite foldl_app; reflexivity|].
  intros before a after [(q & E & _)|(q & -> & E)]%FlowFinish.app_split; [exact (O1 _ _ _ E)|]. rewrite foldl_app. exact (O2 _ _ _ E).
Qed.
(** Treating one part after the other, unless [S] happens. *)
Lemma each (R S : system → Prop) (P : bytes → system → Prop) :
  (∀ i y, R y → ∃ y', leads y y' ∧ (S y' ∨ R y' ∧ P i y' ∧ ∀ j, P j y → P j y')) →
  ∀ (l : list bytes) y, R y → ∃ y', leads y y' ∧ (S y' ∨ R y' ∧ ∀ i, i ∈ l → P i y').
Proof.
  intros Hone l. induction l as [|i l IH]; intros y HR; [exists y; split; [apply leads_refl|]; right; split; [exact HR|]; intros i Hi; by apply elem_of_nil in Hi|].
  destruct (IH y HR) as (y1 & L1 & [S1|[R1 P1]]); [eauto|]. destruct (Hone i y1 R1) as (y2 & L2 & HH). exists y2. split; [eapply leads_trans; eassumption|]. destruct HH as [S2|(R2 & P2 & P3)]; [auto|].
  right. split; [exact R2|]. intros j [->|Hj]%elem_of_cons; [exact P2|apply P3, P1, Hj].
Qed.
End continuations.

(** Among them are the workers that the scheduler has given up. *)
Class among (Gn lost : gset bytes) : Prop := among_lost : Gn ⊆ lost.
Global Instance among_itself Gn : among Gn Gn.
Proof. intros w Hw. exact Hw. Qed.

(** ** The invariant along a continuation *)
Section along.
  Context {Gn : gset bytes} (cfg : config) (Hmax : c_max_waiting cfg < 0) (X : gset bytes).
  Notation log y := (s_log (y_sched y)).
  Definition Gd (y : system) : Prop := gflowd cfg Gn X (ledger_of (log y)) y.
  Notation G := Gd.
  Lemma G_of g y : gflowd cfg Gn X g y → G y.
  Proof.
    intros H. destruct (gl_fine H) as (xt & [Hc _] & _). destruct (ok_run _ _ (gl_ok H)) as [rs Hrs]. rewrite Hrs in Hc. pose proof (ledger_run _ _ _ _ _ Hc) as E. rewrite <- Hrs in E. unfold Gd. rewrite <- E. exact H.
  Qed.
  Lemma ledger_step xt pk g y r : G y → core xt pk g [] (step (y_sched y) r) → g = ledger_of (s_log (step (y_sched y) r)).
  Proof.
    intros H Hc. destruct (ok_run _ _ (gl_ok H)) as [rs Hrs]. assert (E : step (y_sched y) r = run cfg (rs ++ [r])) by (rewrite Hrs; unfold run, run_from; rewrite foldl_app; reflexivity).
    rewrite E in *. exact (ledger_run _ _ _ _ _ Hc).
  Qed.
  Lemma of_graph_quiet y a t : no_news a → of_graph (act y a) t ↔ of_graph y t.
  Proof.
    intros Hn. assert (Hsame : ∀ y', y_clients y' = y_clients y → of_graph y' t ↔ of_graph y t) by (intros y' E; unfold of_graph, history_of; rewrite E; reflexivity).
    assert (Hcl : ∀ c x e, y_clients y !! c = Some x → match e with KGraph _ _ => False | _ => True end → of_graph (set_client c (k_step x e) y) t ↔ of_graph y t).
    { intros c x e Hx He. destruct (kstep_history x e) as (out & E & _). pose proof (kstep_in _ _ _ E) as Hin. rewrite (of_graph_step y c x _ (CIn e :: out) t Hx E). split; [|auto].
      intros [?|(m & n & [E'|Hm]%elem_of_cons & _)]; [assumption|injection E' as <-; done|by apply Hin in Hm]. }
    destruct a as [c|w death now retention|c e|c m loads|now codes e|from m now codes|w now e|w m now|w m now|w now e|w m loads now]; try done; cbn [act].
    - destruct (y_clients y !! c) as [x|] eqn:Hx; [|reflexivity]. destruct e; try done; apply (Hcl c x _ Hx); exact I.
    - destruct (y_clients y !! c) as [x|] eqn:Hx; [|reflexivity]. destruct (bool_decide _); [|reflexivity]. apply (Hcl c x _ Hx). exact I.
    - destruct e; try reflexivity; apply Hsame; reflexivity.
    - destruct (sent_by _ _ _); [|reflexivity]. apply Hsame. reflexivity.
    - destruct (y_workers y !! w), e; try reflexivity; apply Hsame; reflexivity.
    - destruct (y_workers y !! w); [|reflexivity]. destruct (bool_decide _); [|reflexivity]. apply Hsame. reflexivity.
    - destruct (y_workers y !! w); [|reflexivity]. destruct (bool_decide _); [|reflexivity]. apply Hsame. reflexivity.
    - destruct (y_workers y !! w), e; try reflexivity; apply Hsame; reflexivity.
    - destruct (y_workers y !! w); [|reflexivity]. destruct (bool_decide _); [|reflexivity]. apply Hsame. reflexivity.
  Qed.
  Lemma G_act y a : G y → orderly_graphs y a → no_news a → (∀ w, worker_of a = Some w → w ∉ Gn) → G (act y a).
  Proof.
    intros H Ho Hn Hl. destruct (gflow_act_but cfg X _ y H a Hmax Ho Hl) as (X' & g' & H'). assert (E : X' = X); [|subst X'; exact (G_of _ _ H')].
    apply set_eq. intros t. rewrite (gl_names H' t), (gl_names H t). apply of_graph_quiet, Hn.
  Qed.

  (** *** What a step of the scheduler does to the messages on their way *)
  Record quick (y : system) (r : round) (out : list (bytes * message)) : Prop := {
    qk_in i Q : to_scheduler y i = rcvd i (rd_event r) ++ Q → to_scheduler (set_sched (step (y_sched y) r) y) i = Q;
    qk_client c x : y_clients y !! c = Some x → to_client (set_sched (step (y_sched y) r) y) c = to_client y c ++ for_part c out;
    qk_agent w x : y_workers y !! w = Some x → to_agent (set_sched (step (y_sched y) r) y) w x = to_agent y w x ++ for_part w out }.
  Lemma sched_queues y r out : G y → posted (s_log (step (y_sched y) r)) = posted (log y) ++ out → quick y r out.
  Proof.
    intros H Hpo. destruct (gl_fine H) as (xt & [Hc _] & _). pose proof (c_dead _ _ _ _ _ Hc) as Hd.
    assert (Hs : ∀ i, sent_to i (s_log (step (y_sched y) r)) = sent_to i (log y) ++ for_part i out). { intros i. rewrite !sent_to_posted, Hpo, for_part_app. reflexivity. }
    split.
    - intros i Q E. destruct (on_the_way_grow _ _ _ _ [] (gl_heard H i) E) as [_ G2]. rewrite app_nil_r in G2. unfold to_scheduler. cbn [y_sched set_sched].
      assert (Eh : heard_from i (s_log (step (y_sched y) r)) = heard_from i (log y) ++ rcvd i (rd_event r)) by exact (step_heard _ _ i Hd). rewrite Eh. change (sent_by_part (set_sched _ y) i) with (sent_by_part y i). rewrite G2. apply app_nil_r.
    - intros c x Hx. unfold to_client. cbn [y_sched set_sched]. rewrite Hs. unfold history_of. cbn. rewrite on_the_way_sent; [reflexivity|]. rewrite Hx. exact (gl_clen H c x Hx).
    - intros w x Hx. unfold to_agent. cbn [y_sched set_sched]. rewrite Hs. rewrite on_the_way_sent; [reflexivity|exact (gl_wlen H w x Hx)].
  Qed.
  (** *** The log *)
  Lemma step_log y r : G y → ∃ l, s_log (step (y_sched y) r) = log y ++ LIn (rd_now r) (rd_event r) :: l ∧ inner l.
  Proof. intros H. destruct (gl_fine H) as (xt & [Hc _] & _). exact (step_log_inner _ r (c_dead _ _ _ _ _ Hc)). Qed.
  Lemma step_undisp y r out : G y → posted (s_log (step (y_sched y) r)) = posted (log y) ++ out →
    undispatched (s_log (step (y_sched y) r)) = existsb is_ok out || SchedPolite.stale (rd_event r) (log y).
  Proof. intros H Hp. destruct (gl_fine H) as (xt & [Hc _] & _). exact (step_undispatched _ _ _ (c_dead _ _ _ _ _ Hc) Hp). Qed.
End along.

Section effects.
  Context {Gn : gset bytes} (cfg : config) (Hmax : c_max_waiting cfg < 0) (X : gset bytes).
  Notation log y := (s_log (y_sched y)).
  Notation G := (Gd (Gn:=Gn) cfg X).
  Definition calm (y : system) : Prop := undispatched (log y) = false.
  Definition after (y : system) (ev : event) : system := set_sched (step (y_sched y) (Round 0 [] ev)) y.

  (** *** A message of a client *)
  Lemma effect_client y c x m Q : G y → calm y → y_clients y !! c = Some x → to_scheduler y c = m :: Q → let y' := after y (ERecv c m) in
    ∃ out, quick y (Round 0 [] (ERecv c m)) out ∧ (∀ i, i ≠ c → for_part i out = []) ∧
      match m with
      | MTask z => dom (s_funcs (y_sched y')) = dom (s_funcs (y_sched y)) ∧ for_part c out = [MTaskEcho (task_id z) (if s_funcs (y_sched y) !! task_function z then SubmitOK else FunctionNotExists)]
      | MFunctionRequest _ f _ _ => dom (s_funcs (y_sched y')) = {[f]} ∪ dom (s_funcs (y_sched y)) ∧ ∃ st, for_part c out = [MFunctionResponse st f "" ""]
      | MGraphTask _ _ _ _ => s_funcs (y_sched y') = s_funcs (y_sched y) ∧ for_part c out = []
      | _ => False
      end.
  Proof.
    intros H Hu Hx HQ. cbv zeta. unfold after. cbn [y_sched set_sched]. destruct (gl_fine H) as (xt & O & W). pose proof O as [Hc Hq]. unfold calm in Hu. rewrite Hu in Hc, Hq.
    pose proof (gl_client H c x Hx) as HF. rewrite HQ in HF. assert (HX : ∀ t, of_graph y t → t ∈ X) by (intros t; apply (gl_names H)).
    assert (Hpk : false = undispatched (log y)) by (symmetry; exact Hu). assert (Htext : utf8 c = true) by exact (gl_text H c (used_client _ _ _ Hx)).
    assert (Hone : ∀ a i, i ≠ c → for_part i [(c, a)] = []) by (intros a i Hi; rewrite for_part_one, eqb_ne by done; reflexivity).
    assert (Hms : COut m ∈ x.2). { apply sent_in. pose proof (heard_sent _ _ _ _ H c) as Es. unfold sent_by_part in Es. rewrite Hx, HQ in Es. rewrite <- Es, elem_of_app. right. left. }
    assert (Hcs : (∃ z, m = MTask z) ∨ (∃ f n ct, m = MFunctionRequest FnAdd f n ct ∧ utf8 n = true) ∨ ∃ gid fs ts ns, m = MGraphTask gid fs ts ns).
    { destruct (keeps X m) eqn:Ek.
      - rewrite plain_keep in HF by exact Ek. destruct HF as (F & B & A & D & HF). pose proof (ko_cs HF) as Hcs. apply Forall_cons in Hcs as [Hcs _]. destruct m; try done; [eauto|]. destruct Hcs as [-> Hn]. right. left. eauto 10.
      - pose proof (sent_by_client _ _ _ _ _ (gl_ok H) Hx Hms) as Ho. destruct m; try done. eauto 10. }
    destruct Hcs as [[z ->]|[(f & n & ct & -> & Hn)|(gid & fs & ts & ns & ->)]].
    - destruct (free_task _ _ _ _ H _ _ _ _ Hx HQ) as (HnX & Hno & Hfree).
      assert (Hids : task_id z ∉ x_ids xt) by (intros Hi%(world_ids cfg X y (gl_ok H) HX (gl_graphs H) _ _ W); done).
      assert (HN : x_inactive xt !! task_id z = None).
      { destruct (x_inactive xt !! task_id z) eqn:E; [|reflexivity]. destruct (wd_N _ _ _ _ W (task_id z) ltac:(eauto)) as [gid Eg]. apply (world_t2g cfg X y (gl_ok H) HX (gl_graphs H) _ _ W) in Eg. done. }
      pose proof (round_task xt (y_sched y) false _ 0 [] Hc Hpk c z eq_refl Htext Hno Hids HN) as HR. rewrite (cfg_of _ _ _ _ H) in HR. specialize (HR Hmax). cbv zeta in HR.
      destruct (s_funcs (y_sched y) !! task_function z); destruct HR as (Hm & _ & _ & Fn); eexists; (split; [apply (sched_queues cfg X _ _ _ H), (mv_posted _ _ _ _ _ _ _ Hm)|]); (split; [apply Hone|]); (split; [rewrite ?Fn; reflexivity|]); rewrite for_part_one, String.eqb_refl; reflexivity.
    - destruct (round_add xt (y_sched y) false _ 0 [] Hc Hpk Hq c f n ct Hn) as (st & Hst & Hm & _ & _ & Fn). eexists. split; [apply (sched_queues cfg X _ _ _ H), (mv_posted _ _ _ _ _ _ _ Hm)|]. split; [apply Hone|]. split; [exact Fn|]. rewrite for_part_one, String.eqb_refl. eauto.
    - destruct (round_graph xt _ (y_sched y) 0 [] O W c (MGraphTask gid fs ts ns) ltac:(eauto)) as (_ & Hpo & _ & _ & Fn). exists []. split; [apply (sched_queues cfg X _ _ _ H); rewrite app_nil_r; exact Hpo|]. auto.
  Qed.

  (** *** A message of a worker *)
  Lemma graphic_refused ids c out i : Forall (graphic ids c) out → refused (for_part i out) = [].
  Proof.
    intros Ho. rewrite Forall_forall in Ho. destruct (refused (for_part i out)) as [|t l] eqn:E; [reflexivity|exfalso]. assert (Ht : t ∈ refused (for_part i out)) by (rewrite E; left).
    apply elem_of_list_omap in Ht as (m & Hm & Em). apply elem_of_for_part in Hm. destruct (Ho _ Hm) as [_ Hg]. cbn in Hg. destruct m; try done. destruct Hg as [-> _]. discriminate.
  Qed.
  Lemma effect_worker y w x m Q : G y → calm y → w ∉ Gn → y_workers y !! w = Some x → to_scheduler y w = m :: Q → match m with MTaskResult t st _ _ => t ∈ X → st = Success | _ => True end →
    let y' := after y (ERecv w m) in
    ∃ out, quick y (Round 0 [] (ERecv w m)) out ∧ (∀ i z, i ≠ w → y_workers y !! i = Some z → for_part i out = []) ∧ (∀ c z, y_clients y !! c = Some z → refused (for_part c out) = []) ∧
      match m with
      | MTaskResult t _ _ _ => for_part w out = [] ∧ holder (log y) !! t = Some w
      | MBalanceResponse ids => for_part w out = [] ∧ calm y' ∧ ledger_of (log y') = Ledger (registered (log y)) (foldr delete (holder (log y)) ids) ∧ s_tasks (y_sched y') = s_tasks (y_sched y)
      | MHeartbeat _ => for_part w out = [MHeartbeatEcho] ∧ calm y' ∧ ledger_of (log y') = Ledger ({[w]} ∪ registered (log y)) (holder (log y)) ∧ s_tasks (y_sched y') = s_tasks (y_sched y)
      | MFunctionRequest _ f _ _ => (∃ n ct, for_part w out = [MFunctionResponse FnOK f n ct]) ∧ calm y' ∧ ledger_of (log y') = ledger_of (log y) ∧ s_tasks (y_sched y') = s_tasks (y_sched y)
      | _ => False
      end.
  Proof.
    intros H Hu HwG Hx HQ HS. cbv zeta. unfold after. cbn [y_sched set_sched]. destruct (gl_fine H) as (xt & O & W). pose proof O as [Hc Hq]. unfold calm in *. cbn [y_sched set_sched] in *. rewrite Hu in Hc, Hq.
    pose proof (gl_worker_but H w x Hx HwG) as HF. rewrite HQ in HF. assert (HX : ∀ t, of_graph y t → t ∈ X) by (intros t; apply (gl_names H)).
    assert (Hws : from_worker m) by (destruct HF as (L & qs & _ & HF); pose proof (wo_ws _ _ _ _ _ _ _ HF) as Hcs; apply Forall_cons in Hcs as [Hcs _]; exact Hcs).
    assert (Hpk : false = undispatched (log y)) by (symmetry; exact Hu). assert (Htext : utf8 w = true) by exact (gl_text H w (used_worker _ _ _ Hx)).
    assert (Hnc : ∀ i z, y_clients y !! i = Some z → i ≠ w) by (intros i z Hz ->; exact (ok_apart _ _ (gl_ok H) _ _ _ Hz Hx)).
    assert (Hown : ∀ a', (∀ i z, i ≠ w → y_workers y !! i = Some z → for_part i [(w, a')] = []) ∧ (∀ i z, y_clients y !! i = Some z → refused (for_part i [(w, a')]) = []) ∧ for_part w [(w, a')] = [a']).
    { intros a'. split; [intros i z Hi Hz; rewrite for_part_one, eqb_ne by done; reflexivity|].
      split; [intros i z Hz; rewrite for_part_one, eqb_ne by (intros ->; eapply Hnc; eauto); reflexivity|]. rewrite for_part_one, String.eqb_refl. reflexivity. }
    assert (Hcalm : ∀ out, posted (s_log (step (y_sched y) (Round 0 [] (ERecv w m)))) = posted (log y) ++ out → existsb is_ok out = false → undispatched (s_log (step (y_sched y) (Round 0 [] (ERecv w m)))) = false).
    { intros out Hpo E. rewrite (step_undisp cfg X _ _ _ H Hpo), E. exact Hu. }
    destruct m as [| | |t st d p| | | | | |ids|h| |ty f n ct| | | | | | |]; cbn in Hws; try done.
    - destruct (effect_result _ _ _ _ _ _ _ _ _ _ _ HF) as (Ho & Hst & HF'). destruct (x_t2g xt !! t) as [gid|] eqn:ET.
      + pose proof (world_t2g cfg X y (gl_ok H) HX (gl_graphs H) _ _ W _ _ ET) as HtX. rewrite (HS HtX) in *.
        destruct (round_node xt _ (y_sched y) 0 [] O W ltac:(rewrite (cfg_of _ _ _ _ H); exact Hmax) w t d p gid Hu Ho ET) as (_ & i & out & HG & Hti & Hns).
        destruct (world_graph cfg X y (gl_ok H) HX (gl_graphs H) _ _ W _ _ HG) as (_ & Hids & [xc Hxc]). pose proof (ns_out _ _ _ _ _ _ Hns) as Hout.
        assert (Hno : ∀ j z, y_workers y !! j = Some z → for_part j out = []). { intros j z Hj. apply for_part_nil. intros j' m Hj' ->. rewrite Forall_forall in Hout. destruct (Hout _ Hj') as [E _]. cbn in E. subst j. exact (ok_apart _ _ (gl_ok H) _ _ _ Hxc Hj). }
        exists out. split; [apply (sched_queues cfg X _ _ _ H), (ns_posted _ _ _ _ _ _ Hns)|]. split; [intros j z _; apply Hno|]. split; [intros j z _; eapply graphic_refused, Hout|]. split; [exact (Hno _ _ Hx)|exact Ho].
      + destruct (round_result xt (y_sched y) false _ 0 [] Hc Hpk w (Result t st d p) eq_refl Ho ET) as (cl & Hcl & Hm & _). cbn [r_id MResult] in *. unfold MResult in *. cbn [r_id r_status r_duration r_payload] in *.
        destruct (gl_cl H _ _ Hcl) as [xc Hxc]. eexists. split; [apply (sched_queues cfg X _ _ _ H), (mv_posted _ _ _ _ _ _ _ Hm)|].
        assert (Hno : ∀ j z, y_workers y !! j = Some z → for_part j [(cl, MTaskResult t st d p)] = []) by (intros j z Hj; rewrite for_part_one, eqb_ne; [reflexivity|]; intros ->; exact (ok_apart _ _ (gl_ok H) _ _ _ Hxc Hj)).
        split; [intros j z _; apply Hno|]. split; [intros j z _; rewrite for_part_one; destruct (String.eqb cl j); reflexivity|]. split; [exact (Hno _ _ Hx)|exact Ho].
    - destruct (round_balance_response xt (y_sched y) false _ 0 [] Hc Hpk w ids eq_refl) as (Hm & T & _). eexists. split; [apply (sched_queues cfg X _ _ _ H), (mv_posted _ _ _ _ _ _ _ Hm)|].
      split; [reflexivity|]. split; [reflexivity|]. split; [reflexivity|]. split; [eapply Hcalm; [exact (mv_posted _ _ _ _ _ _ _ Hm)|reflexivity]|]. split; [|exact T]. symmetry. exact (ledger_step cfg X _ _ _ _ _ H (mv_core _ _ _ _ _ _ _ Hm)).
    - destruct (round_heartbeat xt (y_sched y) false _ 0 [] Hc Hpk w h eq_refl Htext) as (Hm & T & _). destruct (Hown MHeartbeatEcho) as (O1 & O2 & O3). eexists. split; [apply (sched_queues cfg X _ _ _ H), (mv_posted _ _ _ _ _ _ _ Hm)|].
      split; [exact O1|]. split; [exact O2|]. split; [exact O3|]. split; [eapply Hcalm; [exact (mv_posted _ _ _ _ _ _ _ Hm)|reflexivity]|]. split; [|exact T]. symmetry. exact (ledger_step cfg X _ _ _ _ _ H (mv_core _ _ _ _ _ _ _ Hm)).
    - destruct (effect_request _ _ _ _ _ _ _ _ _ "" "" _ _ HF) as (-> & (k & Hk1 & Hk2 & Hk3) & _).
      assert (Hfn : is_Some (s_funcs (y_sched y) !! f)) by (rewrite <- Hk3; exact (c_fn _ _ _ _ _ Hc _ _ Hk2)).
      destruct (round_request xt (y_sched y) false _ 0 [] Hc Hpk Hq w f n ct Hfn) as (n' & ct' & Hm & T & _). destruct (Hown (MFunctionResponse FnOK f n' ct')) as (O1 & O2 & O3). eexists. split; [apply (sched_queues cfg X _ _ _ H), (mv_posted _ _ _ _ _ _ _ Hm)|].
      split; [exact O1|]. split; [exact O2|]. split; [eauto|]. split; [eapply Hcalm; [exact (mv_posted _ _ _ _ _ _ _ Hm)|reflexivity]|]. split; [|exact T]. symmetry. exact (ledger_step cfg X _ _ _ _ _ H (mv_core _ _ _ _ _ _ _ Hm)).
  Qed.

  (** *** The dispatch loop and the graph loop *)
  Lemma effect_dispatch y : G y → let y' := after y EDispatch in
    ∃ out, quick y (Round 0 [] EDispatch) out ∧ calm y' ∧ s_tasks (y_sched y') = s_tasks (y_sched y) ∧ s_funcs (y_sched y') = s_funcs (y_sched y) ∧ registered (log y') = registered (log y) ∧
      ((out = [] ∧ holder (log y') = holder (log y) ∧ (waiting_task (y_sched y) = None ∨ registered (log y) = ∅ ∨ ∀ w, w ∈ registered (log y) → load (ledger_of (log y)) w = al_max (s_alloc (y_sched y)))) ∨
       ∃ k w, is_Some (y_workers y !! w) ∧ out = [(w, MTask k)] ∧ s_tasks (y_sched y) !! task_id k = Some k ∧ holder (log y') = <[task_id k := w]> (holder (log y))).
  Proof.
    intros H. cbv zeta. unfold after, calm. cbn [y_sched set_sched]. destruct (gl_fine H) as (xt & O & W). pose proof O as [Hc Hq].
    destruct (round_dispatch xt (y_sched y) _ _ 0 [] Hc eq_refl Hq) as (T & CL & F & [(Hm & Hwhy)|(k & w & Hwk & Hk & Hn & Hw & Hm)]); pose proof (mv_posted _ _ _ _ _ _ _ Hm) as Hpo; eexists; (split; [apply (sched_queues cfg X _ _ _ H), Hpo|]);
      (split; [rewrite (step_undisp cfg X _ _ _ H Hpo); reflexivity|]); (split; [exact T|]); (split; [exact F|]); pose proof (ledger_step cfg X _ _ _ _ _ H (mv_core _ _ _ _ _ _ _ Hm)) as E; injection E as E1 E2.
    - split; [symmetry; exact E1|]. left. split; [reflexivity|]. split; [symmetry; exact E2|exact Hwhy].
    - split; [symmetry; exact E1|]. right. exists k, w. split; [exact (gl_known H _ Hw)|]. split; [reflexivity|]. split; [exact Hk|symmetry; exact E2].
  Qed.
  Lemma effect_graph y : G y → ∃ out, quick y (Round 0 [] EGraph) out ∧ (∀ w z, y_workers y !! w = Some z → for_part w out = []) ∧ (∀ c z, y_clients y !! c = Some z → refused (for_part c out) = []).
  Proof.
    intros H. destruct (gl_fine H) as (xt & O & W). pose proof O as [Hc Hq]. destruct (x_queue xt) as [|[c gt] Q] eqn:EQ.
    - destruct (round_quiet xt (y_sched y) _ _ 0 [] Hc eq_refl Hq EGraph ltac:(auto)) as (Hm & T & CL & _). exists []. split; [apply (sched_queues cfg X _ _ _ H), (mv_posted _ _ _ _ _ _ _ Hm)|auto].
    - destruct (round_begin xt _ (y_sched y) 0 [] O W ltac:(rewrite (cfg_of _ _ _ _ H); exact Hmax) c gt Q EQ) as (_ & out & Hns).
      destruct (world_queue cfg X y (gl_ok H) (λ t, proj2 (gl_names H t)) (gl_graphs H) _ _ W c gt ltac:(rewrite EQ; left)) as [Hids [xc Hxc]]. pose proof (ns_out _ _ _ _ _ _ Hns) as Hout.
      exists out. split; [apply (sched_queues cfg X _ _ _ H), (ns_posted _ _ _ _ _ _ Hns)|]. split; [|intros j z _; eapply graphic_refused, Hout].
      intros j z Hj. apply for_part_nil. intros j' m Hj' ->. rewrite Forall_forall in Hout. destruct (Hout _ Hj') as [E _]. cbn in E. subst j. exact (ok_apart _ _ (gl_ok H) _ _ _ Hxc Hj).
  Qed.

  (** *** Steps of the parts *)
  Lemma queue_worker y w x x' out hd Q : G y → y_workers y !! w = Some x →
    agent_sent (n_history x') = agent_sent (n_history x) ++ out → agent_heard (n_history x') = agent_heard (n_history x) ++ hd → to_agent y w x = hd ++ Q →
    to_scheduler (set_worker w x' y) w = to_scheduler y w ++ out ∧ to_agent (set_worker w x' y) w x' = Q.
  Proof.
    intros H Hx Hs Hh HQ. pose proof (not_client _ _ _ _ (gl_ok H) Hx) as Hc.
    assert (Ep : sent_by_part (set_worker w x' y) w = sent_by_part y w ++ out) by (unfold sent_by_part; cbn; rewrite lookup_insert, Hx, Hc; exact Hs).
    split; [unfold to_scheduler; rewrite Ep; apply on_the_way_sent, (gl_heard H w)|]. destruct (on_the_way_grow _ _ _ _ [] (gl_wlen H w x Hx) HQ) as [G1 G2]. rewrite !app_nil_r in G2. unfold to_agent. rewrite Hh. exact G2.
  Qed.
  Lemma queue_client y c x x' out hd Q : G y → y_clients y !! c = Some x →
    client_sent x'.2 = client_sent x.2 ++ out → client_heard x'.2 = client_heard x.2 ++ hd → to_client y c = hd ++ Q →
    to_scheduler (set_client c x' y) c = to_scheduler y c ++ out ∧ to_client (set_client c x' y) c = Q.
  Proof.
    intros H Hx Hs Hh HQ.
    assert (Ep : sent_by_part (set_client c x' y) c = sent_by_part y c ++ out) by (unfold sent_by_part; cbn; rewrite lookup_insert, Hx; exact Hs).
    split; [unfold to_scheduler; rewrite Ep; apply on_the_way_sent, (gl_heard H c)|]. unfold to_client, history_of in HQ. rewrite Hx in HQ. destruct (on_the_way_grow _ _ _ _ [] (gl_clen H c x Hx) HQ) as [G1 G2]. rewrite !app_nil_r in G2.
    unfold to_client, history_of. cbn. rewrite lookup_insert, Hh. exact G2.
  Qed.
End effects.
(** Nobody given up. *)
Notation G := (@Gd ∅).
