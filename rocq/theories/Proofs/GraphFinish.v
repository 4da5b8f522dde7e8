(** * Orderly executions with graphs can always be finished (C87) *)

From Verif.Model Require Import Base OneToManyDict PriorityQueue Allocator Message Sorter Client Worker Processor Scheduler System.
From Verif.Spec Require Import AllocatorSpec DictSpec SchedulerSpec SystemSpec FlowSpec TrafficSpec GraphFlowSpec.
From Verif.Proofs Require SchedContent ClientProofs FlowFinish.
From Verif.Proofs Require Import BaseProofs DictProofs AllocatorProofs SchedWp SchedCount SchedHold SchedGlobal SchedStep SchedRemove SchedPlain SchedPolite SchedLive SchedBegin SchedTraffic SchedFinish SystemParts SystemProofs FlowSched FlowWorker FlowWork FlowClient FlowSystem GraphClient GraphRounds GraphFlow GraphStep.
Import FlowFinish(fold_len, fold_len_zero, cost_out, cost_in, cost, stale, recv_buffer, sum_tasks, stale_mono, cost_out_mono, sum_mono).
Lemma dom_set_client c (x x' : client * list kentry) y : y_clients y !! c = Some x → dom (y_clients (set_client c x' y)) = dom (y_clients y).
Proof. intros Hx. cbn. apply dom_insert_lookup_L. eauto. Qed.
Lemma dom_set_worker w (x x' : worker) y : y_workers y !! w = Some x → dom (y_workers (set_worker w x' y)) = dom (y_workers y).
Proof. intros Hx. cbn. apply dom_insert_lookup_L. eauto. Qed.

(** ** Clients *)
Lemma recv_calls x m loads : k_flight (k_step x (KRecv m loads)).1 = k_flight x.1 ∧ k_sending (k_step x (KRecv m loads)).1 = k_sending x.1.
Proof.
  destruct x as [k h]. unfold k_step. cbn [k_handle fst]. destruct (k_up k); [|auto].
  assert (Hset : ∀ key v k, k_flight (f_set key v k).1.1 = k_flight k ∧ k_sending (f_set key v k).1.1 = k_sending k) by (intros key v k0; unfold f_set; destruct (k_state k0 !! key) as [[]|]; auto).
  assert (Hall : ∀ kvs k, k_flight (f_set_all kvs k).1.1 = k_flight k ∧ k_sending (f_set_all kvs k).1.1 = k_sending k).
  { induction kvs as [|[key v] kvs IH]; intros k0; cbn; [auto|]. destruct (Hset key v k0) as [A B]. destruct (f_set key v k0) as [[k1 out] [e|]]; [auto|]. cbn in A, B. destruct (IH k1) as [C D]. destruct (f_set_all kvs k1) as [[k2 out'] e']. cbn in *. split; congruence. }
  assert (Hcut : k_flight (k_receive m loads k).1.1 = k_flight k ∧ k_sending (k_receive m loads k).1.1 = k_sending k).
  { destruct m; cbn [k_receive]; try (split; reflexivity).
    - unfold k_echo. destruct (k_tasks k !! id); [|auto]. destruct status; auto.
      + cbn. destruct (existsb _ _); [|auto]. destruct (k_state k !! FTask id) as [[]|]; auto.
      + destruct (k_check t k) as [out [e|]]; auto.
    - unfold k_result. destruct (existsb _ _); [|auto]. cbv zeta. destruct status; auto; destruct loads; auto; (match goal with |- context [f_set ?a ?b ?c] => destruct (Hset a b c) as [-> ->] end); auto.
    - unfold k_graph_result. destruct (List.find _ _) as [[g n]|]; [|auto]. cbv zeta. set (k1 := k_with_state _ _ k). assert (E : k_flight k1 = k_flight k ∧ k_sending k1 = k_sending k) by auto. clearbody k1.
      destruct status; auto.
      + destruct loads; [|auto]. pose proof (Hall (imap (λ i p, (FGraph id i, Value p)) (take n results)) k1) as Ha. destruct (f_set_all _ k1) as [[k2 out] [e|]]; cbn in *; destruct Ha, E; split; congruence.
      + destruct results as [|p ps]; [auto|]. destruct loads; [|auto]. pose proof (Hall (imap (λ i _, (FGraph id i, Error p)) (take n (p :: ps))) k1) as Ha. destruct (f_set_all _ k1) as [[k2 out] [e|]]; cbn in *; destruct Ha, E; split; congruence.
    - unfold k_function_response. destruct status; auto; destruct (k_buffer k !! id); auto. }
  destruct (k_receive m loads k) as [[k1 out] [e|]]; exact Hcut.
Qed.

Section finish.
  Context {Gn lost : gset bytes} {HGL : among Gn lost} (cfg : config) (Hmax : c_max_waiting cfg < 0) (verdict : task → outcome) (Hverdict : ∀ k, verdict k ≠ Ended) (X : gset bytes) (Hnodes : ∀ k, task_id k ∈ X → ∃ v, verdict k = Returned v).
  Notation leads := (leads (lost:=lost) verdict).
  Notation leads_refl := (leads_refl (lost:=lost) verdict).
  Notation leads_one := (leads_one (lost:=lost) verdict).
  Notation each := (each (lost:=lost) verdict).
  Notation G := (Gd (Gn:=Gn) cfg X).
  Notation recv_buffer := (recv_buffer cfg Hmax verdict Hverdict ∅ ∅ (λ _ Hi, Hi)).
  Notation stale_mono := (stale_mono cfg Hmax verdict Hverdict ∅ ∅ (λ _ Hi, Hi)).
  Notation cost_out_mono := (cost_out_mono cfg Hmax verdict Hverdict ∅ ∅ (λ _ Hi, Hi)).
  Notation sum_tasks := (sum_tasks verdict Hverdict).
  Notation fold_len_zero := (fold_len_zero verdict Hverdict).
  Notation log y := (s_log (y_sched y)).
  Lemma alive_in w : w ∉ lost → w ∉ Gn.
  Proof. intros Hw Hi. exact (Hw (among_lost _ Hi)). Qed.
  Lemma go_on y a : G y → orderly_graphs y a → no_news a → as_decided verdict y a → (∀ w x, worker_of a = Some w → y_workers y !! w = Some x → w ∉ lost) → leads y (act y a) ∧ G (act y a).
  Proof.
    intros H Ho Hn Ha Hl. split; [by apply leads_one|]. apply (G_act cfg Hmax); [exact H|exact Ho|exact Hn|]. intros w E Hi. destruct (gl_gone H w Hi) as [_ [x Hx]]. exact (alive_in _ (Hl w x E Hx) Hi).
  Qed.

  Definition idle_users (y : system) : Prop := ∀ c x, y_clients y !! c = Some x → k_flight x.1 = ∅ ∧ k_sending x.1 = ∅.
  Definition intact_node (x : worker) : Prop :=
    (∀ t d p, POut (MTaskResult t Failed d p) ∈ n_calls x → t ∉ X) ∧
    match c_main (n_processor x) with
    | Found k => task_id k ∈ X → is_Some (c_functions (n_processor x) !! task_function k)
    | Calling k f => task_id k ∈ X → is_Some f
    | _ => True
    end.
  Definition intact (y : system) : Prop := ∀ w x, y_workers y !! w = Some x → w ∉ lost → intact_node x.

  (** ** Calls of submit and get end *)
  Lemma set_twice c x x' y : set_client c x' (set_client c x y) = set_client c x' y.
  Proof. unfold set_client. cbn. rewrite insert_insert. reflexivity. Qed.
  Lemma user_step y c x e : G y → y_clients y !! c = Some x → match e with KStep _ | KGraphStep _ => True | _ => False end →
    leads y (set_client c (k_step x e) y) ∧ G (set_client c (k_step x e) y).
  Proof.
    intros H Hx He. assert (Ea : act y (UserDoes c e) = set_client c (k_step x e) y) by (cbn; rewrite Hx; destruct e; done). rewrite <- Ea. apply go_on; [exact H|by destruct e..].
  Qed.
  Lemma end_call y c x t z st : G y → y_clients y !! c = Some x → k_flight x.1 !! t = Some (z, st) →
    ∃ x', leads y (set_client c x' y) ∧ G (set_client c x' y) ∧ k_flight x'.1 = delete t (k_flight x.1).
  Proof.
    assert (Hone : ∀ y x, G y → y_clients y !! c = Some x → ∃ x', leads y (set_client c x' y) ∧ G (set_client c x' y) ∧ k_flight x'.1 = stepped t (k_flight x.1)).
    { clear y x z st. intros y x H Hx. destruct (user_ok _ _ x (KStep t) _ _ (gl_client H c x Hx) I) as (out & Eo & HF & Hst). exists (k_step x (KStep t)). destruct (user_step y c x (KStep t) H Hx I) as [L H']. split; [exact L|]. split; [exact H'|]. exact (Hst t eq_refl). }
    assert (Hreg : ∀ y x z, G y → y_clients y !! c = Some x → k_flight x.1 !! t = Some (z, AtRegister) → ∃ x', leads y (set_client c x' y) ∧ G (set_client c x' y) ∧ k_flight x'.1 = delete t (k_flight x.1)).
    { intros y0 x0 z0 H Hx Hf. destruct (Hone _ _ H Hx) as (x' & L & HF & E). unfold stepped in E. rewrite Hf in E. eauto. }
    assert (Happ : ∀ y x z, G y → y_clients y !! c = Some x → k_flight x.1 !! t = Some (z, AtAppend) → ∃ x', leads y (set_client c x' y) ∧ G (set_client c x' y) ∧ k_flight x'.1 = delete t (k_flight x.1)).
    { intros y0 x0 z0 H Hx Hf. destruct (Hone _ _ H Hx) as (x' & L & HF & E). unfold stepped in E. rewrite Hf in E.
      destruct (Hreg (set_client c x' y0) x' z0 HF) as (x2 & L2 & HF2 & E2). { cbn. apply lookup_insert. } { rewrite E. apply lookup_insert. }
      rewrite set_twice in *. exists x2. split; [eapply leads_trans; eassumption|]. split; [exact HF2|]. rewrite E2, E. apply delete_insert_delete. }
    intros H Hx Hf. destruct st; [|eapply Happ; eassumption|eapply Hreg; eassumption].
    destruct (Hone _ _ H Hx) as (x' & L & HF & E). unfold stepped in E. rewrite Hf in E.
    destruct (Happ (set_client c x' y) x' z HF) as (x2 & L2 & HF2 & E2). { cbn. apply lookup_insert. } { rewrite E. apply lookup_insert. }
    rewrite set_twice in *. exists x2. split; [eapply leads_trans; eassumption|]. split; [exact HF2|]. rewrite E2, E. apply delete_insert_delete.
  Qed.
  Lemma same_client c x y : y_clients y !! c = Some x → set_client c x y = y.
  Proof. intros Hx. unfold set_client. destruct y. cbn in *. rewrite insert_id by done. reflexivity. Qed.
  Lemma end_calls y c x : G y → y_clients y !! c = Some x → ∃ x', leads y (set_client c x' y) ∧ G (set_client c x' y) ∧ k_flight x'.1 = ∅.
  Proof.
    intros H Hx. remember (size (k_flight x.1)) as n eqn:En. revert y x H Hx En. induction n as [|n IH]; intros y x H Hx En.
    - exists x. rewrite same_client by exact Hx. split; [apply leads_refl|]. split; [exact H|]. by apply map_size_empty_inv.
    - destruct (map_choose (k_flight x.1)) as (t & [z st] & Ht). { intros E. rewrite E, map_size_empty in En. discriminate. }
      destruct (end_call _ _ _ _ _ _ H Hx Ht) as (x1 & L1 & H1 & E1). destruct (IH (set_client c x1 y) x1 H1) as (x2 & L2 & H2 & E2).
      + cbn. apply lookup_insert.
      + rewrite E1, map_size_delete_Some by eauto. lia.
      + rewrite set_twice in *. exists x2. split; [eapply leads_trans; eassumption|auto].
  Qed.
  Lemma end_gets y c x : G y → y_clients y !! c = Some x → k_flight x.1 = ∅ → ∃ x', leads y (set_client c x' y) ∧ G (set_client c x' y) ∧ k_flight x'.1 = ∅ ∧ k_sending x'.1 = ∅.
  Proof.
    intros H Hx. remember (size (k_sending x.1)) as n eqn:En. revert y x H Hx En. induction n as [|n IH]; intros y x H Hx En Hf.
    - exists x. rewrite same_client by exact Hx. split; [apply leads_refl|]. split; [exact H|]. split; [exact Hf|]. by apply map_size_empty_inv.
    - destruct (map_choose (k_sending x.1)) as (g & m & Ht). { intros E. rewrite E, map_size_empty in En. discriminate. }
      destruct (user_step y c x (KGraphStep g) H Hx I) as [L1 H1]. set (x1 := k_step x (KGraphStep g)) in *.
      assert (E : k_flight x1.1 = k_flight x.1 ∧ k_sending x1.1 = delete g (k_sending x.1)) by (subst x1; destruct x as [k h]; cbn in *; unfold k_graph_step; rewrite Ht; auto). destruct E as [E1 E2].
      destruct (IH (set_client c x1 y) x1 H1) as (x2 & L2 & H2 & E3).
      + cbn. apply lookup_insert.
      + rewrite E2, map_size_delete_Some by eauto. lia.
      + rewrite E1. exact Hf.
      + rewrite set_twice in *. exists x2. split; [eapply leads_trans; eassumption|auto].
  Qed.
  Lemma end_all_calls y : G y → ∃ y', leads y y' ∧ G y' ∧ idle_users y' ∧ y_sched y' = y_sched y ∧ y_workers y' = y_workers y ∧ dom (y_clients y') = dom (y_clients y).
  Proof.
    intros H.
    destruct (each (λ y', G y' ∧ y_sched y' = y_sched y ∧ y_workers y' = y_workers y ∧ dom (y_clients y') = dom (y_clients y)) (λ _, False) (λ c y', ∀ x, y_clients y' !! c = Some x → k_flight x.1 = ∅ ∧ k_sending x.1 = ∅))
      with (l := elements (dom (y_clients y))) (y := y) as (y' & L & [[]|((H' & E1 & E2 & E3) & P)]).
    - intros c y1 (H1 & E1 & E2 & E3). destruct (y_clients y1 !! c) as [x|] eqn:Hx.
      + destruct (end_calls _ _ _ H1 Hx) as (x1 & L1 & H2 & Ef). destruct (end_gets (set_client c x1 y1) c x1 H2 (lookup_insert _ _ _) Ef) as (x' & L2 & H3 & Es). rewrite set_twice in *.
        exists (set_client c x' y1). split; [eapply leads_trans; eassumption|]. right. split.
        { split; [exact H3|]. split; [exact E1|]. split; [exact E2|]. rewrite (dom_set_client _ _ _ _ Hx). exact E3. }
        cbn. split; [rewrite lookup_insert; intros ? [= <-]; exact Es|]. intros j Hj z. destruct (decide (j = c)) as [->|Hne]; [rewrite lookup_insert; intros [= <-]; exact Es|rewrite lookup_insert_ne by done; apply Hj].
      + exists y1. split; [apply leads_refl|]. right. split; [auto|]. split; [intros x Hx'; congruence|auto].
    - auto.
    - exists y'. split; [exact L|]. split; [exact H'|]. split; [|auto]. intros c x Hx. apply (P c); [|exact Hx]. apply elem_of_elements. rewrite <- E3. apply elem_of_dom. eauto.
  Qed.

  (** ** Clients and the scheduler exchange all their messages *)
  Definition base (K W : gset bytes) (y : system) : Prop := G y ∧ calm y ∧ idle_users y ∧ dom (y_clients y) = K ∧ dom (y_workers y) = W ∧ intact y.
  Lemma base_sched K W y r : base K W y → G (set_sched (step (y_sched y) r) y) → calm (set_sched (step (y_sched y) r) y) → base K W (set_sched (step (y_sched y) r) y).
  Proof. intros (_ & _ & B) H' C'. split; [exact H'|]. split; [exact C'|exact B]. Qed.
  Lemma do_dispatch y : G y → leads y (after y EDispatch) ∧ G (after y EDispatch).
  Proof. intros H. exact (go_on y (SchedulerDoes 0 [] EDispatch) H I I I (λ w x E, ltac:(discriminate E))). Qed.
  (** The results of a graph are as many as were asked for. *)
  Lemma answer_fits y c x gid st rs n : G y → y_clients y !! c = Some x → LSend c (MGraphTaskResult gid st rs) ∈ log y → (gid, n) ∈ k_graphs x.1 → n = length rs.
  Proof.
    intros H Hx Hsent Hn. pose proof (gl_answers H _ _ Hsent) as ->. destruct (go_wait _ (gl_graphs H _ _ Hx) gid n (or_introl Hn)) as [(fs & ts & ns & Hm & ->) _].
    destruct (ok_run _ _ (gl_ok H)) as [rr Hrs]. pose proof Hsent as Hs2. rewrite Hrs in Hs2. apply elem_of_list_split in Hs2 as (before & aft & Eb).
    destruct (SchedContent.Inv3_run cfg rr) as [H3 _]. destruct (H3 _ _ _ Eb) as (fs' & ts' & ns' & Hr & Hall).
    assert (Hr' : received c (MGraphTask gid fs' ts' ns') (log y)). { destruct Hr as [now Hr]. exists now. rewrite Hrs, Eb. apply elem_of_app. auto. }
    destruct (graph_sender cfg y (gl_ok H) _ _ _ _ _ Hr') as (x' & Hx' & Hm'). rewrite Hx in Hx'. injection Hx' as <-.
    destruct (same_graph _ _ _ _ _ _ _ _ (gl_graphs H _ _ Hx) Hm Hm') as (_ & <- & _). exact (Forall2_length _ _ _ Hall).
  Qed.
  (** A client gets a message. *)
  Lemma client_recv y c x m Q : G y → y_clients y !! c = Some x → to_client y c = m :: Q → k_flight x.1 = ∅ → k_sending x.1 = ∅ →
    let x' := k_step x (KRecv m true) in let y' := set_client c x' y in let b := fold_len (k_buffer x.1) in let b' := fold_len (k_buffer x'.1) in
    leads y y' ∧ G y' ∧ to_client y' c = Q ∧ k_flight x'.1 = ∅ ∧ k_sending x'.1 = ∅ ∧
    ∃ out, to_scheduler y' c = to_scheduler y c ++ out ∧
      match m with
      | MTaskEcho _ FunctionNotExists => b' = S b ∧ (out = [] ∨ ∃ f n ct, out = [MFunctionRequest FnAdd f n ct])
      | MFunctionResponse _ f _ _ => ∃ ks : list task, (length ks + b')%nat = b ∧ out = MTask <$> ks ∧ Forall (λ k, task_function k = f) ks
      | _ => False
      end ∨ to_scheduler y' c = to_scheduler y c ∧ b' = b ∧ out = [].
  Proof.
    intros H Hx HQ Hfl Hsn. cbv zeta. destruct (recv_calls x m true) as [R1 R2]. set (x' := k_step x (KRecv m true)) in *. set (y' := set_client c x' y).
    assert (Hsent : LSend c m ∈ log y) by (apply sent_entry; eapply on_the_way_in, HQ).
    assert (Ea : act y (ToClient c m true) = y') by (cbn [act]; rewrite Hx, bool_decide_eq_true_2; [reflexivity|exact Hsent]).
    destruct (go_on y (ToClient c m true) H) as [L1 H1]; [|exact I|exact I|discriminate|].
    { split; [|intros z Hz; rewrite Hx in Hz; injection Hz as <-; exact Hsn]. cbn. unfold next. rewrite HQ. split; [reflexivity|]. split; [reflexivity|]. intros z Hz. rewrite Hx in Hz. injection Hz as <-. exact Hfl. }
    rewrite Ea in L1, H1. destruct (kstep_history x (KRecv m true)) as (out & E0 & E1 & E2 & E3). fold x' in E0, E1, E2.
    destruct (queue_client cfg X y c x x' (client_sent out) [m] Q H Hx E1 E2 HQ) as [Q1 Q2]. fold y' in Q1, Q2.
    split; [exact L1|]. split; [exact H1|]. split; [exact Q2|]. split; [rewrite R1; exact Hfl|]. split; [rewrite R2; exact Hsn|]. exists (client_sent out).
    pose proof (gl_client H c x Hx) as HF0. rewrite HQ in HF0. destruct (keeps X m) eqn:Ek.
    - rewrite plain_keep in HF0 by exact Ek. pose proof (recv_buffer _ _ _ _ _ _ _ HF0 Hfl E0) as Hb. cbv zeta in Hb. fold x' in Hb.
      destruct m as [|t st| |t st d p| | | | | | | | | |st f n ct| | | | | |]; try (right; destruct Hb as [B1 B2]; rewrite Q1, B2, app_nil_r; auto; fail).
      + destruct st; try (right; destruct Hb as [B1 B2]; rewrite Q1, B2, app_nil_r; auto; fail). left. auto.
      + left. auto.
    - right. assert (Hb : k_buffer x'.1 = k_buffer x.1 ∧ client_sent out = []); [|destruct Hb as [-> B2]; rewrite Q1, B2, app_nil_r; auto].
      pose proof (flow_ids _ _ _ _ _ HF0) as (_ & _ & _ & I4 & I5 & _). destruct HF0 as (F & B & A & D & HC). pose proof (gl_subs H c x) as HX. clear R1 R2 E1 E2 E3 Q1 Q2 L1 H1 Ea. subst x' y'. destruct x as [k h]. cbn [fst snd] in *.
      assert (Hnop : k_handle (KRecv m true) k = (k, []) → k_buffer (k_step (k, h) (KRecv m true)).1 = k_buffer k ∧ client_sent out = []).
      { intros E. unfold k_step in *. rewrite E in *. cbn [fst snd] in *. apply app_inv_head in E0. injection E0 as <-. auto. }
      destruct m as [|t st| |t st d p|gid fs ts ns| | |g st rs| | | | | | | | | | | |]; cbn in Ek; try discriminate; try apply bool_decide_eq_false in Ek.
      + apply Hnop. cbn [k_handle]. rewrite (ko_up HC). cbn [k_receive]. unfold k_echo. destruct (k_tasks k !! t) eqn:E; [|reflexivity]. destruct (HX t Hx); [apply I5; eauto|]. by apply dec_stable.
      + apply Hnop. cbn [k_handle]. rewrite (ko_up HC). cbn [k_receive]. unfold k_result. destruct (existsb (String.eqb t) (k_futures k)) eqn:E; [|reflexivity].
        apply existsb_exists in E as (t' & Ht & E). apply String.eqb_eq in E as <-. apply elem_of_list_In in Ht. destruct (HX t Hx); [apply I4, Ht|]. by apply dec_stable.
      + destruct (gl_answers H _ _ Hsent).
      + pose proof (gl_answers H _ _ Hsent) as ->. destruct (graph_result_ok k h g rs (ko_up HC) (gl_graphs H _ _ Hx) Hsn) as (gs & sta & out' & E & G1 & G2 & G3).
        * intros n. exact (answer_fits _ _ _ _ _ _ _ H Hx Hsent).
        * rewrite E in *. cbn [fst snd] in *. apply app_inv_head in E0. injection E0 as ->. split; [reflexivity|]. rewrite Forall_forall in G2. apply elem_of_nil_inv. intros m' (o & Ho & Eo)%elem_of_list_omap. destruct (G2 _ Ho) as (? & ? & ->). discriminate.
  Qed.
  (** The scheduler gets a message. *)
  Lemma sched_recv y i m Q : G y → calm y → (∀ x, y_workers y !! i = Some x → i ∉ lost) → to_scheduler y i = m :: Q → match m with MTaskResult t st _ _ => t ∈ X → st = Success | _ => True end →
    leads y (after y (ERecv i m)) ∧ G (after y (ERecv i m)).
  Proof.
    intros H Hu Hl HQ Hm. assert (Hs : sent_by y i m = true).
    { pose proof (on_the_way_in _ _ _ _ HQ) as Hin. unfold sent_by_part in Hin. unfold sent_by.
      destruct (y_clients y !! i) as [[k h]|] eqn:Hc.
      - apply orb_true_iff. left. apply bool_decide_eq_true_2. apply elem_of_list_omap in Hin as (o & Ho & E). destruct o; try discriminate. injection E as ->. exact Ho.
      - destruct (y_workers y !! i) as [z|] eqn:Hw; [|by apply elem_of_nil in Hin].
        apply orb_true_iff. right. apply bool_decide_eq_true_2. apply elem_of_list_omap in Hin as (o & Ho & E). destruct o; try discriminate. injection E as ->. exact Ho. }
    assert (Ea : act y (ToScheduler i m 0 []) = after y (ERecv i m)) by (cbn [act]; rewrite Hs; reflexivity). rewrite <- Ea.
    assert (Hor : orderly y (ToScheduler i m 0 [])) by (cbn; unfold next; rewrite HQ; split; [reflexivity|exact Hu]).
    apply go_on; [exact H| |exact I|exact I|intros w x [= <-]; apply Hl]. destruct m; try exact Hor. split; [exact Hor|]. intros Ho. apply Hm, (gl_names H), Ho.
  Qed.

  Definition drained (c : bytes) (y : system) : Prop := to_scheduler y c = [] ∧ to_client y c = [].
  Lemma sched_other y r out i : quick y r out → rcvd i (rd_event r) = [] → to_scheduler (set_sched (step (y_sched y) r) y) i = to_scheduler y i.
  Proof. intros Hq E. apply (qk_in _ _ _ Hq). rewrite E. reflexivity. Qed.
  Lemma client_moves K W y c x : base K W y → y_clients y !! c = Some x → (to_scheduler y c ≠ [] ∨ to_client y c ≠ []) →
    let fs := dom (s_funcs (y_sched y)) in
    ∃ y' x', leads y y' ∧ base K W y' ∧ y_clients y' !! c = Some x' ∧ (∀ j, j ≠ c → j ∈ K → drained j y → drained j y') ∧
      let fs' := dom (s_funcs (y_sched y')) in
      (stale fs' (to_client y' c) < stale fs (to_client y c))%nat ∨
      (stale fs' (to_client y' c) <= stale fs (to_client y c))%nat ∧ (cost fs' x'.1 (to_scheduler y' c) (to_client y' c) < cost fs x.1 (to_scheduler y c) (to_client y c))%nat.
  Proof.
    intros HB Hx Hq. pose proof HB as (H & Hu & Hi & HK & HW & Hin). cbv zeta. destruct (to_scheduler y c) as [|m Q] eqn:EQ.
    - destruct (to_client y c) as [|m Q] eqn:EC; [tauto|]. destruct (Hi _ _ Hx) as [Hf Hs]. destruct (client_recv y c x m Q H Hx EC Hf Hs) as (L & H' & G2 & F' & S' & out & Hb).
      set (x' := k_step x (KRecv m true)) in *. set (y' := set_client c x' y) in *. exists y', x'. split; [exact L|].
      split. { split; [exact H'|]. split; [exact Hu|]. split; [|split; [rewrite <- HK; exact (dom_set_client _ _ _ _ Hx)|auto]]. intros j z. cbn. destruct (decide (j = c)) as [->|Hne]; [rewrite lookup_insert; intros [= <-]; auto|rewrite lookup_insert_ne by done; apply Hi]. }
      split; [cbn; apply lookup_insert|]. split. { intros j Hne _ [D1 D2]. destruct (queue_other_client y c x' j Hne) as [E1 E2]. split; [rewrite <- D1; exact E1|rewrite <- D2; exact E2]. }
      rewrite G2. change (s_funcs (y_sched y')) with (s_funcs (y_sched y)). set (fs := dom (s_funcs (y_sched y))). rewrite EQ in Hb. cbn [app] in Hb. unfold cost, stale.
      destruct Hb as [[G1 Hb]|(G1 & Hb & ->)]; rewrite G1.
      + destruct m as [|t st| |t st d p| | | | | | | | | |st f n ct| | | | | |]; cbn [sum_list_with cost_in]; try done.
        * destruct st; try done. destruct Hb as [E1 [E2|(f & n & ct & E2)]]; rewrite E1, E2; right; cbn; lia.
        * destruct Hb as (ks & E1 & E2 & E3). rewrite E2. destruct (decide (f ∈ fs)) as [Hfs|Hfs]; [|left; lia]. right. rewrite (sum_tasks _ _ _ E3 Hfs). cbn. lia.
      + rewrite Hb. right. cbn [sum_list_with]. assert (1 <= cost_in m)%nat by (destruct m as [|? []| | | | | | | | | | | | | | | | | |]; cbn; lia). lia.
    - destruct (effect_client cfg Hmax X y c x m Q H Hu Hx EQ) as (out & Hqk & Ho & He). cbv zeta in He. destruct (sched_recv y c m Q H Hu) as [L1 H1]; [intros z Hz; destruct (ok_apart _ _ (gl_ok H) _ _ _ Hx Hz)|exact EQ|by destruct m|].
      set (y1 := after y (ERecv c m)) in *. destruct (do_dispatch _ H1) as [L2 H2]. destruct (effect_dispatch cfg X y1 H1) as (out2 & Hq2 & Hu2 & _ & Ef2 & _ & Hd). cbv zeta in Hu2, Ef2, Hd. set (y2 := after y1 EDispatch) in *.
      assert (Hd2 : ∀ j z, y_clients y !! j = Some z → for_part j out2 = []).
      { intros j z Hz. destruct Hd as [[-> _]|(k & w & [xw Hw] & -> & _)]; [reflexivity|]. change (y_workers y !! w = Some xw) in Hw. apply for_part_nil. intros j' m' [= -> ->]%elem_of_list_singleton <-. exact (ok_apart _ _ (gl_ok H) _ _ _ Hz Hw). }
      assert (Hts : ∀ j, to_scheduler y2 j = to_scheduler y1 j) by (intros j; apply (sched_other y1 _ out2 j Hq2); reflexivity).
      assert (Htc : ∀ j z, y_clients y !! j = Some z → to_client y2 j = to_client y j ++ for_part j out).
      { intros j z Hz. pose proof (qk_client _ _ _ Hq2 j z Hz) as E. rewrite (Hd2 j z Hz), app_nil_r in E. etransitivity; [exact E|]. exact (qk_client _ _ _ Hqk j z Hz). }
      exists y2, x. split; [eapply leads_trans; eassumption|]. split; [split; [exact H2|split; [exact Hu2|split; [exact Hi|auto]]]|]. split; [exact Hx|]. split.
      { intros j Hne Hj [J1 J2]. rewrite <- HK in Hj. apply elem_of_dom in Hj as [z Hz]. split; [|rewrite (Htc j z Hz), J2, (Ho j Hne); reflexivity].
        rewrite Hts, <- J1. apply (sched_other y _ out j Hqk). cbn. apply String.eqb_neq in Hne. rewrite String.eqb_sym, Hne. reflexivity. }
      rewrite Hts, (Htc c x Hx), Ef2. replace (to_scheduler y1 c) with Q by (symmetry; apply (qk_in _ _ _ Hqk); cbn; rewrite String.eqb_refl; exact EQ).
      unfold cost, stale. destruct m as [z| | | |gid gfs gts gns| | | | | | | |ty f n ct| | | | | | |]; try done.
      + destruct He as [E0 ->]. rewrite E0. right. cbn [sum_list_with cost_out]. destruct (s_funcs (y_sched y) !! task_function z) eqn:Ef; rewrite !sum_list_with_app; cbn.
        * rewrite decide_True by (apply elem_of_dom; eauto). lia.
        * rewrite decide_False by (apply not_elem_of_dom; done). lia.
      + destruct He as [E0 ->]. rewrite E0, app_nil_r. right. cbn [sum_list_with cost_out]. lia.
      + destruct He as (E0 & st & ->). rewrite E0. right. rewrite !sum_list_with_app. set (fs := dom (s_funcs (y_sched y))).
        pose proof (stale_mono fs ({[f]} ∪ fs) (to_client y c) ltac:(set_solver)) as Hs. unfold stale in Hs. cbn [sum_list_with cost_out cost_in]. rewrite decide_True by set_solver.
        pose proof (sum_mono (cost_out fs) (cost_out ({[f]} ∪ fs)) Q ltac:(intros; apply cost_out_mono; set_solver)). lia.
  Qed.
  Lemma drain_client K W c : ∀ n m y x, base K W y → y_clients y !! c = Some x →
    (stale (dom (s_funcs (y_sched y))) (to_client y c) <= n)%nat → (cost (dom (s_funcs (y_sched y))) x.1 (to_scheduler y c) (to_client y c) <= m)%nat →
    ∃ y', leads y y' ∧ base K W y' ∧ drained c y' ∧ ∀ j, j ≠ c → j ∈ K → drained j y → drained j y'.
  Proof.
    induction n as [n IHn] using lt_wf_ind. induction m as [m IHm] using lt_wf_ind. intros y x HB Hx Hn Hm.
    destruct (decide (to_scheduler y c = [] ∧ to_client y c = [])) as [Hd|Hd]; [exists y; split; [apply leads_refl|]; split; [exact HB|]; split; [exact Hd|auto]|].
    destruct (client_moves K W y c x HB Hx) as (y1 & x1 & L1 & B1 & Hx1 & O1 & Hl).
    { destruct (to_scheduler y c); [|left; discriminate]. destruct (to_client y c); [|right; discriminate]. tauto. }
    cbv zeta in Hl. set (n1 := stale (dom (s_funcs (y_sched y1))) (to_client y1 c)) in *. set (m1 := cost (dom (s_funcs (y_sched y1))) x1.1 (to_scheduler y1 c) (to_client y1 c)) in *.
    assert (Hgo : ∃ y', leads y1 y' ∧ base K W y' ∧ drained c y' ∧ ∀ j, j ≠ c → j ∈ K → drained j y1 → drained j y').
    { destruct Hl as [Hl|[Hl1 Hl2]]; [apply (IHn n1 ltac:(lia) m1 y1 x1 B1 Hx1); subst n1 m1; lia|apply (IHm m1 ltac:(lia) y1 x1 B1 Hx1); subst n1 m1; lia]. }
    destruct Hgo as (y2 & L2 & B2 & D2 & O2). exists y2. split; [eapply leads_trans; eassumption|]. split; [exact B2|]. split; [exact D2|]. auto.
  Qed.
  Lemma drain_clients K W y : base K W y → ∃ y', leads y y' ∧ base K W y' ∧ ∀ c, c ∈ K → drained c y'.
  Proof.
    intros HB. destruct (each (base K W) (λ _, False) (λ c y, c ∈ K → drained c y)) with (l := elements K) (y := y) as (y' & L & [[]|[B' P]]).
    - intros c y1 B1. destruct (y_clients y1 !! c) as [x|] eqn:Hx.
      + destruct (drain_client K W c _ _ y1 x B1 Hx (le_n _) (le_n _)) as (y2 & L & B2 & D & O). exists y2. split; [exact L|]. right. split; [exact B2|]. split; [auto|]. intros j Hj HjK. destruct (decide (j = c)) as [->|Hne]; [exact D|auto].
      + exists y1. split; [apply leads_refl|]. right. split; [exact B1|]. split; [|auto]. intros Hc. destruct B1 as (_ & _ & _ & HK & _). rewrite <- HK in Hc. apply elem_of_dom in Hc as [? ?]. congruence.
    - exact HB.
    - exists y'. split; [exact L|]. split; [exact B'|]. intros c Hc. apply P; [apply elem_of_elements, Hc|exact Hc].
  Qed.
End finish.
