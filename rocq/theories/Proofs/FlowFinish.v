(** * Orderly executions can always be finished (C82) *)

From Verif.Model Require Import Base OneToManyDict PriorityQueue Allocator Message Client Worker Processor Scheduler System.
From Verif.Spec Require Import AllocatorSpec DictSpec SchedulerSpec SystemSpec FlowSpec.
From Verif.Proofs Require Import BaseProofs DictProofs AllocatorProofs SchedWp SchedCount SchedHold SchedRemove SchedPlain SchedPolite SchedGlobal SystemProofs FlowSched FlowWorker FlowWork FlowClient FlowSystem.

(** ** Continuations *)
Section continuations.
Context (verdict : task → outcome) (lost : gset bytes).
Definition leads (y y' : system) : Prop :=
  ∃ more, Forall no_news more ∧ y' = foldl act y more ∧ ∀ before a after, more = before ++ a :: after → orderly (foldl act y before) a ∧ as_decided verdict (foldl act y before) a ∧ ∀ w x, worker_of a = Some w → y_workers (foldl act y before) !! w = Some x → w ∉ lost.
Lemma leads_refl y : leads y y.
Proof. exists []. split; [constructor|]. split; [reflexivity|]. intros [|b before] a after E; discriminate. Qed.
Lemma leads_one y a : orderly y a → no_news a → as_decided verdict y a → (∀ w x, worker_of a = Some w → y_workers y !! w = Some x → w ∉ lost) → leads y (act y a).
Proof. intros Ho Hn Hv HX. exists [a]. split; [by constructor|]. split; [reflexivity|]. intros [|b [|b' before]] a' after E; injection E as -> E; try discriminate. auto. Qed.
Lemma app_split {A} (l l' : list A) before a after : l ++ l' = before ++ a :: after → (∃ q, l = before ++ a :: q ∧ after = q ++ l') ∨ ∃ q, before = l ++ q ∧ l' = q ++ a :: after.
Proof.
  revert before. induction l as [|b l IH]; intros before E; [right; exists before; auto|]. destruct before as [|b' before]; cbn in E; injection E as -> E.
  - left. exists l. auto.
  - destruct (IH _ E) as [(q & -> & ->)|(q & -> & ->)]; [left; eauto|right; eauto].
Qed.
Lemma leads_trans y y' y'' : leads y y' → leads y' y'' → leads y y''.
Proof.
  intros (m1 & N1 & -> & O1) (m2 & N2 & -> & O2). exists (m1 ++ m2). split; [by apply Forall_app|]. split; [rewrite foldl_app; reflexivity|].
  intros before a after [(q & E & _)|(q & -> & E)]%app_split; [exact (O1 _ _ _ E)|]. rewrite foldl_app. exact (O2 _ _ _ E).
Qed.
(** Treating one part after the other. *)
Lemma each (R : ledger → system → Prop) (P : bytes → ledger → system → Prop) :
  (∀ i g y, R g y → ∃ g' y', leads y y' ∧ R g' y' ∧ P i g' y' ∧ ∀ j, P j g y → P j g' y') →
  ∀ (l : list bytes) g y, R g y → ∃ g' y', leads y y' ∧ R g' y' ∧ ∀ i, i ∈ l → P i g' y'.
Proof.
  intros Hone l. induction l as [|i l IH]; intros g y HR; [exists g, y; split; [apply leads_refl|]; split; [exact HR|]; intros i Hi; by apply elem_of_nil in Hi|].
  destruct (IH g y HR) as (g1 & y1 & L1 & R1 & P1). destruct (Hone i g1 y1 R1) as (g2 & y2 & L2 & R2 & P2 & P3). exists g2, y2. split; [eapply leads_trans; eassumption|]. split; [exact R2|].
  intros j [->|Hj]%elem_of_cons; [exact P2|apply P3, P1, Hj].
Qed.
End continuations.

Section finish.
  Context (cfg : config) (Hmax : c_max_waiting cfg < 0) (verdict : task → outcome) (Hverdict : ∀ k, verdict k ≠ Ended) (X lost : gset bytes) (HXD : X ⊆ lost).
  Lemma alive_in w : w ∉ lost → w ∉ X.
  Proof. intros Hw Hi. exact (Hw (HXD _ Hi)). Qed.
  Notation leads := (leads verdict lost).
  Notation leads_refl := (leads_refl verdict lost).
  Notation leads_one := (leads_one verdict lost).
  Notation each := (each verdict lost).
  Definition calm (y : system) : Prop := undispatched (s_log (y_sched y)) = false.
  Definition idle_users (y : system) : Prop := ∀ c x, y_clients y !! c = Some x → k_flight x.1 = ∅.

  (** ** Calls of submit end *)
  Lemma end_call g y c x t z st : flow cfg X g y → y_clients y !! c = Some x → k_flight x.1 !! t = Some (z, st) →
    ∃ x', leads y (set_client c x' y) ∧ flow cfg X g (set_client c x' y) ∧ k_flight x'.1 = delete t (k_flight x.1).
  Proof.
    assert (Hone : ∀ g y x, flow cfg X g y → y_clients y !! c = Some x → ∃ x', leads y (set_client c x' y) ∧ flow cfg X g (set_client c x' y) ∧ k_flight x'.1 = stepped t (k_flight x.1)).
    { clear. intros g y x H Hx. destruct (flow_user _ _ _ H c x (KStep t) Hx I) as (out & E & HF & _ & _ & Ef). exists (k_step x (KStep t)). split; [|split; [exact HF|exact (Ef t eq_refl)]].
      rewrite <- E. apply leads_one; [exact I..|discriminate]. }
    assert (Hset : ∀ y x x', set_client c x' (set_client c x y) = set_client c x' y) by (intros; unfold set_client; cbn; rewrite insert_insert; reflexivity).
    assert (Hreg : ∀ g y x z, flow cfg X g y → y_clients y !! c = Some x → k_flight x.1 !! t = Some (z, AtRegister) → ∃ x', leads y (set_client c x' y) ∧ flow cfg X g (set_client c x' y) ∧ k_flight x'.1 = delete t (k_flight x.1)).
    { intros g0 y0 x0 z0 H Hx Hf. destruct (Hone _ _ _ H Hx) as (x' & L & HF & E). unfold stepped in E. rewrite Hf in E. eauto. }
    assert (Happ : ∀ g y x z, flow cfg X g y → y_clients y !! c = Some x → k_flight x.1 !! t = Some (z, AtAppend) → ∃ x', leads y (set_client c x' y) ∧ flow cfg X g (set_client c x' y) ∧ k_flight x'.1 = delete t (k_flight x.1)).
    { intros g0 y0 x0 z0 H Hx Hf. destruct (Hone _ _ _ H Hx) as (x' & L & HF & E). unfold stepped in E. rewrite Hf in E.
      destruct (Hreg g0 (set_client c x' y0) x' z0 HF) as (x2 & L2 & HF2 & E2). { cbn. apply lookup_insert. } { rewrite E. apply lookup_insert. }
      rewrite Hset in *. exists x2. split; [eapply leads_trans; eassumption|]. split; [exact HF2|]. rewrite E2, E. apply delete_insert_delete. }
    intros H Hx Hf. destruct st; [|eapply Happ; eassumption|eapply Hreg; eassumption].
    destruct (Hone _ _ _ H Hx) as (x' & L & HF & E). unfold stepped in E. rewrite Hf in E.
    destruct (Happ g (set_client c x' y) x' z HF) as (x2 & L2 & HF2 & E2). { cbn. apply lookup_insert. } { rewrite E. apply lookup_insert. }
    rewrite Hset in *. exists x2. split; [eapply leads_trans; eassumption|]. split; [exact HF2|]. rewrite E2, E. apply delete_insert_delete.
  Qed.
  Lemma end_calls g y c x : flow cfg X g y → y_clients y !! c = Some x → ∃ x', leads y (set_client c x' y) ∧ flow cfg X g (set_client c x' y) ∧ k_flight x'.1 = ∅.
  Proof.
    intros H Hx. remember (size (k_flight x.1)) as n eqn:En. revert y x H Hx En. induction n as [|n IH]; intros y x H Hx En.
    - exists x. assert (E : set_client c x y = y) by (unfold set_client; destruct y; cbn in *; rewrite insert_id by done; reflexivity). rewrite E. split; [apply leads_refl|]. split; [exact H|]. by apply map_size_empty_inv.
    - destruct (map_choose (k_flight x.1)) as (t & [z st] & Ht). { intros E. rewrite E, map_size_empty in En. discriminate. }
      destruct (end_call _ _ _ _ _ _ _ H Hx Ht) as (x1 & L1 & H1 & E1). destruct (IH (set_client c x1 y) x1 H1) as (x2 & L2 & H2 & E2).
      + cbn. apply lookup_insert.
      + rewrite E1, map_size_delete_Some by eauto. lia.
      + assert (Hset : set_client c x2 (set_client c x1 y) = set_client c x2 y) by (unfold set_client; cbn; rewrite insert_insert; reflexivity). rewrite Hset in *.
        exists x2. split; [eapply leads_trans; eassumption|auto].
  Qed.
  Lemma dom_set_client c x x' y : y_clients y !! c = Some x → dom (y_clients (set_client c x' y)) = dom (y_clients y).
  Proof. intros Hx. cbn. rewrite dom_insert_L. assert (c ∈ dom (y_clients y)) by (apply elem_of_dom; eauto). set_solver. Qed.
  Lemma dom_set_worker w x x' y : y_workers y !! w = Some x → dom (y_workers (set_worker w x' y)) = dom (y_workers y).
  Proof. intros Hx. cbn. rewrite dom_insert_L. assert (w ∈ dom (y_workers y)) by (apply elem_of_dom; eauto). set_solver. Qed.
  Lemma end_all_calls g y : flow cfg X g y → ∃ y', leads y y' ∧ flow cfg X g y' ∧ idle_users y' ∧ y_sched y' = y_sched y ∧ y_workers y' = y_workers y ∧ dom (y_clients y') = dom (y_clients y).
  Proof.
    intros H.
    destruct (each (λ g' y', g' = g ∧ flow cfg X g y' ∧ y_sched y' = y_sched y ∧ y_workers y' = y_workers y ∧ dom (y_clients y') = dom (y_clients y)) (λ c _ y', ∀ x, y_clients y' !! c = Some x → k_flight x.1 = ∅))
      with (l := elements (dom (y_clients y))) (g := g) (y := y) as (g' & y' & L & (-> & H' & E1 & E2 & E3) & P).
    - intros c g1 y1 (-> & H1 & E1 & E2 & E3). destruct (y_clients y1 !! c) as [x|] eqn:Hx.
      + destruct (end_calls _ _ _ _ H1 Hx) as (x' & L & H2 & Ef). exists g, (set_client c x' y1). split; [exact L|]. split.
        { split; [reflexivity|]. split; [exact H2|]. split; [exact E1|]. split; [exact E2|]. rewrite (dom_set_client _ _ _ _ Hx). exact E3. }
        cbn. split; [rewrite lookup_insert; intros ? [= <-]; exact Ef|]. intros j Hj z. destruct (decide (j = c)) as [->|Hne]; [rewrite lookup_insert; intros [= <-]; exact Ef|rewrite lookup_insert_ne by done; apply Hj].
      + exists g, y1. split; [apply leads_refl|]. split; [auto|]. split; [intros x Hx'; congruence|auto].
    - auto.
    - exists y'. split; [exact L|]. split; [exact H'|]. split; [|auto]. intros c x Hx. apply (P c); [|exact Hx]. apply elem_of_elements. rewrite <- E3. apply elem_of_dom. eauto.
  Qed.

  (** ** Clients and the scheduler exchange all their messages *)
  Definition buffered (k : client) : nat := map_fold (λ _ (l : list task) n, (length l + n)%nat) 0%nat (k_buffer k).
  Definition fold_len (m : gmap bytes (list task)) : nat := map_fold (λ _ (l : list task) n, (length l + n)%nat) 0%nat m.
  Lemma fold_len_insert f l m : m !! f = None → fold_len (<[f := l]> m) = (length l + fold_len m)%nat.
  Proof. intros Hf. unfold fold_len. rewrite map_fold_insert_L; [reflexivity|intros; lia|exact Hf]. Qed.
  Lemma fold_len_delete f m : (length (default [] (m !! f)) + fold_len (delete f m))%nat = fold_len m.
  Proof.
    destruct (m !! f) as [l|] eqn:E; cbn; [|rewrite delete_notin by done; reflexivity]. rewrite <- (insert_id m f l E) at 2. rewrite <- insert_delete_insert, fold_len_insert; [reflexivity|apply lookup_delete].
  Qed.
  Lemma fold_len_append f z m : fold_len (<[f := default [] (m !! f) ++ [z]]> m) = S (fold_len m).
  Proof. rewrite <- insert_delete_insert, fold_len_insert by apply lookup_delete. rewrite app_length. cbn. pose proof (fold_len_delete f m). lia. Qed.
  Lemma fold_len_zero f l m : fold_len m = 0%nat → m !! f = Some l → l = [].
  Proof. intros E Hf. pose proof (fold_len_delete f m) as Hd. rewrite Hf, E in Hd. cbn in Hd. destruct l; [reflexivity|cbn in Hd; lia]. Qed.

  Definition cost_out (fs : gset bytes) (m : message) : nat :=
    match m with MTask z => if decide (task_function z ∈ fs) then 2 else 6 | MFunctionRequest _ _ _ _ => 2 | _ => 1 end.
  Definition cost_in (m : message) : nat := match m with MTaskEcho _ FunctionNotExists => 5 | _ => 1 end.
  Definition cost (fs : gset bytes) (k : client) (Qcs Qsc : list message) : nat := 2 * fold_len (k_buffer k) + sum_list_with (cost_out fs) Qcs + sum_list_with cost_in Qsc.
  Definition stale (fs : gset bytes) (Qsc : list message) : nat :=
    sum_list_with (λ m, match m with MFunctionResponse _ f _ _ => if decide (f ∈ fs) then 0 else 1 | _ => 0 end)%nat Qsc.
  Lemma cost_out_mono fs fs' m : fs ⊆ fs' → (cost_out fs' m <= cost_out fs m)%nat.
  Proof. intros Hs. destruct m; cbn; try lia. repeat case_decide; try lia. set_solver. Qed.
  Lemma sum_mono {A} (f f' : A → nat) l : (∀ a, (f' a <= f a)%nat) → (sum_list_with f' l <= sum_list_with f l)%nat.
  Proof. intros Hf. induction l as [|a l IH]; cbn; [lia|]. specialize (Hf a). lia. Qed.
  Lemma stale_mono fs fs' Q : fs ⊆ fs' → (stale fs' Q <= stale fs Q)%nat.
  Proof. intros Hs. apply sum_mono. intros m. destruct m; cbn; try lia. repeat case_decide; try lia. set_solver. Qed.

  Lemma recv_buffer CL c x m Qcs Qsc out : client_flow CL c x Qcs (m :: Qsc) → k_flight x.1 = ∅ → (k_step x (KRecv m true)).2 = x.2 ++ CIn (KRecv m true) :: out →
    let b := fold_len (k_buffer x.1) in let b' := fold_len (k_buffer (k_step x (KRecv m true)).1) in
    match m with
    | MTaskEcho _ FunctionNotExists => b' = S b ∧ (client_sent out = [] ∨ ∃ f n ct, client_sent out = [MFunctionRequest FnAdd f n ct])
    | MFunctionResponse _ f _ _ => ∃ ks : list task, (length ks + b')%nat = b ∧ client_sent out = MTask <$> ks ∧ Forall (λ k, task_function k = f) ks
    | _ => b' = b ∧ client_sent out = []
    end.
  Proof.
    intros (F & B & A & D & H) Hfl. destruct x as [k h]. cbn [fst snd] in *. unfold k_step. cbn [k_handle]. rewrite (ko_up H). intros Eo. cbv zeta.
    destruct (receive_ok _ _ _ _ _ _ _ _ _ _ _ H Hfl) as (F' & B' & A' & D' & k' & out' & E & H' & _). rewrite E in *. cbn [k_settle fst snd] in *. apply app_inv_head in Eo. injection Eo as ->.
    pose proof (ko_sc H) as Hsc. apply Forall_cons in Hsc as [Hm _]. destruct m as [|t st| |t st d p| | | | | | | | | |st f n ct| | | | | |]; cbn in Hm; try done.
    - cbn [k_receive] in E. unfold k_echo in E. destruct Hm as [-> | ->]; destruct (k_tasks k !! t) as [z|] eqn:Ez; try (injection E as <- <-; auto; fail).
      + cbn in E. destruct (existsb _ _); [|discriminate]. destruct (k_state k !! FTask t) as [[]|]; try discriminate; injection E as <- <-; auto.
      + assert (is_Some (k_tasks k !! t)) as Hz by (rewrite Ez; eauto). destruct (k_check_ok _ _ _ _ _ _ _ _ _ _ _ _ H Ez) as (o & Eo & Ho). rewrite Eo in E. injection E as <- <-. cbn. rewrite fold_len_append. split; [reflexivity|].
        destruct Ho as [[-> _]|(n & ct & -> & _)]; [auto|]. right. eexists _, _, _. reflexivity.
      + exfalso. assert (is_Some (k_tasks k !! t)) as [? ?]; [|congruence]. apply (ko_known H). change (refused (MTaskEcho t FunctionNotExists :: Qsc)) with (t :: refused Qsc). set_solver.
    - cbn [k_receive] in E. unfold k_result in E. destruct (existsb _ _); [|injection E as <- <-; auto]. unfold f_set in E.
      destruct Hm as [-> | ->]; cbn in E; (destruct (k_state k !! FTask t) as [[]|]; try discriminate; injection E as <- <-; auto).
    - cbn [k_receive] in E. unfold k_function_response in E.
      assert (E' : match k_buffer k !! f with
        | None => (k, [], None)
        | Some ks => (k_with (k_tasks k) (k_bodies k) (k_futures k) (delete f (k_buffer k)) k, (λ k, COut (MTask k)) <$> ks, None) end = (k', out, @None exn)) by (destruct Hm as [-> | ->]; exact E).
      pose proof (ko_B H f) as HB. pose proof (fold_len_delete f (k_buffer k)) as Hd. destruct (k_buffer k !! f) as [ks|] eqn:Ek; injection E' as <- <-.
      + exists ks. cbn in *. split; [exact Hd|]. split; [apply sent_tasks|]. rewrite HB. apply Forall_forall. intros z Hz. apply elem_of_list_filter in Hz. tauto.
      + exists []. auto.
  Qed.
  Lemma sum_tasks fs f ks : Forall (λ k, task_function k = f) ks → f ∈ fs → sum_list_with (cost_out fs) (MTask <$> ks) = (2 * length ks)%nat.
  Proof. intros Hk Hf. induction Hk as [|k ks E _ IH]; cbn; [reflexivity|]. rewrite E, decide_True by done. cbn in IH. lia. Qed.

  Definition base (K W : gset bytes) (g : ledger) (y : system) : Prop := flow cfg X g y ∧ calm y ∧ idle_users y ∧ dom (y_clients y) = K ∧ dom (y_workers y) = W.
  Lemma do_dispatch g y : flow cfg X g y → let y' := act y (SchedulerDoes 0 [] EDispatch) in
    ∃ g', leads y y' ∧ flow cfg X g' y' ∧ calm y' ∧ y_clients y' = y_clients y ∧ y_workers y' = y_workers y ∧ s_tasks (y_sched y') = s_tasks (y_sched y) ∧ s_funcs (y_sched y') = s_funcs (y_sched y) ∧
      (∀ i, to_scheduler y' i = to_scheduler y i) ∧ (∀ c x, y_clients y !! c = Some x → to_client y' c = to_client y c) ∧
      ((g' = g ∧ (∀ w x, y_workers y !! w = Some x → to_agent y' w x = to_agent y w x) ∧
         (waiting_task (y_sched y) = None ∨ lg_workers g = ∅ ∨ ∀ w, w ∈ lg_workers g → load g w = al_max (s_alloc (y_sched y)))) ∨
       ∃ k w x, y_workers y !! w = Some x ∧ s_tasks (y_sched y) !! task_id k = Some k ∧ lg_owner g !! task_id k = None ∧ w ∈ lg_workers g ∧
         g' = Ledger (lg_workers g) (<[task_id k := w]> (lg_owner g)) ∧ to_agent y' w x = to_agent y w x ++ [MTask k] ∧
         ∀ i z, i ≠ w → y_workers y !! i = Some z → to_agent y' i z = to_agent y i z).
  Proof.
    intros H. cbv zeta. pose proof (act_step _ _ _ H (SchedulerDoes 0 [] EDispatch)) as Hok. cbn [act] in *.
    destruct (flow_dispatch _ _ _ 0 [] H Hok) as (g' & G1 & G2 & G3 & G4 & G5 & G6 & G7). exists g'.
    split; [apply (leads_one y (SchedulerDoes 0 [] EDispatch) I I I); discriminate|]. repeat (split; [first [exact G1|exact G2|exact G3|exact G4|exact G5|exact G6|reflexivity]|]). exact G7.
  Qed.

  Definition drained (c : bytes) (_ : ledger) (y : system) : Prop := to_scheduler y c = [] ∧ to_client y c = [].
  Lemma client_moves K W g y c x : base K W g y → y_clients y !! c = Some x → (to_scheduler y c ≠ [] ∨ to_client y c ≠ []) →
    let fs := dom (s_funcs (y_sched y)) in
    ∃ g' y' x', leads y y' ∧ base K W g' y' ∧ y_clients y' !! c = Some x' ∧ (∀ j, j ≠ c → j ∈ K → drained j g y → drained j g' y') ∧
      let fs' := dom (s_funcs (y_sched y')) in
      (stale fs' (to_client y' c) < stale fs (to_client y c))%nat ∨
      (stale fs' (to_client y' c) <= stale fs (to_client y c))%nat ∧ (cost fs' x'.1 (to_scheduler y' c) (to_client y' c) < cost fs x.1 (to_scheduler y c) (to_client y c))%nat.
  Proof.
    intros (H & Hu & Hi & HK & HW) Hx Hq. cbv zeta. destruct (to_scheduler y c) as [|m Q] eqn:EQ.
    - destruct (to_client y c) as [|m Q] eqn:EC; [tauto|]. destruct (flow_to_client _ _ _ H c x m Q Hx EC (Hi _ _ Hx)) as (out & Ea & Eh & HF & G1 & G2 & G3).
      set (x' := k_step x (KRecv m true)) in *. set (y' := set_client c x' y) in *. exists g, y', x'. split.
      { rewrite <- Ea. apply leads_one; [|exact I|exact I|discriminate]. cbn. unfold next. rewrite EC. split; [reflexivity|]. split; [reflexivity|]. exact (Hi c). }
      split. { split; [exact HF|]. split; [exact Hu|]. split; [|split; [rewrite <- HK; exact (dom_set_client _ _ _ _ Hx)|exact HW]]. intros j z. cbn. destruct (decide (j = c)) as [->|Hne]; [rewrite lookup_insert; intros [= <-]; exact G3|rewrite lookup_insert_ne by done; apply Hi]. }
      split; [cbn; apply lookup_insert|]. split. { intros j Hne _ [D1 D2]. destruct (queue_other_client y c x' j Hne) as [E1 E2]. split; [rewrite <- D1; exact E1|rewrite <- D2; exact E2]. }
      rewrite G1, G2, EQ. cbn [app]. change (s_funcs (y_sched y')) with (s_funcs (y_sched y)). set (fs := dom (s_funcs (y_sched y))).
      pose proof (fl_client H c x Hx) as HC. rewrite EQ, EC in HC. pose proof (recv_buffer _ _ _ _ _ _ _ HC (Hi _ _ Hx) Eh) as Hb. cbv zeta in Hb. fold x' in Hb.
      unfold cost, stale. destruct m as [|t st| |t st d p| | | | | | | | | |st f n ct| | | | | |]; cbn [sum_list_with cost_in]; try (destruct Hb as [E1 E2]; rewrite E1, E2; right; cbn; lia).
      + destruct st; try (destruct Hb as [E1 E2]; rewrite E1, E2; right; cbn; lia). destruct Hb as [E1 [E2|(f & n & ct & E2)]]; rewrite E1, E2; right; cbn; lia.
      + destruct Hb as (ks & E1 & E2 & E3). rewrite E2. destruct (decide (f ∈ fs)) as [Hf|Hf]; [|left; lia]. right. rewrite (sum_tasks _ _ _ E3 Hf). cbn. lia.
    - set (y1 := act y (ToScheduler c m 0 [])). pose proof (act_step _ _ _ H (ToScheduler c m 0 [])) as Hok.
      assert (Ea : y1 = set_sched (step (y_sched y) (Round 0 [] (ERecv c m))) y) by (unfold y1; cbn [act]; rewrite (sent_of_client _ _ _ _ _ Hx EQ); reflexivity).
      assert (L1 : leads y y1) by (apply leads_one; [cbn; unfold next; rewrite EQ; split; [reflexivity|exact Hu]|exact I|exact I|intros ? z [= <-] Hz; destruct (ok_apart _ _ (fl_ok H) _ _ _ Hx Hz)]).
      change (act y (ToScheduler c m 0 [])) with y1 in Hok. rewrite Ea in Hok. destruct (flow_recv_client _ _ _ 0 [] H Hu c x m Q Hmax Hx EQ Hok) as (HF & G1 & G2 & G3 & _ & G4). rewrite <- Ea in *.
      assert (Hcl : y_clients y1 = y_clients y) by (rewrite Ea; reflexivity). assert (Hws : y_workers y1 = y_workers y) by (rewrite Ea; reflexivity).
      destruct (do_dispatch _ _ HF) as (g2 & L2 & HF2 & Hu2 & D1 & D2 & _ & D4 & D5 & D6 & _). set (y2 := act y1 (SchedulerDoes 0 [] EDispatch)) in *.
      exists g2, y2, x. split; [eapply leads_trans; eassumption|]. split. { split; [exact HF2|]. split; [exact Hu2|]. rewrite D1, D2, Hcl, Hws. split; [|auto]. intros j z. rewrite D1, Hcl. apply Hi. }
      split; [rewrite D1, Hcl; exact Hx|]. split.
      { intros j Hne Hj [J1 J2]. rewrite <- HK in Hj. apply elem_of_dom in Hj as [z Hz]. split; [rewrite D5, G2 by done; exact J1|]. rewrite (D6 j z), (G3 j z) by (try rewrite Hcl; done). exact J2. }
      rewrite D4, D5, (D6 c x) by (rewrite Hcl; exact Hx). rewrite G1. replace (y_sched y1) with (step (y_sched y) (Round 0 [] (ERecv c m))) by (rewrite Ea; reflexivity).
      unfold cost, stale. destruct m as [z| | | | | | | | | | | |ty f n ct| | | | | | |]; try done.
      + destruct G4 as [E0 G4]. rewrite E0. right. cbn [sum_list_with cost_out]. destruct (s_funcs (y_sched y) !! task_function z) eqn:Ef; destruct G4 as [-> _]; rewrite !sum_list_with_app; cbn.
        * rewrite decide_True by (apply elem_of_dom; eauto). lia.
        * rewrite decide_False by (apply not_elem_of_dom; done). lia.
      + destruct G4 as ((st & ->) & E0 & _). rewrite E0. right. rewrite !sum_list_with_app. set (fs := dom (s_funcs (y_sched y))).
        pose proof (stale_mono fs ({[f]} ∪ fs) (to_client y c) ltac:(set_solver)) as Hs. unfold stale in Hs. cbn [sum_list_with cost_out cost_in]. rewrite decide_True by set_solver.
        pose proof (sum_mono (cost_out fs) (cost_out ({[f]} ∪ fs)) Q ltac:(intros; apply cost_out_mono; set_solver)). lia.
  Qed.
  Lemma drain_client K W c : ∀ n m g y x, base K W g y → y_clients y !! c = Some x →
    (stale (dom (s_funcs (y_sched y))) (to_client y c) <= n)%nat → (cost (dom (s_funcs (y_sched y))) x.1 (to_scheduler y c) (to_client y c) <= m)%nat →
    ∃ g' y', leads y y' ∧ base K W g' y' ∧ drained c g' y' ∧ ∀ j, j ≠ c → j ∈ K → drained j g y → drained j g' y'.
  Proof.
    induction n as [n IHn] using lt_wf_ind. induction m as [m IHm] using lt_wf_ind. intros g y x HB Hx Hn Hm.
    destruct (decide (to_scheduler y c = [] ∧ to_client y c = [])) as [Hd|Hd]; [exists g, y; split; [apply leads_refl|]; split; [exact HB|]; split; [exact Hd|auto]|].
    destruct (client_moves K W g y c x HB Hx) as (g1 & y1 & x1 & L1 & B1 & Hx1 & O1 & Hl).
    { destruct (to_scheduler y c); [|left; discriminate]. destruct (to_client y c); [|right; discriminate]. tauto. }
    cbv zeta in Hl. set (n1 := stale (dom (s_funcs (y_sched y1))) (to_client y1 c)) in *. set (m1 := cost (dom (s_funcs (y_sched y1))) x1.1 (to_scheduler y1 c) (to_client y1 c)) in *.
    assert (Hgo : ∃ g' y', leads y1 y' ∧ base K W g' y' ∧ drained c g' y' ∧ ∀ j, j ≠ c → j ∈ K → drained j g1 y1 → drained j g' y').
    { destruct Hl as [Hl|[Hl1 Hl2]]; [apply (IHn n1 ltac:(lia) m1 g1 y1 x1 B1 Hx1); subst n1 m1; lia|apply (IHm m1 ltac:(lia) g1 y1 x1 B1 Hx1); subst n1 m1; lia]. }
    destruct Hgo as (g2 & y2 & L2 & B2 & D2 & O2). exists g2, y2. split; [eapply leads_trans; eassumption|]. split; [exact B2|]. split; [exact D2|]. auto.
  Qed.
  Lemma drain_clients K W g y : base K W g y → ∃ g' y', leads y y' ∧ base K W g' y' ∧ ∀ c, c ∈ K → drained c g' y'.
  Proof.
    intros HB. destruct (each (base K W) (λ c g y, c ∈ K → drained c g y)) with (l := elements K) (g := g) (y := y) as (g' & y' & L & B' & P).
    - intros c g1 y1 B1. destruct (y_clients y1 !! c) as [x|] eqn:Hx.
      + destruct (drain_client K W c _ _ g1 y1 x B1 Hx (le_n _) (le_n _)) as (g2 & y2 & L & B2 & D & O). exists g2, y2. split; [exact L|]. split; [exact B2|]. split; [auto|]. intros j Hj HjK. destruct (decide (j = c)) as [->|Hne]; [exact D|auto].
      + exists g1, y1. split; [apply leads_refl|]. split; [exact B1|]. split; [|auto]. intros Hc. destruct B1 as (_ & _ & _ & HK & _). rewrite <- HK in Hc. apply elem_of_dom in Hc as [? ?]. congruence.
    - exact HB.
    - exists g', y'. split; [exact L|]. split; [exact B'|]. intros c Hc. apply P; [apply elem_of_elements, Hc|exact Hc].
  Qed.

  (** ** Workers do what they have *)
  Definition unowned (g : ledger) (y : system) : gset bytes := dom (s_tasks (y_sched y)) ∖ dom (lg_owner g).
  Definition settled (y : system) : Prop := ∀ c x, y_clients y !! c = Some x → to_scheduler y c = [] ∧ fold_len (k_buffer x.1) = 0%nat ∧ refused (to_client y c) = [].
  Definition no_balancing (y : system) : Prop := ∀ w x, w ∉ lost → y_workers y !! w = Some x → steady (to_scheduler y w) ∧ steady (to_agent y w x).
  Definition working (K W : gset bytes) (b : bool) (U : gset bytes) (g : ledger) (y : system) : Prop :=
    base K W g y ∧ settled y ∧ (b = true → no_balancing y ∧ unowned g y = U).
  Definition quiet (w : bytes) (g : ledger) (y : system) : Prop := w ∉ lost → ∀ x, y_workers y !! w = Some x → to_scheduler y w = [] ∧ to_agent y w x = [] ∧ ∀ t, lg_owner g !! t ≠ Some w.

  (** A worker takes a step. *)
  Lemma working_worker K W b U g y w x x' out Q : w ∉ lost → working K W b U g y → y_workers y !! w = Some x → flow cfg X g (set_worker w x' y) →
    to_scheduler (set_worker w x' y) w = to_scheduler y w ++ out → to_agent (set_worker w x' y) w x' = Q → (b = true → steady out ∧ steady Q) →
    working K W b U g (set_worker w x' y) ∧ ∀ j, j ≠ w → quiet j g y → quiet j g (set_worker w x' y).
  Proof.
    intros HwX ((H & Hu & Hi & HK & HW) & Hs & Hb) Hx HF G1 G2 Hst.
    assert (Hnc : ∀ c z, y_clients y !! c = Some z → c ≠ w) by (intros c z Hz ->; exact (ok_apart _ _ (fl_ok H) _ _ _ Hz Hx)).
    split; [split; [|split]|].
    - split; [exact HF|]. split; [exact Hu|]. split; [exact Hi|]. split; [exact HK|]. rewrite (dom_set_worker _ _ _ _ Hx). exact HW.
    - intros c z Hz. change (y_clients y !! c = Some z) in Hz. destruct (Hs c z Hz) as (S1 & S2 & S3). rewrite (queue_other_worker y w x' c (Hnc _ _ Hz)). auto.
    - intros Eb. destruct (Hb Eb) as [B1 B2]. destruct (Hst Eb) as [T1 T2]. split; [|exact B2]. intros j z HjX. cbn. destruct (decide (j = w)) as [->|Hne].
      + rewrite lookup_insert. intros [= <-]. rewrite G1, G2. destruct (B1 w x HwX Hx). split; [apply Forall_app; auto|exact T2].
      + rewrite lookup_insert_ne by done. intros Hz. rewrite (queue_other_worker y w x' j Hne). exact (B1 j z HjX Hz).
    - intros j Hne Hq HjX z. cbn. rewrite lookup_insert_ne by done. intros Hz. rewrite (queue_other_worker y w x' j Hne). exact (Hq HjX z Hz).
  Qed.
  Lemma working_agent K W b U g y w x now e Q : w ∉ lost → working K W b U g y → y_workers y !! w = Some x → to_agent y w x = match e with WExt m => [m] | _ => [] end ++ Q →
    match e with WProc m => head (from_processor x) = Some m | WTimeout => False | _ => True end →
    (∀ a' out, w_handle now e (n_agent x) = (a', out, None) → b = true → steady (agent_sent out)) →
    ∃ a' out, let x' := Node a' (n_history x ++ WIn now e :: out) (n_processor x) (n_calls x) (n_retention x) in let y' := set_worker w x' y in
      w_handle now e (n_agent x) = (a', out, None) ∧ leads y y' ∧ working K W b U g y' ∧ to_scheduler y' w = to_scheduler y w ++ agent_sent out ∧ to_agent y' w x' = Q ∧ ∀ j, j ≠ w → quiet j g y → quiet j g y'.
  Proof.
    intros HwX HR Hx HQ He Hst. pose proof HR as ((H & _) & _ & Hb). destruct (flow_agent_but _ _ _ H w x now e Q (alive_in _ HwX) Hx HQ) as (o & Ea & E1 & HF & G1 & G2); [destruct e; tauto|]. cbv zeta in *.
    destruct (fl_worker_but H w x Hx (alive_in _ HwX)) as (L & qs & HL & HW). destruct (fl_worker_but HF w (agent_step now e x)) as (L' & qs' & HL' & HW'); [cbn; apply lookup_insert|exact (alive_in _ HwX)|].
    assert (Hc : ∀ t, e ≠ WExt (MTaskCancel t)). { intros t ->. pose proof (wo_sw _ _ _ _ _ _ _ HW) as Hsw. rewrite HQ in Hsw. cbn in Hsw. apply Forall_cons in Hsw as [[] _]. }
    destruct (agent_inv now e x (wo_alive _ _ _ _ _ _ _ HW) (wo_alive _ _ _ _ _ _ _ HW') Hc) as (a' & out & E & Ho & Es). exists a', out. rewrite <- Es.
    assert (Eo : o = agent_sent out). { rewrite Es in E1. cbn [n_history] in E1. unfold agent_sent in E1 at 1. rewrite omap_app in E1. apply app_inv_head in E1. symmetry. exact E1. } subst o.
    split; [exact E|]. split.
    { rewrite <- Ea. apply leads_one; [|by destruct e|by destruct e|intros w' z Ew _; assert (w' = w) as -> by (destruct e; cbn in Ew; congruence); exact HwX]. destruct e as [m|m| | |]; cbn; try done; intros z Hz; rewrite Hx in Hz; injection Hz as <-; [unfold next; rewrite HQ; reflexivity|exact He]. }
    destruct (working_worker K W b U g y w x (agent_step now e x) (agent_sent out) Q HwX HR Hx HF G1 G2) as [W1 W2].
    - intros Eb. split; [exact (Hst _ _ E Eb)|]. destruct (Hb Eb) as [B1 _]. destruct (B1 w x HwX Hx) as [_ B2]. rewrite HQ in B2. apply Forall_app in B2. tauto.
    - auto.
  Qed.
  Lemma working_processor K W b U g y w x now e : w ∉ lost → working K W b U g y → y_workers y !! w = Some x → turn x e → (∀ o d k f, e = PRun o d → c_main (n_processor x) = Calling k (Some f) → o = verdict k) →
    let x' := processor_step now e x in let y' := set_worker w x' y in
    leads y y' ∧ working K W b U g y' ∧ to_scheduler y' w = to_scheduler y w ∧ to_agent y' w x' = to_agent y w x ∧ ∀ j, j ≠ w → quiet j g y → quiet j g y'.
  Proof.
    intros HwX HR Hx Ht Hv. cbv zeta. pose proof HR as ((H & _) & _ & Hb).
    assert (He : match e with PRun o _ => o ≠ Ended | PMsg m loads => loads = true ∧ head (to_processor x) = Some m | _ => True end).
    { unfold turn in Ht. destruct (c_main (n_processor x)) as [|?|? []|], e as [| |[]| |]; try done. }
    destruct (flow_processor_but _ _ _ H w x now e (alive_in _ HwX) Hx He) as (Ea & E1 & E2 & HF & G1 & G2).
    split.
    { rewrite <- Ea. apply leads_one; [|by destruct e|destruct e as [| |o d| |]; try done; cbn; intros z k f Hz; rewrite Hx in Hz; injection Hz as <-; exact (Hv o d k f eq_refl)|intros w' z Ew _; assert (w' = w) as -> by (destruct e; cbn in Ew; congruence); exact HwX]. destruct e as [m loads| |o d| |]; cbn; try done. destruct He as [El Hm]. split; [exact El|]. intros z Hz. rewrite Hx in Hz. injection Hz as <-. exact Hm. }
    destruct (working_worker K W b U g y w x (processor_step now e x) [] (to_agent y w x) HwX HR Hx HF) as [W1 W2]; [rewrite app_nil_r; exact G1|exact G2| |auto].
    intros Eb. split; [constructor|]. destruct (Hb Eb) as [B1 _]. exact (proj2 (B1 w x HwX Hx)).
  Qed.
  Lemma working_scheduler K W b U g y w x m Q : w ∉ lost → working K W b U g y → y_workers y !! w = Some x → to_scheduler y w = m :: Q →
    ∃ g' y' a, leads y y' ∧ working K W b U g' y' ∧ y_workers y' = y_workers y ∧ to_scheduler y' w = Q ∧ to_agent y' w x = to_agent y w x ++ a ∧ (sum_list_with work_sw a < work_ws m)%nat ∧
      (match m with MHeartbeat _ => g' = Ledger ({[w]} ∪ lg_workers g) (lg_owner g) | _ => True end) ∧ ∀ j, j ≠ w → quiet j g y → quiet j g' y'.
  Proof.
    intros HwX ((H & Hu & Hi & HK & HW) & Hs & Hb) Hx EQ. set (y' := act y (ToScheduler w m 0 [])). pose proof (act_step _ _ _ H (ToScheduler w m 0 [])) as Hok. change (act y (ToScheduler w m 0 [])) with y' in Hok.
    assert (Ea : y' = set_sched (step (y_sched y) (Round 0 [] (ERecv w m))) y) by (unfold y'; cbn [act]; rewrite (sent_of_worker _ _ _ H _ _ _ _ Hx EQ); reflexivity).
    assert (L1 : leads y y') by (apply leads_one; [cbn; unfold next; rewrite EQ; split; [reflexivity|exact Hu]|exact I|exact I|intros ? z [= <-] _; exact HwX]).
    rewrite Ea in Hok. destruct (flow_recv_worker_but _ _ _ 0 [] H Hu w x m Q (alive_in _ HwX) Hx EQ Hok) as (g' & HF & Hu' & G1 & G2 & G3 & G4 & G5). rewrite <- Ea in *.
    assert (Hcl : y_clients y' = y_clients y) by (rewrite Ea; reflexivity). assert (Hws : y_workers y' = y_workers y) by (rewrite Ea; reflexivity).
    assert (Es : y_sched y' = step (y_sched y) (Round 0 [] (ERecv w m))) by (rewrite Ea; reflexivity). rewrite <- Es in *. clearbody y'. clear Ea Es.
    assert (Hnc : ∀ c z, y_clients y !! c = Some z → c ≠ w) by (intros c z Hz ->; exact (ok_apart _ _ (fl_ok H) _ _ _ Hz Hx)).
    assert (Hown : ∀ t j, lg_owner g' !! t = Some j → lg_owner g !! t = Some j).
    { intros t j Ht. destruct m; cbn in G5; try done; destruct G5 as (-> & _); cbn in Ht; try exact Ht; [by apply lookup_delete_Some in Ht as [_ Ht]|by apply lookup_deletes in Ht as [_ Ht]]. }
    assert (Ha : ∃ a, to_agent y' w x = to_agent y w x ++ a ∧ (sum_list_with work_sw a < work_ws m)%nat ∧ steady a).
    { destruct m; cbn in G5; try done.
      - destruct G5 as (_ & _ & _ & ->). exists []. rewrite app_nil_r. cbn. repeat split; [lia|constructor].
      - destruct G5 as (_ & _ & ->). exists []. rewrite app_nil_r. cbn. repeat split; [lia|constructor].
      - destruct G5 as (_ & _ & ->). eexists. split; [reflexivity|]. cbn. split; [lia|]. repeat constructor. tauto.
      - destruct G5 as (_ & _ & n & ct & ->). eexists. split; [reflexivity|]. cbn. split; [lia|]. repeat constructor. tauto. }
    destruct Ha as (a & Ea & Hw & Hsa). exists g', y', a. split; [exact L1|]. split; [|split; [exact Hws|split; [exact G1|split; [exact Ea|split; [exact Hw|split]]]]].
    - split; [|split].
      + split; [exact HF|]. split; [exact Hu'|]. unfold idle_users. rewrite Hcl, Hws. auto.
      + intros c z. rewrite Hcl. intros Hz. destruct (Hs c z Hz) as (S1 & S2 & S3). rewrite (G2 c (Hnc _ _ Hz)), (G4 c z Hz). auto.
      + intros Eb. destruct (Hb Eb) as [B1 B2]. destruct (B1 w x HwX Hx) as [B3 B4]. rewrite EQ in B3. apply Forall_cons in B3 as [B3 B5]. split.
        * intros j z HjX. rewrite Hws. intros Hz. destruct (decide (j = w)) as [->|Hne].
          -- assert (z = x) as -> by congruence. rewrite G1, Ea. split; [exact B5|apply Forall_app; auto].
          -- rewrite (G2 j Hne), (G3 j z Hne Hz). exact (B1 j z HjX Hz).
        * rewrite <- B2. unfold unowned. destruct m; cbn in G5, B3; try done.
          -- destruct G5 as (-> & -> & Ho & _). cbn. rewrite !dom_delete_L. assert (id ∈ dom (lg_owner g)) by (apply elem_of_dom; eauto). set_solver.
          -- destruct G5 as (-> & -> & _). reflexivity.
          -- destruct G5 as (-> & -> & _). reflexivity.
    - destruct m; try done. cbn in G5. tauto.
    - intros j Hne Hq HjX z. rewrite Hws. intros Hz. rewrite (G2 j Hne), (G3 j z Hne Hz). destruct (Hq HjX z Hz) as (Q1 & Q2 & Q3). split; [exact Q1|]. split; [exact Q2|]. intros t Ht. exact (Q3 t (Hown _ _ Ht)).
  Qed.

  Lemma worker_moves K W b U g y w x : w ∉ lost → working K W b U g y → y_workers y !! w = Some x →
    quiet w g y ∨ ∃ g' y' x', leads y y' ∧ working K W b U g' y' ∧ y_workers y' !! w = Some x' ∧ (work x' (to_scheduler y' w) (to_agent y' w x') < work x (to_scheduler y w) (to_agent y w x))%nat ∧
      ∀ j, j ≠ w → quiet j g y → quiet j g' y'.
  Proof.
    intros HwX HR Hx. pose proof HR as ((H & _) & _ & Hb). destruct (fl_worker_but H w x Hx (alive_in _ HwX)) as (L & qs & HL & HW).
    assert (Hag : ∀ e Q, to_agent y w x = match e with WExt m => [m] | _ => [] end ++ Q →
      match e with WExt _ => True | WProc m => head (from_processor x) = Some m | WLoop => loop_ready (n_agent x) | _ => False end →
      ∃ g' y' x', leads y y' ∧ working K W b U g' y' ∧ y_workers y' !! w = Some x' ∧ (work x' (to_scheduler y' w) (to_agent y' w x') < work x (to_scheduler y w) (to_agent y w x))%nat ∧ ∀ j, j ≠ w → quiet j g y → quiet j g' y').
    { intros e Q EQ He. destruct (working_agent K W b U g y w x 0 e Q HwX HR Hx EQ) as (a' & out & E & L1 & R1 & G1 & G2 & G3).
      - destruct e; tauto.
      - intros a' out E Eb. destruct (agent_less _ _ _ qs x _ _ Q 0 e a' out HW EQ E He) as [_ Hs]. apply Hs. destruct (Hb Eb) as [B1 _]. exact (proj2 (B1 w x HwX Hx)).
      - eexists g, _, _. split; [exact L1|]. split; [exact R1|]. split; [cbn; apply lookup_insert|]. split; [|exact G3]. rewrite G1, G2. exact (proj1 (agent_less _ _ _ qs x _ _ Q 0 e a' out HW EQ E He)). }
    destruct (to_agent y w x) as [|m Q] eqn:EA; [|right; exact (Hag (WExt m) Q eq_refl I)].
    destruct (to_scheduler y w) as [|m Q] eqn:ES.
    2:{ right. destruct (working_scheduler K W b U g y w x m Q HwX HR Hx ES) as (g' & y' & a & L1 & R1 & Ew & G1 & G2 & G3 & _ & G4). exists g', y', x. split; [exact L1|]. split; [exact R1|]. split; [rewrite Ew; exact Hx|].
        split; [|exact G4]. rewrite G1, G2, EA. unfold work. cbn [sum_list_with app]. lia. }
    destruct (from_processor x) as [|m Q] eqn:EU; [|right; exact (Hag (WProc m) [] eq_refl eq_refl)].
    assert (Hpr : ∀ e, turn x e → (∀ o d k f, e = PRun o d → c_main (n_processor x) = Calling k (Some f) → o = verdict k) →
      ∃ g' y' x', leads y y' ∧ working K W b U g' y' ∧ y_workers y' !! w = Some x' ∧ (work x' (to_scheduler y' w) (to_agent y' w x') < work x [] [])%nat ∧ ∀ j, j ≠ w → quiet j g y → quiet j g' y').
    { intros e Ht Hv. destruct (working_processor K W b U g y w x 0 e HwX HR Hx Ht Hv) as (L1 & R1 & G1 & G2 & G3). eexists g, _, _. split; [exact L1|]. split; [exact R1|]. split; [cbn; apply lookup_insert|]. split; [|exact G3].
      rewrite G1, G2, ES, EA. eapply processor_less; eassumption. }
    destruct (c_main (n_processor x)) as [|k|k f|] eqn:Em.
    - destruct (to_processor x) as [|m Q] eqn:ED; [|right; apply (Hpr (PMsg m true)); [unfold turn; rewrite Em, ED; auto|discriminate]].
      assert (Hd : loop_ready (n_agent x) ∨ ¬ loop_ready (n_agent x)). { unfold loop_ready. destruct (a_loop (n_agent x)); [destruct (a_ids (n_agent x)); [right|left; discriminate]; auto|destruct (a_lock (n_agent x)); auto|destruct (a_init (n_agent x)); auto]. }
      destruct Hd as [Hl|Hl]; [right; exact (Hag WLoop [] eq_refl Hl)|]. left. intros _ z Hz. assert (z = x) as -> by congruence. split; [exact ES|]. split; [exact EA|].
      intros t Ht. apply HL in Ht. rewrite (worker_stuck _ _ _ _ _ HW EU ED Em Hl) in Ht. by apply elem_of_nil in Ht.
    - right. apply (Hpr PLook); [unfold turn; rewrite Em; exact I|discriminate].
    - right. destruct f as [f|]; [apply (Hpr (PRun (verdict k) 0))|apply (Hpr (PRun (Raised "") 0))]; unfold turn; rewrite ?Em; try done; intros o d k' f' [= <- <-] [= <- <-]; reflexivity.
    - exfalso. exact (worker_running _ _ _ _ _ _ _ HW Em).
  Qed.
  Lemma drive_worker K W b U w : w ∉ lost → ∀ n g y x, working K W b U g y → y_workers y !! w = Some x → (work x (to_scheduler y w) (to_agent y w x) <= n)%nat →
    ∃ g' y', leads y y' ∧ working K W b U g' y' ∧ quiet w g' y' ∧ ∀ j, j ≠ w → quiet j g y → quiet j g' y'.
  Proof.
    intros HwX n. induction n as [n IH] using lt_wf_ind. intros g y x HR Hx Hn. destruct (worker_moves K W b U g y w x HwX HR Hx) as [Hq|(g1 & y1 & x1 & L1 & R1 & Hx1 & Hw & O1)].
    - exists g, y. split; [apply leads_refl|auto].
    - destruct (IH _ (Nat.lt_le_trans _ _ _ Hw Hn) g1 y1 x1 R1 Hx1 (le_n _)) as (g2 & y2 & L2 & R2 & Q2 & O2). exists g2, y2. split; [eapply leads_trans; eassumption|]. split; [exact R2|]. split; [exact Q2|]. auto.
  Qed.
  Lemma drive_workers K W b U g y : working K W b U g y → ∃ g' y', leads y y' ∧ working K W b U g' y' ∧ ∀ w, quiet w g' y'.
  Proof.
    intros HR. destruct (each (working K W b U) quiet) with (l := elements W) (g := g) (y := y) as (g' & y' & L & R' & P).
    - intros w g1 y1 R1. destruct (decide (w ∈ lost)) as [HwX|HwX]; [exists g1, y1; split; [apply leads_refl|]; split; [exact R1|]; split; [intros []; exact HwX|auto]|]. destruct (y_workers y1 !! w) as [x|] eqn:Hx.
      + destruct (drive_worker K W b U w HwX _ g1 y1 x R1 Hx (le_n _)) as (g2 & y2 & L2 & R2 & Q2 & O2). exists g2, y2. split; [exact L2|]. split; [exact R2|]. split; [exact Q2|]. intros j Hj. destruct (decide (j = w)) as [->|Hne]; auto.
      + exists g1, y1. split; [apply leads_refl|]. split; [exact R1|]. split; [intros _ x Hx'; congruence|auto].
    - exact HR.
    - exists g', y'. split; [exact L|]. split; [exact R'|]. intros w HwX x Hx. apply (P w); [|exact HwX|exact Hx]. apply elem_of_elements. destruct R' as ((_ & _ & _ & _ & <-) & _). apply elem_of_dom. eauto.
  Qed.
  Lemma quiet_owner g y : lost ⊆ X → flow cfg X g y → (∀ w, quiet w g y) → lg_owner g = ∅.
  Proof.
    intros HDX H Hq. apply map_empty. intros t. destruct (lg_owner g !! t) as [w|] eqn:E; [|reflexivity]. exfalso. pose proof (owner_worker _ _ _ _ _ H E) as Hw.
    destruct (fl_known H w Hw) as [x Hx]. destruct (Hq w) with x as (_ & _ & Ho); [intros HX; exact (proj1 (fl_gone H w (HDX _ HX)) Hw)|exact Hx|exact (Ho t E)].
  Qed.
  Lemma quiet_steady y g : (∀ w, quiet w g y) → no_balancing y.
  Proof. intros Hq w x HX Hx. destruct (Hq w HX x Hx) as (-> & -> & _). split; constructor. Qed.

  (** A worker becomes known. *)
  Lemma register K W U g y w x : w ∉ lost → working K W true U g y → y_workers y !! w = Some x → lg_workers g = ∅ → to_scheduler y w = [] →
    ∃ g' y', leads y y' ∧ working K W true U g' y' ∧ lg_workers g' ≠ ∅ ∧ lg_owner g' = lg_owner g.
  Proof.
    intros HwX HR Hx Hg EQ. pose proof HR as ((H & _) & _). destruct (fl_worker_but H w x Hx (alive_in _ HwX)) as (L & qs & HL & HW). rewrite EQ in HW.
    assert (Hse : a_sent (n_agent x) = 0). { destruct (wo_beat _ _ _ _ _ _ _ HW) as [[Hk _]|[Hk|(h & Hh)]]; [rewrite Hg in Hk; set_solver|exact Hk|by apply elem_of_nil in Hh]. }
    destruct (working_agent K W true U g y w x 1 (WHeartbeat 0 0 0 0) (to_agent y w x) HwX HR Hx eq_refl I) as (a' & out & E & L1 & R1 & G1 & _).
    { intros a' out E _. cbn in E. unfold wh_routine in E. rewrite Hse in E. injection E as <- <-. repeat constructor. tauto. }
    cbv zeta in *. set (x' := Node _ _ _ _ _) in *. set (y' := set_worker w x' y) in *. cbn in E. unfold wh_routine in E. rewrite Hse in E. injection E as _ Eo. rewrite EQ, <- Eo in G1. cbn in G1.
    destruct (working_scheduler K W true U g y' w x' _ [] HwX R1 (lookup_insert _ _ _) G1) as (g2 & y2 & a & L2 & R2 & _ & _ & _ & _ & E2 & _). exists g2, y2. split; [eapply leads_trans; eassumption|]. split; [exact R2|].
    rewrite E2. cbn. split; [set_solver|reflexivity].
  Qed.
  (** A task is given to a worker. *)
  Lemma give K W U g y : 1 <= c_queue_size cfg → working K W true U g y → lg_owner g = ∅ → lg_workers g ≠ ∅ → U ≠ ∅ →
    ∃ g' y' t, leads y y' ∧ t ∈ U ∧ working K W true (U ∖ {[t]}) g' y'.
  Proof.
    intros Hcap ((H & Hu & Hi & HK & HW) & Hs & Hb) Ho Hg HU. destruct (Hb eq_refl) as [B1 B2]. assert (HT : dom (s_tasks (y_sched y)) = U) by (rewrite <- B2; unfold unowned; rewrite Ho, dom_empty_L; set_solver).
    destruct (do_dispatch _ _ H) as (g' & L1 & HF & Hu' & D1 & D2 & D3 & D4 & D5 & D6 & [(_ & _ & Hwhy)|(k & w & x & Hx & Hk & Hn & Hw & -> & E1 & E2)]); set (y' := act y (SchedulerDoes 0 [] EDispatch)) in *.
    - exfalso. destruct Hwhy as [Hwt|[Hwt|Hwt]]; [|tauto|].
      + pose proof (c_places _ _ _ _ _ (fl_core H)) as Hp. rewrite (c_running _ _ _ _ _ (fl_core H)), Ho, HT in Hp. unfold waiting_task in Hwt. destruct (s_limbo (y_sched y)) as [k|] eqn:El; [discriminate|].
        unfold lim in Hp. rewrite El in Hp. destruct (s_unassigned (y_sched y)) as [|t l]; [apply HU; rewrite Hp; set_solver|]. assert (t ∈ dom (s_tasks (y_sched y))) as [k Hk]%elem_of_dom by (rewrite HT, Hp; set_solver). congruence.
      + apply set_choose_L in Hg as [w Hw]. specialize (Hwt w Hw). destruct (ok_run _ _ (fl_ok H)) as [rs Hrs]. pose proof (c_dead _ _ _ _ _ (fl_core H)) as Hd. rewrite Hrs in Hd. destruct (Inv2_run cfg rs) as [_ H2]. specialize (H2 Hd).
        rewrite Hrs, (i2_max _ _ H2), run_cfg in Hwt. unfold load, tasks_of in Hwt. rewrite Ho, map_filter_empty, dom_empty_L, size_empty in Hwt. lia.
    - exists (Ledger (lg_workers g) (<[task_id k := w]> (lg_owner g))), y', (task_id k). split; [exact L1|]. split; [rewrite <- HT; apply elem_of_dom; eauto|].
      split; [|split].
      + split; [exact HF|]. split; [exact Hu'|]. unfold idle_users. rewrite D1, D2. auto.
      + intros c z. rewrite D1. intros Hz. rewrite D5, (D6 c z Hz). exact (Hs c z Hz).
      + intros _. split.
        * intros j z HjX. rewrite D2. intros Hz. rewrite D5. destruct (B1 j z HjX Hz) as [S1 S2]. split; [exact S1|]. destruct (decide (j = w)) as [->|Hne].
          -- assert (z = x) as -> by congruence. rewrite E1. apply Forall_app. split; [exact S2|]. repeat constructor. tauto.
          -- rewrite (E2 j z Hne Hz). exact S2.
        * unfold unowned. rewrite D3, HT. cbn. rewrite dom_insert_L, Ho. set_solver.
  Qed.
  (** All tasks get done. *)
  Lemma all_tasks K W w : lost ⊆ X → w ∈ W → w ∉ lost → 1 <= c_queue_size cfg → ∀ n U g y, working K W true U g y → (∀ w, quiet w g y) → size U = n →
    ∃ g' y', leads y y' ∧ base K W g' y' ∧ settled y' ∧ s_tasks (y_sched y') = ∅.
  Proof.
    intros HDX Hw HwX Hcap n. induction n as [n IH] using lt_wf_ind. intros U g y HR Hq Hn. pose proof HR as (HB & Hs & Hb). destruct (Hb eq_refl) as [B1 B2]. pose proof (quiet_owner _ _ HDX (proj1 HB) Hq) as Ho.
    destruct (decide (U = ∅)) as [HU|HU].
    { exists g, y. split; [apply leads_refl|]. split; [exact HB|]. split; [exact Hs|]. apply dom_empty_inv_L. unfold unowned in B2. rewrite Ho, dom_empty_L in B2. set_solver. }
    assert (Hreg : ∃ g1 y1, leads y y1 ∧ working K W true U g1 y1 ∧ lg_workers g1 ≠ ∅ ∧ lg_owner g1 = ∅).
    { destruct (decide (lg_workers g = ∅)) as [Hg|Hg]; [|exists g, y; split; [apply leads_refl|auto]]. destruct HB as (_ & _ & _ & _ & HW). rewrite <- HW in Hw. apply elem_of_dom in Hw as [x Hx].
      destruct (register K W U g y w x HwX HR Hx Hg (proj1 (Hq w HwX x Hx))) as (g1 & y1 & L1 & R1 & N1 & O1). exists g1, y1. rewrite Ho in O1. auto. }
    destruct Hreg as (g1 & y1 & L1 & R1 & N1 & O1). destruct (give K W U g1 y1 Hcap R1 O1 N1 HU) as (g2 & y2 & t & L2 & Ht & R2). destruct (drive_workers _ _ _ _ _ _ R2) as (g3 & y3 & L3 & R3 & Q3).
    assert (Hlt : (size (U ∖ {[t]}) < n)%nat). { rewrite <- Hn. apply subset_size. set_solver. }
    destruct (IH _ Hlt _ g3 y3 R3 Q3 eq_refl) as (g4 & y4 & L4 & G4). exists g4, y4. split; [|exact G4]. eapply leads_trans; [exact L1|]. eapply leads_trans; [exact L2|]. eapply leads_trans; eassumption.
  Qed.

  (** ** Clients get their results *)
  Definition ending (K W : gset bytes) (g : ledger) (y : system) : Prop := base K W g y ∧ settled y ∧ s_tasks (y_sched y) = ∅.
  Lemma deliver K W c : ∀ Q g y x, ending K W g y → y_clients y !! c = Some x → to_client y c = Q →
    ∃ y', leads y y' ∧ ending K W g y' ∧ to_client y' c = [] ∧ ∀ j, j ≠ c → to_client y j = [] → to_client y' j = [].
  Proof.
    induction Q as [|m Q IH]; intros g y x HE Hx EC; [exists y; split; [apply leads_refl|auto]|]. pose proof HE as ((H & Hu & Hi & HK & HW) & Hs & HT). destruct (Hs c x Hx) as (S1 & S2 & S3).
    destruct (flow_to_client _ _ _ H c x m Q Hx EC (Hi _ _ Hx)) as (out & Ea & Eh & HF & G1 & G2 & G3). cbv zeta in *.
    pose proof (fl_client H c x Hx) as HC. rewrite EC in HC. pose proof (recv_buffer _ _ _ _ _ _ _ HC (Hi _ _ Hx) Eh) as Hb. cbv zeta in Hb. set (x' := k_step x (KRecv m true)) in *. set (y' := set_client c x' y) in *.
    assert (Hout : fold_len (k_buffer x'.1) = 0%nat ∧ client_sent out = []).
    { rewrite S2 in Hb. rewrite EC in S3. destruct m as [|t st| |t st d p| | | | | | | | | |st f n ct| | | | | |]; try exact Hb.
      - destruct st; try exact Hb. discriminate S3.
      - destruct Hb as (ks & E1 & E2 & _). destruct ks as [|k ks]; [|cbn in E1; lia]. split; [cbn in E1; exact E1|exact E2]. }
    destruct Hout as [O1 O2].
    assert (HE' : ending K W g y').
    { split; [|split; [|exact HT]].
      - split; [exact HF|]. split; [exact Hu|]. split; [|split; [rewrite <- HK; exact (dom_set_client _ _ _ _ Hx)|exact HW]]. intros j z. cbn. destruct (decide (j = c)) as [->|Hne]; [rewrite lookup_insert; intros [= <-]; exact G3|rewrite lookup_insert_ne by done; apply Hi].
      - intros j z. cbn. destruct (decide (j = c)) as [->|Hne].
        + rewrite lookup_insert. intros [= <-]. rewrite G1, G2, S1, O2. split; [reflexivity|]. split; [exact O1|]. rewrite EC in S3. clear -S3. change (omap (λ m0, match m0 with MTaskEcho t FunctionNotExists => Some t | _ => None end) Q = []).
          unfold refused in S3. cbn in S3. destruct m; try exact S3. destruct status; try exact S3. discriminate.
        + rewrite lookup_insert_ne by done. intros Hz. destruct (queue_other_client y c x' j Hne) as [E1 E2]. fold y' in E1, E2. rewrite E1, E2. exact (Hs j z Hz). }
    destruct (IH g y' x' HE' (lookup_insert _ _ _) G2) as (y2 & L2 & E2 & D2 & O3). exists y2. split.
    { eapply leads_trans; [|exact L2]. rewrite <- Ea. apply leads_one; [|exact I|exact I|discriminate]. cbn. unfold next. rewrite EC. split; [reflexivity|]. split; [reflexivity|]. exact (Hi c). }
    split; [exact E2|]. split; [exact D2|]. intros j Hne Hj. apply O3; [exact Hne|]. destruct (queue_other_client y c x' j Hne) as [_ Eq]. fold y' in Eq. rewrite Eq. exact Hj.
  Qed.
  Lemma deliver_all K W g y : ending K W g y → ∃ y', leads y y' ∧ ending K W g y' ∧ ∀ c, c ∈ K → to_client y' c = [].
  Proof.
    intros HE. destruct (each (λ g' y', g' = g ∧ ending K W g y') (λ c _ y, c ∈ K → to_client y c = [])) with (l := elements K) (g := g) (y := y) as (g' & y' & L & (-> & E') & P).
    - intros c g1 y1 (-> & E1). destruct (y_clients y1 !! c) as [x|] eqn:Hx.
      + destruct (deliver K W c _ g y1 x E1 Hx eq_refl) as (y2 & L & E2 & D & O). exists g, y2. split; [exact L|]. split; [auto|]. split; [auto|]. intros j Hj HjK. destruct (decide (j = c)) as [->|Hne]; auto.
      + exists g, y1. split; [apply leads_refl|]. split; [auto|]. split; [|auto]. intros Hc. destruct E1 as ((_ & _ & _ & HK & _) & _). rewrite <- HK in Hc. apply elem_of_dom in Hc as [? ?]. congruence.
    - auto.
    - exists y'. split; [exact L|]. split; [exact E'|]. intros c Hc. apply P; [apply elem_of_elements, Hc|exact Hc].
  Qed.
  Lemma ending_resolved K W g y : ending K W g y → (∀ c, c ∈ K → to_client y c = []) → all_resolved y.
  Proof.
    intros ((H & Hu & Hi & HK & HW) & Hs & HT) Hd c t f name content args Hin. unfold history_of in *. destruct (y_clients y !! c) as [x|] eqn:Hx; [|by apply elem_of_nil in Hin].
    destruct (Hs c x Hx) as (S1 & S2 & _). destruct (fl_client H c x Hx) as (F & B & A & D & HC). rewrite S1, Hd in HC by (rewrite <- HK; apply elem_of_dom; eauto).
    apply (ko_D HC). assert (Ht : t ∈ subs x.2) by (apply subs_in; eauto 10). rewrite (ko_all HC) in Ht. cbn in Ht. rewrite !elem_of_app in Ht. destruct Ht as [Ht|[Ht|[Ht|Ht]]]; [..|exact Ht]; exfalso.
    - destruct (ko_F HC _ Ht) as (z & st & Hz & _). rewrite (Hi _ _ Hx), lookup_empty in Hz. discriminate.
    - apply elem_of_list_fmap in Ht as (z & _ & Hz). assert (Hf : z ∈ of_fn (task_function z) B) by (apply elem_of_list_filter; auto). rewrite <- (ko_B HC) in Hf. destruct (k_buffer x.1 !! task_function z) as [l|] eqn:El; [|by apply elem_of_nil in Hf].
      rewrite (fold_len_zero _ _ _ S2 El) in Hf. by apply elem_of_nil in Hf.
    - apply (ko_A HC) in Ht. assert (is_Some (s_tasks (y_sched y) !! t)) as [? E]; [apply (task_client _ _ _ _ H); eauto|]. rewrite HT, lookup_empty in E. discriminate.
  Qed.

  (** ** Everything together *)
  Lemma drained_settled K W g y : base K W g y → (∀ c, c ∈ K → drained c g y) → settled y.
  Proof.
    intros (H & _ & Hi & HK & _) Hd c x Hx. destruct (Hd c) as [D1 D2]; [rewrite <- HK; apply elem_of_dom; eauto|]. destruct (fl_client H c x Hx) as (F & B & A & D & HC). rewrite D1, D2 in HC.
    split; [exact D1|]. rewrite D2. split; [|reflexivity]. replace (k_buffer x.1) with (∅ : gmap bytes (list task)); [reflexivity|]. symmetry. apply map_empty. intros f. destruct (k_buffer x.1 !! f) as [l|] eqn:E; [|reflexivity].
    exfalso. destruct (ko_pending HC f) as [(n & ct & Hq)|(st & n & ct & Hq)]; [left; eauto|by apply elem_of_nil in Hq..].
  Qed.
  Lemma finish g y w : lost ⊆ X → 1 <= c_queue_size cfg → flow cfg X g y → is_Some (y_workers y !! w) → w ∉ lost → ∃ y', leads y y' ∧ all_resolved y'.
  Proof.
    intros HDX Hcap H Hw HwX. destruct (do_dispatch _ _ H) as (g1 & L1 & H1 & Hu1 & C1 & W1 & _). set (y1 := act y (SchedulerDoes 0 [] EDispatch)) in *.
    destruct (end_all_calls _ _ H1) as (y2 & L2 & H2 & I2 & S2 & W2 & K2). set (K := dom (y_clients y2)). set (W := dom (y_workers y2)).
    assert (HW : w ∈ W). { unfold W. rewrite W2, W1. apply elem_of_dom, Hw. }
    assert (B2 : base K W g1 y2). { split; [exact H2|]. split; [unfold calm; rewrite S2; exact Hu1|auto]. }
    destruct (drain_clients _ _ _ _ B2) as (g3 & y3 & L3 & B3 & D3). pose proof (drained_settled _ _ _ _ B3 D3) as S3.
    destruct (drive_workers K W false ∅ g3 y3) as (g4 & y4 & L4 & (B4 & S4 & _) & Q4); [split; [exact B3|]; split; [exact S3|discriminate]|].
    destruct (all_tasks K W w HDX HW HwX Hcap (size (unowned g4 y4)) (unowned g4 y4) g4 y4) as (g5 & y5 & L5 & E5); [split; [exact B4|]; split; [exact S4|]; intros _; split; [exact (quiet_steady _ _ Q4)|reflexivity]|exact Q4|reflexivity|].
    destruct (deliver_all _ _ _ _ E5) as (y6 & L6 & E6 & D6). exists y6. split; [|exact (ending_resolved _ _ _ _ E6 D6)].
    eapply leads_trans; [exact L1|]. eapply leads_trans; [exact L2|]. eapply leads_trans; [exact L3|]. eapply leads_trans; [exact L4|]. eapply leads_trans; eassumption.
  Qed.
End finish.

Theorem orderly_finish c acts verdict : c_max_waiting c < 0 → 1 <= c_queue_size c → (∀ k, verdict k ≠ Ended) → orderly_run c acts → y_workers (execute c acts) ≠ ∅ →
  ∃ more, orderly_run c (acts ++ more) ∧ Forall no_news more ∧ (∀ before a after, more = before ++ a :: after → as_decided verdict (execute c (acts ++ before)) a) ∧
    all_resolved (execute c (acts ++ more)).
Proof.
  intros Hmax Hcap Hv Ho Hw. destruct (flow_run c acts Hmax Ho) as [g H]. apply map_choose in Hw as (w & x & Hx). destruct (finish c Hmax verdict Hv ∅ ∅ (λ _ Hi, Hi) g _ w (λ _ Hi, Hi) Hcap H (mk_is_Some _ _ Hx) (not_elem_of_empty _)) as (y' & (more & N & -> & O) & Hr). exists more. split; [|split; [exact N|split]].
  - intros before a after [(q & E & _)|(q & -> & E)]%app_split; [exact (Ho _ _ _ E)|]. unfold execute. rewrite foldl_app. exact (proj1 (O _ _ _ E)).
  - intros before a after E. unfold execute. rewrite foldl_app. exact (proj1 (proj2 (O _ _ _ E))).
  - unfold execute. rewrite foldl_app. exact Hr.
Qed.
