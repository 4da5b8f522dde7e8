(** The scheduler under well-behaved traffic: exact state, no exceptions (C31, C35-C37). *)

From Verif.Model Require Import Base OneToManyDict PriorityQueue Allocator Message Sorter Scheduler.
From Verif.Spec Require Import AllocatorSpec DictSpec SchedulerSpec.
From Verif.Proofs Require Import BaseProofs DictProofs AllocatorProofs SchedWp SchedCount SchedHold SchedContent SchedSend SchedPrim SchedFn SchedGlobal SchedStep SchedRemove.

(** ** The allocator in disciplined use *)
Definition exact (pk : bool) (a : alloc) (g : ledger) : Prop :=
  ∃ mq ml st, al_rep a g mq ml st ∧ al_exact g mq st pk.
Lemma exact_weaken pk a g : exact pk a g → exact true a g.
Proof.
  intros (mq & ml & st & R & H1 & H2). exists mq, ml, st. split; [exact R|]. split; [exact H1|]. intros d Hd. split; [reflexivity|]. apply H2, Hd.
Qed.
Lemma exact_available pk a g : exact pk a g → ∃ a' b, al_has_available a = Ok (a', b) ∧ al_max a' = al_max a ∧ exact true a' g.
Proof.
  intros (mq & ml & st & R & X). destruct (al_call_exact _ _ _ _ _ _ AHasAvailable [] R X eq_refl) as (a' & r & g' & mq' & ml' & st' & pk' & E & Hd & R' & Hm & X' & _).
  cbn in E. destruct (al_has_available a) as [[a1 b]|]; [|discriminate]. cbn in E. injection E as -> <-. inversion Hd; subst.
  exists a', b. split; [reflexivity|]. split; [exact Hm|]. eapply exact_weaken. exists mq', ml', st'. split; eassumption.
Qed.
Lemma exact_assign pk a g t : exact pk a g → ∃ a' r, al_assign a t = Ok (a', r) ∧ al_max a' = al_max a ∧
  match r with
  | Waits => lg_workers g = ∅ ∧ exact false a' g
  | AllFull => lg_workers g ≠ ∅ ∧ (∀ w, w ∈ lg_workers g → load g w = al_max a) ∧ exact false a' g
  | Assigned w => (lg_owner g !! t = Some w ∧ exact false a' g) ∨
      (lg_owner g !! t = None ∧ w ∈ lg_workers g ∧ (∀ w', w' ∈ lg_workers g → load g w <= load g w') ∧ (0 <= al_max a → load g w < al_max a) ∧
       exact false a' (Ledger (lg_workers g) (<[t := w]> (lg_owner g))))
  end.
Proof.
  intros (mq & ml & st & R & X). destruct (al_call_exact _ _ _ _ _ _ (AAssign t) [AAddWorker ""] R X eq_refl) as (a' & r & g' & mq' & ml' & st' & pk' & E & Hd & R' & Hm & X' & D').
  assert (pk' = false) as -> by (destruct pk'; [discriminate|reflexivity]).
  cbn in E. destruct (al_assign a t) as [[a1 b]|]; [|discriminate]. cbn in E. injection E as -> <-.
  exists a', b. split; [reflexivity|]. split; [exact Hm|].
  inversion Hd; subst; [split; [assumption|]|split; [assumption|split; [auto|]]|left; split; [assumption|]|right; do 4 (split; [auto|])]; exists mq', ml', st'; split; assumption.
Qed.
Lemma exact_add a g w : exact false a g → ∃ a' b, al_add_worker a w = (a', b) ∧ al_max a' = al_max a ∧ exact false a' (Ledger ({[w]} ∪ lg_workers g) (lg_owner g)).
Proof.
  intros (mq & ml & st & R & X). destruct (al_call_exact _ _ _ _ _ _ (AAddWorker w) [AAddWorker ""] R X eq_refl) as (a' & r & g' & mq' & ml' & st' & pk' & E & Hd & R' & Hm & X' & D').
  assert (pk' = false) as -> by (destruct pk'; [discriminate|reflexivity]).
  cbn in E. destruct (al_add_worker a w) as [a1 b]. cbn in E. injection E as -> <-.
  exists a', b. split; [reflexivity|]. split; [exact Hm|]. inversion Hd; subst; [exists mq', ml', st'; split; assumption|].
  destruct g' as [W O]; cbn in *. replace ({[w]} ∪ W) with W by set_solver. exists mq', ml', st'; split; assumption.
Qed.
Lemma exact_remove_worker a g w : exact false a g → w ∈ lg_workers g → ∃ a', al_remove_worker a w = Ok (a', tasks_of g w) ∧ al_max a' = al_max a ∧
  exact false a' (Ledger (lg_workers g ∖ {[w]}) (filter (λ p, p.2 ≠ w) (lg_owner g))).
Proof.
  intros (mq & ml & st & R & X) Hw. destruct (al_call_exact _ _ _ _ _ _ (ARemoveWorker w) [AAddWorker ""] R X eq_refl) as (a' & r & g' & mq' & ml' & st' & pk' & E & Hd & R' & Hm & X' & D').
  assert (pk' = false) as -> by (destruct pk'; [discriminate|reflexivity]).
  cbn in E. destruct (al_remove_worker a w) as [[a1 b]|]; [|discriminate]. cbn in E. injection E as -> <-. inversion Hd; subst; [|done].
  exists a'. split; [reflexivity|]. split; [exact Hm|]. exists mq', ml', st'; split; assumption.
Qed.
Lemma exact_remove_task a g t : exact false a g → ∃ a', al_remove_task a t = Ok (a', lg_owner g !! t) ∧ al_max a' = al_max a ∧
  exact false a' (Ledger (lg_workers g) (delete t (lg_owner g))).
Proof.
  intros (mq & ml & st & R & X). destruct (al_call_exact _ _ _ _ _ _ (ARemoveTask t) [AAddWorker ""] R X eq_refl) as (a' & r & g' & mq' & ml' & st' & pk' & E & Hd & R' & Hm & X' & D').
  assert (pk' = false) as -> by (destruct pk'; [discriminate|reflexivity]).
  cbn in E. destruct (al_remove_task a t) as [[a1 b]|]; [|discriminate]. cbn in E. injection E as -> <-. inversion Hd; subst.
  exists a'. split; [reflexivity|]. split; [exact Hm|]. exists mq', ml', st'; split; assumption.
Qed.
Lemma exact_allocd pk a g : exact pk a g → allocd a g.
Proof. intros (mq & ml & st & R & _). exists mq, ml, st. exact R. Qed.

(** ** The exact state.  [g]: the ledger; [fl]: tasks taken back and not yet requeued. *)
Definition lim (s : sched) : list bytes := match s_limbo s with Some k => [task_id k] | None => [] end.
(** What the graphs account for: the graphs waiting to be picked up, the graphs, the
    graph of each node, the ids registered for graphs, and the functions of nodes not
    started.  [no_graphs] when all work is submitted individually. *)
Record ext := Ext { x_queue : list (bytes * graph_task); x_graphs : gmap bytes graph; x_t2g : gmap bytes bytes; x_ids : gset bytes; x_inactive : gmap bytes bytes }.
Definition no_graphs : ext := Ext [] ∅ ∅ ∅ ∅.
Record core (x : ext) (pk : bool) (g : ledger) (fl : list bytes) (s : sched) : Prop := {
  c_dead : s_dead s = None;
  c_gqueue : s_gqueue s = x_queue x; c_graphs : s_graphs s = x_graphs x; c_t2g : s_t2g s = x_t2g x;
  c_cl : otm_inv (s_clients s);
  c_cldom : dom (o_v2k (s_clients s)) = dom (s_tasks s) ∪ x_ids x;
  c_ft : otm_inv (s_ftasks s);
  c_ftv : o_v2k (s_ftasks s) = (task_function <$> s_tasks s) ∪ x_inactive x;
  c_fn t k : s_tasks s !! t = Some k → is_Some (s_funcs s !! task_function k);
  c_key t k : s_tasks s !! t = Some k → task_id k = t;
  c_limbo k : s_limbo s = Some k → s_tasks s !! task_id k = Some k;
  c_nodup : NoDup (s_unassigned s ++ lim s);
  c_disj t : t ∈ s_unassigned s ++ lim s → t ∉ s_running s;
  c_places : dom (s_tasks s) = list_to_set (s_unassigned s ++ lim s) ∪ s_running s;
  c_running : s_running s = dom (lg_owner g) ∪ list_to_set fl;
  c_fl t : t ∈ fl → lg_owner g !! t = None;
  c_flnd : NoDup fl;
  c_alloc : exact pk (s_alloc s) g;
  c_alive : dom (s_alive s) = lg_workers g;
  c_tw w : is_Some (s_alive s !! w) → utf8 w = true;
  c_tc t c : o_v2k (s_clients s) !! t = Some c → utf8 c = true;
  c_tf f i : s_funcs s !! f = Some i → utf8 (fi_name i) = true;
  c_inactive t f : x_inactive x !! t = Some f → s_tasks s !! t = None ∧ is_Some (s_funcs s !! f);
  c_ids t : t ∈ x_ids x → s_tasks s !! t = None }.
Notation no_exn := (λ (_ : exn) (_ : sched), False).

Lemma core_log xt pk g fl s f : core xt pk g fl s → core xt pk g fl (set_log f s).
Proof. intros []; split; auto. Qed.
Lemma core_codes xt pk g fl s f : core xt pk g fl s → core xt pk g fl (set_codes f s).
Proof. intros []; split; auto. Qed.
Lemma core_task xt pk g fl s t : core xt pk g fl s → t ∈ s_unassigned s ++ lim s ∨ t ∈ s_running s → ∃ k, s_tasks s !! t = Some k ∧ task_id k = t.
Proof.
  intros H Ht. assert (t ∈ dom (s_tasks s)) as [k Hk]%elem_of_dom. { rewrite (c_places _ _ _ _ _ H). set_solver. }
  exists k. split; [exact Hk|exact (c_key _ _ _ _ _ H _ _ Hk)].
Qed.
Lemma wp_eq {A} (m : M A) (Q : A → sched → Prop) (E : exn → sched → Prop) s s' a : m s = (s', Ok a) → Q a s' → wp m Q E s.
Proof. intros Em H. unfold wp. rewrite Em. exact H. Qed.

(** [__send_monitor] of a known task. *)
Lemma monitor_spec t st k s : s_tasks s !! t = Some k → is_Some (s_funcs s !! task_function k) →
  ∃ e, internal e ∧ tm_monitor t st s = (set_log (λ l, l ++ [e]) s, Ok tt).
Proof.
  intros Hk [i Hi]. exists (LMonitor (MTaskState t (fi_name i) st)). split; [exact I|].
  unfold tm_monitor, fm_get_name, bind, gets, lift, send_monitor, emit, modify, ret. cbn. rewrite Hk. cbn. rewrite Hi. reflexivity.
Qed.
Lemma core_fun xt pk g fl s t k : core xt pk g fl s → s_tasks s !! t = Some k → is_Some (s_funcs s !! task_function k).
Proof. intros H. apply (c_fn _ _ _ _ _ H). Qed.

Lemma otm_add_new (d : otm bytes bytes) k v : otm_inv d → o_v2k d !! v = None →
  ∃ d', otm_add d k v = Ok d' ∧ otm_inv d' ∧ o_v2k d' = <[v := k]> (o_v2k d).
Proof. intros Hi Hv. pose proof (otm_add_spec d k v Hi) as H. rewrite Hv in H. exact H. Qed.
Lemma otm_remove_known (d : otm bytes bytes) v k : otm_inv d → o_v2k d !! v = Some k →
  ∃ d', otm_remove_value d v = Ok (d', k) ∧ otm_inv d' ∧ o_v2k d' = delete v (o_v2k d).
Proof. intros Hi Hv. pose proof (otm_remove_value_spec d v Hi) as H. rewrite Hv in H. exact H. Qed.

(** Entries that neither accept nor answer a task. *)
Definition calm_e (e : entry) : Prop :=
  match e with LSend _ (MTaskEcho _ SubmitOK) | LSend _ (MTaskResult _ _ _ _) | LSend _ (MGraphTaskResult _ _ _) | LIn _ _ => False | _ => True end.
Definition counts (s : sched) := (s_nsuccess s, s_nfailed s, s_ncanceled s, s_nnotfound s).
Record calm (s s' : sched) : Prop := {
  cm_cfg : s_cfg s' = s_cfg s; cm_now : s_now s' = s_now s; cm_counts : counts s' = counts s; cm_clients : s_clients s' = s_clients s;
  cm_log : ∃ l, s_log s' = s_log s ++ l ∧ Forall calm_e l }.
Lemma calm_refl s : calm s s.
Proof. split; auto. exists []. rewrite app_nil_r. auto. Qed.
Lemma calm_trans s1 s2 s3 : calm s1 s2 → calm s2 s3 → calm s1 s3.
Proof.
  intros [A1 A2 A3 A6 (l1 & A4 & A5)] [B1 B2 B3 B6 (l2 & B4 & B5)]. split; try congruence. exists (l1 ++ l2).
  rewrite B4, A4, app_assoc. split; [reflexivity|]. apply Forall_app. auto.
Qed.
Lemma calm_emit s s' e : calm_e e → calm s s' → calm s (set_log (λ l, l ++ [e]) s').
Proof. intros He H. eapply calm_trans; [exact H|]. split; auto. exists [e]. auto. Qed.
Lemma internal_calm e : internal e → calm_e e.
Proof. destruct e; cbn; tauto. Qed.
Ltac calms := first [apply calm_refl | split; [reflexivity|reflexivity|reflexivity|reflexivity|eexists; split; [reflexivity|repeat constructor; auto using internal_calm]] ].

Lemma core_delete_lookup xt pk g fl s t : core xt pk g fl s → is_Some (s_tasks s !! t) →
  ∃ k c, s_tasks s !! t = Some k ∧ task_id k = t ∧ o_v2k (s_clients s) !! t = Some c ∧ o_v2k (s_ftasks s) !! t = Some (task_function k).
Proof.
  intros H [k Hk]. assert (t ∈ dom (o_v2k (s_clients s))) as [c Hc]%elem_of_dom. { rewrite (c_cldom _ _ _ _ _ H). apply elem_of_union_l, elem_of_dom. eauto. }
  exists k, c. split; [exact Hk|]. split; [exact (c_key _ _ _ _ _ H _ _ Hk)|]. split; [exact Hc|]. rewrite (c_ftv _ _ _ _ _ H). apply lookup_union_Some_l. rewrite lookup_fmap, Hk. reflexivity.
Qed.

Ltac wgo1 :=
  lazymatch goal with
  | |- wp (bind _ _) _ _ _ => apply wp_bind
  | |- wp (ret _) _ _ _ => apply wp_ret
  | |- wp (gets _) _ _ _ => apply wp_gets
  | |- wp (modify _) _ _ _ => apply wp_modify
  | |- wp (emit _) _ _ _ => apply wp_emit
  | |- wp (send _ _) _ _ _ => unfold send; apply wp_emit
  end.
Ltac wgo := repeat (wgo1; cbv beta zeta); cbn [fst snd]; ss.
Lemma set_put (A B : list bytes) (R : gset bytes) t : list_to_set ((A ++ [t]) ++ B) ∪ R = {[t]} ∪ (list_to_set (A ++ B) ∪ R).
Proof. set_solver. Qed.
Lemma set_move (A B : list bytes) (R : gset bytes) t : t ∈ R → list_to_set ((A ++ [t]) ++ B) ∪ R ∖ {[t]} = list_to_set (A ++ B) ∪ R.
Proof. intros H. apply leibniz_equiv. intros x. destruct (decide (x = t)) as [->|]; set_solver. Qed.
Lemma set_take (D : gset bytes) (fl : list bytes) t : t ∉ D → t ∉ fl → (D ∪ list_to_set (t :: fl)) ∖ {[t]} = D ∪ list_to_set fl.
Proof. intros H1 H2. apply leibniz_equiv. intros x. destruct (decide (x = t)) as [->|]; set_solver. Qed.
Lemma nodup_put (A B : list bytes) t : NoDup (A ++ B) → t ∉ A → t ∉ B → NoDup ((A ++ [t]) ++ B).
Proof.
  intros (N1 & N2 & N3)%NoDup_app HA HB. rewrite <- app_assoc. apply NoDup_app. split; [exact N1|]. split; [|cbn; constructor; assumption].
  intros x Hx. cbn. rewrite not_elem_of_cons. split; [intros ->; auto|auto].
Qed.
Lemma set_drop (A B A' : list bytes) (R : gset bytes) t : (∀ x, x ∈ A' ↔ x ∈ A ∧ x ≠ t) → t ∉ B →
  (list_to_set (A ++ B) ∪ R) ∖ {[t]} = list_to_set (A' ++ B) ∪ R ∖ {[t]}.
Proof.
  intros HA HB. apply leibniz_equiv. intros x. rewrite !elem_of_difference, !elem_of_union, !elem_of_list_to_set, !elem_of_app, HA, elem_of_difference.
  destruct (decide (x = t)) as [->|]; set_solver.
Qed.

(** *** Submission *)
Lemma insert_union_delete (A B : gmap bytes bytes) t v : <[t := v]> (A ∪ B) = <[t := v]> A ∪ delete t B.
Proof.
  apply map_eq. intros x. destruct (decide (x = t)) as [->|Hne].
  - rewrite lookup_insert. symmetry. apply lookup_union_Some_l, lookup_insert.
  - rewrite lookup_insert_ne by done. rewrite !lookup_union, lookup_insert_ne, lookup_delete_ne by done. reflexivity.
Qed.
Lemma delete_union_left (A B : gmap bytes bytes) t : B !! t = None → delete t (A ∪ B) = delete t A ∪ B.
Proof. intros H. rewrite delete_union, (delete_notin B) by exact H. reflexivity. Qed.
Definition started (t : bytes) (xt : ext) : ext := Ext (x_queue xt) (x_graphs xt) (x_t2g xt) (x_ids xt) (delete t (x_inactive xt)).
Lemma started_none t xt : x_inactive xt !! t = None → started t xt = xt.
Proof. intros H. unfold started. rewrite delete_notin by exact H. destruct xt; reflexivity. Qed.
Lemma otm_add_again (d : otm bytes bytes) k v : otm_inv d → (o_v2k d !! v = None ∨ o_v2k d !! v = Some k) →
  ∃ d', otm_add d k v = Ok d' ∧ otm_inv d' ∧ o_v2k d' = <[v := k]> (o_v2k d).
Proof.
  intros Hi [Hv|Hv]; pose proof (otm_add_spec d k v Hi) as H; rewrite Hv in H; [exact H|]. rewrite decide_True in H by reflexivity.
  destruct H as (d' & E & I' & V). exists d'. split; [exact E|]. split; [exact I'|]. rewrite V, insert_id by exact Hv. reflexivity.
Qed.
Lemma new_spec xt pk g s cl k : core xt pk g [] s → utf8 cl = true → s_tasks s !! task_id k = None → task_id k ∉ x_ids xt →
  x_inactive xt !! task_id k = None ∨ x_inactive xt !! task_id k = Some (task_function k) → c_max_waiting (s_cfg s) < 0 →
  wp (tm_new cl k) (λ _ s', match s_funcs s !! task_function k with
     | None => s' = set_log (λ l, l ++ [LSend cl (MTaskEcho (task_id k) FunctionNotExists)]) s
     | Some _ => core (started (task_id k) xt) true g [] s' ∧ s_cfg s' = s_cfg s ∧ s_now s' = s_now s ∧ counts s' = counts s ∧ s_tasks s' = <[task_id k := k]> (s_tasks s) ∧
         s_unassigned s' = s_unassigned s ++ [task_id k] ∧ s_running s' = s_running s ∧ o_v2k (s_clients s') = <[task_id k := cl]> (o_v2k (s_clients s)) ∧
         ∃ e, internal e ∧ s_log s' = s_log s ++ [LSend cl (MTaskEcho (task_id k) SubmitOK); e]
     end) no_exn s.
Proof.
  intros H Hu Hn Hni Hia Hw. set (t := task_id k) in *. unfold tm_new, fm_has_function. fold t. wgo. destruct (s_funcs s !! task_function k) as [i|] eqn:Ef.
  2:{ rewrite bool_decide_eq_false_2 by (intros [? ?]; discriminate). cbn [negb]. wgo. reflexivity. }
  rewrite bool_decide_eq_true_2 by eauto. cbn [negb]. unfold wm_has_available. wgo.
  destruct (exact_available _ _ _ (c_alloc _ _ _ _ _ H)) as (a' & b & Ea & Hm & Hxx). rewrite Ea. apply wp_ok. wgo.
  replace (negb b && ((0 <=? c_max_waiting (s_cfg s)) && (c_max_waiting (s_cfg s) <=? Z.of_nat (length (s_unassigned s))))) with false.
  2:{ destruct (Z.leb_spec 0 (c_max_waiting (s_cfg s))); [lia|]. rewrite andb_false_r. reflexivity. }
  assert (Htu : t ∉ s_unassigned s).
  { intros Hi. assert (t ∈ dom (s_tasks s)) as [? ?]%elem_of_dom; [|congruence]. rewrite (c_places _ _ _ _ _ H). set_solver. }
  destruct H as [H1 H2 H3 H4 H5 H6 H7 H8 H9 H10 H11 H12 H13 H14 H15 H16 H17 H18 H19 H20 H21 H22 H23 H24].
  wgo. unfold fm_use. wgo. rewrite Ef. apply wp_ok. wgo.
  destruct (otm_add_again (s_ftasks s) (task_function k) t H7) as (df & Edf & Idf & Vdf). { rewrite H8, lookup_union_r by (rewrite lookup_fmap, Hn; reflexivity). exact Hia. }
  rewrite Edf. apply wp_ok. wgo. unfold cm_new. wgo. ss.
  destruct (otm_add_new (s_clients s) cl t H5) as (dc & Edc & Idc & Vdc). { apply not_elem_of_dom. rewrite H6. apply not_elem_of_union. split; [apply not_elem_of_dom; exact Hn|exact Hni]. }
  rewrite Edc. apply wp_ok. wgo. unfold tm_put. wgo. ss.
  rewrite bool_decide_eq_false_2 by exact Htu. wgo.
  match goal with |- wp _ _ _ ?s => set (s1 := s) end.
  destruct (monitor_spec t Inactive k s1) as (e & He & Em). { subst s1. ss. apply lookup_insert. } { subst s1. ss. rewrite lookup_insert. eauto. }
  eapply wp_eq; [exact Em|]. subst s1. ss. split; [|repeat (split; [reflexivity|]); split; [exact Vdc|]; exists e; split; [exact He|rewrite <- app_assoc; reflexivity]].
  assert (Ht : t ∉ list_to_set (s_unassigned s ++ lim s) ∪ s_running s). { rewrite <- H14. apply not_elem_of_dom. exact Hn. }
  apply not_elem_of_union in Ht as [Ht1 Ht2]. rewrite elem_of_list_to_set in Ht1. apply not_elem_of_app in Ht1 as [HtA HtB].
  split; ss; auto.
  - rewrite Vdc, !dom_insert_L, H6. apply (assoc_L _).
  - rewrite Vdf, H8, fmap_insert. apply insert_union_delete.
  - intros t' k' [[<- <-]|[_ Hk]]%lookup_insert_Some; [rewrite lookup_insert; eauto|].
    destruct (decide (task_function k' = task_function k)) as [->|Hne]; [rewrite lookup_insert; eauto|rewrite lookup_insert_ne by done; eauto].
  - intros t' k' [[<- <-]|[_ Hk]]%lookup_insert_Some; [reflexivity|eauto].
  - intros k' Hk. specialize (H11 _ Hk). rewrite lookup_insert_ne; [exact H11|]. intros E. change (s_tasks s !! task_id k' = Some k') in H11. rewrite <- E in H11. congruence.
  - apply nodup_put; [exact H12|exact HtA|exact HtB].
  - intros x Hx. destruct (decide (x = t)) as [->|Hne]; [exact Ht2|]. apply H13. clear -Hx Hne. unfold lim in *. ss. set_solver.
  - rewrite dom_insert_L, H14. symmetry. apply set_put.
  - intros t' c. rewrite Vdc. intros [[<- <-]|[_ Hc]]%lookup_insert_Some; [exact Hu|eauto].
  - intros f i' [[<- <-]|[_ Hi]]%lookup_insert_Some; [cbn; eauto|eauto].
  - intros t' f Hf. cbn in Hf. apply lookup_delete_Some in Hf as [Hne Hf]. apply H23 in Hf as [Hf1 Hf2]. rewrite lookup_insert_ne by exact Hne. split; [exact Hf1|].
    destruct (decide (f = task_function k)) as [->|]; [rewrite lookup_insert; eauto|rewrite lookup_insert_ne by done; exact Hf2].
  - intros t' Ht'. rewrite lookup_insert_ne; [auto|]. intros <-. auto.
Qed.

(** *** Requeueing *)
Lemma reroute_spec xt pk g fl s t : core xt pk g (t :: fl) s →
  wp (tm_reroute t) (λ _ s', core xt pk g fl s' ∧ calm s s' ∧ s_tasks s' = s_tasks s) no_exn s.
Proof.
  intros H. pose proof H as [H1 H2 H3 H4 H5 H6 H7 H8 H9 H10 H11 H12 H13 H14 H15 H16 H17 H18 H19 H20 H21 H22 H23 H24].
  assert (Hr : t ∈ s_running s) by (rewrite H15; set_solver).
  destruct (core_task _ _ _ _ _ t H) as (k & Hk & Hid); [auto|].
  destruct (core_delete_lookup _ _ _ _ _ t H) as (k' & c & Hk' & _ & Hc & _); [eauto|].
  unfold tm_reroute. wgo. unfold otm_get_key. rewrite Hc. cbn [from_option_exn]. apply wp_ok. wgo.
  rewrite bool_decide_eq_true_2 by exact Hr. cbn [negb]. wgo. unfold tm_put. wgo. ss.
  assert (HtA : t ∉ s_unassigned s) by (intros Hi; apply (H13 t); [apply elem_of_app; auto|exact Hr]).
  rewrite bool_decide_eq_false_2 by exact HtA. wgo.
  match goal with |- wp _ _ _ ?s => set (s1 := s) end.
  destruct (monitor_spec t Inactive k s1) as (e & He & Em); [exact Hk|exact (H9 _ _ Hk)|].
  eapply wp_eq; [exact Em|]. subst s1. split; [|split; [|reflexivity]].
  2:{ split; auto. exists [e]. split; [reflexivity|]. constructor; [apply internal_calm, He|constructor]. }
  apply NoDup_cons in H17 as [Hfl Hnd].
  assert (HtB : t ∉ lim s) by (intros Hi; apply (H13 t); [apply elem_of_app; auto|exact Hr]).
  split; ss; auto.
  - apply nodup_put; [exact H12|exact HtA|exact HtB].
  - intros x Hx. rewrite elem_of_difference, elem_of_singleton. intros [Hr' Hne]. apply (H13 x); [|exact Hr']. clear -Hx Hne. unfold lim in *. ss. set_solver.
  - rewrite H14. symmetry. apply set_move. exact Hr.
  - rewrite H15. apply set_take; [|exact Hfl]. apply not_elem_of_dom, H16. left.
  - intros x Hx. apply H16. right. exact Hx.
Qed.
Lemma reroutes_core xt pk g fl s : core xt pk g fl s →
  wp (foreach fl tm_reroute) (λ _ s', core xt pk g [] s' ∧ calm s s' ∧ s_tasks s' = s_tasks s) no_exn s.
Proof.
  revert s; induction fl as [|t fl IH]; intros s H; cbn [foreach]; [split; [exact H|split; [calms|reflexivity]]|].
  wgo. eapply wp_mono; [apply reroute_spec; exact H| |auto]. cbv beta. intros _ s1 (H1 & C1 & T1).
  eapply wp_mono; [apply IH; exact H1| |auto]. cbv beta. intros _ s2 (H2 & C2 & T2). split; [exact H2|]. split; [eapply calm_trans; eauto|congruence].
Qed.

(** *** Finishing a task *)
Definition bump (st : task_status) (n : Z * Z * Z * Z) : Z * Z * Z * Z :=
  let '(a, b, c, d) := n in
  match st with Success => (1 + a, b, c, d) | Failed => (a, 1 + b, c, d) | Canceled => (a, b, 1 + c, d) | NotFound => (a, b, c, 1 + d) | _ => n end.
Lemma count_spec st s : ∃ s', tm_count st s = (s', Ok tt) ∧ counts s' = bump st (counts s) ∧
  ∀ xt pk g fl, core xt pk g fl s → core xt pk g fl s' ∧ s_tasks s' = s_tasks s ∧ s_unassigned s' = s_unassigned s ∧ s_running s' = s_running s ∧ s_funcs s' = s_funcs s ∧
    s_log s' = s_log s ∧ s_cfg s' = s_cfg s ∧ s_now s' = s_now s ∧ s_clients s' = s_clients s.
Proof.
  destruct st; (eexists; split; [reflexivity|]; split; [reflexivity|]); intros xt pk g fl H; ss; (split; [destruct H; split; auto|repeat split; reflexivity]).
Qed.
Lemma forget_spec xt pk g fl s r : core xt pk g fl s → (r_id r ∈ s_unassigned s ∧ fl = []) ∨ fl = [r_id r] →
  wp (tm_forget r) (λ cl s', core xt pk g [] s' ∧ s_cfg s' = s_cfg s ∧ s_now s' = s_now s ∧ counts s' = bump (r_status r) (counts s) ∧
     s_tasks s' = delete (r_id r) (s_tasks s) ∧ o_v2k (s_clients s') = delete (r_id r) (o_v2k (s_clients s)) ∧ is_Some (s_tasks s !! r_id r) ∧
     o_v2k (s_clients s) !! r_id r = Some cl ∧ (∀ x, x ∈ s_unassigned s' → x ∈ s_unassigned s) ∧ ∃ mon, internal mon ∧ s_log s' = s_log s ++ [mon]) no_exn s.
Proof.
  intros H Hc. unfold tm_forget. set (t := r_id r) in *. wgo.
  destruct (count_spec (r_status r) s) as (s1 & E1 & C1 & F1). destruct (F1 _ _ _ _ H) as (H1 & T1 & U1 & R1 & Fn1 & L1 & Cf1 & N1 & Cl1).
  eapply wp_eq; [exact E1|]. wgo. rewrite U1.
  assert (Htask : is_Some (s_tasks s !! t)).
  { apply elem_of_dom. rewrite (c_places _ _ _ _ _ H), (c_running _ _ _ _ _ H). clear -Hc. destruct Hc as [[Hu ->]| ->]; set_solver. }
  destruct (core_delete_lookup _ _ _ _ _ t H Htask) as (k & cl & Hk & Hid & Hcl & Hft).
  set (m := if bool_decide (t ∈ s_unassigned s) then _ else _).
  assert (∃ s2, m s1 = (s2, Ok tt) ∧ s2 = set_unassigned (λ _, s_unassigned s2) (set_running (λ _, s_running s2) s1) ∧
     s_tasks s2 = s_tasks s ∧ s_unassigned s2 = List.filter (λ x, negb (String.eqb x t)) (s_unassigned s) ∧ s_running s2 = s_running s ∖ {[t]}) as (s2 & E2 & X2 & T2 & U2 & R2).
  { subst m. case_bool_decide as Hu.
    - eexists. split; [reflexivity|]. split; [destruct s1; reflexivity|]. ss. rewrite T1, U1, R1. split; [reflexivity|]. split; [reflexivity|].
      assert (t ∉ s_running s) by (apply (c_disj _ _ _ _ _ H); set_solver). set_solver.
    - eexists. split; [reflexivity|]. split; [destruct s1; reflexivity|]. ss. rewrite T1, U1, R1. split; [reflexivity|]. split; [|reflexivity].
      clear -Hu. induction (s_unassigned s) as [|x q IH]; [reflexivity|]. cbn. destruct (String.eqb_spec x t) as [->|]; [set_solver|]. cbn. f_equal. apply IH. set_solver. }
  eapply wp_eq; [exact E2|]. clear E2 m. wgo.
  destruct (monitor_spec t (r_status r) k s2) as (mon & Hmon & Em). { rewrite T2. exact Hk. } { rewrite X2. ss. rewrite Fn1. exact (core_fun _ _ _ _ _ _ _ H Hk). }
  eapply wp_eq; [exact Em|]. wgo. ss. rewrite T2. wgo. rewrite Hk. cbn [from_option_exn]. apply wp_ok.
  wgo. unfold fm_done. wgo. ss.
  assert (Hs2 : s_ftasks s2 = s_ftasks s ∧ s_clients s2 = s_clients s ∧ s_cfg s2 = s_cfg s ∧ s_now s2 = s_now s ∧ s_log s2 = s_log s ∧ s_t2g s2 = x_t2g xt ∧ counts s2 = counts s1).
  { rewrite X2. ss. repeat split; try congruence; [|exact (c_t2g _ _ _ _ _ H1)]. destruct (r_status r); unfold tm_count, modify, ret in E1; injection E1 as <-; reflexivity. }
  destruct Hs2 as (Fs2 & Cs2 & Cfs2 & Ns2 & Ls2 & Gs2 & Cts2).
  destruct (otm_remove_known _ _ _ (c_ft _ _ _ _ _ H) Hft) as (df & Edf & Idf & Vdf). rewrite Fs2, Edf. apply wp_ok. wgo.
  unfold cm_done. wgo.
  destruct (otm_remove_known _ _ _ (c_cl _ _ _ _ _ H) Hcl) as (dc & Edc & Idc & Vdc). rewrite Cs2, Edc. apply wp_ok. cbn [fst snd]. wgo.
  match goal with |- core xt _ _ _ ?s ∧ _ => set (s9 := s) end.
  split; [|subst s9; ss; split; [congruence|split; [congruence|split; [change (counts s2 = bump (r_status r) (counts s)); congruence|split; [rewrite T2; reflexivity|split; [exact Vdc|split; [eauto|
     split; [exact Hcl|split; [intros x; rewrite U2, elem_of_list_In, filter_In, <- elem_of_list_In; tauto|exists mon; split; [exact Hmon|rewrite Ls2; reflexivity]]]]]]]]]].
  assert (Hlt : t ∉ lim s).
  { destruct Hc as [[Hu _]| ->]; [|intros Hi; apply (c_disj _ _ _ _ _ H t); [apply elem_of_app; auto|rewrite (c_running _ _ _ _ _ H); apply elem_of_union_r, elem_of_list_to_set; left]].
    pose proof (c_nodup _ _ _ _ _ H) as Hnd. apply NoDup_app in Hnd as (_ & Hnd & _). auto. }
  assert (Hel : ∀ x, x ∈ List.filter (λ x, negb (String.eqb x t)) (s_unassigned s) ↔ x ∈ s_unassigned s ∧ x ≠ t).
  { intros x. rewrite elem_of_list_In, filter_In, <- elem_of_list_In, negb_true_iff, String.eqb_neq. reflexivity. }
  assert (Hlim : lim s2 = lim s1) by (rewrite X2; reflexivity).
  assert (Hlim1 : lim s1 = lim s). { unfold lim. destruct (r_status r); unfold tm_count, modify, ret in E1; injection E1 as <-; reflexivity. }
  destruct H1 as [H1 H2 H3 H4 H5 H6 H7 H8 H9 H10 H11 H12 H13 H14 H15 H16 H17 H18 H19 H20 H21 H22 H23 H24].
  rewrite T1 in *. rewrite U1 in *. rewrite R1 in *. rewrite Hlim1 in *. rewrite Cl1 in *. rewrite Fn1 in *.
  assert (Hs9 : s_dead s9 = s_dead s1 ∧ s_gqueue s9 = s_gqueue s1 ∧ s_graphs s9 = s_graphs s1 ∧ s_t2g s9 = s_t2g s1 ∧ s_funcs s9 = s_funcs s1 ∧ s_limbo s9 = s_limbo s1 ∧
     s_alloc s9 = s_alloc s1 ∧ s_alive s9 = s_alive s1). { subst s9. ss. rewrite X2. ss. repeat split. }
  destruct Hs9 as (D1 & D2 & D3 & D4 & D5 & D6 & D7 & D8).
  assert (Hlim9 : lim s9 = lim s) by (unfold lim; rewrite D6; fold (lim s1); exact Hlim1).
  split; rewrite ?D1, ?D2, ?D3, ?D4, ?D5, ?D6, ?D7, ?D8, ?Fn1; auto; subst s9; ss; rewrite ?T2.
  - rewrite Vdc, !dom_delete_L, H6, difference_union_distr_l_L. f_equal. apply difference_disjoint_L. apply disjoint_singleton_r. intros Hi. apply H24 in Hi. congruence.
  - rewrite Vdf, fmap_delete, (c_ftv _ _ _ _ _ H). apply delete_union_left. destruct (x_inactive xt !! t) as [f|] eqn:Ei; [|reflexivity]. apply H23 in Ei as [Ei _]. congruence.
  - intros t' k' [_ Hk']%lookup_delete_Some. eauto.
  - intros t' k' [_ Hk']%lookup_delete_Some. eauto.
  - intros k' Hk'. rewrite lookup_delete_ne; [auto|]. intros E. apply Hlt. unfold lim. rewrite <- D6 in Hk'. clear -Hk' E Hlim1 D6 X2.
    fold (lim s). rewrite <- Hlim1. unfold lim. rewrite <- D6, Hk', E. set_solver.
  - rewrite Hlim9, U2. apply NoDup_app in H12 as (M1 & M2 & M3). apply NoDup_app. split; [apply NoDup_ListNoDup, List.NoDup_filter, NoDup_ListNoDup; exact M1|]. split; [|exact M3].
    intros x [Hx _]%Hel. auto.
  - intros x. rewrite Hlim9, U2, R2. intros Hx Hr. apply elem_of_difference in Hr as [Hr _]. apply (H13 x); [|exact Hr]. apply elem_of_app. apply elem_of_app in Hx as [[Hx _]%Hel|Hx]; auto.
  - rewrite Hlim9, U2, R2, dom_delete_L, H14. apply set_drop; assumption.
  - rewrite R2, H15. destruct Hc as [[Hu ->]| ->].
    + assert (Hi : t ∉ dom (lg_owner g)); [|clear -Hi; set_solver]. intros Hi. apply (H13 t); [apply elem_of_app; auto|]. rewrite H15. apply elem_of_union_l, Hi.
    + assert (Hi : t ∉ dom (lg_owner g)) by (apply not_elem_of_dom, H16; left). clear -Hi. set_solver.
  - intros t' Ht'. inversion Ht'.
  - constructor.
  - intros t' c'. rewrite Vdc. intros [_ Hc']%lookup_delete_Some. eauto.
  - intros t' f' Hf'. apply H23 in Hf' as [Hf1 Hf2]. split; [apply lookup_delete_None; auto|exact Hf2].
  - intros t' Ht'. apply lookup_delete_None. auto.
Qed.
Lemma done_spec xt pk g fl s r : core xt pk g fl s → (r_id r ∈ s_unassigned s ∧ fl = []) ∨ fl = [r_id r] → x_t2g xt !! r_id r = None →
  wp (tm_done r) (λ _ s', core xt pk g [] s' ∧ s_cfg s' = s_cfg s ∧ s_now s' = s_now s ∧ counts s' = bump (r_status r) (counts s) ∧
     s_tasks s' = delete (r_id r) (s_tasks s) ∧ o_v2k (s_clients s') = delete (r_id r) (o_v2k (s_clients s)) ∧ is_Some (s_tasks s !! r_id r) ∧
     ∃ mon cl, internal mon ∧ o_v2k (s_clients s) !! r_id r = Some cl ∧ s_log s' = s_log s ++ [mon; LSend cl (MResult r)]) no_exn s.
Proof.
  intros H Hc Ht. unfold tm_done. wgo. cbn [tm_done_fuel]. wgo. eapply wp_mono; [apply (forget_spec _ _ _ _ _ _ H Hc)| |auto]. cbv beta.
  intros cl s1 (H1 & E1 & E2 & E3 & E4 & E5 & E6 & E7 & _ & mon & E8 & E9). wgo. unfold gm_done. wgo. rewrite (c_t2g _ _ _ _ _ H1), Ht. wgo.
  split; [apply core_log, H1|]. do 6 (split; [assumption|]). exists mon, cl. split; [exact E8|]. split; [exact E7|]. rewrite E9, <- app_assoc. reflexivity.
Qed.

(** *** Cancelling *)
Lemma cancel_spec xt pk g s t : core xt pk g [] s → x_t2g xt !! t = None →
  wp (tm_cancel_any t) (λ _ s',
    if decide (t ∈ s_unassigned s) then
      core xt pk g [] s' ∧ s_cfg s' = s_cfg s ∧ s_now s' = s_now s ∧ counts s' = bump Canceled (counts s) ∧
      s_tasks s' = delete t (s_tasks s) ∧ o_v2k (s_clients s') = delete (t) (o_v2k (s_clients s)) ∧ is_Some (s_tasks s !! t) ∧
      ∃ mon cl, internal mon ∧ o_v2k (s_clients s) !! t = Some cl ∧ s_log s' = s_log s ++ [mon; LSend cl (MTaskResult t Canceled 0 "")]
    else match lg_owner g !! t with
    | Some w => ∃ mon, internal mon ∧ s' = set_log (λ l, l ++ [mon]) (set_log (λ l, l ++ [LSend w (MTaskCancel t)]) s)
    | None => s' = s
    end) no_exn s.
Proof.
  intros H Htg. unfold tm_cancel_any, tm_cancel. wgo. destruct (decide (t ∈ s_unassigned s)) as [Hu|Hu].
  - rewrite bool_decide_eq_true_2 by exact Hu. eapply wp_mono; [apply (done_spec xt pk g [] s (Result t Canceled 0 "") H); [left; auto|exact Htg]| |auto]. cbv beta. intros _ s'. exact id.
  - rewrite bool_decide_eq_false_2 by exact Hu. assert (Hr : t ∈ s_running s ↔ is_Some (lg_owner g !! t)).
    { rewrite (c_running _ _ _ _ _ H), <- elem_of_dom. clear. set_solver. }
    destruct (lg_owner g !! t) as [w|] eqn:Ew.
    + assert (Hin : t ∈ s_running s) by (apply Hr; eauto). rewrite bool_decide_eq_true_2 by exact Hin. cbn [negb]. wgo. unfold wm_cancel. wgo.
      destruct g as [W O]. rewrite (allocd_get _ _ _ t (exact_allocd _ _ _ (c_alloc _ _ _ _ _ H))). cbn in Ew. rewrite Ew. wgo.
      destruct (core_task _ _ _ _ _ t H) as (k & Hk & _); [auto|].
      match goal with |- wp _ _ _ ?s => set (s1 := s) end.
      destruct (monitor_spec t Canceling k s1 Hk (core_fun _ _ _ _ _ _ _ H Hk)) as (mon & Hmon & Em). eapply wp_eq; [exact Em|]. exists mon. auto.
    + rewrite bool_decide_eq_false_2. 2:{ intros Hin. apply Hr in Hin as [? ?]; discriminate. } cbn [negb]. wgo. reflexivity.
Qed.

(** *** Worker events *)
Lemma core_alloc xt pk pk' g g' fl fl' s a : core xt pk g fl s → exact pk' a g' → lg_workers g' = lg_workers g →
  dom (lg_owner g') ∪ list_to_set fl' = dom (lg_owner g) ∪ list_to_set fl → (∀ t, t ∈ fl' → lg_owner g' !! t = None) → NoDup fl' →
  core xt pk' g' fl' (set_alloc (λ _, a) s).
Proof. intros [] Hx Hw Hd Hf Hn. split; ss; auto; congruence. Qed.
Lemma dom_delete_back (O : gmap bytes bytes) t w (fl : list bytes) : O !! t = Some w → dom (delete t O) ∪ list_to_set (t :: fl) = dom O ∪ list_to_set fl.
Proof.
  intros Hw. apply leibniz_equiv. intros x. rewrite !elem_of_union, dom_delete, elem_of_difference, elem_of_singleton, !elem_of_list_to_set, elem_of_cons.
  destruct (decide (x = t)) as [->|]; [|tauto]. assert (t ∈ dom O) by (apply elem_of_dom; eauto). tauto.
Qed.
Lemma wm_done_spec xt g s r : core xt false g [] s → x_t2g xt !! r_id r = None →
  wp (wm_done r) (λ _ s', core xt false (Ledger (lg_workers g) (delete (r_id r) (lg_owner g))) [] s' ∧ s_cfg s' = s_cfg s ∧ s_now s' = s_now s ∧
     match lg_owner g !! r_id r with
     | None => s_log s' = s_log s ∧ s_tasks s' = s_tasks s ∧ counts s' = counts s
     | Some _ => s_tasks s' = delete (r_id r) (s_tasks s) ∧ o_v2k (s_clients s') = delete (r_id r) (o_v2k (s_clients s)) ∧ is_Some (s_tasks s !! r_id r) ∧ counts s' = bump (r_status r) (counts s) ∧
         ∃ mon cl, internal mon ∧ o_v2k (s_clients s) !! r_id r = Some cl ∧ s_log s' = s_log s ++ [mon; LSend cl (MResult r)]
     end) no_exn s.
Proof.
  intros H Htg. unfold wm_done. wgo. destruct (exact_remove_task _ _ (r_id r) (c_alloc _ _ _ _ _ H)) as (a' & Ea & Hm & Hx). rewrite Ea. apply wp_ok. wgo.
  destruct (lg_owner g !! r_id r) as [w|] eqn:Ew.
  - eapply wp_mono; [apply (done_spec xt false (Ledger (lg_workers g) (delete (r_id r) (lg_owner g))) [r_id r])| |auto].
    + eapply core_alloc; [exact H|exact Hx|reflexivity| | |repeat constructor; intros Hi; inversion Hi].
      * cbn [lg_owner]. eapply dom_delete_back, Ew.
      * intros t ->%elem_of_list_singleton. apply lookup_delete.
    + auto.
    + exact Htg.
    + cbv beta. intros _ s' (H1 & E1 & E2 & E3 & E4 & E5 & E6 & E7). ss. split; [exact H1|]. auto 12.
  - wgo. split; [|auto]. eapply core_alloc; [exact H|exact Hx|reflexivity| | |constructor]; cbn [lg_owner].
    + rewrite delete_notin by exact Ew. reflexivity.
    + intros t Ht. inversion Ht.
Qed.
Lemma core_perm xt pk g fl fl' s : core xt pk g fl s → fl' ≡ₚ fl → core xt pk g fl' s.
Proof.
  intros [] Hp. split; auto.
  - rewrite c_running0. f_equal. apply leibniz_equiv. intros x. rewrite !elem_of_list_to_set, Hp. reflexivity.
  - intros t. rewrite Hp. auto.
  - rewrite Hp. assumption.
Qed.
Lemma take_back_spec xt ids : ∀ g fl s, core xt false g fl s →
  wp (wm_take_back ids) (λ back s', core xt false (Ledger (lg_workers g) (foldr delete (lg_owner g) ids)) (back ++ fl) s' ∧ calm s s' ∧ s_tasks s' = s_tasks s) no_exn s.
Proof.
  induction ids as [|t ids IH]; intros g fl s H; cbn [wm_take_back].
  - wgo. split; [destruct g; exact H|]. split; [calms|reflexivity].
  - wgo. destruct (exact_remove_task _ _ t (c_alloc _ _ _ _ _ H)) as (a' & Ea & Hm & Hx). rewrite Ea. apply wp_ok. wgo.
    assert (H1 : core xt false (Ledger (lg_workers g) (delete t (lg_owner g))) (match lg_owner g !! t with Some _ => t :: fl | None => fl end) (set_alloc (λ _, a') s)).
    { destruct (lg_owner g !! t) as [w|] eqn:Ew; (eapply core_alloc; [exact H|exact Hx|reflexivity|..]); cbn [lg_owner].
      - eapply dom_delete_back, Ew.
      - intros x [->|Hx']%elem_of_cons; [apply lookup_delete|]. destruct (decide (x = t)) as [->|]; [apply lookup_delete|]. rewrite lookup_delete_ne by done. apply (c_fl _ _ _ _ _ H x Hx').
      - constructor; [|apply (c_flnd _ _ _ _ _ H)]. intros Hi. apply (c_fl _ _ _ _ _ H) in Hi. congruence.
      - rewrite delete_notin by exact Ew. reflexivity.
      - intros x Hx'. rewrite delete_notin by exact Ew. apply (c_fl _ _ _ _ _ H x Hx').
      - apply (c_flnd _ _ _ _ _ H). }
    eapply wp_mono; [apply IH; exact H1| |auto]. cbv beta. intros back s' (H2 & C2 & T2). cbn [lg_workers lg_owner] in H2. wgo.
    assert (Hdel : foldr delete (delete t (lg_owner g)) ids = delete t (foldr delete (lg_owner g) ids)).
    { clear. induction ids as [|x ids IH]; [reflexivity|]. cbn. rewrite IH, delete_commute. reflexivity. }
    cbn [foldr]. rewrite <- Hdel. split; [|split; [eapply calm_trans; [|exact C2]; split; [reflexivity|reflexivity|reflexivity|reflexivity|exists []; rewrite app_nil_r; auto]|exact T2]].
    eapply core_perm; [exact H2|]. destruct (lg_owner g !! t); [|reflexivity]. cbn. apply (Permutation_middle back fl t).
Qed.
Lemma balance_response_spec xt ids g s : core xt false g [] s →
  wp (wm_balance_response ids) (λ _ s', (∃ O, core xt false (Ledger (lg_workers g) O) [] s') ∧ calm s s' ∧ s_tasks s' = s_tasks s) no_exn s.
Proof.
  intros H. unfold wm_balance_response. wgo. eapply wp_mono; [apply take_back_spec; exact H| |auto]. cbv beta. intros back s1 (H1 & C1 & T1). rewrite app_nil_r in H1.
  eapply wp_mono; [apply reroutes_core; exact H1| |auto]. cbv beta. intros _ s2 (H2 & C2 & T2). split; [eauto|]. split; [eapply calm_trans; eassumption|congruence].
Qed.
Lemma heartbeat_spec xt g s w h : core xt false g [] s → utf8 w = true →
  wp (wm_heartbeat w h) (λ _ s', core xt false (Ledger ({[w]} ∪ lg_workers g) (lg_owner g)) [] s' ∧ calm s s' ∧ s_tasks s' = s_tasks s) no_exn s.
Proof.
  intros H Hw. unfold wm_heartbeat. wgo. destruct (exact_add _ _ w (c_alloc _ _ _ _ _ H)) as (a' & b & Ea & Hm & Hx). rewrite Ea. wgo.
  assert (H1 : ∀ now, core xt false (Ledger ({[w]} ∪ lg_workers g) (lg_owner g)) [] (set_alive (<[w:=(now, h)]>) (set_alloc (λ _, a') s))).
  { intros now. destruct H; split; ss; auto.
    - cbn. rewrite dom_insert_L. f_equal. assumption.
    - intros w'. destruct (decide (w' = w)) as [->|]; [auto|]. rewrite lookup_insert_ne by done. auto. }
  destruct b; unfold when; wgo.
  - split; [|split; [|reflexivity]]. 2:{ split; ss; auto. eexists. split; [rewrite <- app_assoc; reflexivity|repeat constructor]. }
    apply core_log. specialize (H1 (s_now s)). apply (core_log _ _ _ _ _ (λ l, l ++ [LConnected w])) in H1. exact H1.
  - split; [|split; [|reflexivity]]. 2:{ split; ss; auto. eexists. split; [reflexivity|repeat constructor]. }
    apply core_log. exact (H1 (s_now s)).
Qed.

(** *** Functions *)
Lemma core_funcs xt pk g fl s fs : core xt pk g fl s → (∀ f, is_Some (s_funcs s !! f) → is_Some (fs !! f)) → (∀ f i, fs !! f = Some i → utf8 (fi_name i) = true) →
  core xt pk g fl (set_funcs (λ _, fs) s).
Proof. intros [] H1 H2. split; ss; eauto. intros t f [? ?]%c_inactive0. eauto. Qed.
Lemma function_spec xt pk g s src ty f n c : core xt pk g [] s → (ty = FnAdd → utf8 n = true) → ty ≠ FnDelete →
  wp (fm_on_function src ty f n c) (λ _ s', core xt pk g [] s' ∧ calm s s' ∧ s_tasks s' = s_tasks s) no_exn s.
Proof.
  intros H Hn Hd. destruct ty; cbn [fm_on_function]; [| | |done].
  - unfold fm_check, fm_has_function, fm_respond. wgo. destruct (bool_decide _); wgo; (split; [apply core_log, H|split; [calms|reflexivity]]).
  - unfold fm_add, fm_respond. wgo. destruct (s_funcs s !! f) as [i|] eqn:Ef; wgo; (split; [apply core_log|split; [calms|reflexivity]]).
    + apply (core_funcs _ _ _ _ s (<[f:=FuncInfo (fi_name i) (fi_content i) (s_now s)]> (s_funcs s)) H).
      * intros f' Hf. destruct (decide (f' = f)) as [->|]; [rewrite lookup_insert; eauto|rewrite lookup_insert_ne by done; exact Hf].
      * intros f' i' [[<- <-]|[_ Hi]]%lookup_insert_Some; [cbn; exact (c_tf _ _ _ _ _ H _ _ Ef)|exact (c_tf _ _ _ _ _ H _ _ Hi)].
    + apply (core_funcs _ _ _ _ s (<[f:=FuncInfo n c (s_now s)]> (s_funcs s)) H).
      * intros f' Hf. destruct (decide (f' = f)) as [->|]; [rewrite lookup_insert; eauto|rewrite lookup_insert_ne by done; exact Hf].
      * intros f' i' [[<- <-]|[_ Hi]]%lookup_insert_Some; [cbn; auto|exact (c_tf _ _ _ _ _ H _ _ Hi)].
  - unfold fm_request. wgo. destruct (s_funcs s !! f) as [i|] eqn:Ef; wgo; (split; [apply core_log, H|split; [calms|reflexivity]]).
Qed.
Lemma sends_spec xt pk g (l : list bytes) (m : message) s : core xt pk g [] s → (∀ w, calm_e (LSend w m)) →
  wp (foreach l (λ w, send w m)) (λ _ s', core xt pk g [] s' ∧ calm s s' ∧ s_tasks s' = s_tasks s ∧ s_ftasks s' = s_ftasks s ∧ s_unassigned s' = s_unassigned s) no_exn s.
Proof.
  intros H Hm. revert s H. induction l as [|w l IH]; intros s H; cbn [foreach]; [split; [exact H|split; [calms|auto]]|].
  wgo. eapply wp_mono; [apply IH, core_log, H| |auto]. cbv beta. intros _ s' (H1 & C1 & T1 & F1 & U1). split; [exact H1|]. split; [|auto].
  eapply calm_trans; [|exact C1]. split; auto. exists [LSend w m]. auto.
Qed.
Lemma expiry_spec xt pk g s : core xt pk g [] s → wp fm_routine (λ _ s', core xt pk g [] s' ∧ calm s s' ∧ s_tasks s' = s_tasks s ∧ s_unassigned s' = s_unassigned s) no_exn s.
Proof.
  intros H. unfold fm_routine. wgo. apply wp_order. intros dead Hp.
  assert (Hd : ∀ f, f ∈ dead → ∀ t, o_v2k (s_ftasks s) !! t ≠ Some f).
  { intros f Hf t Ht. rewrite Hp in Hf. apply elem_of_list_fmap in Hf as ([f' i] & -> & Hf). apply elem_of_list_filter in Hf as [Hf _]. cbn in Hf, Ht.
    unfold fm_expired in Hf. apply andb_true_iff in Hf as [_ Hf]. apply negb_true_iff in Hf. unfold otm_has_key in Hf. apply bool_decide_eq_false in Hf. apply Hf.
    exists (owned (o_v2k (s_ftasks s)) f'). apply (c_ft _ _ _ _ _ H). split; [reflexivity|]. intros E. rewrite owned_empty in E. exact (E t Ht). }
  clear Hp. apply (core_codes _ _ _ _ _ (drop 1)) in H. enough (HG : wp (foreach dead (λ f, do* modify (set_funcs (delete f)) in wm_delete_function f))
    (λ _ s', core xt pk g [] s' ∧ calm (set_codes (drop 1) s) s' ∧ s_tasks s' = s_tasks (set_codes (drop 1) s) ∧ s_unassigned s' = s_unassigned (set_codes (drop 1) s)) no_exn (set_codes (drop 1) s)).
  { eapply wp_mono; [exact HG| |auto]. cbv beta. intros _ s' (H1 & C1 & T1 & U1). split; [exact H1|]. split; [|split; [exact T1|exact U1]]. eapply calm_trans; [|exact C1]. split; auto. exists []. rewrite app_nil_r. auto. }
  change (s_ftasks s) with (s_ftasks (set_codes (drop 1) s)) in Hd. revert H Hd. generalize (set_codes (drop 1) s). clear s.
  induction dead as [|f dead IH]; intros s H Hd; cbn [foreach]; [split; [exact H|split; [calms|auto]]|].
  wgo. unfold wm_delete_function. wgo. apply wp_order. intros ws Hp. ss.
  assert (H1 : core xt pk g [] (set_codes (drop 1) (set_funcs (delete f) s))).
  { apply core_codes. pose proof H as [H1 H2 H3 H4 H5 H6 H7 H8 H9 H10 H11 H12 H13 H14 H15 H16 H17 H18 H19 H20 H21 H22 H23 H24]. split; ss; auto.
    - intros t k Hk. rewrite lookup_delete_ne; [eauto|]. intros ->. apply (Hd (task_function k) ltac:(left) t). rewrite H8. apply lookup_union_Some_l. rewrite lookup_fmap, Hk. reflexivity.
    - intros f' i [_ Hi]%lookup_delete_Some. eauto.
    - intros t f' Hf. pose proof (H23 _ _ Hf) as [Hf1 Hf2]. split; [exact Hf1|]. rewrite lookup_delete_ne; [exact Hf2|]. intros ->.
      apply (Hd f' ltac:(left) t). rewrite H8, lookup_union_r; [exact Hf|]. rewrite lookup_fmap, Hf1. reflexivity. }
  eapply wp_mono; [apply (sends_spec xt pk g ws (MFunctionRequest FnDelete f "" "") _ H1); intros w; exact I| |auto]. cbv beta. intros _ s1 (H2 & C2 & T2 & F2 & U2).
  eapply wp_mono; [apply IH; [exact H2|]| |auto].
  - intros f' Hf. rewrite F2. apply Hd. right. exact Hf.
  - cbv beta. intros _ s2 (H3 & C3 & T3 & U3). split; [exact H3|]. split; [|split; [rewrite T3; exact T2|rewrite U3; exact U2]]. eapply calm_trans; [|exact C3]. eapply calm_trans; [|exact C2].
    split; auto. exists []. rewrite app_nil_r. auto.
Qed.

(** *** Removing workers *)
Lemma dom_filter_back (O : gmap bytes bytes) w (fl : list bytes) : (∀ t, t ∈ fl ↔ O !! t = Some w) → dom (filter (λ p : bytes * bytes, p.2 ≠ w) O) ∪ list_to_set fl = dom O.
Proof.
  intros Hf. apply leibniz_equiv. intros x. rewrite elem_of_union, elem_of_list_to_set, Hf, !elem_of_dom. split.
  - intros [[y Hy]|Hy]; [|eauto]. apply map_filter_lookup_Some in Hy as [Hy _]. eauto.
  - intros [y Hy]. destruct (decide (y = w)) as [->|]; [auto|]. left. exists y. apply map_filter_lookup_Some. auto.
Qed.
Lemma drop_core xt g s w : core xt false g [] s → wp (wm_drop w) (λ _ s', (∃ g', core xt false g' [] s') ∧ calm s s' ∧ s_tasks s' = s_tasks s) no_exn s.
Proof.
  intros H. unfold wm_drop. wgo. destruct (s_alive s !! w) as [p|] eqn:Ea; [|wgo; split; [eauto|split; [calms|reflexivity]]].
  assert (Hw : w ∈ lg_workers g). { rewrite <- (c_alive _ _ _ _ _ H). apply elem_of_dom. eauto. }
  wgo. destruct (exact_remove_worker _ _ w (c_alloc _ _ _ _ _ H) Hw) as (a' & Er & Hm & Hx). rewrite Er. apply wp_ok. wgo. apply wp_order. intros ids Hp.
  match goal with |- wp _ _ _ ?s => set (s1 := s) end.
  assert (Hids : ∀ t, t ∈ ids ↔ lg_owner g !! t = Some w).
  { intros t. rewrite Hp, elem_of_elements. unfold tasks_of. rewrite elem_of_dom. split.
    - intros [y Hy]. apply map_filter_lookup_Some in Hy as [Hy E]. cbn in E. congruence.
    - intros Hy. exists w. apply map_filter_lookup_Some. auto. }
  assert (H1 : core xt false (Ledger (lg_workers g ∖ {[w]}) (filter (λ p, p.2 ≠ w) (lg_owner g))) ids s1).
  { pose proof H as [H1 H2 H3 H4 H5 H6 H7 H8 H9 H10 H11 H12 H13 H14 H15 H16 H17 H18 H19 H20 H21 H22 H23 H24]. subst s1. split; ss; auto; cbn [lg_owner lg_workers].
    - rewrite H15. rewrite dom_filter_back by exact Hids. clear. set_solver.
    - intros t Ht. apply map_filter_lookup_None. right. intros y Hy. apply Hids in Ht. cbn. intros E. apply E. congruence.
    - rewrite Hp. apply NoDup_elements.
    - rewrite dom_delete_L. congruence.
    - intros w' Hw'. apply H20. destruct Hw' as [y Hy]. apply lookup_delete_Some in Hy as [_ Hy]. eauto. }
  apply wp_bind. eapply wp_mono; [apply reroutes_core; exact H1| |auto]. cbv beta. intros _ s2 (H2 & C2 & T2). wgo. split; [eauto|]. split; [|exact T2]. eapply calm_trans; [|exact C2].
  split; auto. exists [LDisconnected w]. split; [reflexivity|repeat constructor].
Qed.
Lemma disconnect_spec xt g s src w : core xt false g [] s → wp (wm_disconnect src w) (λ _ s', (∃ g', core xt false g' [] s') ∧ calm s s' ∧ s_tasks s' = s_tasks s) no_exn s.
Proof.
  intros H. unfold wm_disconnect. wgo. eapply wp_mono; [eapply drop_core, H| |auto]. cbv beta. intros b s1 ((g' & H1) & C1 & T1). destruct b; unfold when; wgo.
  - split; [exists g'; apply core_log, H1|]. split; [apply calm_emit; [exact I|exact C1]|exact T1].
  - eauto.
Qed.
Lemma clean_core xt g s : core xt false g [] s → wp wm_clean (λ _ s', (∃ g', core xt false g' [] s') ∧ calm s s' ∧ s_tasks s' = s_tasks s) no_exn s.
Proof.
  intros H. unfold wm_clean. wgo. apply wp_order. intros dead _. apply (core_codes _ _ _ _ _ (drop 1)) in H.
  assert (C0 : calm s (set_codes (drop 1) s)) by (split; auto; exists []; rewrite app_nil_r; auto).
  assert (T0 : s_tasks (set_codes (drop 1) s) = s_tasks s) by reflexivity. revert g H C0 T0. generalize (set_codes (drop 1) s).
  induction dead as [|w dead IH]; intros s0 g H C0 T0; cbn [foreach]; [split; [eauto|auto]|].
  wgo. eapply wp_mono; [eapply drop_core, H| |auto]. cbv beta. intros _ s1 ((g' & H1) & C1 & T1). wgo. apply (IH s1 g' H1); [eapply calm_trans; eassumption|congruence].
Qed.
Lemma balance_core xt pk g s : core xt pk g [] s → wp wm_balance (λ _ s', core xt pk g [] s' ∧ calm s s' ∧ s_tasks s' = s_tasks s) no_exn s.
Proof.
  intros H. unfold wm_balance. wgo. destruct (c_lb_seconds (s_cfg s) <=? 0); [wgo; split; [exact H|split; [calms|reflexivity]]|]. wgo.
  destruct (negb _).
  { wgo. split; [destruct H; split; auto|]. split; [|reflexivity]. split; auto. exists []. rewrite app_nil_r. auto. }
  wgo. destruct (negb _). { wgo. split; [destruct H; split; auto|]. split; [|reflexivity]. split; auto. exists []. rewrite app_nil_r. auto. }
  destruct (bool_decide _). { wgo. split; [destruct H; split; auto|]. split; [|reflexivity]. split; auto. exists []. rewrite app_nil_r. auto. }
  wgo. apply wp_order. intros items _. match goal with |- wp _ _ _ ?s => set (s1 := s) end.
  assert (H1 : core xt pk g [] s1) by (destruct H; split; auto).
  assert (C1 : calm s s1) by (split; auto; exists []; rewrite app_nil_r; auto). assert (T1 : s_tasks s1 = s_tasks s) by reflexivity.
  revert H1 C1 T1. generalize s1. clear s1. induction items as [|p items IH]; intros s1 H1 C1 T1; cbn [foreach]; [split; auto|]. wgo.
  apply IH; [apply core_log, H1|apply calm_emit; [exact I|exact C1]|exact T1].
Qed.

(** *** Dispatch *)
Lemma match_spec xt pk g s k : core xt pk g [] (set_limbo (λ _, Some k) s) →
  wp (tm_match k) (λ _ s', calm s s' ∧ s_tasks s' = s_tasks s ∧
    ((lg_workers g = ∅ ∧ s' = set_limbo (λ _, Some k) (set_alloc (λ _, s_alloc s') s) ∧ core xt false g [] s') ∨
     (lg_workers g ≠ ∅ ∧ (∀ w, w ∈ lg_workers g → load g w = al_max (s_alloc s)) ∧ s_log s' = s_log s ∧ s_unassigned s' = s_unassigned s ++ [task_id k] ∧ s_limbo s' = None ∧ core xt false g [] s') ∨
     (∃ w mon, internal mon ∧ w ∈ lg_workers g ∧ (∀ w', w' ∈ lg_workers g → load g w <= load g w') ∧ (0 <= al_max (s_alloc s) → load g w < al_max (s_alloc s)) ∧
        s_log s' = s_log s ++ [LSend w (MTask k); mon] ∧ s_unassigned s' = s_unassigned s ∧ s_limbo s' = None ∧ core xt false (Ledger (lg_workers g) (<[task_id k := w]> (lg_owner g))) [] s')))
  no_exn s.
Proof.
  intros H. unfold tm_match. wgo. destruct (exact_assign _ _ _ (task_id k) (c_alloc _ _ _ _ _ H)) as (a' & r & Ea & Hm & Hr). ss. rewrite Ea. apply wp_ok. wgo.
  assert (Hk : s_tasks s !! task_id k = Some k) by (apply (c_limbo _ _ _ _ _ H k); reflexivity).
  pose proof H as [H1 H2 H3 H4 H5 H6 H7 H8 H9 H10 H11 H12 H13 H14 H15 H16 H17 H18 H19 H20 H21 H22 H23 H24]. unfold lim in *. ss.
  assert (Hnr : task_id k ∉ s_running s) by (apply H13, elem_of_app; right; left).
  assert (Hnq : task_id k ∉ s_unassigned s). { apply NoDup_app in H12 as (_ & H12 & _). intros Hi. apply (H12 _ Hi). left. }
  destruct r as [w| |].
  - assert (Hno : lg_owner g !! task_id k = None).
    { apply not_elem_of_dom. intros Hi. apply Hnr. rewrite H15. apply elem_of_union_l, Hi. }
    destruct Hr as [[Hr _]|(_ & Hw & Hl & Hmax & Hx)]; [congruence|]. wgo.
    match goal with |- wp _ _ _ ?s => set (s1 := s) end.
    destruct (monitor_spec (task_id k) Running k s1) as (mon & Hmon & Em); [exact Hk|exact (H9 _ _ Hk)|].
    eapply wp_eq; [exact Em|]. subst s1. split; [split; ss; auto; eexists; split; [rewrite <- app_assoc; reflexivity|constructor; [exact I|constructor; [apply internal_calm, Hmon|constructor]]]|].
    split; [reflexivity|]. right. right. exists w, mon. do 4 (split; [auto|]). split; [ss; rewrite <- app_assoc; reflexivity|]. split; [reflexivity|]. split; [reflexivity|].
    split; ss; auto; cbn [lim s_limbo].
    + discriminate.
    + unfold lim; ss. rewrite app_nil_r. apply NoDup_app in H12 as (H12 & _). exact H12.
    + unfold lim; ss. rewrite app_nil_r. intros t Ht. rewrite not_elem_of_union, not_elem_of_singleton. split; [intros ->; auto|apply H13, elem_of_app; auto].
    + unfold lim; ss. rewrite app_nil_r, H14. clear. set_solver.
    + cbn [lg_owner]. rewrite dom_insert_L, H15. clear. set_solver.
    + intros t Ht. inversion Ht.
  - destruct Hr as (Hr & Hfull & Hx). wgo. unfold tm_put. wgo. rewrite bool_decide_eq_false_2 by exact Hnq. wgo.
    split; [split; auto; exists []; rewrite app_nil_r; auto|]. split; [reflexivity|]. right. left. do 5 (split; [auto|]). split; ss; auto.
    + discriminate.
    + unfold lim; ss. rewrite app_nil_r. exact H12.
    + unfold lim; ss. rewrite app_nil_r. exact H13.
    + unfold lim; ss. rewrite app_nil_r. exact H14.
  - destruct Hr as [Hr Hx]. wgo. split; [split; auto; exists []; rewrite app_nil_r; auto|]. split; [reflexivity|]. left. split; [exact Hr|]. split; [reflexivity|]. split; ss; auto.
Qed.
Lemma core_pop xt pk g s t q k : core xt pk g [] s → s_limbo s = None → s_unassigned s = t :: q → s_tasks s !! t = Some k → core xt pk g [] (set_limbo (λ _, Some k) (set_unassigned (λ _, q) s)).
Proof.
  intros H Hl Hu Hk. pose proof (c_key _ _ _ _ _ H _ _ Hk) as Hid. pose proof H as [H1 H2 H3 H4 H5 H6 H7 H8 H9 H10 H11 H12 H13 H14 H15 H16 H17 H18 H19 H20 H21 H22 H23 H24].
  unfold lim in *. rewrite Hl, Hu, app_nil_r in *. split; ss; auto; unfold lim; ss; rewrite ?Hid.
  - intros k' [= <-]. congruence.
  - rewrite Permutation_app_comm. exact H12.
  - intros x Hx. apply H13. rewrite elem_of_app, elem_of_list_singleton in Hx. rewrite elem_of_cons. tauto.
  - rewrite H14. clear. set_solver.
Qed.
Lemma dispatch_spec xt pk g s : core xt pk g [] s → (pk = true → s_unassigned s ≠ []) →
  wp tm_routine (λ _ s', (∃ g', core xt false g' [] s') ∧ calm s s' ∧ s_tasks s' = s_tasks s) no_exn s.
Proof.
  intros H Hpk. unfold tm_routine. wgo.
  assert (Hfin : ∀ g0 k s0, core xt pk g0 [] (set_limbo (λ _, Some k) s0) → calm s s0 → s_tasks s0 = s_tasks s →
     wp (tm_match k) (λ _ s', (∃ g', core xt false g' [] s') ∧ calm s s' ∧ s_tasks s' = s_tasks s) no_exn s0).
  { intros g0 k s0 H0 C0 T0. eapply wp_mono; [eapply match_spec, H0| |auto]. cbv beta. intros _ s' (C1 & T1 & D). split; [|split; [eapply calm_trans; eassumption|congruence]].
    destruct D as [(_ & _ & D)|[(_ & _ & _ & _ & _ & D)|(w & mon & _ & _ & _ & _ & _ & _ & _ & D)]]; eauto. }
  destruct (s_limbo s) as [k|] eqn:El.
  - apply (Hfin g); [|calms|reflexivity]. destruct s; ss; subst; exact H.
  - wgo. destruct (s_unassigned s) as [|t q] eqn:Eq; wgo.
    + split; [|split; [calms|reflexivity]]. exists g. destruct pk; [|exact H]. destruct (Hpk eq_refl). reflexivity.
    + destruct (core_task _ _ _ _ _ t H) as (k & Hk & _). { rewrite Eq. left. left. } rewrite Hk. cbn [from_option_exn]. apply wp_ok.
      apply (Hfin g); [eapply core_pop; eassumption| |reflexivity]. split; auto. exists []. rewrite app_nil_r. auto.
Qed.

(** *** The report *)
Lemma decode_ok x : utf8 x = true → decode x = Ok x.
Proof. intros H. unfold decode. rewrite H. reflexivity. Qed.
Definition puts {A B} (f : A → bytes) (v : A → B) (l : list A) (acc : gmap bytes B) : gmap bytes B := foldl (λ m p, <[f p := v p]> m) acc l.
Lemma puts_in {A B} (f : A → bytes) (v : A → B) l : ∀ acc x b, puts f v l acc !! x = Some b → (∃ p, p ∈ l ∧ f p = x ∧ b = v p) ∨ acc !! x = Some b.
Proof.
  induction l as [|p l IH]; intros acc x b H; [right; exact H|]. cbn in H. destruct (IH _ _ _ H) as [(p' & Hp & E)|Ha]; [left; exists p'; split; [right; exact Hp|exact E]|].
  apply lookup_insert_Some in Ha as [[E1 E2]|[_ Ha]]; [left; exists p; split; [left|auto]|right; exact Ha].
Qed.
Lemma puts_dom {A B} (f : A → bytes) (v : A → B) l : ∀ acc x, is_Some (puts f v l acc !! x) ↔ x ∈ f <$> l ∨ is_Some (acc !! x).
Proof.
  induction l as [|p l IH]; intros acc x; [split; [auto|intros [H|H]; [inversion H|exact H]]|].
  change (puts f v (p :: l) acc) with (puts f v l (<[f p := v p]> acc)). cbn [fmap list_fmap]. rewrite IH, lookup_insert_is_Some', elem_of_cons. split; [|intros [[->|]|]]; auto.
  intros [|[->|]]; auto.
Qed.
Lemma puts_lookup {A B} (f : A → bytes) (v : A → B) l p : NoDup (f <$> l) → p ∈ l → puts f v l ∅ !! f p = Some (v p).
Proof.
  intros Hnd Hp. destruct (puts f v l ∅ !! f p) as [b|] eqn:E.
  - apply puts_in in E as [(q & Hq & E1 & ->)|E]; [|rewrite lookup_empty in E; discriminate]. assert (q = p) as ->; [|reflexivity].
    clear -Hnd Hp Hq E1. induction l as [|x l IH]; [inversion Hp|]. cbn in Hnd. apply NoDup_cons in Hnd as [Hx Hnd].
    apply elem_of_cons in Hp as [->|Hp], Hq as [->|Hq]; [reflexivity| | |auto]; destruct Hx; [rewrite <- E1|rewrite E1]; apply elem_of_list_fmap; eauto.
  - assert (is_Some (puts f v l ∅ !! f p)) as [? ?]; [|congruence]. apply puts_dom. left. apply elem_of_list_fmap. eauto.
Qed.
Lemma clients_spec l : ∀ acc, (∀ p, p ∈ l → utf8 p.1 = true) → report_clients l acc = Ok (puts fst (λ p, Z.of_nat (size p.2)) l acc).
Proof.
  induction l as [|[c ts] l IH]; intros acc Hu; cbn [report_clients]; [reflexivity|].
  rewrite decode_ok by exact (Hu (c, ts) ltac:(left)). cbn [mbind res_bind]. apply IH. intros p Hp. apply Hu. right. exact Hp.
Qed.
Definition name_of (fs : gmap bytes func_info) (f : bytes) : bytes := match fs !! f with Some i => fi_name i | None => "" end.
Lemma functions_spec fs l : ∀ acc, (∀ p, p ∈ l → ∃ i, fs !! p.1 = Some i ∧ utf8 (fi_name i) = true) →
  report_functions fs l acc = Ok (puts (λ p, name_of fs p.1) (λ p, Z.of_nat (size p.2)) l acc).
Proof.
  induction l as [|[f ts] l IH]; intros acc Hu; cbn [report_functions]; [reflexivity|].
  destruct (Hu (f, ts) ltac:(left)) as (i & Hi & Hn). cbn in Hi. rewrite Hi. cbn [from_option_exn mbind res_bind]. rewrite decode_ok by exact Hn. cbn [mbind res_bind].
  rewrite IH by (intros p Hp; apply Hu; right; exact Hp). cbn. unfold name_of at 3. rewrite Hi. reflexivity.
Qed.
Lemma workers_spec now (st : gmap bytes (Z * Z)) l : ∀ acc, (∀ p, p ∈ l → utf8 p.1 = true ∧ is_Some (st !! p.1)) →
  report_workers now st l acc = Ok (puts fst (λ p, WorkerRow p.2.2 (default (0, 0) (st !! p.1)).1 (default (0, 0) (st !! p.1)).2 (now - p.2.1)) l acc).
Proof.
  induction l as [|[w [last h]] l IH]; intros acc Hu; cbn [report_workers]; [reflexivity|].
  destruct (Hu (w, (last, h)) ltac:(left)) as [Hn [q Hq]]. cbn in Hn, Hq. rewrite decode_ok by exact Hn. cbn [mbind res_bind]. rewrite Hq. cbn [from_option_exn mbind res_bind].
  rewrite IH by (intros p Hp; apply Hu; right; exact Hp). cbn. rewrite Hq. reflexivity.
Qed.
Record reports (g : ledger) (s : sched) (r : report) : Prop := {
  rs_unassigned : rp_unassigned r = Z.of_nat (length (s_unassigned s));
  rs_running : rp_running r = Z.of_nat (size (s_running s));
  rs_counts : (rp_success r, rp_failed r, rp_canceled r, rp_not_found r) = counts s;
  rs_clients c : rp_clients r !! c = (λ ts : gset bytes, Z.of_nat (size ts)) <$> o_k2v (s_clients s) !! c;
  rs_functions n k : rp_functions r !! n = Some k → ∃ f i ts, s_funcs s !! f = Some i ∧ fi_name i = n ∧ o_k2v (s_ftasks s) !! f = Some ts ∧ k = Z.of_nat (size ts);
  rs_workers w : rp_workers r !! w = (λ p, WorkerRow p.2 (al_max (s_alloc s) - load g w) (load g w) (s_now s - p.1)) <$> s_alive s !! w }.

Lemma nodup_fst {A} (l : list (bytes * A)) (m : gmap bytes A) : l ≡ₚ map_to_list m → NoDup l.*1.
Proof. intros ->. apply NoDup_fst_map_to_list. Qed.
Lemma puts_map {A B} (v : bytes * A → B) l (m : gmap bytes A) x : l ≡ₚ map_to_list m → puts fst v l ∅ !! x = (λ a, v (x, a)) <$> m !! x.
Proof.
  intros Hl. destruct (m !! x) as [a|] eqn:Em; cbn.
  - apply (puts_lookup fst v l (x, a)); [exact (nodup_fst l m Hl)|]. rewrite Hl. apply elem_of_map_to_list. exact Em.
  - destruct (puts fst v l ∅ !! x) as [b|] eqn:E; [|reflexivity]. apply puts_in in E as [([x' a] & Hp & E & _)|E]; [|rewrite lookup_empty in E; discriminate].
    cbn in E. subst x'. rewrite Hl in Hp. apply elem_of_map_to_list in Hp. congruence.
Qed.
Lemma exact_stats pk a g w : exact pk a g → al_statistics a !! w = if decide (w ∈ lg_workers g) then Some (al_max a - load g w, load g w) else None.
Proof.
  intros (mq & ml & st & R & _). destruct (decide (w ∈ lg_workers g)) as [Hw|Hw].
  - apply (step_stats _ _ _ _ _ R). auto.
  - destruct (al_statistics a !! w) as [[f n]|] eqn:E; [|reflexivity]. apply (step_stats _ _ _ _ _ R) in E as [E _]. destruct (Hw E).
Qed.
Lemma otm_k2v_nonempty (d : otm bytes bytes) k ts : otm_inv d → o_k2v d !! k = Some ts → ∃ v, o_v2k d !! v = Some k ∧ v ∈ ts.
Proof.
  intros Hi Hk. apply Hi in Hk as [-> Hne]. apply set_choose_L in Hne as [v Hv]. exists v. split; [|exact Hv]. apply (elem_of_owned (o_v2k d) k v). exact Hv.
Qed.
Lemma core_user xt pk g fl s t f : core xt pk g fl s → o_v2k (s_ftasks s) !! t = Some f → is_Some (s_funcs s !! f).
Proof.
  intros H. rewrite (c_ftv _ _ _ _ _ H), lookup_union_Some_raw, lookup_fmap, fmap_Some. intros [(k & Hk & ->)|[_ Hf]]; [exact (c_fn _ _ _ _ _ H _ _ Hk)|apply (c_inactive _ _ _ _ _ H _ _ Hf)].
Qed.
Lemma status_spec xt pk g s : core xt pk g [] s →
  wp st_routine (λ _ s', ∃ r, reports g s r ∧ s' = set_log (λ l, l ++ [LReport r]) (set_codes (λ _, s_codes s') s)) no_exn s.
Proof.
  intros H. unfold st_routine. wgo. apply wp_order. intros cl Hcl. wgo. rewrite clients_spec.
  2:{ intros [c ts] Hp. rewrite Hcl in Hp. apply elem_of_map_to_list in Hp. destruct (otm_k2v_nonempty _ _ _ (c_cl _ _ _ _ _ H) Hp) as (t & Ht & _). cbn. exact (c_tc _ _ _ _ _ H _ _ Ht). }
  apply wp_ok. wgo. apply wp_order. intros fl Hfl. wgo. rewrite functions_spec.
  2:{ intros [f ts] Hp. rewrite Hfl in Hp. apply elem_of_map_to_list in Hp. destruct (otm_k2v_nonempty _ _ _ (c_ft _ _ _ _ _ H) Hp) as (t & Ht & _).
      destruct (core_user _ _ _ _ _ _ _ H Ht) as [i Hi]. exists i. split; [exact Hi|exact (c_tf _ _ _ _ _ H _ _ Hi)]. }
  apply wp_ok. wgo. apply wp_order. intros wl Hwl. wgo. rewrite workers_spec.
  2:{ intros [w p] Hp. rewrite Hwl in Hp. apply elem_of_map_to_list in Hp. split; [apply (c_tw _ _ _ _ _ H); eauto|]. cbn.
      rewrite (exact_stats _ _ _ w (c_alloc _ _ _ _ _ H)). rewrite decide_True; [eauto|]. rewrite <- (c_alive _ _ _ _ _ H). apply elem_of_dom. eauto. }
  apply wp_ok. wgo. eexists. split; [|destruct s; reflexivity]. split; ss; auto.
  - intros c. cbn. rewrite (puts_map _ _ _ c Hcl). reflexivity.
  - intros n k Hk. cbn in Hk. apply puts_in in Hk as [([f ts] & Hp & E & ->)|E]; [|rewrite lookup_empty in E; discriminate].
    rewrite Hfl in Hp. apply elem_of_map_to_list in Hp. cbn in *. destruct (otm_k2v_nonempty _ _ _ (c_ft _ _ _ _ _ H) Hp) as (t & Ht & _).
    destruct (core_user _ _ _ _ _ _ _ H Ht) as [i Hi].
    unfold name_of in E. rewrite Hi in E. eauto 10.
  - intros w. cbn. rewrite (puts_map _ _ _ w Hwl). cbn. rewrite (exact_stats _ _ _ w (c_alloc _ _ _ _ _ H)). destruct (s_alive s !! w) as [p|] eqn:Ew; [|reflexivity].
    cbn. rewrite decide_True; [reflexivity|]. rewrite <- (c_alive _ _ _ _ _ H). apply elem_of_dom. eauto.
Qed.
