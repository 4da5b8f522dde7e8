(** Well-behaved traffic with graphs: the invariant (C73, C74). *)

From Verif.Model Require Import Base OneToManyDict PriorityQueue Allocator Message Sorter Scheduler.
From Verif.Spec Require Import AllocatorSpec DictSpec SchedulerSpec TrafficSpec.
From Verif.Proofs Require Import BaseProofs DictProofs AllocatorProofs SchedWp SchedCount SchedHold SchedContent SchedSend SchedPrim SchedFn SchedGlobal SchedStep SchedRemove SchedPlain SchedPolite SorterProofs SchedLive SchedBegin.

(** ** Views of the history *)
Definition seen (x : bytes) (h : history) : Prop := ∃ c m, received c m h ∧ named x m.
Definition over (g : bytes) (h : history) : Prop := graph_answered g h ∨ graph_cancelled g h.
Lemma new_seen x h : new_id x h ↔ ¬ seen x h.
Proof. unfold new_id, seen. split; [intros H (c & m & H1 & H2); exact (H c m H1 H2)|]. intros H c m H1 H2. apply H. eauto. Qed.

Lemma settled_snoc t h e : settled t (h ++ [e]) ↔ settled t h ∨ ∃ now src st d r, e = LIn now (ERecv src (MTaskResult t st d r)) ∧ is_Some (holder h !! t).
Proof.
  unfold settled. split.
  - intros (before & now & src & st & d & r & after & E & H). destruct after as [|x after _] using rev_ind.
    + apply app_inj_tail in E as [-> ->]. right. eauto 10.
    + rewrite app_comm_cons, app_assoc in E. apply app_inj_tail in E as [-> ->]. left. eauto 12.
  - intros [(before & now & src & st & d & r & after & -> & H)|(now & src & st & d & r & -> & H)].
    + exists before, now, src, st, d, r, (after ++ [e]). split; [|exact H]. rewrite <- app_assoc. reflexivity.
    + exists h, now, src, st, d, r, []. auto.
Qed.
Lemma pending_snoc h e : pending_graphs (h ++ [e]) = pending_step (pending_graphs h) e.
Proof. unfold pending_graphs. rewrite foldl_app. reflexivity. Qed.
Lemma received_snoc c m h e : received c m (h ++ [e]) ↔ received c m h ∨ ∃ now, e = LIn now (ERecv c m).
Proof.
  unfold received. setoid_rewrite elem_of_app. setoid_rewrite elem_of_list_singleton. split.
  - intros (now & [H|H]); [left; eauto|right; eauto].
  - intros [(now & H)|(now & H)]; exists now; auto.
Qed.
Lemma over_snoc g h e : over g (h ++ [e]) ↔ over g h ∨ (∃ c st rs, e = LSend c (MGraphTaskResult g st rs)) ∨ (∃ c now, e = LIn now (ERecv c (MGraphTaskCancel g))).
Proof.
  unfold over, graph_answered, graph_cancelled. setoid_rewrite received_snoc. setoid_rewrite elem_of_app. setoid_rewrite elem_of_list_singleton. split.
  - intros [(c & st & rs & [H|H])|(c & [H|H])]; eauto 10.
  - intros [[(c & st & rs & H)|(c & H)]|[(c & st & rs & H)|(c & H)]]; eauto 10.
Qed.

(** From [h] to [h'] nothing changes but: graph [fin] is over, task [don] is settled. *)
Record grows (fin don : option bytes) (h h' : history) : Prop := {
  gw_pending : pending_graphs h' = pending_graphs h;
  gw_settled t : settled t h' ↔ settled t h ∨ don = Some t;
  gw_over g : over g h' ↔ over g h ∨ fin = Some g;
  gw_from c g : graph_from c g h' → graph_from c g h;
  gw_received c m : received c m h → received c m h' }.
Lemma grows_refl h : grows None None h h.
Proof. split; auto; intros; (split; [auto|intros [?|?]; [assumption|discriminate]]). Qed.
Lemma grows_trans fin don fin' don' h1 h2 h3 : grows fin don h1 h2 → grows fin' don' h2 h3 → fin = None ∨ fin' = None → don = None ∨ don' = None →
  grows (match fin with Some x => Some x | None => fin' end) (match don with Some x => Some x | None => don' end) h1 h3.
Proof.
  intros [A1 A2 A3 A4 A5] [B1 B2 B3 B4 B5] Hf Hd. split; [congruence| | |eauto|eauto].
  - intros t. rewrite B2, A2. destruct Hd as [->| ->]; destruct don || destruct don'; intuition congruence.
  - intros g. rewrite B3, A3. destruct Hf as [->| ->]; destruct fin || destruct fin'; intuition congruence.
Qed.
Lemma hush_grows l : ∀ h, Forall hush l → grows None None h (h ++ l).
Proof.
  induction l as [|e l IH]; intros h H; [rewrite app_nil_r; apply grows_refl|]. apply Forall_cons in H as [He H]. change (e :: l) with ([e] ++ l). rewrite app_assoc.
  refine (grows_trans None None None None h (h ++ [e]) _ _ (IH _ H) _ _); auto. clear IH H. split.
  - rewrite pending_snoc. destruct e; cbn in *; [destruct He|reflexivity..].
  - intros t. rewrite settled_snoc. split; [intros [?|(?&?&?&?&?& -> & _)]; [auto|destruct He]|intros [?|?]; [auto|discriminate]].
  - intros g. rewrite over_snoc. split; [intros [?|[(?&?&?& ->)|(?&?& ->)]]; [auto|destruct He..]|intros [?|?]; [auto|discriminate]].
  - intros c g (fs & ts & ns & [Hr|(now & ->)]%received_snoc); [exists fs, ts, ns; exact Hr|destruct He].
  - intros c m Hr. apply received_snoc. auto.
Qed.
Lemma answer_grows h l c g st rs : Forall hush l → grows (Some g) None h (h ++ l ++ [LSend c (MGraphTaskResult g st rs)]).
Proof.
  intros H. rewrite app_assoc. refine (grows_trans None None (Some g) None h (h ++ l) _ (hush_grows _ _ H) _ _ _); auto. set (h1 := h ++ l). split.
  - rewrite pending_snoc. reflexivity.
  - intros t. rewrite settled_snoc. split; [intros [?|(?&?&?&?&?& E & _)]; [auto|discriminate]|intros [?|?]; [auto|discriminate]].
  - intros g'. rewrite over_snoc. split; [intros [?|[(?&?&?& E)|(?&?& E)]]; [auto|right; congruence|discriminate]|intros [?|E]; [auto|right; left; exists c, st, rs; congruence]].
  - intros c' g' (fs & ts & ns & [Hr|(now & E)]%received_snoc); [exists fs, ts, ns; exact Hr|discriminate].
  - intros c' m Hr. apply received_snoc. auto.
Qed.
Definition ordinary (fin don : option bytes) (h : history) (ev : event) : Prop :=
  match ev with
  | ERecv _ (MGraphTask _ _ _ _) | EGraph => False
  | ERecv _ (MTaskResult t _ _ _) => fin = None ∧ (holder h !! t = None ∧ don = None ∨ is_Some (holder h !! t) ∧ don = Some t)
  | ERecv _ (MGraphTaskCancel g) => fin = Some g ∧ don = None
  | _ => fin = None ∧ don = None
  end.
Lemma input_grows fin don h now ev : ordinary fin don h ev → grows fin don h (h ++ [LIn now ev]).
Proof.
  intros H. split.
  - rewrite pending_snoc. destruct ev as [? []| | | | |]; try reflexivity; destruct H.
  - intros t. rewrite settled_snoc. split.
    + intros [?|(?&?&?&?&?& E & Hh)]; [auto|]. injection E as -> ->. cbn in H. destruct H as (_ & [[E _]|[_ ?]]); [destruct Hh; congruence|auto].
    + intros [?|E]; [auto|]. right. destruct ev as [? []| | | | |]; cbn in H; try contradiction; destruct H as [H1 H2]; try congruence. destruct H2 as [[_ ?]|[H2 H3]]; [congruence|]. rewrite E in H3. injection H3 as ->. eauto 10.
  - intros g. rewrite over_snoc. split.
    + intros [?|[(?&?&?& E)|(?&?& E)]]; [auto|discriminate|]. injection E as -> ->. cbn in H. destruct H. auto.
    + intros [?|E]; [auto|]. right. right. destruct ev as [? []| | | | |]; cbn in H; try contradiction; destruct H as [H1 H2]; try congruence. rewrite E in H1. injection H1 as ->. eauto.
  - intros c g (fs & ts & ns & [Hr|(? & E)]%received_snoc); [exists fs, ts, ns; exact Hr|]. injection E as _ ->. destruct H.
  - intros c m Hr. apply received_snoc. auto.
Qed.

(** ** The invariant *)
Definition names (q : bytes * graph_task) : list bytes := gt_id q.2 :: (task_id <$> gt_graph q.2).
Definition queue_ids (Q : list (bytes * graph_task)) : list bytes := Q ≫= names.
Definition known (G : gmap bytes graph) (tk : gmap bytes task) (x : bytes) : Prop :=
  is_Some (tk !! x) ∨ is_Some (G !! x) ∨ ∃ gid i, G !! gid = Some i ∧ x ∈ g_ids i.

Definition calmed (h : history) (T N : gmap bytes bytes) (tk : gmap bytes task) (gid : bytes) (i : graph) : Prop :=
  ∃ c fs ts ns, received c (MGraphTask gid fs ts ns) h ∧ calm_graph ns T N tk gid i.
(** [X]: the graph being changed. *)
Record world (X : option bytes) (h : history) (xt : ext) (tk : gmap bytes task) : Prop := {
  wd_calm gid i : x_graphs xt !! gid = Some i → X ≠ Some gid →
    calmed h (x_t2g xt) (x_inactive xt) tk gid i ∧ (∀ t, t ∈ g_ids i → x_inactive xt !! t = None → tk !! t = None → settled t h);
  wd_graph gid i : x_graphs xt !! gid = Some i → utf8 (g_client i) = true ∧ ∃ c fs ts ns, received c (MGraphTask gid fs ts ns) h ∧ g_ids i = list_to_set (task_id <$> ns) ∧ c = g_client i;
  wd_ids : x_ids xt = dom (x_graphs xt);
  wd_t2g t gid : x_t2g xt !! t = Some gid → ∃ i, x_graphs xt !! gid = Some i ∧ t ∈ g_ids i;
  wd_N t : is_Some (x_inactive xt !! t) → is_Some (x_t2g xt !! t);
  wd_disj a b i j t : x_graphs xt !! a = Some i → x_graphs xt !! b = Some j → t ∈ g_ids i → t ∈ g_ids j → a = b;
  wd_D gid i t : x_graphs xt !! gid = Some i → t ∈ g_ids i → x_graphs xt !! t = None;
  wd_qids : NoDup (queue_ids (x_queue xt));
  wd_qnew x : x ∈ queue_ids (x_queue xt) → ¬ known (x_graphs xt) tk x;
  wd_q c gt : (c, gt) ∈ x_queue xt → utf8 c = true ∧ graph_fit utf8 (gt_id gt) (gt_functions gt) (gt_targets gt) (gt_graph gt) ∧
    received c (MGraphTask (gt_id gt) (gt_functions gt) (gt_targets gt) (gt_graph gt)) h;
  wd_seen x : known (x_graphs xt) tk x ∨ x ∈ queue_ids (x_queue xt) → seen x h;
  wd_settled t : settled t h → seen t h ∧ tk !! t = None ∧ x_inactive xt !! t = None ∧ t ∉ queue_ids (x_queue xt);
  wd_pending : pending_graphs h = (λ q, gt_id q.2) <$> x_queue xt;
  wd_over g : over g h → seen g h ∧ x_graphs xt !! g = None ∧ g ∉ queue_ids (x_queue xt);
  wd_open c g : graph_from c g h → g ∈ pending_graphs h ∨ is_Some (x_graphs xt !! g) ∨ over g h }.

Lemma calm_frame ns T N tk T' N' tk' gid i : calm_graph ns T N tk gid i → (∀ t, t ∈ g_ids i → T' !! t = T !! t ∧ N' !! t = N !! t ∧ (is_Some (tk' !! t) ↔ is_Some (tk !! t))) → calm_graph ns T' N' tk' gid i.
Proof.
  intros (gr & L & A & B) H. exists gr. split; [|auto]. eapply live_frame; [exact L|]. intros t Ht. apply H. rewrite (lv_ids _ _ _ _ _ _ _ _ _ L). apply elem_of_list_to_set, Ht.
Qed.
Lemma calmed_frame h h' T N tk T' N' tk' gid i : calmed h T N tk gid i → (∀ c m, received c m h → received c m h') →
  (∀ t, t ∈ g_ids i → T' !! t = T !! t ∧ N' !! t = N !! t ∧ (is_Some (tk' !! t) ↔ is_Some (tk !! t))) → calmed h' T' N' tk' gid i.
Proof. intros (c & fs & ts & ns & Hr & Hc) Hm Hf. exists c, fs, ts, ns. split; [apply Hm, Hr|eapply calm_frame; eassumption]. Qed.
Lemma calmed_mono h h' T N tk gid i : calmed h T N tk gid i → (∀ c m, received c m h → received c m h') → calmed h' T N tk gid i.
Proof. intros (c & fs & ts & ns & Hr & Hc) Hm. exists c, fs, ts, ns. auto. Qed.
Lemma seen_grows fin don h h' x : grows fin don h h' → seen x h → seen x h'.
Proof. intros H (c & m & H1 & H2). exists c, m. split; [apply (gw_received _ _ _ _ H), H1|exact H2]. Qed.
Lemma world_grows X h h' xt tk : grows None None h h' → world X h xt tk → world X h' xt tk.
Proof.
  intros Hg [W1 W2 W3 W4 W5 W6 W7 W8 W9 W10 W11 W12 W13 W14 W15]. pose proof Hg as [A1 A2 A3 A4 A5]. split; auto.
  - intros gid i HG HX. destruct (W1 _ _ HG HX) as [B1 B2]. split; [eapply calmed_mono; eauto|]. intros t Ht HN Htk. apply A2. left. auto.
  - intros gid i HG. destruct (W2 _ _ HG) as (B1 & c & fs & ts & ns & B2 & B3). split; [exact B1|]. exists c, fs, ts, ns. auto.
  - intros c gt Hq. destruct (W10 _ _ Hq) as (B1 & B2 & B3). auto.
  - intros x Hx. eapply seen_grows; eauto.
  - intros t Ht. apply A2 in Ht as [Ht|?]; [|discriminate]. destruct (W12 _ Ht) as (B1 & B2 & B3 & B4). split; [eapply seen_grows; eauto|auto].
  - congruence.
  - intros g Ho. apply A3 in Ho as [Ho|?]; [|discriminate]. destruct (W14 _ Ho) as (B1 & B2). split; [eapply seen_grows; eauto|exact B2].
  - intros c g Hf. rewrite A1. destruct (W15 c g (A4 _ _ Hf)) as [?|[?|?]]; [auto|auto|]. right. right. apply A3. auto.
Qed.
Lemma none_iff {A B} (x : option A) (y : option B) : (is_Some x ↔ is_Some y) → x = None ↔ y = None.
Proof. rewrite !eq_None_not_Some. tauto. Qed.

(** A running node of a graph. *)
Lemma node_running h xt tk gid i t : world None h xt tk → x_graphs xt !! gid = Some i → t ∈ g_ids i → x_inactive xt !! t = None → is_Some (tk !! t) →
  x_t2g xt !! t = Some gid ∧ ∃ ns gr sc, (∃ c fs ts, received c (MGraphTask gid fs ts ns) h) ∧ live (x_t2g xt) (x_inactive xt) tk [] None gid i ns gr ∧ so_info (g_sorter i) !! t = Some (-1, sc).
Proof.
  intros W HG Ht HN Htk. destruct (wd_calm _ _ _ _ W _ _ HG ltac:(discriminate)) as [(c0 & fs0 & ts0 & ns & Hrc & gr & L & _) _]. pose proof Ht as Ht'. rewrite (lv_ids _ _ _ _ _ _ _ _ _ L) in Ht'. apply elem_of_list_to_set in Ht'.
  destruct (node_cases _ _ t (lv_sorted _ _ _ _ _ _ _ _ _ L) (proj2 (lv_in _ _ _ _ _ _ _ _ _ L t) Ht')) as [Hx|[[sc Hx]|Hx]].
  - apply elem_of_list_fmap in Ht' as (n & -> & Hn). destruct (lv_wait _ _ _ _ _ _ _ _ _ L n Hn (or_introl Hx)) as (_ & E & _). congruence.
  - destruct (lv_run _ _ _ _ _ _ _ _ _ L _ _ Hx ltac:(intros Hi; inversion Hi)) as (_ & _ & E). eauto 10.
  - destruct (lv_done _ _ _ _ _ _ _ _ _ L _ Hx) as [E _]. destruct Htk. congruence.
Qed.

(** The task manager forgets [t]. *)
Lemma world_forget X don h h' xt tk t : world None h xt tk → is_Some (tk !! t) → x_inactive xt !! t = None → grows None don h h' → don = None ∨ don = Some t → x_t2g xt !! t = X →
  world X h' xt (delete t tk) ∧ (don = Some t → ∀ gid i, X = Some gid → x_graphs xt !! gid = Some i → ∀ x, x ∈ g_ids i → x_inactive xt !! x = None → delete t tk !! x = None → settled x h').
Proof.
  intros W Htk HN Hg Hdon HX. pose proof W as [W1 W2 W3 W4 W5 W6 W7 W8 W9 W10 W11 W12 W13 W14 W15]. pose proof Hg as [A1 A2 A3 A4 A5].
  assert (Hk : ∀ x, known (x_graphs xt) (delete t tk) x → known (x_graphs xt) tk x). { intros x [[k [_ Hx]%lookup_delete_Some]|Hx]; [left; eauto|right; exact Hx]. }
  split; [split; auto|].
  - intros gid i HG Hne. destruct (W1 _ _ HG ltac:(discriminate)) as [B1 B2].
    assert (Hti : t ∉ g_ids i). { intros Hi. destruct (node_running _ _ _ _ _ _ W HG Hi HN Htk) as [E _]. congruence. }
    split; [eapply calmed_frame; [exact B1|exact A5|]|].
    + intros x Hx. rewrite lookup_delete_ne by (intros <-; auto). tauto.
    + intros x Hx. rewrite lookup_delete_ne by (intros <-; auto). intros E1 E2. apply A2. left. auto.
  - intros gid i HG. destruct (W2 _ _ HG) as (B1 & c & fs & ts & ns & B2 & B3). split; [exact B1|]. exists c, fs, ts, ns. auto.
  - intros x Hx Hk'. apply (W9 x Hx). auto.
  - intros c gt Hq. destruct (W10 _ _ Hq) as (B1 & B2 & B3). auto.
  - intros x Hx. eapply seen_grows; [exact Hg|]. apply W11. destruct Hx; auto.
  - intros x Hx. apply A2 in Hx as [Hx|Hx].
    + destruct (W12 _ Hx) as (B1 & B2 & B3 & B4). split; [eapply seen_grows; eauto|]. split; [apply lookup_delete_None; auto|auto].
    + destruct Hdon as [->|E]; [discriminate|]. rewrite E in Hx. injection Hx as <-. split; [eapply seen_grows; [exact Hg|]; apply W11; left; left; exact Htk|]. split; [apply lookup_delete|]. split; [exact HN|].
      intros Hq. apply (W9 t Hq). left. exact Htk.
  - congruence.
  - intros g Ho. apply A3 in Ho as [Ho|?]; [|discriminate]. destruct (W14 _ Ho) as (B1 & B2). split; [eapply seen_grows; eauto|exact B2].
  - intros c g Hf. rewrite A1. destruct (W15 c g (A4 _ _ Hf)) as [?|[?|?]]; [auto|auto|]. right. right. apply A3. auto.
  - intros E gid i E' HG x Hx HNx Hdx. apply A2. destruct (decide (x = t)) as [->|Hne]; [auto|]. left. rewrite lookup_delete_ne in Hdx by auto. destruct (W1 _ _ HG ltac:(discriminate)) as [_ B2]. auto.
Qed.

(** A task of a new id is accepted. *)
Lemma world_task h h' xt tk k : world None h xt tk → grows None None h h' → ¬ known (x_graphs xt) tk (task_id k) → task_id k ∉ queue_ids (x_queue xt) → ¬ settled (task_id k) h → seen (task_id k) h' → world None h' xt (<[task_id k := k]> tk).
Proof.
  intros W Hg Hnk Hnq Hns Hseen. pose proof W as [W1 W2 W3 W4 W5 W6 W7 W8 W9 W10 W11 W12 W13 W14 W15]. pose proof Hg as [A1 A2 A3 A4 A5].
  assert (Hk : ∀ x, known (x_graphs xt) (<[task_id k := k]> tk) x → x = task_id k ∨ known (x_graphs xt) tk x).
  { intros x [Hx|Hx]; [|right; right; exact Hx]. destruct (decide (x = task_id k)) as [->|Hne]; [auto|]. rewrite lookup_insert_ne in Hx by auto. right. left. exact Hx. }
  split; auto.
  - intros gid i HG Hne. destruct (W1 _ _ HG Hne) as [B1 B2].
    assert (Hti : task_id k ∉ g_ids i). { intros Hi. apply Hnk. right. right. eauto. }
    split; [eapply calmed_frame; [exact B1|exact A5|]|].
    + intros x Hx. rewrite lookup_insert_ne by (intros <-; auto). tauto.
    + intros x Hx. rewrite lookup_insert_ne by (intros <-; auto). intros E1 E2. apply A2. left. auto.
  - intros gid i HG. destruct (W2 _ _ HG) as (B1 & c & fs & ts & ns & B2 & B3). split; [exact B1|]. exists c, fs, ts, ns. auto.
  - intros x Hx [->|Hk']%Hk; [auto|]. exact (W9 x Hx Hk').
  - intros c gt Hq. destruct (W10 _ _ Hq) as (B1 & B2 & B3). auto.
  - intros x [[->|Hx]%Hk|Hx]; [exact Hseen| |]; (eapply seen_grows; [exact Hg|]); apply W11; auto.
  - intros x Hx. apply A2 in Hx as [Hx|Hx]; [|discriminate]. destruct (W12 _ Hx) as (B1 & B2 & B3 & B4). split; [eapply seen_grows; eauto|]. split; [|auto]. rewrite lookup_insert_ne; [exact B2|]. intros <-. auto.
  - congruence.
  - intros g Ho. apply A3 in Ho as [Ho|?]; [|discriminate]. destruct (W14 _ Ho) as (B1 & B2). split; [eapply seen_grows; eauto|exact B2].
  - intros c g Hf. rewrite A1. destruct (W15 c g (A4 _ _ Hf)) as [?|[?|?]]; [auto|auto|]. right. right. apply A3. auto.
Qed.

(** The graph goes on. *)
Lemma world_kept h Q G T D N s gid i T' N' s' i' : world (Some gid) h (Ext Q G T D N) (s_tasks s) → G !! gid = Some i → frame (g_ids i) T T' N N' s s' →
  (∀ t, t ∈ g_ids i → N !! t = None → s_tasks s !! t = None → settled t h) →
  g_ids i' = g_ids i → g_client i' = g_client i → calmed h T' N' (s_tasks s') gid i' → stays N N' s s' → world None h (Ext Q (<[gid := i']> G) T' D N') (s_tasks s').
Proof.
  intros [W1 W2 W3 W4 W5 W6 W7 W8 W9 W10 W11 W12 W13 W14 W15] HG [F1 F2 F3 F4 F5 _ F6 _ _ _] Hdone Hids Hcl Hcalm Hst. cbn in *.
  assert (HG' : ∀ a j, <[gid := i']> G !! a = Some j → ∃ j0, G !! a = Some j0 ∧ g_ids j = g_ids j0 ∧ g_client j = g_client j0).
  { intros a j [[<- <-]|[Hne Hj]]%lookup_insert_Some; eauto. }
  assert (HG'n : ∀ a, is_Some (<[gid := i']> G !! a) ↔ is_Some (G !! a)). { intros a. destruct (decide (a = gid)) as [->|Hne]; [rewrite lookup_insert, HG; split; eauto|rewrite lookup_insert_ne by auto; reflexivity]. }
  assert (Hk : ∀ x, known (<[gid := i']> G) (s_tasks s') x → known G (s_tasks s) x).
  { intros x [Hx|[Hx|(a & j & Ha & Hx)]].
    - destruct (F6 _ Hx) as [Hx'|Hx']; [left; exact Hx'|]. destruct (W5 _ Hx') as [a Ha]. destruct (W4 _ _ Ha) as (j & ? & ?). right. right. eauto.
    - right. left. apply HG'n, Hx.
    - destruct (HG' _ _ Ha) as (j0 & H1 & H2 & _). right. right. rewrite H2 in Hx. eauto. }
  assert (Hset : ∀ t, t ∈ g_ids i → N' !! t = None → s_tasks s' !! t = None → settled t h).
  { intros t Ht E1 E2. apply Hdone; [exact Ht|..]; apply eq_None_not_Some; intros Hx; (destruct (Hst t) as [[? ?]|[? ?]]; [auto|congruence..]). }
  split; cbn; auto.
  - intros a j Ha _. apply lookup_insert_Some in Ha as [[<- <-]|[Hne Ha]]; [split; [exact Hcalm|rewrite Hids; exact Hset]|].
    assert (Hd : ∀ t, t ∈ g_ids j → t ∉ g_ids i) by (intros t H1 H2; apply Hne; eapply W6; eauto).
    destruct (W1 _ _ Ha ltac:(congruence)) as [B1 B2]. split; [eapply calmed_frame; [exact B1|auto|]|].
    + intros t Ht. rewrite F1, F2, F3 by auto. tauto.
    + intros t Ht. rewrite F2, F3 by auto. auto.
  - intros a j Ha. destruct (HG' _ _ Ha) as (j0 & H1 & H2 & H3). rewrite H2, H3. eauto.
  - rewrite W3, dom_insert_L. assert (gid ∈ dom G) by (apply elem_of_dom; eauto). set_solver.
  - intros t a Ht. destruct (W4 t a (F4 _ _ Ht)) as (j & Hj & Hx). destruct (decide (a = gid)) as [->|Hne]; [|exists j; rewrite lookup_insert_ne by auto; auto].
    exists i'. rewrite lookup_insert, Hids. split; [reflexivity|]. congruence.
  - intros t [f Hf]. destruct (decide (t ∈ g_ids i)) as [Hi|Hi]; [|rewrite F1 by exact Hi; apply W5; eauto].
    destruct Hcalm as (c0 & fs0 & ts0 & ns & _ & gr & L & _). rewrite <- Hids, (lv_ids _ _ _ _ _ _ _ _ _ L) in Hi. apply elem_of_list_to_set in Hi.
    destruct (lv_N _ _ _ _ _ _ _ _ _ L t Hi) as [Hx|Hx]; [eauto| |inversion Hx]. apply elem_of_list_fmap in Hi as (n & -> & Hn). destruct (lv_wait _ _ _ _ _ _ _ _ _ L n Hn (or_introl Hx)) as (_ & _ & ->). eauto.
  - intros a b j j' t Ha Hb Hta Htb. destruct (HG' _ _ Ha) as (j0 & H1 & H2 & _). destruct (HG' _ _ Hb) as (j0' & H1' & H2' & _). rewrite H2 in Hta. rewrite H2' in Htb. eauto.
  - intros a j t Ha Ht. destruct (HG' _ _ Ha) as (j0 & H1 & H2 & _). rewrite H2 in Ht. apply eq_None_not_Some. rewrite HG'n. apply eq_None_not_Some. eauto.
  - intros x Hx Hk'. apply (W9 x Hx), Hk, Hk'.
  - intros x Hx. apply W11. destruct Hx; auto.
  - intros t Ht. destruct (W12 _ Ht) as (B1 & B2 & B3 & B4). split; [exact B1|]. split; [|split; [|exact B4]].
    + apply eq_None_not_Some. intros Hx. destruct (F6 _ Hx) as [[? ?]|[? ?]]; congruence.
    + destruct (N' !! t) eqn:E; [|reflexivity]. apply F5 in E. congruence.
  - intros g Ho. destruct (W14 _ Ho) as (B1 & B2 & B3). split; [exact B1|]. split; [|exact B3]. apply eq_None_not_Some. rewrite HG'n. apply eq_None_not_Some. exact B2.
  - intros c g Hf. rewrite HG'n. eauto.
Qed.

(** The graph is over. *)
Lemma world_finished h h' Q G T D N s gid i T' N' s' : world (Some gid) h (Ext Q G T D N) (s_tasks s) → G !! gid = Some i → frame (g_ids i) T T' N N' s s' →
  (∀ t, t ∈ g_ids i → T' !! t = None ∧ N' !! t = None) → grows (Some gid) None h h' → world None h' (Ext Q (delete gid G) T' (D ∖ {[gid]}) N') (s_tasks s').
Proof.
  intros [W1 W2 W3 W4 W5 W6 W7 W8 W9 W10 W11 W12 W13 W14 W15] HG [F1 F2 F3 F4 F5 _ F6 _ _ _] Hnone Hg. pose proof Hg as [A1 A2 A3 A4 A5]. cbn in *.
  assert (Hk : ∀ x, known (delete gid G) (s_tasks s') x → known G (s_tasks s) x).
  { intros x [Hx|[[j [_ Hx]%lookup_delete_Some]|(a & j & [_ Ha]%lookup_delete_Some & Hx)]].
    - destruct (F6 _ Hx) as [Hx'|Hx']; [left; exact Hx'|]. destruct (W5 _ Hx') as [a Ha]. destruct (W4 _ _ Ha) as (j & ? & ?). right. right. eauto.
    - right. left. eauto.
    - right. right. eauto. }
  split; cbn; auto.
  - intros a j [Hne Ha]%lookup_delete_Some _.
    assert (Hd : ∀ t, t ∈ g_ids j → t ∉ g_ids i) by (intros t H1 H2; apply Hne; eapply W6; eauto).
    destruct (W1 _ _ Ha ltac:(congruence)) as [B1 B2]. split; [eapply calmed_frame; [exact B1|exact A5|]|].
    + intros t Ht. rewrite F1, F2, F3 by auto. tauto.
    + intros t Ht. rewrite F2, F3 by auto. intros E1 E2. apply A2. left. auto.
  - intros a j [_ Ha]%lookup_delete_Some. destruct (W2 _ _ Ha) as (B1 & c & fs & ts & ns & B2 & B3). split; [exact B1|]. exists c, fs, ts, ns. auto.
  - rewrite W3, dom_delete_L. reflexivity.
  - intros t a Ht. destruct (W4 t a (F4 _ _ Ht)) as (j & Hj & Hx). destruct (decide (a = gid)) as [->|Hne]; [|exists j; rewrite lookup_delete_ne by auto; auto].
    assert (j = i) as -> by congruence. destruct (Hnone t Hx). congruence.
  - intros t [f Hf]. destruct (decide (t ∈ g_ids i)) as [Hi|Hi]; [destruct (Hnone t Hi); congruence|rewrite F1 by exact Hi; apply W5; eauto].
  - intros a b j j' t [_ Ha]%lookup_delete_Some [_ Hb]%lookup_delete_Some. eauto.
  - intros a j t [_ Ha]%lookup_delete_Some Ht. apply lookup_delete_None. right. eauto.
  - intros x Hx Hk'. apply (W9 x Hx), Hk, Hk'.
  - intros c gt Hq. destruct (W10 _ _ Hq) as (B1 & B2 & B3). auto.
  - intros x Hx. eapply seen_grows; [exact Hg|]. apply W11. destruct Hx; auto.
  - intros t Ht. apply A2 in Ht as [Ht|?]; [|discriminate]. destruct (W12 _ Ht) as (B1 & B2 & B3 & B4). split; [eapply seen_grows; eauto|]. split; [|split; [|exact B4]].
    + apply eq_None_not_Some. intros Hx. destruct (F6 _ Hx) as [[? ?]|[? ?]]; congruence.
    + destruct (N' !! t) eqn:E; [|reflexivity]. apply F5 in E. congruence.
  - congruence.
  - intros g Ho. apply A3 in Ho as [Ho|Ho].
    + destruct (W14 _ Ho) as (B1 & B2 & B3). split; [eapply seen_grows; eauto|]. split; [apply lookup_delete_None; auto|exact B3].
    + injection Ho as <-. assert (known G (s_tasks s) gid) as Hkn by (right; left; eauto). split; [eapply seen_grows; [exact Hg|]; auto|]. split; [apply lookup_delete|]. intros Hq. exact (W9 _ Hq Hkn).
  - intros c g Hf. rewrite A1. destruct (W15 c g (A4 _ _ Hf)) as [?|[?|?]]; [auto| |right; right; apply A3; auto].
    destruct (decide (g = gid)) as [->|Hne]; [right; right; apply A3; auto|]. rewrite lookup_delete_ne by auto. auto.
Qed.

(** A graph is submitted. *)
Lemma queue_ids_app Q Q' : queue_ids (Q ++ Q') = queue_ids Q ++ queue_ids Q'.
Proof. apply bind_app. Qed.
Lemma queue_id_in c gt Q : (c, gt) ∈ Q → gt_id gt ∈ queue_ids Q.
Proof. intros H. apply elem_of_list_bind. exists (c, gt). split; [left|exact H]. Qed.
Lemma world_push h now c g fs ts ns Q G T D N tk : let m := MGraphTask g fs ts ns in world None h (Ext Q G T D N) tk → utf8 c = true → graph_fit utf8 g fs ts ns → (∀ x, named x m → new_id x h) →
  world None (h ++ [LIn now (ERecv c m)]) (Ext (Q ++ [(c, GraphTask g fs ts ns)]) G T D N) tk.
Proof.
  intros m [W1 W2 W3 W4 W5 W6 W7 W8 W9 W10 W11 W12 W13 W14 W15] Hc Hfit Hnew. cbn in *. set (h' := h ++ _).
  assert (Hnames : ∀ x, x ∈ g :: (task_id <$> ns) → ¬ seen x h). { intros x Hx. apply new_seen, Hnew. apply elem_of_cons in Hx as [->|Hx]; [left; reflexivity|right; exact Hx]. }
  assert (Hs : ∀ x, seen x h → seen x h'). { intros x (c' & m' & H1 & H2). exists c', m'. split; [apply received_snoc; auto|exact H2]. }
  assert (Hset : ∀ t, settled t h' ↔ settled t h). { intros t. unfold h'. rewrite settled_snoc. split; [intros [?|(?&?&?&?&?& E & _)]; [assumption|discriminate]|auto]. }
  assert (Hov : ∀ x, over x h' ↔ over x h). { intros x. unfold h'. rewrite over_snoc. split; [intros [?|[(?&?&?& E)|(?&?& E)]]; [assumption|discriminate..]|auto]. }
  assert (Hq : ∀ x, x ∈ queue_ids (Q ++ [(c, GraphTask g fs ts ns)]) ↔ x ∈ queue_ids Q ∨ x ∈ g :: (task_id <$> ns)).
  { intros x. rewrite queue_ids_app, elem_of_app. unfold queue_ids at 2. cbn. rewrite app_nil_r. reflexivity. }
  split; cbn; auto.
  - intros gid i HG HX. destruct (W1 _ _ HG HX) as [B1 B2]. split; [eapply calmed_mono; [exact B1|intros ? ? ?; apply received_snoc; auto]|]. intros t Ht E1 E2. apply Hset. auto.
  - intros gid i HG. destruct (W2 _ _ HG) as (B1 & c' & fs' & ts' & ns' & B2 & B3). split; [exact B1|]. exists c', fs', ts', ns'. split; [apply received_snoc; auto|exact B3].
  - rewrite queue_ids_app. apply NoDup_app. split; [exact W8|]. unfold queue_ids at 2 3. cbn. rewrite app_nil_r. split; [|exact (gf_ids _ _ _ _ _ Hfit)].
    intros x Hx Hx'. apply (Hnames x Hx'), W11. auto.
  - intros x [Hx|Hx]%Hq; [auto|]. intros Hk. apply (Hnames x Hx), W11. auto.
  - intros c' gt [Hgt|Hgt]%elem_of_app.
    + destruct (W10 _ _ Hgt) as (B1 & B2 & B3). split; [exact B1|]. split; [exact B2|]. apply received_snoc. auto.
    + apply elem_of_list_singleton in Hgt. injection Hgt as -> ->. cbn. split; [exact Hc|]. split; [exact Hfit|]. apply received_snoc. right. eauto.
  - intros x [Hx|[Hx|Hx]%Hq]; [apply Hs, W11; auto..|]. exists c, m. split; [apply received_snoc; right; eauto|]. apply elem_of_cons in Hx as [->|Hx]; [left; reflexivity|right; exact Hx].
  - intros t Ht. apply Hset in Ht. destruct (W12 _ Ht) as (B1 & B2 & B3 & B4). split; [auto|]. split; [exact B2|]. split; [exact B3|]. intros [Hx|Hx]%Hq; [auto|]. exact (Hnames t Hx B1).
  - unfold h'. rewrite pending_snoc. cbn. rewrite W13, fmap_app. reflexivity.
  - intros x Hx. apply Hov in Hx. destruct (W14 _ Hx) as (B1 & B2 & B3). split; [auto|]. split; [exact B2|]. intros [Hy|Hy]%Hq; [auto|]. exact (Hnames x Hy B1).
  - intros c' g' (fs' & ts' & ns' & [Hr|(now' & E)]%received_snoc).
    + destruct (W15 c' g') as [Hx|[Hx|Hx]]; [exists fs', ts', ns'; exact Hr| |auto|right; right; apply Hov, Hx]. left. unfold h'. rewrite pending_snoc. apply elem_of_app. auto.
    + injection E as _ <- <- _ _ _. left. unfold h'. rewrite pending_snoc. apply elem_of_app. right. left.
Qed.

(** A graph leaves the queue and is started. *)
Lemma world_start h now c gt Q G T D N tk i0 T0 N0 : world None h (Ext ((c, gt) :: Q) G T D N) tk →
  g_ids i0 = list_to_set (task_id <$> gt_graph gt) → g_client i0 = c →
  (∀ t, t ∉ task_id <$> gt_graph gt → T0 !! t = T !! t ∧ N0 !! t = N !! t) → (∀ n, n ∈ gt_graph gt → T0 !! task_id n = Some (gt_id gt) ∧ is_Some (N0 !! task_id n)) →
  world (Some (gt_id gt)) (h ++ [LIn now EGraph]) (Ext Q (<[gt_id gt := i0]> G) T0 ({[gt_id gt]} ∪ D) N0) tk ∧
  (∀ t, t ∈ g_ids i0 → N0 !! t = None → tk !! t = None → settled t (h ++ [LIn now EGraph])).
Proof.
  intros [W1 W2 W3 W4 W5 W6 W7 W8 W9 W10 W11 W12 W13 W14 W15] Hids Hcl Hout Hin. cbn in *. set (h' := h ++ _). set (gid := gt_id gt) in *. set (ids := task_id <$> gt_graph gt) in *.
  assert (Hs : ∀ x, seen x h → seen x h'). { intros x (c' & m' & H1 & H2). exists c', m'. split; [apply received_snoc; auto|exact H2]. }
  assert (Hset : ∀ t, settled t h' ↔ settled t h). { intros t. unfold h'. rewrite settled_snoc. split; [intros [?|(?&?&?&?&?& E & _)]; [assumption|discriminate]|auto]. }
  assert (Hov : ∀ x, over x h' ↔ over x h). { intros x. unfold h'. rewrite over_snoc. split; [intros [?|[(?&?&?& E)|(?&?& E)]]; [assumption|discriminate..]|auto]. }
  assert (Hq : ∀ x, x ∈ queue_ids ((c, gt) :: Q) ↔ x = gid ∨ x ∈ ids ∨ x ∈ queue_ids Q).
  { intros x. change (queue_ids ((c, gt) :: Q)) with ((gid :: ids) ++ queue_ids Q). rewrite elem_of_app, elem_of_cons. tauto. }
  assert (NoDup ((gid :: ids) ++ queue_ids Q)) as (Nd1 & Nd2 & Nd3)%NoDup_app by exact W8. apply NoDup_cons in Nd1 as [Nd0 Nd1].
  assert (Hgid : ¬ known G tk gid) by (apply W9, Hq; auto).
  assert (Hnew : ∀ t, t ∈ ids → ¬ known G tk t) by (intros t Ht; apply W9, Hq; auto).
  assert (Hi0 : ∀ t, t ∈ g_ids i0 ↔ t ∈ ids) by (intros t; rewrite Hids; apply elem_of_list_to_set).
  assert (Hi0' : ∀ t, t ∈ ids → T0 !! t = Some gid ∧ is_Some (N0 !! t)). { intros t Ht. apply elem_of_list_fmap in Ht as (n & -> & Hn). auto. }
  assert (Hother : ∀ a j t, G !! a = Some j → t ∈ g_ids j → t ∉ ids). { intros a j t Ha Ht Hti. apply (Hnew t Hti). right. right. eauto. }
  assert (Hk : ∀ x, known (<[gid := i0]> G) tk x → x = gid ∨ x ∈ ids ∨ known G tk x).
  { intros x [Hx|[[j Hx]|(a & j & Ha & Hx)]]; [right; right; left; exact Hx| |].
    - apply lookup_insert_Some in Hx as [[<- _]|[_ Hx]]; [auto|]. right. right. right. left. eauto.
    - apply lookup_insert_Some in Ha as [[<- <-]|[_ Ha]]; [right; left; apply Hi0, Hx|]. right. right. right. right. eauto. }
  split; [split; cbn; auto|].
  - intros a j [[<- <-]|[Hne Ha]]%lookup_insert_Some HX; [congruence|]. destruct (W1 _ _ Ha ltac:(discriminate)) as [B1 B2]. split; [eapply calmed_frame; [exact B1|intros ? ? ?; apply received_snoc; auto|]|].
    + intros t Ht. destruct (Hout t) as [-> ->]; [eauto|]. tauto.
    + intros t Ht. destruct (Hout t) as [_ ->]; [eauto|]. intros E1 E2. apply Hset. auto.
  - intros a j [[<- <-]|[Hne Ha]]%lookup_insert_Some.
    + destruct (W10 c gt) as (B1 & B2 & B3); [left|]. rewrite Hcl. split; [exact B1|]. eexists c, _, _, _. split; [apply received_snoc; left; exact B3|]. split; [exact Hids|reflexivity].
    + destruct (W2 _ _ Ha) as (B1 & c' & fs' & ts' & ns' & B2 & B3). split; [exact B1|]. exists c', fs', ts', ns'. split; [apply received_snoc; auto|exact B3].
  - rewrite W3, dom_insert_L. reflexivity.
  - intros t a Ht. destruct (decide (t ∈ ids)) as [Hti|Hti].
    + destruct (Hi0' t Hti) as [E _]. assert (a = gid) as -> by congruence. exists i0. rewrite lookup_insert. split; [reflexivity|apply Hi0, Hti].
    + destruct (Hout t Hti) as [E _]. rewrite E in Ht. destruct (W4 _ _ Ht) as (j & Hj & Hx). exists j. rewrite lookup_insert_ne; [auto|]. intros <-. apply Hgid. right. left. eauto.
  - intros t Ht. destruct (decide (t ∈ ids)) as [Hti|Hti]; [destruct (Hi0' t Hti) as [-> _]; eauto|]. destruct (Hout t Hti) as [-> E]. rewrite E in Ht. auto.
  - intros a b j j' t [[<- <-]|[Hne Ha]]%lookup_insert_Some [[<- <-]|[Hne' Hb]]%lookup_insert_Some Hta Htb; [reflexivity| | |eauto].
    + apply Hi0 in Hta. destruct (Hother _ _ _ Hb Htb Hta).
    + apply Hi0 in Htb. destruct (Hother _ _ _ Ha Hta Htb).
  - intros a j t Ha Ht. apply lookup_insert_None. apply lookup_insert_Some in Ha as [[<- <-]|[Hne Ha]].
    + apply Hi0 in Ht. split; [|intros ->; auto]. destruct (G !! t) eqn:E; [|reflexivity]. destruct (Hnew t Ht). right. left. eauto.
    + split; [eauto|]. intros <-. apply Hgid. right. right. eauto.
  - intros x Hx [->|[Hy|Hy]]%Hk; [apply (Nd2 gid); [left|exact Hx]|apply (Nd2 x); [right; exact Hy|exact Hx]|]. apply (W9 x); [apply Hq; auto|exact Hy].
  - intros c' gt' Hgt. destruct (W10 c' gt') as (B1 & B2 & B3); [right; exact Hgt|]. split; [exact B1|]. split; [exact B2|]. apply received_snoc. auto.
  - intros x [[->|[Hx|Hx]]%Hk|Hx]; apply Hs, W11; [right; apply Hq; auto|right; apply Hq; auto|left; exact Hx|right; apply Hq; auto].
  - intros t Ht. apply Hset in Ht. destruct (W12 _ Ht) as (B1 & B2 & B3 & B4). split; [auto|]. split; [exact B2|]. assert (B4' : ¬ (t = gid ∨ t ∈ ids ∨ t ∈ queue_ids Q)) by (intros Hz; apply B4, Hq, Hz). split; [|tauto]. destruct (Hout t) as [_ ->]; [tauto|exact B3].
  - unfold h'. rewrite pending_snoc, W13. reflexivity.
  - intros x Hx. apply Hov in Hx. destruct (W14 _ Hx) as (B1 & B2 & B3). assert (B3' : ¬ (x = gid ∨ x ∈ ids ∨ x ∈ queue_ids Q)) by (intros Hz; apply B3, Hq, Hz). split; [auto|]. split; [|tauto]. rewrite lookup_insert_ne; [exact B2|]. intros <-. tauto.
  - intros c' g' (fs' & ts' & ns' & [Hr|(now' & E)]%received_snoc); [|discriminate]. destruct (W15 c' g') as [Hx|[Hx|Hx]]; [exists fs', ts', ns'; exact Hr| | |right; right; apply Hov, Hx].
    + rewrite W13 in Hx. cbn in Hx. apply elem_of_cons in Hx as [->|Hx]; [right; left; change (gt_id gt) with gid; rewrite lookup_insert; eauto|]. left. unfold h'. rewrite pending_snoc, W13. exact Hx.
    + right. left. destruct (decide (g' = gid)) as [->|Hne]; [rewrite lookup_insert; eauto|rewrite lookup_insert_ne by auto; exact Hx].
  - intros t Ht E. apply Hi0, Hi0' in Ht as [_ Ht]. rewrite E in Ht. destruct Ht; discriminate.
Qed.

(** ** Rounds *)
Definition fine (s : sched) : Prop := ∃ xt g, okay xt g s ∧ world None (s_log s) xt (s_tasks s).
Notation keeps_fine := (λ (_ : unit) (s' : sched), fine s').

(** [steps] leads to a fine state.  [h]: a history for the invariant. *)
Definition moves (h : history) (sx : task_status) (Q : list (bytes * graph_task)) (G : gmap bytes graph) (T : gmap bytes bytes) (D : gset bytes) (N : gmap bytes bytes) (g : ledger) (s : sched) (gid : bytes) (i : graph) (s' : sched) : Prop :=
  ∃ T' N' l, frame (g_ids i) T T' N N' s s' ∧ s_log s' = s_log s ++ l ∧ clients_to (g_client i) s s' ∧
   ((∃ i', okay (Ext Q (<[gid := i']> G) T' D N') g s' ∧ world None (h ++ l) (Ext Q (<[gid := i']> G) T' D N') (s_tasks s') ∧ (g_ids i' = g_ids i ∧ g_client i' = g_client i ∧ g_targets i' = g_targets i) ∧ stays N N' s s' ∧ Forall (starts_e i) l) ∨
    (okay (Ext Q (delete gid G) T' (D ∖ {[gid]}) N') g s' ∧ world None (h ++ l) (Ext Q (delete gid G) T' (D ∖ {[gid]}) N') (s_tasks s') ∧ (∀ t, t ∈ g_ids i → T' !! t = None ∧ N' !! t = None) ∧
     ∃ l0 rs, l = l0 ++ [LSend (g_client i) (MGraphTaskResult gid sx rs)] ∧ Forall hush l0 ∧ (sx = Success → l0 = [] ∧ length rs = length (g_targets i) ∧ s_tasks s' = s_tasks s))).
Lemma moves_fine sx Q G T D N g s gid i s' : moves (s_log s) sx Q G T D N g s gid i s' → fine s'.
Proof. intros (T' & N' & l & _ & El & _ & [(i' & O & W & _)|(O & W & _)]); rewrite <- El in W; eexists _, _; eauto. Qed.
Lemma steps_moves h sx ns Q G T D N g s gid i s' : world (Some gid) h (Ext Q G T D N) (s_tasks s) → G !! gid = Some i →
  ((∀ t, t ∈ g_ids i → N !! t = None → s_tasks s !! t = None → settled t h) ∨ s_graphs s' !! gid = None) →
  steps sx ns Q G T D N g s gid i s' → (∃ c fs ts, received c (MGraphTask gid fs ts ns) h) → moves h sx Q G T D N g s gid i s'.
Proof.
  intros W HG Hd (T' & N' & l & F & El & Cl & [(i' & O & K1 & K2 & Hc & Hh & St & Ss & K3)|(O & Hn & l1 & rs & E1 & Hl1 & Hs)]) (c0 & fs0 & ts0 & Hrc).
  - exists T', N', l. do 3 (split; [assumption|]). left. exists i'. split; [exact O|]. split; [|auto].
    eapply world_grows; [apply hush_grows, Hh|].
    eapply world_kept; try eassumption; [|exists c0, fs0, ts0, ns; auto]. destruct Hd as [Hd|Hd]; [exact Hd|]. destruct O as [O _]. rewrite (c_graphs _ _ _ _ _ O) in Hd. cbn in Hd. rewrite lookup_insert in Hd. discriminate.
  - exists T', N', l. do 3 (split; [assumption|]). right. split; [exact O|]. split; [|split; [exact Hn|eauto 10]].
    rewrite E1. eapply world_finished; try eassumption. apply answer_grows, Hl1.
Qed.
Lemma steps_fine h sx ns Q G T D N g s gid i s' : world (Some gid) h (Ext Q G T D N) (s_tasks s) → G !! gid = Some i →
  ((∀ t, t ∈ g_ids i → N !! t = None → s_tasks s !! t = None → settled t h) ∨ s_graphs s' !! gid = None) →
  (∃ l, s_log s = h ++ l ∧ Forall hush l) → steps sx ns Q G T D N g s gid i s' → (∃ c fs ts, received c (MGraphTask gid fs ts ns) h) → fine s'.
Proof.
  intros W HG Hd (l & El & Hl) St (c & fs & ts & Hr). pose proof (hush_grows l h Hl) as Gr. rewrite <- El in Gr. eapply moves_fine, steps_moves; [eapply world_grows; eassumption|exact HG| |exact St|].
  - destruct Hd as [Hd|Hd]; [|auto]. left. intros t A B C. apply (gw_settled _ _ _ _ Gr). left. auto.
  - exists c, fs, ts. apply (gw_received _ _ _ _ Gr), Hr.
Qed.
(** Nothing new is seen without input. *)
Lemma seen_app x h l : seen x (h ++ l) ↔ seen x h ∨ ∃ now c m, LIn now (ERecv c m) ∈ l ∧ named x m.
Proof.
  unfold seen, received. setoid_rewrite elem_of_app. split.
  - intros (c & m & (now & [H|H]) & Hn); [left; eauto|right; eauto 6].
  - intros [(c & m & (now & H) & Hn)|(now & c & m & H & Hn)]; exists c, m; eauto.
Qed.
Lemma seen_hush x h l : Forall hush l → seen x (h ++ l) → seen x h.
Proof. intros Hl [H|(now & c & m & H & _)]%seen_app; [exact H|]. rewrite Forall_forall in Hl. destruct (Hl _ H). Qed.
Lemma okay_calm xt g s0 s' l : core xt false g [] s' → undispatched (s_log s0) = false → s_log s' = s_log s0 ++ l → Forall calm_e l → okay xt g s'.
Proof. intros H Hu El Hl. split; rewrite El, undispatched_calm, Hu by exact Hl; [exact H|discriminate]. Qed.

(** *** The task manager learns that a task is finished *)
Lemma done_fine h xt g fl s r don : world None h xt (s_tasks s) → core xt false g fl s → (r_id r ∈ s_unassigned s ∧ fl = []) ∨ fl = [r_id r] →
  c_max_waiting (s_cfg s) < 0 → undispatched (s_log s) = false → (∃ now ev, s_log s = h ++ [LIn now ev] ∧ ordinary None don h ev) →
  don = Some (r_id r) ∨ don = None ∧ r_status r = Canceled →
  (∀ gid i, x_t2g xt !! r_id r = Some gid → x_graphs xt !! gid = Some i → r_status r = Success ∨ (r_status r = Failed ∨ r_status r = Canceled) ∧ ∀ t, t ∈ g_ids i → t ≠ r_id r → t ∉ s_unassigned s) →
  wp (tm_done r) keeps_fine no_exn s.
Proof.
  intros W H Hc Hw Hu (now & ev & El & Hord) Hdon Hpol. set (t := r_id r) in *. pose proof (input_grows _ _ _ now _ Hord) as Hg. rewrite <- El in Hg.
  assert (Htk : is_Some (s_tasks s !! t)). { apply elem_of_dom. rewrite (c_places _ _ _ _ _ H), (c_running _ _ _ _ _ H). clear -Hc. destruct Hc as [[Hu ->]| ->]; set_solver. }
  assert (HN : x_inactive xt !! t = None). { destruct (x_inactive xt !! t) eqn:E; [|reflexivity]. apply (c_inactive _ _ _ _ _ H) in E as [E _]. destruct Htk; congruence. }
  destruct (world_forget (x_t2g xt !! t) don h (s_log s) xt (s_tasks s) t W Htk HN Hg) as [W1 D1]; [tauto|reflexivity|].
  unfold tm_done. wgo. cbn [tm_done_fuel]. wgo. eapply wp_mono; [apply (forget_spec _ _ _ _ _ _ H Hc)| |auto]. cbv beta.
  intros cl s1 (H1 & E1 & E2 & _ & E4 & _ & _ & _ & E6 & mon & E8 & E9). fold t in E4. wgo.
  assert (Hmon : Forall calm_e [mon]) by (constructor; [apply internal_calm, E8|constructor]).
  assert (O1 : okay xt g s1). { eapply okay_calm; [exact H1|exact Hu|exact E9|exact Hmon]. }
  destruct (x_t2g xt !! t) as [gid|] eqn:ET.
  - destruct (wd_t2g _ _ _ _ W _ _ ET) as (i & HG & Hti). destruct (node_running _ _ _ _ _ _ W HG Hti HN Htk) as (_ & ns & gr & sc & (c0 & fs0 & ts0 & Hrc) & L & Hsc).
    destruct xt as [Q G T D N]; cbn in *. assert (HD : D = dom G) by exact (wd_ids _ _ _ _ W).
    eapply wp_mono; [eapply (gm_done_spec _ Q G T D N g s1 gid i ns gr r (s_tasks s) sc O1 HG); [rewrite HD; apply elem_of_dom; eauto|exact L| | | |exact ET|exact Hsc|exact E4|]| |auto].
    + destruct (wd_graph _ _ _ _ W _ _ HG) as [Hx _]. exact Hx.
    + rewrite E1. exact Hw.
    + intros x Hx Hx'. rewrite HD in Hx'. apply elem_of_dom in Hx' as [? Hx']. pose proof (wd_D _ _ _ _ W _ _ _ HG Hx) as E. cbn in E. congruence.
    + destruct (Hpol _ _ eq_refl HG) as [Hx|[Hx Hy]]; [auto|]. right. split; [exact Hx|]. intros x A B C. exact (Hy x A B (E6 _ C)).
    + cbv beta. intros b s' (-> & Hst & Hend). wgo. rewrite <- E4 in W1, D1. eapply steps_fine; [exact W1|exact HG| |exists [mon]; split; [exact E9|apply calms_hush, Hmon]|exact Hst|exists c0, fs0, ts0; apply (gw_received _ _ _ _ Hg), Hrc].
      destruct Hdon as [Hdon|[_ Hdon]]; [left; eapply D1; eauto|]. right. apply Hend. rewrite Hdon. discriminate.
  - unfold gm_done. wgo. rewrite (c_t2g _ _ _ _ _ H1). fold t. rewrite ET. wgo. exists xt, g. split; [apply okay_emit; [exact O1|discriminate]|]. ss. rewrite E4, E9, <- app_assoc.
    eapply world_grows; [apply hush_grows|exact W1]. repeat constructor. apply calms_hush in Hmon. inversion Hmon. assumption.
Qed.

(** *** What the state says about the history *)
Lemma open_of h xt tk gid i : world None h xt tk → x_graphs xt !! gid = Some i → open_graph gid h.
Proof.
  intros W HG. assert (Hk : known (x_graphs xt) tk gid) by (right; left; eauto). destruct (wd_graph _ _ _ _ W _ _ HG) as (_ & c & fs & ts & ns & Hr & _).
  assert (Ho : ¬ over gid h). { intros Ho. destruct (wd_over _ _ _ _ W _ Ho) as (_ & E & _). congruence. }
  split; [exists c, fs, ts, ns; exact Hr|]. split; [|unfold over in Ho; tauto]. rewrite (wd_pending _ _ _ _ W). intros Hp. apply elem_of_list_fmap in Hp as ([c' gt] & E & Hq).
  apply (wd_qnew _ _ _ _ W gid); [|exact Hk]. rewrite E. eapply queue_id_in, Hq.
Qed.
Lemma open_is h xt tk gid : world None h xt tk → open_graph gid h → is_Some (x_graphs xt !! gid).
Proof. intros W ((c & Hf) & Hp & Ha & Hc). destruct (wd_open _ _ _ _ W _ _ Hf) as [?|[?|[?|?]]]; [contradiction|assumption|contradiction..]. Qed.
Lemma node_of h xt tk gid i t : world None h xt tk → x_graphs xt !! gid = Some i → t ∈ g_ids i → node_of_graph t gid h.
Proof.
  intros W HG Ht. destruct (wd_graph _ _ _ _ W _ _ HG) as (_ & c & fs & ts & ns & Hr & E & _). rewrite E in Ht. apply elem_of_list_to_set, elem_of_list_fmap in Ht as (n & -> & Hn). exists c, fs, ts, ns, n. auto.
Qed.
Lemma calm_cleanable ns T N tk gid i q : calm_graph ns T N tk gid i → (∀ t, t ∈ g_ids i → t ∉ q) → cleanable (elements (g_ids i)) (g_nodes i) N q.
Proof.
  intros (gr & L & _) Hq x n Hx Hn. apply elem_of_elements in Hx. pose proof Hx as Hx'. rewrite (lv_ids _ _ _ _ _ _ _ _ _ L) in Hx'. apply elem_of_list_to_set in Hx'.
  destruct (node_cases _ _ x (lv_sorted _ _ _ _ _ _ _ _ _ L) (proj2 (lv_in _ _ _ _ _ _ _ _ _ L x) Hx')) as [Hy|[[sc2 Hy]|Hy]].
  - apply elem_of_list_fmap in Hx' as (m & -> & Hm). destruct (lv_wait _ _ _ _ _ _ _ _ _ L m Hm (or_introl Hy)) as (E & E2 & _). rewrite Hn in E. injection E as ->. cbn. eauto.
  - destruct (lv_run _ _ _ _ _ _ _ _ _ L _ _ Hy ltac:(intros Hi; inversion Hi)) as ((k2 & E) & _). rewrite Hn in E. injection E as ->. cbn. auto.
  - destruct (lv_done _ _ _ _ _ _ _ _ _ L _ Hy) as (_ & [(k2 & r2 & E & _)|(E & _)]); rewrite Hn in E; [injection E as ->; exact I|discriminate].
Qed.
Lemma calm_gone ns T N tk gid i (T' N' : gmap bytes bytes) : calm_graph ns T N tk gid i →
  (∀ t, t ∈ g_ids i → is_Some (g_nodes i !! t) → T' !! t = None) → (∀ t, T' !! t = T !! t ∨ t ∈ g_ids i ∧ T' !! t = None) →
  (∀ t n, t ∈ g_ids i → g_nodes i !! t = Some n → ni_state n = NInactive → N' !! t = None) → (∀ t, N' !! t = N !! t ∨ t ∈ g_ids i ∧ N' !! t = None) →
  ∀ t, t ∈ g_ids i → T' !! t = None ∧ N' !! t = None.
Proof.
  intros (gr & L & _) C1 C2 C3 C4 x Hx. pose proof Hx as Hx'. rewrite (lv_ids _ _ _ _ _ _ _ _ _ L) in Hx'. apply elem_of_list_to_set in Hx'.
  assert (Hx2 : is_Some (g_nodes i !! x) ∨ T !! x = None).
  { destruct (node_cases _ _ x (lv_sorted _ _ _ _ _ _ _ _ _ L) (proj2 (lv_in _ _ _ _ _ _ _ _ _ L x) Hx')) as [Hy|[[sc2 Hy]|Hy]].
    - apply elem_of_list_fmap in Hx' as (m & -> & Hm). destruct (lv_wait _ _ _ _ _ _ _ _ _ L m Hm (or_introl Hy)) as (E & _). eauto.
    - destruct (lv_run _ _ _ _ _ _ _ _ _ L _ _ Hy ltac:(intros Hi; inversion Hi)) as ((k2 & E) & _). eauto.
    - destruct (lv_done _ _ _ _ _ _ _ _ _ L _ Hy) as (_ & [(k2 & r2 & E & _)|(_ & E & _)]); eauto. }
  split.
  - destruct Hx2 as [Hx2|Hx2]; [apply C1; assumption|]. destruct (C2 x) as [->|[_ ?]]; assumption.
  - destruct (C4 x) as [E|[_ ?]]; [|assumption]. rewrite E. destruct (N !! x) as [f|] eqn:EN; [|reflexivity].
    destruct (lv_N _ _ _ _ _ _ _ _ _ L x Hx') as [Hy|Hy]; [eauto| |inversion Hy]. apply elem_of_list_fmap in Hx' as (m & -> & Hm). destruct (lv_wait _ _ _ _ _ _ _ _ _ L m Hm (or_introl Hy)) as (E1 & E2 & _).
    rewrite (C3 (task_id m) (NodeInfo NInactive m None)) in E; [discriminate|exact Hx|exact E1|reflexivity].
Qed.

(** *** Messages *)
Definition waits (s : sched) : Prop := ∀ t, t ∈ s_unassigned s → unplaced t (s_log s).
(** What the scheduler has, and what workers have finished, was accepted. *)
Definition taken (s : sched) : Prop := ∀ t, is_Some (s_tasks s !! t) ∨ settled t (s_log s) → ∃ c, accepted c t (s_log s).
Lemma fine_calm xt s now ev s0 (m : M unit) : world None (s_log s) xt (s_tasks s) → begun s now ev s0 → ordinary None None (s_log s) ev →
  wp m (λ _ s', (∃ g', core xt (stale ev (s_log s)) g' [] s') ∧ calm s0 s' ∧ s_tasks s' = s_tasks s0 ∧ (stale ev (s_log s) = true → s_unassigned s' ≠ [])) no_exn s0 → wp m keeps_fine no_exn s0.
Proof.
  intros W B Ho H. eapply wp_mono; [exact H| |auto]. cbv beta. intros _ s' ((g' & Hx) & [_ _ _ _ (l & El & Hl)] & Ht & Hq). rewrite (bg_log _ _ _ _ B) in El.
  exists xt, g'. assert (Hu : undispatched (s_log s') = stale ev (s_log s)). { rewrite El, undispatched_calm by exact Hl. apply input_quiet. }
  split; [split; rewrite Hu; [exact Hx|exact Hq]|]. rewrite Ht, (bg_tasks _ _ _ _ B), El. eapply world_grows; [apply hush_grows, calms_hush, Hl|]. eapply world_grows; [apply input_grows, Ho|exact W].
Qed.
Lemma fine_recv xt g s now src m s0 : c_max_waiting (s_cfg s) < 0 → okay xt g s → world None (s_log s) xt (s_tasks s) → lg_owner g = holder (s_log s) → waits s → taken s → begun s now (ERecv src m) s0 →
  polite_graphs utf8 (s_log s) (LIn now (ERecv src m)) → (∀ pk, core xt pk g [] s → core xt pk g [] s0) → wp (on_receive src m) keeps_fine no_exn s0.
Proof.
  intros Hw O W Hown Hwait Htaken B Hp H0. pose proof O as [Hc _]. cbn [polite_graphs] in Hp. destruct Hp as (Hun & Hsrc & Hm). rewrite Hun in Hc. apply H0 in Hc. clear H0.
  assert (Hun0 : undispatched (s_log s0) = false). { rewrite (bg_log _ _ _ _ B). destruct (input_quiet (s_log s) now (ERecv src m)) as (_ & _ & _ & ->). exact Hun. }
  assert (Hcalm : ∀ m', ordinary None None (s_log s) (ERecv src m) → wp m' (λ _ s', (∃ g', core xt false g' [] s') ∧ calm s0 s' ∧ s_tasks s' = s_tasks s0) no_exn s0 → wp m' keeps_fine no_exn s0).
  { intros m' Ho H. apply (fine_calm _ _ _ _ _ _ W B Ho). eapply wp_mono; [exact H| |auto]. cbv beta. intros _ s' (Hx & C & Ht). cbn [stale]. rewrite Hun. split; [exact Hx|]. split; [exact C|]. split; [exact Ht|discriminate]. }
  assert (Hnop : ordinary None None (s_log s) (ERecv src m) → wp (ret tt) keeps_fine no_exn s0).
  { intros Ho. apply Hcalm; [exact Ho|]. apply wp_ret. split; [eauto|]. split; [apply calm_refl|reflexivity]. }
  assert (Htk0 : s_tasks s0 = s_tasks s) by apply B. assert (Hun' : s_unassigned s0 = s_unassigned s) by apply B. assert (Hw0 : c_max_waiting (s_cfg s0) < 0) by (rewrite (bg_cfg _ _ _ _ B); exact Hw).
  assert (W0 : world None (s_log s) xt (s_tasks s0)) by (rewrite Htk0; exact W).
  destruct m; cbn [on_receive]; lazymatch goal with |- wp (ret tt) _ _ _ => apply Hnop; split; reflexivity | _ => idtac end.
  - (* a task *)
    destruct Hm as [Hng Hna]. assert (Hnset : ¬ settled (task_id t) (s_log s)). { intros Hx. destruct (Htaken (task_id t)) as [c Hx']; [auto|]. exact (Hna c Hx'). }
    assert (Hnq : task_id t ∉ queue_ids (x_queue xt)).
    { intros Hx. apply elem_of_list_bind in Hx as ([c gt] & Hx & Hq). destruct (wd_q _ _ _ _ W _ _ Hq) as (_ & _ & Hr). apply (Hng _ _ _ _ _ Hr). apply elem_of_cons in Hx. exact Hx. }
    assert (Hnk : ¬ known (x_graphs xt) (s_tasks s0) (task_id t)).
    { rewrite Htk0. intros [Hk|[[i Hk]|(gid & i & Hk & Hi)]].
      - destruct (Htaken (task_id t)) as [c Hx]; [auto|]. exact (Hna c Hx).
      - destruct (wd_graph _ _ _ _ W _ _ Hk) as (_ & c & fs & ts & ns & Hr & _). apply (Hng _ _ _ _ _ Hr). left. reflexivity.
      - destruct (wd_graph _ _ _ _ W _ _ Hk) as (_ & c & fs & ts & ns & Hr & E & _). apply (Hng _ _ _ _ _ Hr). right. rewrite E in Hi. apply elem_of_list_to_set in Hi. exact Hi. }
    assert (HN : x_inactive xt !! task_id t = None).
    { apply eq_None_not_Some. intros Hx. destruct (wd_N _ _ _ _ W0 _ Hx) as [gid Hg]. destruct (wd_t2g _ _ _ _ W0 _ _ Hg) as (i & ? & ?). apply Hnk. right. right. eauto. }
    pose proof (input_grows None None (s_log s) now (ERecv src (MTask t)) ltac:(split; reflexivity)) as Hg. rewrite <- (bg_log _ _ _ _ B) in Hg.
    eapply wp_mono; [apply (new_spec xt false g s0 src t Hc Hsrc)| |auto].
    + apply eq_None_not_Some. intros Hx. apply Hnk. left. exact Hx.
    + rewrite (wd_ids _ _ _ _ W0). intros Hx%elem_of_dom. apply Hnk. right. left. exact Hx.
    + left. exact HN.
    + exact Hw0.
    + cbv beta. intros _ s'. destruct (s_funcs s0 !! task_function t) as [i|] eqn:Ef.
      * rewrite started_none by exact HN. intros (H1 & _ & _ & _ & H3 & H4 & _ & _ & mon & H5 & H6). exists xt, g. split.
        -- assert (Hund : undispatched (s_log s') = true).
           { rewrite H6. change ([?a; mon]) with ([a] ++ [mon]). rewrite app_assoc, undispatched_calm; [rewrite undispatched_app; reflexivity|]. constructor; [apply internal_calm, H5|constructor]. }
           split; rewrite Hund; [exact H1|]. rewrite H4. intros _ E. destruct (s_unassigned s0); discriminate.
        -- rewrite H3, H6. eapply world_grows; [apply hush_grows|]. { repeat constructor. apply calm_hush, internal_calm, H5. }
           eapply world_task; [exact W0|exact Hg|exact Hnk|exact Hnq|exact Hnset|]. exists src, (MTask t). split; [|reflexivity]. rewrite (bg_log _ _ _ _ B). apply received_snoc. right. eauto.
      * intros ->. exists xt, g. split; [eapply okay_emit; [|discriminate]; split; rewrite Hun0; [exact Hc|discriminate]|]. ss. eapply world_grows; [apply hush_grows; repeat constructor|]. eapply world_grows; [exact Hg|exact W0].
  - (* cancel *)
    unfold tm_cancel_any. destruct (decide (id ∈ s_unassigned s0)) as [Hu|Hu].
    + unfold tm_cancel. wgo. rewrite bool_decide_eq_true_2 by exact Hu. rewrite Hun' in Hu. pose proof (Hwait _ Hu) as Hup.
      eapply (done_fine (s_log s) xt g [] s0 (Result id Canceled 0 "") None W0 Hc); cbn [r_id r_status]; [rewrite Hun'; auto|exact Hw0|exact Hun0|exists now, (ERecv src (MTaskCancel id)); split; [apply B|split; reflexivity]|auto|].
      intros gid i HT HG. right. split; [auto|]. intros x Hx Hne Hxu. rewrite Hun' in Hxu. destruct (wd_t2g _ _ _ _ W _ _ HT) as (i' & HG' & Hid). assert (i' = i) as -> by congruence.
      refine (Hm Hup gid x (open_of _ _ _ _ _ W HG) (node_of _ _ _ _ _ _ W HG Hid) (node_of _ _ _ _ _ _ W HG Hx) Hne (Hwait _ Hxu)).
    + apply Hcalm; [split; reflexivity|]. eapply wp_mono; [apply (cancel_quiet _ _ _ _ _ tm_done Hc Hu)| |auto]. cbv beta. intros _ s' (l & -> & Hl).
      split; [exists g; apply core_log, Hc|]. split; [|reflexivity]. split; auto. exists l. auto.
  - (* result *)
    destruct (exact_remove_task _ _ id (c_alloc _ _ _ _ _ Hc)) as (a' & Ea & Hm' & Hx). rewrite Hown in Ea.
    destruct (holder (s_log s) !! id) as [w|] eqn:Ew.
    + unfold wm_done. wgo. cbn [r_id]. rewrite Ea. apply wp_ok. wgo.
      eapply (done_fine (s_log s) xt _ [id] (set_alloc (λ _, a') s0) (Result id status duration result) (Some id) W0); cbn [r_id r_status].
      * eapply core_alloc; [exact Hc|exact Hx|reflexivity| | |repeat constructor; intros Hi; inversion Hi].
        -- cbn [lg_owner]. rewrite Hown. eapply dom_delete_back, Ew.
        -- intros t ->%elem_of_list_singleton. apply lookup_delete.
      * auto.
      * exact Hw0.
      * exact Hun0.
      * exists now, (ERecv src (MTaskResult id status duration result)). split; [apply B|]. split; [reflexivity|]. rewrite Ew. right. split; [eauto|reflexivity].
      * auto.
      * intros gid i HT HG. destruct (wd_t2g _ _ _ _ W _ _ HT) as (i' & HG' & Hid). assert (i' = i) as -> by congruence.
        assert (Hcase : status = Success ∨ status ≠ Success) by (destruct status; (left; reflexivity) || (right; discriminate)). destruct Hcase as [Hs|Hs]; [auto|]. right.
        destruct (Hm ltac:(eauto) Hs gid (open_of _ _ _ _ _ W HG) (node_of _ _ _ _ _ _ W HG Hid)) as [H1 H2]. split; [exact H1|]. intros x Hx' Hne Hxu. ss. rewrite Hun' in Hxu.
        exact (H2 x (node_of _ _ _ _ _ _ W HG Hx') Hne (Hwait _ Hxu)).
    + apply Hcalm; [split; [reflexivity|auto]|]. unfold wm_done. wgo. cbn [r_id]. rewrite Ea. apply wp_ok. wgo. split; [|split; [|reflexivity]]; [|split; auto; exists []; rewrite app_nil_r; auto].
      exists (Ledger (lg_workers g) (delete id (lg_owner g))). eapply core_alloc; [exact Hc|exact Hx|reflexivity| | |constructor]; cbn [lg_owner].
      * rewrite delete_notin by (rewrite Hown; exact Ew). reflexivity.
      * intros t Ht. inversion Ht.
  - (* graph *)
    destruct Hm as [Hfit Hnew]. wgo. destruct xt as [Q G T D N]. exists (Ext (Q ++ [(src, GraphTask id functions targets graph)]) G T D N), g. split.
    + split; ss; rewrite Hun0; [|discriminate]. eapply core_queue_to; [exact Hc|reflexivity].
    + ss. rewrite (bg_log _ _ _ _ B). apply world_push; assumption.
  - (* cancel a graph *)
    destruct Hm as [Hopen Hnone]. destruct (open_is _ _ _ _ W Hopen) as [i HG]. destruct xt as [Q G T D N]. cbn in HG.
    assert (HD : D = dom G) by exact (wd_ids _ _ _ _ W). destruct (wd_calm _ _ _ _ W _ _ HG ltac:(discriminate)) as [(c0 & fs0 & ts0 & ns0 & _ & Hcg) _]. cbn in Hcg.
    apply wp_bind. eapply wp_mono; [apply (clean_spec tm_done Q G T D N false g s0 id i Hc HG)| |auto].
    + rewrite HD. apply elem_of_dom. eauto.
    + eapply calm_cleanable; [exact Hcg|]. intros t Ht Hu. rewrite Hun' in Hu. exact (Hnone t (node_of _ _ _ _ _ _ W HG Ht) (Hwait _ Hu)).
    + cbv beta. intros i' s' (-> & T' & N' & H1 & Td & C1 & C2 & C3 & C4 & C5 & C6). wgo. destruct (td_log _ _ Td) as (l & El & Hl). exists (Ext Q (delete id G) T' (D ∖ {[id]}) N'), g.
      split; [eapply okay_calm; [exact H1|exact Hun0|exact El|exact Hl]|]. rewrite El, (bg_log _ _ _ _ B). eapply world_grows; [apply hush_grows, calms_hush, Hl|].
      eapply (world_finished (s_log s) _ Q G T D N s0 id i); [|exact HG|eapply tidy_frame; [exact Td|exact C5|apply (c_ids _ _ _ _ _ Hc); cbn; rewrite HD; apply elem_of_dom; eauto|exact C2|exact C4]|eapply calm_gone; eassumption|apply input_grows; split; reflexivity].
      destruct W0 as [W1]. split; auto.
  - apply Hcalm; [split; reflexivity|]. eapply wp_mono; [apply (balance_response_spec xt ids g s0 Hc)| |auto]. cbv beta. intros _ s' ((O' & H1) & C & T). eauto.
  - apply Hcalm; [split; reflexivity|]. eapply wp_mono; [apply (heartbeat_spec xt g s0 src h Hc Hsrc)| |auto]. cbv beta. intros _ s' (H1 & C & T). eauto.
  - apply Hcalm; [split; reflexivity|]. eapply wp_mono; [apply (function_spec xt false g s0 src type id name content Hc)| |auto].
    + intros ->. exact Hm.
    + intros ->. exact Hm.
    + cbv beta. intros _ s' (H1 & C & T). eauto.
  - apply Hcalm; [split; reflexivity|]. exact (disconnect_spec xt g s0 src worker Hc).
Qed.

(** *** The other loops *)
Lemma graph_idle h now : pending_graphs h = [] → grows None None h (h ++ [LIn now EGraph]).
Proof.
  intros Hp. split.
  - rewrite pending_snoc, Hp. reflexivity.
  - intros t. rewrite settled_snoc. split; [intros [?|(?&?&?&?&?& E & _)]; [auto|discriminate]|intros [?|?]; [auto|discriminate]].
  - intros g. rewrite over_snoc. split; [intros [?|[(?&?&?& E)|(?&?& E)]]; [auto|discriminate..]|intros [?|?]; [auto|discriminate]].
  - intros c g (fs & ts & ns & [Hr|(? & E)]%received_snoc); [exists fs, ts, ns; exact Hr|discriminate].
  - intros c m Hr. apply received_snoc. auto.
Qed.
Lemma fine_handle xt g s now ev s0 : c_max_waiting (s_cfg s) < 0 → okay xt g s → world None (s_log s) xt (s_tasks s) → lg_owner g = holder (s_log s) → waits s → taken s → begun s now ev s0 →
  polite_graphs utf8 (s_log s) (LIn now ev) → (∀ pk, core xt pk g [] s → core xt pk g [] s0) → wp (handle ev) keeps_fine no_exn s0.
Proof.
  intros Hw O W Hown Hwait Htaken B Hp H0. destruct ev as [src m| | | | |]; cbn [handle]; [apply (fine_recv xt g s now src m s0 Hw O W Hown Hwait Htaken B Hp H0)|..];
    pose proof O as [Hc Hq]; apply H0 in Hc; clear H0.
  - assert (Hun : undispatched (s_log s0) = undispatched (s_log s)). { rewrite (bg_log _ _ _ _ B). apply (input_quiet (s_log s) now EGraph). }
    assert (O0 : okay xt g s0). { split; rewrite Hun; [exact Hc|]. rewrite (bg_unassigned _ _ _ _ B). exact Hq. }
    destruct xt as [Q G T D N]. unfold gm_routine. wgo. rewrite (c_gqueue _ _ _ _ _ Hc). cbn [x_queue]. destruct Q as [|[c gt] Q].
    + wgo. exists (Ext [] G T D N), g. split; [exact O0|]. rewrite (bg_tasks _ _ _ _ B), (bg_log _ _ _ _ B). eapply world_grows; [|exact W]. apply graph_idle. exact (wd_pending _ _ _ _ W).
    + wgo. set (s1 := set_gqueue _ s0). destruct (wd_q _ _ _ _ W c gt ltac:(left)) as (Hu & Hfit & Hrc).
      assert (O1 : okay (Ext Q G T D N) g s1). { destruct O0 as [A1 A2]. split; [|exact A2]. apply (core_queue_to ((c, gt) :: Q)); [exact A1|reflexivity]. }
      assert (Htk : s_tasks s1 = s_tasks s) by apply B. assert (Hlog : s_log s1 = s_log s ++ [LIn now EGraph]) by apply B.
      assert (Hfresh : ∀ x, x ∈ gt_id gt :: (task_id <$> gt_graph gt) → ¬ known G (s_tasks s) x).
      { intros x Hx. apply (wd_qnew _ _ _ _ W). change (x ∈ names (c, gt) ++ queue_ids Q). apply elem_of_app. left. exact Hx. }
      eapply wp_mono; [apply (add_spec Q G T D N g s1 c gt O1 Hu Hfit)| |auto].
      * change (s_cfg s1) with (s_cfg s0). rewrite (bg_cfg _ _ _ _ B). exact Hw.
      * intros x Hx. specialize (Hfresh x Hx). rewrite Htk.
        assert (HT : T !! x = None). { destruct (T !! x) as [gid|] eqn:E; [|reflexivity]. destruct (wd_t2g _ _ _ _ W x gid E) as (i & E1 & E2). destruct Hfresh. right. right. eauto. }
        split; [destruct (s_tasks s !! x) eqn:E; [destruct Hfresh; left; eauto|reflexivity]|]. split.
        { pose proof (wd_ids _ _ _ _ W) as E. cbn in E. rewrite E. intros Hx2. apply elem_of_dom in Hx2. apply Hfresh. right. left. exact Hx2. }
        split; [|exact HT]. destruct (N !! x) eqn:E; [|reflexivity]. destruct (wd_N _ _ _ _ W x) as [y Hy]; [cbn; eauto|]. cbn in Hy. congruence.
      * destruct (G !! gt_id gt) eqn:E; [|reflexivity]. destruct (Hfresh (gt_id gt)); [left|]. right. left. eauto.
      * cbv beta. intros _ s' (i0 & T0 & N0 & s2 & E1 & E2 & Td & E7 & E5 & E6 & E3 & E4 & St). destruct (world_start _ now c gt Q G T D N _ i0 T0 N0 W E1 E2 E3 E4) as [W' Hd].
        eapply (steps_fine (s_log s ++ [LIn now EGraph])); [|apply lookup_insert| | |exact St|exists c, (gt_functions gt), (gt_targets gt); apply received_snoc; left; exact Hrc].
        -- rewrite (td_tasks _ _ Td), Htk. exact W'.
        -- left. rewrite (td_tasks _ _ Td), Htk. exact Hd.
        -- destruct (td_log _ _ Td) as (l & El & Hl). exists l. rewrite El, Hlog. split; [reflexivity|apply calms_hush, Hl].
  - apply (fine_calm _ _ _ _ _ _ W B); [cbn; auto|]. eapply wp_mono; [apply (dispatch_spec xt _ g s0 Hc); rewrite (bg_unassigned _ _ _ _ B); exact Hq| |auto]. cbv beta. intros _ s' (H1 & C & E). split; [exact H1|]. split; [exact C|]. split; [exact E|discriminate].
  - apply (fine_calm _ _ _ _ _ _ W B); [cbn; auto|]. eapply wp_mono; [apply (expiry_spec xt _ g s0 Hc)| |auto]. cbv beta. intros _ s' (H1 & C & E & U). split; [eauto|]. split; [exact C|]. split; [exact E|]. rewrite U, (bg_unassigned _ _ _ _ B). exact Hq.
  - apply (fine_calm _ _ _ _ _ _ W B); [cbn; auto|]. cbn [polite_graphs stale] in *. rewrite Hp in *. unfold wm_routine. wgo. eapply wp_mono; [apply (balance_core xt _ g s0 Hc)| |auto]. cbv beta. intros _ s1 (H1 & C1 & E1).
    eapply wp_mono; [apply (clean_core xt g s1 H1)| |auto]. cbv beta. intros _ s' (H2 & C2 & E2). split; [exact H2|]. split; [eapply calm_trans; eassumption|]. split; [congruence|discriminate].
  - apply (fine_calm _ _ _ _ _ _ W B); [cbn; auto|]. eapply wp_mono; [apply (status_spec xt _ g s0 Hc)| |auto]. cbv beta. intros _ s' (rep & _ & E). rewrite E. split; [exists g; apply core_log, core_codes, Hc|].
    split; [split; auto; exists [LReport rep]; split; [reflexivity|repeat constructor]|]. split; [reflexivity|]. ss. rewrite (bg_unassigned _ _ _ _ B). exact Hq.
Qed.

(** *** All executions *)
Lemma ledger_run c rs xt pk g : core xt pk g [] (run c rs) → g = ledger_of (s_log (run c rs)).
Proof.
  intros H. destruct (Inv2_run c rs) as [_ H2]. specialize (H2 (c_dead _ _ _ _ _ H)). eapply allocd_unique; [exact (exact_allocd _ _ _ (c_alloc _ _ _ _ _ H))|apply (i2_alloc _ _ H2)].
Qed.
Lemma waits_run c rs xt g : okay xt g (run c rs) → world None (s_log (run c rs)) xt (s_tasks (run c rs)) →
  ∀ t, t ∈ s_unassigned (run c rs) ++ lim (run c rs) → unplaced t (s_log (run c rs)).
Proof.
  intros [H _] W t Ht. pose proof (ledger_run _ _ _ _ _ H) as Hg. destruct (Inv3_run c rs) as [_ H3]. destruct (H3 (c_dead _ _ _ _ _ H)) as [ev I3'].
  destruct (core_task _ _ _ _ _ t H (or_introl Ht)) as (k & Hk & <-). split.
  - destruct (i3_tasks _ _ _ I3' _ _ Hk) as (cl & _ & Ha). eauto.
  - split.
    + destruct (holder (s_log (run c rs)) !! task_id k) as [w|] eqn:E; [|reflexivity]. destruct (c_disj _ _ _ _ _ H _ Ht). rewrite (c_running _ _ _ _ _ H), Hg. apply elem_of_union. left. apply elem_of_dom. cbn. eauto.
    + intros Hs. destruct (wd_settled _ _ _ _ W _ Hs) as (_ & E & _). congruence.
Qed.
Lemma holder_sent h t w : holder h !! t = Some w → ∃ b k a, h = b ++ LSend w (MTask k) :: a ∧ task_id k = t.
Proof.
  revert w. induction h as [|e h IH] using rev_ind; intros w; [intros H; discriminate|]. rewrite holder_snoc. intros H.
  assert (Hold : holder h !! t = Some w → ∃ b k a, h ++ [e] = b ++ LSend w (MTask k) :: a ∧ task_id k = t).
  { intros (b & k & a & -> & E)%IH. exists b, k, (a ++ [e]). rewrite <- app_assoc. auto. }
  destruct e as [now ev|u m|u| | | |]; cbn in H; auto.
  - destruct ev as [src m| | | | |]; auto. destruct m; auto; [apply lookup_delete_Some in H as [_ H]; auto|]. apply Hold. clear -H. induction ids as [|x l IHl]; [exact H|]. cbn in H. apply lookup_delete_Some in H as [_ H]. auto.
  - destruct m; auto. apply lookup_insert_Some in H as [[<- ->]|[_ H]]; [|auto]. exists h, t0, []. auto.
  - apply map_filter_lookup_Some in H as [H _]. auto.
Qed.
Lemma taken_run c rs : s_dead (run c rs) = None → taken (run c rs).
Proof.
  intros Hd t [[k Hk]|(b & now & src & st & d & r & a & E & [w Hw])].
  - destruct (Inv3_run c rs) as [_ H3]. destruct (H3 Hd) as [ev I3']. destruct (i3_tasks _ _ _ I3' _ _ Hk) as (cl & _ & Ha). exists cl.
    replace t with (task_id k); [exact Ha|]. destruct (Inv2_run c rs) as [_ H2]. exact (i2_key _ _ (H2 Hd) _ _ Hk).
  - destruct (holder_sent _ _ _ Hw) as (b1 & k & a1 & -> & <-). rewrite <- app_assoc in E. cbn in E. destruct (live_dispatch_lemma c rs _ _ _ _ E) as (_ & _ & cl & _ & Ha). exists cl. rewrite E. apply accepted_app. exact Ha.
Qed.
Lemma fine_step c rs r : c_max_waiting c < 0 → fine (run c rs) → polite_graphs utf8 (s_log (run c rs)) (LIn (rd_now r) (rd_event r)) → fine (step (run c rs) r).
Proof.
  intros Hw (xt & g & O & W) Hp. pose proof O as [Hc _]. pose proof (c_dead _ _ _ _ _ Hc) as Hd. pose proof (waits_run c rs xt g O W) as Hwt. pose proof (taken_run c rs Hd) as Htaken.
  assert (Hown : lg_owner g = holder (s_log (run c rs))) by (rewrite (ledger_run _ _ _ _ _ Hc); reflexivity).
  assert (Hcfg : s_cfg (run c rs) = c) by apply run_cfg. set (s := run c rs) in *. clearbody s.
  assert (Hwt' : waits s). { intros t Ht. apply Hwt, elem_of_app. auto. }
  pose proof (fine_handle xt g s (rd_now r) (rd_event r) (begin s r) ltac:(rewrite Hcfg; exact Hw) O W Hown Hwt' Htaken (begun_begin s r) Hp (λ pk, core_begin _ pk g [] s r)) as H.
  unfold step in *. rewrite Hd in *. unfold wp in H. destruct (handle _ _) as [s' [u|e]]; [exact H|destruct H].
Qed.
Lemma fine_start c : fine (start c).
Proof.
  exists no_graphs, lg_empty. split; [split; [exact (core_start c)|discriminate]|].
  assert (Hr : ∀ c m, ¬ received c m []) by (intros c0 m (now & H); inversion H).
  split; cbn; try (intros *; rewrite lookup_empty; discriminate).
  - rewrite dom_empty_L. reflexivity.
  - intros t [? H]. rewrite lookup_empty in H. discriminate.
  - constructor.
  - intros x H. inversion H.
  - intros c0 gt H. inversion H.
  - intros x [[[? H]|[[? H]|(gid & i & H & _)]]|H]; try (rewrite lookup_empty in H; discriminate). inversion H.
  - intros t (b & now & src & st & d & r & a & E & _). destruct b; discriminate.
  - reflexivity.
  - intros g [(c0 & st & rs & H)|(c0 & H)]; [inversion H|destruct (Hr _ _ H)].
  - intros c0 g (fs & ts & ns & H). destruct (Hr _ _ H).
Qed.
Lemma fine_run c rs : c_max_waiting c < 0 → always (polite_graphs utf8) (s_log (run c rs)) → fine (run c rs).
Proof.
  intros Hw. induction rs as [|r rs IH] using rev_ind; intros Hp; [apply fine_start|]. rewrite run_snoc in *.
  destruct (step_log (run c rs) r) as (l & El & Hl). rewrite El in Hp.
  assert (F : fine (run c rs)) by (apply IH; eapply always_inv, Hp). apply fine_step; [exact Hw|exact F|].
  destruct F as (xt & g & [Hc _] & _). destruct (Hl (c_dead _ _ _ _ _ Hc)) as [l' ->]. exact (Hp _ _ _ eq_refl).
Qed.
(** C73 *)
Lemma survives_graphs_lemma c rs : c_max_waiting c < 0 → always (polite_graphs utf8) (s_log (run c rs)) → s_dead (run c rs) = None.
Proof. intros Hw Hp. destruct (fine_run c rs Hw Hp) as (xt & g & [Hc _] & _). exact (c_dead _ _ _ _ _ Hc). Qed.

(** ** Progress of graphs *)
(** An id is submitted once. *)
Lemma named_once h c g fs ts ns c' m' x : always (polite_graphs utf8) h → received c (MGraphTask g fs ts ns) h → received c' m' h → named x (MGraphTask g fs ts ns) → named x m' → c = c' ∧ MGraphTask g fs ts ns = m'.
Proof.
  intros Hp. induction h as [|e h IH] using rev_ind; intros H1 H2 N1 N2; [destruct H1 as (? & H1); inversion H1|].
  apply received_snoc in H1 as [H1|(now1 & E1)], H2 as [H2|(now2 & E2)].
  - apply IH; auto. eapply always_inv, Hp.
  - exfalso. subst e. pose proof (Hp h _ [] eq_refl) as (_ & _ & Hm). destruct m'; try contradiction.
    + destruct Hm as [Hm _]. cbn in N2. subst x. exact (Hm _ _ _ _ _ H1 N1).
    + destruct Hm as [_ Hm]. exact (Hm x N2 _ _ H1 N1).
  - exfalso. subst e. pose proof (Hp h _ [] eq_refl) as (_ & _ & _ & Hm). exact (Hm x N1 _ _ H2 N2).
  - rewrite E1 in E2. injection E2 as _ -> ->. auto.
Qed.
Lemma task_in_hand c rs xt g t : okay xt g (run c rs) → world None (s_log (run c rs)) xt (s_tasks (run c rs)) → is_Some (s_tasks (run c rs) !! t) → in_hand t (s_log (run c rs)).
Proof.
  intros O W Ht. pose proof O as [H _]. apply elem_of_dom in Ht. rewrite (c_places _ _ _ _ _ H) in Ht. apply elem_of_union in Ht as [Ht|Ht].
  - left. apply elem_of_list_to_set in Ht. eapply waits_run; eauto.
  - right. rewrite (c_running _ _ _ _ _ H), (ledger_run _ _ _ _ _ H) in Ht. cbn in Ht. rewrite (right_id_L ∅ (∪)) in Ht. apply elem_of_dom in Ht as [w Hw]. exists w. split; [exact Hw|].
    destruct (Inv2_run c rs) as [_ H2]. specialize (H2 (c_dead _ _ _ _ _ H)). apply (proj1 (allocd_ok _ _ (i2_alloc _ _ H2)) t w Hw).
Qed.
Lemma held_task c rs xt g t : okay xt g (run c rs) → is_Some (holder (s_log (run c rs)) !! t) → is_Some (s_tasks (run c rs) !! t).
Proof.
  intros [H _] Ht. apply elem_of_dom. rewrite (c_places _ _ _ _ _ H), (c_running _ _ _ _ _ H), (ledger_run _ _ _ _ _ H). apply elem_of_union. right. apply elem_of_union. left. apply elem_of_dom. exact Ht.
Qed.
Lemma out_some (m : gmap bytes (Z * list bytes)) : 0 < outs m → ∃ t sc, m !! t = Some (-1, sc).
Proof.
  unfold outs. intros H. assert (filter (λ p : bytes * (Z * list bytes), p.2.1 = -1) m ≠ ∅) as Hne.
  { intros E. rewrite E, map_size_empty in H. lia. }
  apply map_choose in Hne as (t & [k sc] & E). apply map_filter_lookup_Some in E as [E Ek]. cbn in Ek. subst k. eauto.
Qed.
Lemma in_refs x (k : task) : x ∈ references (task_args k) ↔ ArgTask x ∈ task_args k.
Proof.
  unfold references. rewrite elem_of_list_omap. split.
  - intros ([d|y] & Hy & E); [discriminate|]. injection E as ->. exact Hy.
  - intros H. eexists. split; [exact H|reflexivity].
Qed.
(** C74 *)
Lemma graph_progress_lemma c rs cl g fs ts ns : let h := s_log (run c rs) in c_max_waiting c < 0 → always (polite_graphs utf8) h →
  received cl (MGraphTask g fs ts ns) h → open_graph g h →
  (∃ n, n ∈ ns ∧ in_hand (task_id n) h) ∧
  ∀ n, n ∈ ns →
    (settled (task_id n) h ∧ ¬ in_hand (task_id n) h) ∨
    (in_hand (task_id n) h ∧ ¬ settled (task_id n) h ∧ ∀ x, ArgTask x ∈ task_args n → settled x h) ∨
    (holder h !! task_id n = None ∧ ¬ settled (task_id n) h ∧ ∃ x, ArgTask x ∈ task_args n ∧ ¬ settled x h).
Proof.
  intros h Hw Hp Hr Ho. destruct (fine_run c rs Hw Hp) as (xt & l & O & W). fold h in W. destruct (open_is _ _ _ _ W Ho) as [i Hi].
  pose proof O as [Hcore _]. pose proof (c_dead _ _ _ _ _ Hcore) as Hd. destruct (Inv3_run c rs) as [_ H3]. destruct (H3 Hd) as [ev I3']. clear H3. fold h in I3'.
  destruct (wd_calm _ _ _ _ W _ _ Hi ltac:(discriminate)) as ((c0 & fs0 & ts0 & ms & Hr' & gr & L & Hrdy & Hact) & Hset).
  destruct (named_once h _ _ _ _ _ _ _ g Hp Hr Hr') as [_ E]; [left; reflexivity|left; reflexivity|]. injection E as _ _ <-. clear Hr'.
  set (tk := s_tasks (run c rs)) in *. set (N := x_inactive xt) in *. set (so := g_sorter i) in *.
  assert (Hids : ∀ t, t ∈ g_ids i ↔ t ∈ task_id <$> ns). { intros t. rewrite (lv_ids _ _ _ _ _ _ _ _ _ L). apply elem_of_list_to_set. }
  assert (Hnil : ∀ t, t ∈ @nil bytes → False) by (intros t Ht; inversion Ht).
  assert (Hbusy : ∀ t sc, so_info so !! t = Some (-1, sc) → is_Some (tk !! t)). { intros t sc Ht. apply (lv_run _ _ _ _ _ _ _ _ _ L t sc Ht). intros H. destruct (Hnil _ H). }
  assert (Htset : ∀ t, is_Some (tk !! t) → ¬ settled t h). { intros t [k Hk] Hs. destruct (wd_settled _ _ _ _ W _ Hs) as (_ & E & _). fold tk in E. congruence. }
  assert (Hcases : ∀ t, t ∈ task_id <$> ns → unhanded so t ∨ (∃ sc, so_info so !! t = Some (-1, sc)) ∨ is_done so t).
  { intros t Ht. apply (node_cases gr); [apply (lv_sorted _ _ _ _ _ _ _ _ _ L)|]. apply (lv_in _ _ _ _ _ _ _ _ _ L), Ht. }
  assert (Hdset : ∀ t, t ∈ task_id <$> ns → is_done so t → settled t h ∧ tk !! t = None).
  { intros t Ht Hdn. assert (Htk : tk !! t = None) by apply (lv_done _ _ _ _ _ _ _ _ _ L t Hdn). split; [|exact Htk]. apply Hset; [apply Hids, Ht| |exact Htk]. destruct (N !! t) eqn:E; [|reflexivity].
    destruct (lv_N _ _ _ _ _ _ _ _ _ L t Ht ltac:(eauto)) as [(k & sc & E1 & Hk)|H]; [|destruct (Hnil _ H)].
    destruct Hdn as [sc' E2]. fold so in E1. rewrite E1 in E2. injection E2 as -> _. lia. }
  assert (Huset : ∀ t, t ∈ task_id <$> ns → unhanded so t → ¬ settled t h ∧ tk !! t = None).
  { intros t Ht Hu. apply elem_of_list_fmap in Ht as (m & -> & Hm). destruct (lv_wait _ _ _ _ _ _ _ _ _ L m Hm (or_introl Hu)) as (_ & E & _). split.
    - intros Hs. destruct (wd_settled _ _ _ _ W _ Hs) as (_ & _ & E2 & _). fold N in E2. congruence.
    - apply (c_inactive _ _ _ _ _ Hcore) in E. apply E. }
  assert (Hnotdone : ∀ t, t ∈ task_id <$> ns → ¬ is_done so t → ¬ settled t h).
  { intros t Ht Hnd. destruct (Hcases t Ht) as [Hu|[[sc Hu]|Hu]]; [apply Huset; assumption|eapply Htset, Hbusy, Hu|contradiction]. }
  assert (Hpin : ∀ n x, n ∈ ns → ArgTask x ∈ task_args n → x ∈ task_id <$> ns).
  { intros n x Hn Hx. apply (lv_in _ _ _ _ _ _ _ _ _ L). right. exists (task_id n). apply (lv_pr _ _ _ _ _ _ _ _ _ L); [exact Hn|]. apply in_refs, Hx. }
  assert (Hheld : ∀ t, holder h !! t = None ∨ is_Some (tk !! t)).
  { intros t. destruct (holder h !! t) as [w|] eqn:E; [|auto]. right. eapply held_task; [exact O|]. fold h. eauto. }
  split.
  - assert (0 < outs (so_info so)) as Hout. { pose proof (lv_balanced _ _ _ _ _ _ _ _ _ L) as Hb. unfold balanced in Hb. fold so in Hb, Hact. lia. }
    apply out_some in Hout as (t & sc & Ht). assert (Hin : t ∈ task_id <$> ns). { apply (lv_in _ _ _ _ _ _ _ _ _ L), (st_dom _ _ _ (lv_sorted _ _ _ _ _ _ _ _ _ L)). fold so. eauto. }
    apply elem_of_list_fmap in Hin as (n & -> & Hn). exists n. split; [exact Hn|]. eapply task_in_hand; [exact O|exact W|eapply Hbusy, Ht].
  - intros n Hn. assert (Hin : task_id n ∈ task_id <$> ns) by (apply elem_of_list_fmap; eauto). destruct (Hcases _ Hin) as [Hu|[[sc Hu]|Hu]].
    + right. right. destruct (Huset _ Hin Hu) as [E1 E2]. split; [destruct (Hheld (task_id n)) as [?|[? ?]]; [assumption|congruence]|]. split; [exact E1|].
      destruct Hu as (k & sc & E & Hk). pose proof (lv_sorted _ _ _ _ _ _ _ _ _ L) as [S1 S2 [_ S3] S4]. fold so in S1, S2, S3, Hrdy.
      assert (k ≠ 0). { intros ->. assert (task_id n ∈ so_ready so) as Hx by (apply S3; eauto). rewrite Hrdy in Hx. destruct (Hnil _ Hx). }
      destruct (S1 _ _ _ E) as (_ & _ & [([?|?] & _)|[_ Ek]]); [lia..|]. rewrite decide_False in Ek by (intros Hx; destruct (Hnil _ Hx)).
      destruct (open_preds so (pr gr (task_id n))) as [|x l0] eqn:Eo; [cbn in Ek; lia|]. assert (x ∈ open_preds so (pr gr (task_id n))) as Hx by (rewrite Eo; left).
      apply elem_of_list_filter in Hx as [Hx1 Hx2]. apply (lv_pr _ _ _ _ _ _ _ _ _ L _ _ Hn), in_refs in Hx2. exists x. split; [exact Hx2|]. apply Hnotdone; [eapply Hpin; eauto|exact Hx1].
    + right. left. split; [eapply task_in_hand; [exact O|exact W|eapply Hbusy, Hu]|]. split; [eapply Htset, Hbusy, Hu|]. intros x Hx.
      pose proof (lv_sorted _ _ _ _ _ _ _ _ _ L) as [S1 S2 [_ S3] S4]. fold so in S1. destruct (S1 _ _ _ Hu) as (_ & _ & [(_ & Eo & _)|[? _]]); [|lia].
      apply (Hdset x); [eapply Hpin; eauto|]. destruct (decide (is_done so x)) as [|Hnd]; [assumption|exfalso]. assert (x ∈ open_preds so (pr gr (task_id n))) as Hy.
      { apply elem_of_list_filter. split; [exact Hnd|]. apply (lv_pr _ _ _ _ _ _ _ _ _ L _ _ Hn), in_refs, Hx. }
      rewrite Eo in Hy. destruct (Hnil _ Hy).
    + left. destruct (Hdset _ Hin Hu) as [E1 E2]. split; [exact E1|]. intros [(_ & _ & E3)|(w & E3 & _)]; [auto|]. destruct (Hheld (task_id n)) as [?|[? ?]]; congruence.
Qed.
(** Every submitted graph whose round has come is open, answered or cancelled. *)
Lemma graph_where c rs cl g : let h := s_log (run c rs) in c_max_waiting c < 0 → always (polite_graphs utf8) h → graph_from cl g h →
  g ∈ pending_graphs h ∨ open_graph g h ∨ graph_answered g h ∨ graph_cancelled g h.
Proof.
  intros h Hw Hp Hf. destruct (fine_run c rs Hw Hp) as (xt & l & O & W). fold h in W. destruct (wd_open _ _ _ _ W _ _ Hf) as [?|[[i Hi]|Ho]]; [auto| |right; right; exact Ho]. right. left. eapply open_of; eauto.
Qed.
Lemma graph_finished_lemma c rs cl g fs ts ns : let h := s_log (run c rs) in c_max_waiting c < 0 → always (polite_graphs utf8) h →
  received cl (MGraphTask g fs ts ns) h → g ∉ pending_graphs h → ¬ graph_cancelled g h → (∀ n, n ∈ ns → settled (task_id n) h) → graph_answered g h.
Proof.
  intros h Hw Hp Hr Hq Hc Hall. destruct (graph_where c rs cl g Hw Hp) as [?|[Ho|[?|?]]]; [exists fs, ts, ns; exact Hr|contradiction| |assumption|contradiction].
  destruct (graph_progress_lemma c rs cl g fs ts ns Hw Hp Hr Ho) as [(n & Hn & Hi) Hn2]. exfalso. destruct (Hn2 n Hn) as [[_ ?]|[(_ & ? & _)|(_ & ? & _)]]; auto.
Qed.
