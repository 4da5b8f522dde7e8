(** Graphs under well-behaved traffic (C73, C74): the state of one graph. *)

From Verif.Model Require Import Base OneToManyDict PriorityQueue Allocator Message Sorter Scheduler.
From Verif.Spec Require Import AllocatorSpec DictSpec SchedulerSpec TrafficSpec.
From Verif.Proofs Require Import BaseProofs DictProofs AllocatorProofs SchedWp SchedCount SchedHold SchedContent SchedSend SchedPrim SchedFn SchedGlobal SchedStep SchedRemove SchedPlain SorterProofs.

(** ** No cycle when ranks decrease *)
Lemma exists_least {A} (f : A → nat) (l : list A) : l ≠ [] → ∃ x, x ∈ l ∧ ∀ y, y ∈ l → (f x <= f y)%nat.
Proof.
  induction l as [|a l IH]; [done|]. intros _. destruct l as [|b l].
  - exists a. split; [left|]. intros y ->%elem_of_list_singleton. lia.
  - destruct IH as (x & Hx & Hl); [done|]. destruct (decide (f a <= f x)%nat).
    + exists a. split; [left|]. intros y [->|Hy]%elem_of_cons; [lia|]. specialize (Hl _ Hy). lia.
    + exists x. split; [right; exact Hx|]. intros y [->|Hy]%elem_of_cons; [lia|auto].
Qed.
Lemma filter_length_lt {A} (f : A → bool) l x : x ∈ l → f x = false → (length (List.filter f l) < length l)%nat.
Proof.
  induction l as [|a l IH]; intros Hx Hf; [inversion Hx|]. cbn.
  assert (length (List.filter f l) <= length l)%nat as Hle. { clear. induction l as [|b l IH]; cbn; [lia|]. destruct (f b); cbn; lia. }
  apply elem_of_cons in Hx as [->|Hx]; [rewrite Hf; lia|]. specialize (IH Hx Hf). destruct (f a); cbn; lia.
Qed.
Lemma eliminate_all gr (rank : bytes → nat) : (∀ n p, p ∈ pr gr n → (rank p < rank n)%nat) →
  ∀ r gone order, (length order <= r)%nat → (∀ n p, n ∈ order → p ∈ pr gr n → p ∈ gone ∨ p ∈ order) → eliminate r gr gone order = [].
Proof.
  intros Hr r. induction r as [|r IH]; intros gone order Hl Hc; cbn [eliminate]; [destruct order; [reflexivity|cbn in Hl; lia]|].
  set (blocked := λ n, existsb _ gr). apply IH.
  - destruct order as [|o order']; [cbn; lia|]. set (order := o :: order') in *.
    destruct (exists_least rank order ltac:(done)) as (x & Hx & Hmin).
    assert (blocked x = false) as Hb.
    { apply not_true_iff_false. intros Hb. apply existsb_exists in Hb as ([n ps] & Hin & Hb). cbn in Hb. apply andb_true_iff in Hb as [E Hb].
      apply String.eqb_eq in E as ->. apply existsb_exists in Hb as (p & Hp & Hg). apply negb_true_iff, bool_decide_eq_false in Hg.
      assert (p ∈ pr gr x) as Hpr. { apply elem_of_pr. exists ps. split; apply elem_of_list_In; assumption. }
      destruct (Hc x p Hx Hpr) as [?|Hpo]; [auto|]. specialize (Hmin _ Hpo). specialize (Hr _ _ Hpr). lia. }
    pose proof (filter_length_lt blocked order x Hx Hb). lia.
  - intros n p Hn Hp. apply elem_of_list_In, filter_In in Hn as [Hn _]. apply elem_of_list_In in Hn.
    destruct (Hc _ _ Hn Hp) as [?|Ho]; [set_solver|]. destruct (blocked p) eqn:Eb.
    + right. apply elem_of_list_In, filter_In. split; [apply elem_of_list_In; exact Ho|exact Eb].
    + left. apply elem_of_union_r, elem_of_list_to_set, elem_of_list_In, filter_In. split; [apply elem_of_list_In; exact Ho|]. change (negb (blocked p) = true). rewrite Eb. reflexivity.
Qed.
Lemma prepare_ok gr (rank : bytes → nat) : good_dict gr → (∀ n p, p ∈ pr gr n → (rank p < rank n)%nat) → ∃ s, so_prepare gr (so_of_graph gr) = Ok s.
Proof.
  intros Hg Hr. unfold so_prepare, has_cycle. pose proof (built_of_graph gr Hg) as [_ _ [_ H4] _]. rewrite (eliminate_all gr rank Hr); [eauto|lia|].
  intros n p _ Hp. right. apply H4. right. eauto.
Qed.

(** ** The invariant of one graph *)
Notation dict := (list (bytes * list bytes)).
Definition depends (d : kvs bytes bytes) (a t : bytes) : Prop := ∃ S, d !! a = Some S ∧ t ∈ S.

(** [L]: nodes the sorter has handed out that are not started yet;
    [cur]: the node being started and the arguments it has not collected yet. *)
Record live (T N : gmap bytes bytes) (tk : gmap bytes task) (L : list bytes) (cur : option (bytes * list bytes))
    (gid : bytes) (i : graph) (ns : list task) (gr : dict) : Prop := {
  lv_ids : g_ids i = list_to_set (task_id <$> ns);
  lv_nodup : NoDup (task_id <$> ns);
  lv_refs n : n ∈ ns → NoDup (references (task_args n));
  lv_targets t : t ∈ g_targets i → t ∈ task_id <$> ns;
  lv_pr n x : n ∈ ns → x ∈ pr gr (task_id n) ↔ x ∈ references (task_args n);
  lv_in t : node_in gr t ↔ t ∈ task_id <$> ns;
  lv_sorted : sorted gr [] (g_sorter i);
  lv_balanced : balanced (g_sorter i);
  lv_acyclic : acyclic gr;
  lv_L t : t ∈ L → ∃ sc, so_info (g_sorter i) !! t = Some (-1, sc);
  lv_wait n : n ∈ ns → unhanded (g_sorter i) (task_id n) ∨ task_id n ∈ L →
    g_nodes i !! task_id n = Some (NodeInfo NInactive n None) ∧ N !! task_id n = Some (task_function n) ∧ T !! task_id n = Some gid;
  lv_run t sc : so_info (g_sorter i) !! t = Some (-1, sc) → t ∉ L →
    (∃ k, g_nodes i !! t = Some (NodeInfo NRunning k None)) ∧ is_Some (tk !! t) ∧ T !! t = Some gid;
  lv_done t : is_done (g_sorter i) t → tk !! t = None ∧
    ((∃ k r, g_nodes i !! t = Some (NodeInfo NSuccess k (Some r)) ∧ T !! t = Some gid) ∨ (g_nodes i !! t = None ∧ T !! t = None ∧ t ∉ g_targets i ∧ g_deps i !! t = None));
  lv_N t : t ∈ task_id <$> ns → is_Some (N !! t) → unhanded (g_sorter i) t ∨ t ∈ L;
  lv_deps a t : depends (g_deps i) a t ↔ (∃ n, n ∈ ns ∧ task_id n = t ∧ a ∈ references (task_args n)) ∧
    (unhanded (g_sorter i) t ∨ t ∈ L) ∧ (∀ l, cur = Some (t, l) → a ∈ l);
  lv_depsne a S : g_deps i !! a = Some S → S ≠ ∅;
  lv_nodes t : is_Some (g_nodes i !! t) → t ∈ task_id <$> ns }.

Lemma not_done_handed s t sc : so_info s !! t = Some (-1, sc) → ¬ is_done s t ∧ ¬ unhanded s t.
Proof. intros E. split; [intros [? ?]; congruence|]. intros (k & ? & E' & ?). rewrite E in E'. injection E' as <- <-. lia. Qed.
Lemma done_not_unhanded s t : is_done s t → ¬ unhanded s t.
Proof. intros [sc E] (k & sc' & E' & Hk). rewrite E in E'. injection E' as <- <-. lia. Qed.
Lemma node_cases gr s t : sorted gr [] s → node_in gr t → unhanded s t ∨ (∃ sc, so_info s !! t = Some (-1, sc)) ∨ is_done s t.
Proof.
  intros [H1 H2 _ _] Hn. apply H2 in Hn as [[k sc] E]. destruct (H1 _ _ _ E) as (_ & _ & [[[->| ->] _]|[Hk _]]).
  - right. right. exists sc. exact E.
  - right. left. eauto.
  - left. exists k, sc. auto.
Qed.
Lemma by_id ns (n n' : task) : NoDup (task_id <$> ns) → n ∈ ns → n' ∈ ns → task_id n = task_id n' → n = n'.
Proof.
  induction ns as [|a ns IH]; [set_solver|]. cbn. intros [Ha Hd]%NoDup_cons [->|Hn]%elem_of_cons [->|Hn']%elem_of_cons E; [reflexivity| | |auto].
  - destruct Ha. rewrite E. apply elem_of_list_fmap. eauto.
  - destruct Ha. rewrite <- E. apply elem_of_list_fmap. eauto.
Qed.

(** What happens to other tasks does not matter. *)
Lemma live_frame T N tk T' N' tk' L cur gid i ns gr : live T N tk L cur gid i ns gr →
  (∀ t, t ∈ task_id <$> ns → T' !! t = T !! t ∧ N' !! t = N !! t ∧ (is_Some (tk' !! t) ↔ is_Some (tk !! t))) →
  live T' N' tk' L cur gid i ns gr.
Proof.
  intros [H1 H2 H3 H4 H5 H6 H7 H8 H9 H10 H11 H12 H13 H14 H15 H16 H17] Hf. split; auto.
  - intros n Hn Hs. destruct (Hf (task_id n)) as (-> & -> & _); [apply elem_of_list_fmap; eauto|auto].
  - intros t sc E HL. destruct (Hf t) as (-> & _ & ->); [|eauto]. apply H6, (st_dom _ _ _ H7). eauto.
  - intros t Hd. destruct (H13 _ Hd) as [A B]. destruct (Hf t) as (-> & _ & C); [|split; [|exact B]].
    + apply H6, (st_dom _ _ _ H7). destruct Hd as [sc Hd]. eauto.
    + destruct (tk' !! t); [|reflexivity]. destruct C as [C _]. rewrite A in C. destruct C; [eauto|discriminate].
  - intros t Ht. destruct (Hf t Ht) as (_ & -> & _). auto.
Qed.

(** ** Changing the graph tables *)
Lemma core_graphs_to Q G T D N pk g fl s G' f : core (Ext Q G T D N) pk g fl s → f G = G' → core (Ext Q G' T D N) pk g fl (set_graphs f s).
Proof. intros [] <-. split; ss; auto. cbn in *. congruence. Qed.
Lemma core_t2g_to Q G T D N pk g fl s T' f : core (Ext Q G T D N) pk g fl s → f T = T' → core (Ext Q G T' D N) pk g fl (set_t2g f s).
Proof. intros [] <-. split; ss; auto. cbn in *. congruence. Qed.
Lemma core_queue_to Q G T D N pk g fl s Q' f : core (Ext Q G T D N) pk g fl s → f Q = Q' → core (Ext Q' G T D N) pk g fl (set_gqueue f s).
Proof. intros [] <-. split; ss; auto. cbn in *. congruence. Qed.

(** ** Dependents *)
Lemma depends_remove d a t : depends d a t → (∀ b S, d !! b = Some S → S ≠ ∅) → ∃ d', kvs_remove_value d a t = Ok d' ∧
  (∀ b u, depends d' b u ↔ depends d b u ∧ ¬ (b = a ∧ u = t)) ∧ (∀ b S, d' !! b = Some S → S ≠ ∅) ∧ (∀ b, b ≠ a → d' !! b = d !! b).
Proof.
  intros (S & HS & Ht) Hne. unfold kvs_remove_value. rewrite HS, bool_decide_eq_true_2 by exact Ht. eexists. split; [reflexivity|]. case_bool_decide as Hd.
  - assert (∀ u, u ∈ S → u = t) as Hall. { intros u Hu. destruct (decide (u = t)) as [|Hn]; [assumption|]. assert (u ∈ S ∖ {[t]}) by set_solver. rewrite Hd in *. set_solver. }
    split; [|split].
    + intros b u. unfold depends. split.
      * intros (S' & [Hb HS']%lookup_delete_Some & Hu). split; [eauto|]. intros [-> _]. auto.
      * intros [(S' & HS' & Hu) Hn]. exists S'. split; [|exact Hu]. apply lookup_delete_Some. split; [|exact HS']. intros <-. apply Hn. split; [reflexivity|]. apply Hall. congruence.
    + intros b S' [_ HS']%lookup_delete_Some. eauto.
    + intros b Hb. apply lookup_delete_ne. auto.
  - split; [|split].
    + intros b u. unfold depends. destruct (decide (b = a)) as [->|Hb].
      * rewrite lookup_insert. split.
        -- intros (S' & [= <-] & Hu). apply elem_of_difference in Hu as [Hu Hn]. split; [eauto|]. intros [_ ->]. set_solver.
        -- intros [(S' & HS' & Hu) Hn]. rewrite HS in HS'. injection HS' as <-. exists (S ∖ {[t]}). split; [reflexivity|]. apply elem_of_difference. split; [exact Hu|]. rewrite elem_of_singleton. auto.
      * rewrite lookup_insert_ne by auto. split; [intros H; split; [exact H|tauto]|tauto].
    + intros b S' [[<- <-]|[_ HS']]%lookup_insert_Some; [exact Hd|eauto].
    + intros b Hb. apply lookup_insert_ne. auto.
Qed.

(** Same graph but for the node table and the dependents. *)
Definition like (i i' : graph) : Prop := g_targets i' = g_targets i ∧ g_ids i' = g_ids i ∧ g_sorter i' = g_sorter i ∧ g_client i' = g_client i.
Lemma like_refl i : like i i. Proof. repeat split. Qed.
Lemma like_trans i j k : like i j → like j k → like i k.
Proof. intros (? & ? & ? & ?) (? & ? & ? & ?). repeat split; congruence. Qed.

(** [__get_task_result] *)
Lemma task_result_spec Q G T D N pk g s gid i ns gr L n a rest tk :
  core (Ext Q G T D N) pk g [] s → G !! gid = Some i → n ∈ ns → live T N tk L (Some (task_id n, a :: rest)) gid i ns gr → task_id n ∈ L →
  a ∉ rest → a ∈ references (task_args n) →
  wp (gm_task_result gid (task_id n) a) (λ r s', ∃ i' T', s' = set_t2g (λ _, T') (set_graphs (λ _, <[gid := i']> G) s) ∧
     core (Ext Q (<[gid := i']> G) T' D N) pk g [] s' ∧ like i i' ∧ live T' N tk L (Some (task_id n, rest)) gid i' ns gr ∧
     (∀ t, t ∉ g_ids i → T' !! t = T !! t) ∧ (∀ t x, T' !! t = Some x → T !! t = Some x) ∧ g_nodes i' !! task_id n = g_nodes i !! task_id n) no_exn s.
Proof.
  intros H HG Hn Hl HL Hnr Har. set (t := task_id n) in *. pose proof Hl as [H1 H2 H3 H4 H5 H6 H7 H8 H9 H10 H11 H12 H13 H14 H15 H16 H17].
  assert (Ha : is_done (g_sorter i) a).
  { destruct (H10 _ HL) as [sc E]. destruct (st_info _ _ _ H7 _ _ _ E) as (_ & _ & [(_ & C & _)|[? _]]); [|lia].
    destruct (decide (is_done (g_sorter i) a)) as [|Hd]; [assumption|]. assert (a ∈ open_preds (g_sorter i) (pr gr t)) as Hx; [|rewrite C in Hx; inversion Hx].
    apply open_preds_in. split; [apply H5; assumption|exact Hd]. }
  assert (Hat : a ≠ t). { intros ->. destruct (H10 _ HL) as [sc E]. apply not_done_handed in E as [E _]. auto. }
  assert (HaL : a ∉ L). { intros [sc E]%H10. apply not_done_handed in E as [E _]. auto. }
  assert (Hdep : depends (g_deps i) a t). { apply H15. split; [exists n; auto|]. split; [auto|]. intros l [= <-]. left. }
  destruct (depends_remove _ _ _ Hdep H16) as (d' & Ed & Hd' & Hne & Hother).
  destruct (H13 _ Ha) as (Hatk & [(k & r & Hna & HTa)|(_ & _ & _ & Hx)]). 2:{ destruct Hdep as (S & HS & _). congruence. }
  assert (Hain : a ∈ g_ids i). { rewrite H1. apply elem_of_list_to_set, H6, (st_dom _ _ _ H7). destruct Ha as [sc Ha]. eauto. }
  unfold gm_task_result, gm_graph, gm_store. wgo. rewrite (c_graphs _ _ _ _ _ H). cbn [x_graphs]. rewrite HG. cbn [from_option_exn]. apply wp_ok. wgo. rewrite Ed. apply wp_ok. wgo.
  cbn [set_deps g_nodes]. rewrite Hna. cbn [from_option_exn ni_result]. apply wp_ok. wgo. cbn [from_option_exn ni_result]. apply wp_ok.
  assert (Hdeps' : ∀ b u, depends d' b u ↔ (∃ n, n ∈ ns ∧ task_id n = u ∧ b ∈ references (task_args n)) ∧ (unhanded (g_sorter i) u ∨ u ∈ L) ∧ (∀ l, Some (t, rest) = Some (u, l) → b ∈ l)).
  { intros b u. rewrite Hd', H15. split.
    - intros [(A & B & C) E]. split; [exact A|]. split; [exact B|]. intros l [= <- <-]. specialize (C _ eq_refl). apply elem_of_cons in C as [->|C]; [tauto|exact C].
    - intros (A & B & C). split; [split; [exact A|]; split; [exact B|]; intros l [= <- <-]; right; eauto|]. intros [-> ->]. apply Hnr. eauto. }
  assert (Hfin : kvs_contains d' a = true ∨ a ∈ g_targets i → ∃ i' T', set_graphs (<[gid := set_deps d' i]>) s = set_t2g (λ _, T') (set_graphs (λ _, <[gid := i']> G) s) ∧
     core (Ext Q (<[gid := i']> G) T' D N) pk g [] (set_graphs (<[gid := set_deps d' i]>) s) ∧ like i i' ∧ live T' N tk L (Some (t, rest)) gid i' ns gr ∧
     (∀ t, t ∉ g_ids i → T' !! t = T !! t) ∧ (∀ t x, T' !! t = Some x → T !! t = Some x) ∧ g_nodes i' !! t = g_nodes i !! t).
  { intros Hkeep. exists (set_deps d' i), T. split. { rewrite <- (c_t2g _ _ _ _ _ H : s_t2g s = T), <- (c_graphs _ _ _ _ _ H : s_graphs s = G). destruct s; reflexivity. }
    split; [eapply core_graphs_to; [exact H|reflexivity]|]. split; [repeat split|]. split; [|auto]. split; cbn; auto.
    intros x Hx. destruct (H13 _ Hx) as [A B]. split; [exact A|]. destruct (decide (x = a)) as [->|Hxa]; [left; eauto|]. rewrite Hother by exact Hxa. exact B. }
  destruct (kvs_contains d' a) eqn:Ec; [wgo; apply Hfin; auto|]. case_bool_decide as Ht; [wgo; apply Hfin; auto|]. clear Hfin. wgo.
  unfold kvs_contains in Ec. apply bool_decide_eq_false in Ec.
  rewrite (c_t2g _ _ _ _ _ H). cbn [x_t2g]. rewrite HTa. cbn [from_option_exn]. apply wp_ok. wgo.
  exists (set_nodes (delete a (g_nodes i)) (set_deps d' i)), (delete a T). split.
  { rewrite <- (c_t2g _ _ _ _ _ H : s_t2g s = T), <- (c_graphs _ _ _ _ _ H : s_graphs s = G). destruct s; unfold set_graphs, set_t2g; cbn. rewrite insert_insert. reflexivity. }
  split. { eapply core_graphs_to; [eapply core_t2g_to; [eapply core_graphs_to; [exact H|reflexivity]|reflexivity]|apply insert_insert]. }
  split; [repeat split|]. split; [|split; [|split]]; cbn.
  2:{ intros x Hx. apply lookup_delete_ne. intros <-. auto. }
  2:{ intros x y [_ Hx]%lookup_delete_Some. exact Hx. }
  2:{ apply lookup_delete_ne. exact Hat. }
  split; cbn; auto.
  - intros n' Hn' Hs. assert (task_id n' ≠ a) as Hna'. { intros E. rewrite E in Hs. destruct Hs as [Hs|Hs]; [apply (done_not_unhanded _ _ Ha Hs)|auto]. }
    rewrite !lookup_delete_ne by auto. auto.
  - intros x sc Hx HxL. assert (x ≠ a). { intros ->. apply not_done_handed in Hx as [Hx _]. auto. } rewrite !lookup_delete_ne by auto. eauto.
  - intros x Hx. destruct (H13 _ Hx) as [A B]. split; [exact A|]. destruct (decide (x = a)) as [->|Hxa].
    + right. split; [apply lookup_delete|]. split; [apply lookup_delete|]. split; [exact Ht|]. destruct (d' !! a) eqn:E; [|reflexivity]. destruct Ec; eauto.
    + rewrite !lookup_delete_ne, Hother by auto. exact B.
  - intros x [y Hx]. apply lookup_delete_Some in Hx as [_ Hx]. eauto.
Qed.

Lemma store_store s G T G' T' : set_t2g (λ _, T') (set_graphs (λ _, G') (set_t2g (λ _, T) (set_graphs (λ _, G) s))) = set_t2g (λ _, T') (set_graphs (λ _, G') s).
Proof. destruct s; reflexivity. Qed.
Lemma store_same s Q G T D N pk g fl : core (Ext Q G T D N) pk g fl s → s = set_t2g (λ _, T) (set_graphs (λ _, G) s).
Proof. intros H. rewrite <- (c_t2g _ _ _ _ _ H : s_t2g s = T), <- (c_graphs _ _ _ _ _ H : s_graphs s = G). destruct s; reflexivity. Qed.

(** [__get_argument] over the arguments *)
Lemma arguments_spec gid n ns gr L tk args : ∀ Q G T D N pk g s i,
  core (Ext Q G T D N) pk g [] s → G !! gid = Some i → n ∈ ns → live T N tk L (Some (task_id n, references args)) gid i ns gr → task_id n ∈ L →
  NoDup (references args) → (∀ a, a ∈ references args → a ∈ references (task_args n)) →
  wp (gm_arguments gid (task_id n) args) (λ _ s', ∃ i' T', s' = set_t2g (λ _, T') (set_graphs (λ _, <[gid := i']> G) s) ∧
     core (Ext Q (<[gid := i']> G) T' D N) pk g [] s' ∧ like i i' ∧ live T' N tk L (Some (task_id n, [])) gid i' ns gr ∧
     (∀ t, t ∉ g_ids i → T' !! t = T !! t) ∧ (∀ t x, T' !! t = Some x → T !! t = Some x) ∧ g_nodes i' !! task_id n = g_nodes i !! task_id n) no_exn s.
Proof.
  induction args as [|[d|a] args IH]; intros Q G T D N pk g s i H HG Hn Hl HL Hnd Hsub; cbn [gm_arguments].
  - wgo. exists i, T. rewrite insert_id by exact HG. split; [eapply store_same, H|]. split; [exact H|]. split; [apply like_refl|]. split; [exact Hl|auto].
  - apply wp_bind. eapply wp_mono; [apply (IH Q G T D N pk g s i H HG Hn Hl HL Hnd Hsub)| |auto]. cbv beta. intros args' s' Hs. wgo. exact Hs.
  - change (references (ArgTask a :: args)) with (a :: references args) in *. apply NoDup_cons in Hnd as [Hna Hnd].
    apply wp_bind. eapply wp_mono; [eapply task_result_spec; [exact H|exact HG|exact Hn|exact Hl|exact HL|exact Hna|apply Hsub; left]| |auto].
    cbv beta. intros r s1 (i1 & T1 & E1 & H1 & K1 & L1 & F1 & M1 & N1). apply wp_bind.
    eapply wp_mono; [eapply (IH Q (<[gid := i1]> G) T1 D N pk g s1 i1 H1); [apply lookup_insert|exact Hn|exact L1|exact HL|exact Hnd|intros b Hb; apply Hsub; right; exact Hb]| |auto].
    cbv beta. intros args' s2 (i2 & T2 & E2 & H2 & K2 & L2 & F2 & M2 & N2). wgo. exists i2, T2. rewrite insert_insert in *.
    split; [rewrite E2, E1; apply store_store|]. split; [exact H2|]. split; [eapply like_trans; eassumption|]. split; [exact L2|].
    split; [|split; [auto|congruence]]. intros x Hx. rewrite F2; [apply F1, Hx|]. destruct K1 as (_ & -> & _). exact Hx.
Qed.

Lemma live_cur T N tk L gid i ns gr n : live T N tk L None gid i ns gr → n ∈ ns → live T N tk L (Some (task_id n, references (task_args n))) gid i ns gr.
Proof.
  intros [H1 H2 H3 H4 H5 H6 H7 H8 H9 H10 H11 H12 H13 H14 H15 H16 H17] Hn. split; auto. intros a t. rewrite H15. split.
  - intros (A & B & _). split; [exact A|]. split; [exact B|]. intros l [= <- <-]. destruct A as (n' & Hn' & E & Ha). rewrite <- (by_id ns n' n) by assumption. exact Ha.
  - intros (A & B & _). split; [exact A|]. split; [exact B|]. discriminate.
Qed.

(** Starting one node *)
Lemma start_spec Q G T D N pk g s gid i ns gr L t :
  core (Ext Q G T D N) pk g [] s → G !! gid = Some i → live T N (s_tasks s) (t :: L) None gid i ns gr → t ∉ L →
  utf8 (g_client i) = true → c_max_waiting (s_cfg s) < 0 → t ∉ D →
  wp (gm_start gid t) (λ _ s', ∃ i' T' k, core (Ext Q (<[gid := i']> G) T' D (delete t N)) true g [] s' ∧ like i i' ∧
     live T' (delete t N) (s_tasks s') L None gid i' ns gr ∧ s_tasks s' = <[t := k]> (s_tasks s) ∧ s_unassigned s' = s_unassigned s ++ [t] ∧ t ∈ g_ids i ∧
     (∀ t, t ∉ g_ids i → T' !! t = T !! t) ∧ (∀ t x, T' !! t = Some x → T !! t = Some x) ∧ s_cfg s' = s_cfg s ∧ s_now s' = s_now s ∧
     o_v2k (s_clients s') = <[t := g_client i]> (o_v2k (s_clients s)) ∧
     ∃ e, internal e ∧ s_log s' = s_log s ++ [LSend (g_client i) (MTaskEcho t SubmitOK); e]) no_exn s.
Proof.
  intros H HG Hl HtL Hu Hw HtD. pose proof Hl as [H1 H2 H3 H4 H5 H6 H7 H8 H9 H10 H11 H12 H13 H14 H15 H16 H17].
  destruct (H10 t) as [sc Hsc]; [left|]. assert (Htn : t ∈ task_id <$> ns). { apply H6, (st_dom _ _ _ H7). eauto. }
  apply elem_of_list_fmap in Htn as (n & -> & Hn). set (t := task_id n) in *.
  destruct (H11 n Hn) as (Hnode & HN & HT). { right. left. }
  unfold gm_start, gm_graph, gm_store. wgo. rewrite (c_graphs _ _ _ _ _ H). cbn [x_graphs]. rewrite HG. cbn [from_option_exn]. apply wp_ok. wgo.
  fold t in Hnode. rewrite Hnode. cbn [from_option_exn]. apply wp_ok. cbn [ni_task]. apply wp_bind.
  eapply wp_mono; [eapply (arguments_spec gid n ns gr (t :: L)); [exact H|exact HG|exact Hn|apply live_cur; eassumption|left|apply H3, Hn|auto]| |auto].
  cbv beta. intros args s1 (i1 & T1 & E1 & K1 & (A1 & A2 & A3 & A4) & L1 & F1 & M1 & N1).
  wgo. rewrite (c_graphs _ _ _ _ _ K1). cbn [x_graphs]. rewrite lookup_insert. cbn [from_option_exn]. apply wp_ok. wgo. rewrite A4.
  set (i2 := set_nodes (<[t := NodeInfo NRunning (Task t (task_function n) args) None]> (g_nodes i1)) i1).
  match goal with |- wp _ _ _ ?s => set (s2 := s) end.
  assert (K2 : core (Ext Q (<[gid := i2]> G) T1 D N) pk g [] s2). { eapply core_graphs_to; [exact K1|apply insert_insert]. }
  assert (Htk : s_tasks s2 = s_tasks s) by (subst s2; rewrite E1; reflexivity).
  pose proof (c_inactive _ _ _ _ _ H _ _ HN) as [Hnone Hfn].
  eapply wp_mono; [apply (new_spec (Ext Q (<[gid := i2]> G) T1 D N) pk g s2 (g_client i) (Task t (task_function n) args) K2)| |auto]; cbn [task_id task_function x_ids x_inactive].
  - exact Hu.
  - rewrite Htk. exact Hnone.
  - exact HtD.
  - right. exact HN.
  - subst s2; rewrite E1; exact Hw.
  - cbv beta. intros _ s3 Hs3. replace (s_funcs s2) with (s_funcs s) in Hs3 by (subst s2; rewrite E1; reflexivity). destruct Hfn as [fi Hfi]. rewrite Hfi in Hs3.
    destruct Hs3 as (K3 & B1 & B2 & B3 & B4 & B5 & B6 & B7 & e & He & Hlog).
    exists i2, T1, (Task t (task_function n) args). split; [exact K3|]. split; [repeat split; assumption|]. split.
    2:{ split; [rewrite B4, Htk; reflexivity|]. split; [rewrite B5; subst s2; rewrite E1; reflexivity|].
        split; [rewrite H1; apply elem_of_list_to_set, elem_of_list_fmap; eauto|]. split; [exact F1|]. split; [exact M1|]. split; [rewrite B1; subst s2; rewrite E1; reflexivity|].
        split; [rewrite B2; subst s2; rewrite E1; reflexivity|]. split; [rewrite B7; subst s2; rewrite E1; reflexivity|]. exists e. split; [exact He|]. rewrite Hlog. subst s2; rewrite E1; reflexivity. }
    clear Hl H1 H3 H4 H5 H7 H8 H9 H10 H11 H12 H13 H14 H15 H16 H17 HT. rewrite B4, Htk.
    pose proof L1 as [P1 P2 P3 P4 P5 P6 P7 P8 P9 P10 P11 P12 P13 P14 P15 P16 P17]. rewrite <- A3 in Hsc.
    destruct (not_done_handed _ _ _ Hsc) as [Hnd Hnu].
    split; cbn; auto.
    + intros x Hx. apply P10. right. exact Hx.
    + intros n' Hn' Hs. assert (task_id n' ≠ t) as Hne. { intros E. rewrite E in Hs. tauto. }
      rewrite lookup_insert_ne by auto. rewrite (lookup_delete_ne N) by auto. apply P11; [exact Hn'|]. destruct Hs as [?|?]; [auto|right; right; assumption].
    + intros x sc' Hx HxL. destruct (decide (x = t)) as [->|Hne].
      * rewrite !lookup_insert. split; [eauto|]. split; [eauto|]. apply (P11 n Hn). right. left.
      * rewrite !lookup_insert_ne by auto. eapply P12; [exact Hx|]. rewrite not_elem_of_cons. auto.
    + intros x Hx. assert (x ≠ t) by (intros ->; auto). rewrite !lookup_insert_ne by auto. auto.
    + intros x Hx [f HN']. apply lookup_delete_Some in HN' as [Hne HN']. destruct (P14 x Hx) as [?|HxL]; [eauto|auto|]. apply elem_of_cons in HxL as [->|?]; [done|auto].
    + intros a x. rewrite P15. split.
      * intros (C1 & C2 & C3). split; [exact C1|]. destruct (decide (x = t)) as [->|Hne].
        -- specialize (C3 _ eq_refl). inversion C3.
        -- split; [|discriminate]. destruct C2 as [C2|C2]; [auto|]. apply elem_of_cons in C2 as [?|?]; [contradiction|auto].
      * intros (C1 & C2 & C3). split; [exact C1|]. split; [destruct C2; [auto|right; right; assumption]|]. intros l [= <- <-]. destruct C2; tauto.
    + intros x Hx. destruct (decide (x = t)) as [->|Hne]; [apply elem_of_list_fmap; eauto|]. rewrite lookup_insert_ne in Hx by auto. auto.
Qed.

(** ** Discarding a graph *)
Definition cleanable (ids : list bytes) (nodes : gmap bytes node_info) (N : gmap bytes bytes) (q : list bytes) : Prop :=
  ∀ t n, t ∈ ids → nodes !! t = Some n → match ni_state n with NInactive => is_Some (N !! t) | NRunning => t ∉ q | _ => True end.

Lemma core_inactive Q G T D N pk g fl s d t : core (Ext Q G T D N) pk g fl s → otm_inv d → is_Some (N !! t) → o_v2k d = delete t (o_v2k (s_ftasks s)) →
  core (Ext Q G T D (delete t N)) pk g fl (set_ftasks (λ _, d) s).
Proof.
  intros [] Hi [f HN] Hd. cbn in *. split; ss; auto; cbn.
  - rewrite Hd, c_ftv, delete_union, (delete_notin (_ <$> _)); [reflexivity|]. apply c_inactive in HN as [HN _]. rewrite lookup_fmap, HN. reflexivity.
  - intros t' f' [_ Hf']%lookup_delete_Some. eauto.
Qed.
Lemma cancel_quiet xt pk g s t done : core xt pk g [] s → t ∉ s_unassigned s →
  wp (tm_cancel done t) (λ _ s', ∃ l, s' = set_log (λ x, x ++ l) s ∧ Forall calm_e l) no_exn s.
Proof.
  intros H Hu. unfold tm_cancel. wgo. rewrite bool_decide_eq_false_2 by exact Hu. assert (Hr : t ∈ s_running s ↔ is_Some (lg_owner g !! t)).
  { rewrite (c_running _ _ _ _ _ H), <- elem_of_dom. clear. set_solver. }
  destruct (lg_owner g !! t) as [w|] eqn:Ew.
  + assert (Hin : t ∈ s_running s) by (apply Hr; eauto). rewrite bool_decide_eq_true_2 by exact Hin. cbn [negb]. wgo. unfold wm_cancel. wgo.
    destruct g as [W O]. rewrite (allocd_get _ _ _ t (exact_allocd _ _ _ (c_alloc _ _ _ _ _ H))). cbn in Ew. rewrite Ew. wgo.
    destruct (core_task _ _ _ _ _ t H) as (k & Hk & _); [auto|].
    match goal with |- wp _ _ _ ?s => set (s1 := s) end.
    destruct (monitor_spec t Canceling k s1 Hk (core_fun _ _ _ _ _ _ _ H Hk)) as (mon & Hmon & Em). eapply wp_eq; [exact Em|]. exists [LSend w (MTaskCancel t); mon].
    split; [subst s1; destruct s; cbn; unfold set_log; cbn; rewrite <- app_assoc; reflexivity|]. repeat constructor. apply internal_calm, Hmon.
  + rewrite bool_decide_eq_false_2. 2:{ intros Hin. apply Hr in Hin as [? ?]; discriminate. } cbn [negb]. wgo. exists []. split; [destruct s; unfold set_log; cbn; rewrite app_nil_r; reflexivity|constructor].
Qed.
(** What cleaning leaves alone. *)
Record tidy (s s' : sched) : Prop := {
  td_cfg : s_cfg s' = s_cfg s; td_now : s_now s' = s_now s; td_tasks : s_tasks s' = s_tasks s; td_unassigned : s_unassigned s' = s_unassigned s;
  td_log : ∃ l, s_log s' = s_log s ++ l ∧ Forall calm_e l }.
Lemma tidy_refl s : tidy s s.
Proof. split; auto. exists []. rewrite app_nil_r. auto. Qed.
Lemma tidy_trans s1 s2 s3 : tidy s1 s2 → tidy s2 s3 → tidy s1 s3.
Proof.
  intros [A1 A2 A3 A4 (l1 & A5 & A6)] [B1 B2 B3 B4 (l2 & B5 & B6)]. split; try congruence. exists (l1 ++ l2).
  rewrite B5, A5, app_assoc. split; [reflexivity|]. apply Forall_app. auto.
Qed.
Ltac tidies := split; [reflexivity..|first [exists []; rewrite app_nil_r; split; [reflexivity|constructor] | eexists; split; [reflexivity|auto]]].

Lemma clean_nodes_spec done ids : ∀ Q G T D N pk g s nodes, core (Ext Q G T D N) pk g [] s → cleanable ids nodes N (s_unassigned s) →
  wp (gm_clean_nodes (tm_cancel done) ids nodes) (λ _ s', ∃ T' N', core (Ext Q G T' D N') pk g [] s' ∧ tidy s s' ∧
     (∀ t, t ∈ ids → is_Some (nodes !! t) → T' !! t = None) ∧ (∀ t, T' !! t = T !! t ∨ t ∈ ids ∧ T' !! t = None) ∧
     (∀ t n, t ∈ ids → nodes !! t = Some n → ni_state n = NInactive → N' !! t = None) ∧ (∀ t, N' !! t = N !! t ∨ t ∈ ids ∧ N' !! t = None) ∧ s_clients s' = s_clients s ∧
     ((∀ t n, t ∈ ids → nodes !! t = Some n → ni_state n ≠ NRunning) → s_log s' = s_log s)) no_exn s.
Proof.
  induction ids as [|t ids IH]; intros Q G T D N pk g s nodes H Hc; cbn [gm_clean_nodes].
  { wgo. exists T, N. split; [exact H|]. split; [apply tidy_refl|]. repeat split; auto; intros t; intros; set_solver. }
  destruct (nodes !! t) as [n|] eqn:En.
  2:{ eapply wp_mono; [apply (IH Q G T D N pk g s nodes H); intros x y Hx; apply Hc; right; exact Hx| |auto]. cbv beta.
      intros _ s' (T' & N' & H1 & H2 & H3 & H4 & H5 & H6 & H7 & H8). exists T', N'. split; [exact H1|]. split; [exact H2|]. split; [|split; [|split; [|split; [|split]]]].
      - intros x [->|Hx]%elem_of_cons; [rewrite En; intros [? ?]; discriminate|auto].
      - intros x. destruct (H4 x) as [?|[? ?]]; [auto|]. right. split; [right; assumption|assumption].
      - intros x y [->|Hx]%elem_of_cons; [congruence|eauto].
      - intros x. destruct (H6 x) as [?|[? ?]]; [auto|]. right. split; [right; assumption|assumption].
      - exact H7.
      - intros Hr. apply H8. intros x y Hx. apply Hr. right. exact Hx. }
  assert (Hstep : ∀ (m : M unit), wp m (λ _ s', ∃ N', core (Ext Q G T D N') pk g [] s' ∧ tidy s s' ∧ (ni_state n = NInactive → N' !! t = None) ∧ (N' = N ∨ N' = delete t N) ∧ s_clients s' = s_clients s ∧ (ni_state n ≠ NRunning → s_log s' = s_log s)) no_exn s →
    wp (do* m in do* modify (set_t2g (delete t)) in gm_clean_nodes (tm_cancel done) ids (delete t nodes)) (λ _ s', ∃ T' N', core (Ext Q G T' D N') pk g [] s' ∧ tidy s s' ∧
     (∀ x, x ∈ t :: ids → is_Some (nodes !! x) → T' !! x = None) ∧ (∀ x, T' !! x = T !! x ∨ x ∈ t :: ids ∧ T' !! x = None) ∧
     (∀ x n, x ∈ t :: ids → nodes !! x = Some n → ni_state n = NInactive → N' !! x = None) ∧ (∀ x, N' !! x = N !! x ∨ x ∈ t :: ids ∧ N' !! x = None) ∧ s_clients s' = s_clients s ∧
     ((∀ x n, x ∈ t :: ids → nodes !! x = Some n → ni_state n ≠ NRunning) → s_log s' = s_log s)) no_exn s).
  { intros m Hm. apply wp_bind. eapply wp_mono; [exact Hm| |auto]. cbv beta. intros _ s1 (N1 & H1 & Td1 & A1 & B1 & CC1 & LL1). wgo.
    eapply wp_mono; [apply (IH Q G (delete t T) D N1 pk g _ (delete t nodes)); [eapply core_t2g_to; [exact H1|reflexivity]|]| |auto].
    - intros x y Hx [Hne Hy]%lookup_delete_Some. ss. rewrite (td_unassigned _ _ Td1). specialize (Hc x y ltac:(right; exact Hx) Hy). destruct (ni_state y); auto.
      destruct B1 as [->| ->]; [exact Hc|]. rewrite lookup_delete_ne by exact Hne. exact Hc.
    - cbv beta. intros _ s' (T' & N' & H2 & Td2 & H3 & H4 & H5 & H6 & H7 & H8). exists T', N'. split; [exact H2|].
      split; [eapply tidy_trans; [exact Td1|]; eapply tidy_trans; [|exact Td2]; tidies|].
      assert (Hnt : T' !! t = None). { destruct (H4 t) as [E|[_ E]]; [|exact E]. rewrite E. apply lookup_delete. }
      split; [|split; [|split; [|split; [|split; [etransitivity; [exact H7|exact CC1]|]]]]].
      + intros x [->|Hx]%elem_of_cons Hs; [exact Hnt|]. destruct (decide (x = t)) as [->|Hne]; [exact Hnt|]. apply H3; [exact Hx|]. rewrite lookup_delete_ne by auto. exact Hs.
      + intros x. destruct (decide (x = t)) as [->|Hne]; [right; split; [left|exact Hnt]|]. destruct (H4 x) as [E|[? ?]]; [left|right; split; [right; assumption|assumption]].
        rewrite lookup_delete_ne in E by auto. exact E.
      + intros x y Hx Hy Hst. destruct (decide (x = t)) as [->|Hne].
        * assert (y = n) as -> by congruence. destruct (H6 t) as [E|[_ E]]; [rewrite E; auto|exact E].
        * apply elem_of_cons in Hx as [?|Hx]; [done|]. apply (H5 x y Hx); [rewrite lookup_delete_ne by auto; exact Hy|exact Hst].
      + intros x. destruct (H6 x) as [E|[? E]]; [|right; split; [right; assumption|exact E]]. destruct B1 as [->| ->]; [auto|]. destruct (decide (x = t)) as [->|Hne].
        * right. split; [left|]. rewrite E. apply lookup_delete.
        * left. rewrite E. apply lookup_delete_ne. auto.
      + intros Hr. etransitivity; [apply H8|apply LL1, (Hr t n); [left|exact En]]. intros x y Hx [_ Hy]%lookup_delete_Some. apply (Hr x y); [right; exact Hx|exact Hy]. }
  apply Hstep. clear Hstep. specialize (Hc t n ltac:(left) En). destruct (ni_state n) eqn:Es; try (wgo; exists N; split; [exact H|]; split; [apply tidy_refl|]; split; [discriminate|auto 10]).
  - unfold fm_done. wgo. destruct Hc as [f HN].
    assert (o_v2k (s_ftasks s) !! t = Some f) as Hft. { rewrite (c_ftv _ _ _ _ _ H). cbn [x_inactive]. rewrite lookup_union_r; [exact HN|].
      apply (c_inactive _ _ _ _ _ H) in HN as [HN _]. rewrite lookup_fmap, HN. reflexivity. }
    destruct (otm_remove_known _ _ _ (c_ft _ _ _ _ _ H) Hft) as (df & Edf & Idf & Vdf). rewrite Edf. apply wp_ok. wgo.
    exists (delete t N). split; [eapply core_inactive; [exact H|exact Idf|eauto|exact Vdf]|]. split; [tidies|]. split; [intros _; apply lookup_delete|auto 10].
  - eapply wp_mono; [eapply cancel_quiet; [exact H|exact Hc]| |auto]. cbv beta. intros _ s' (l & -> & Hl). exists N. split; [apply core_log, H|]. split; [tidies|]. split; [discriminate|]. split; [auto|]. split; [reflexivity|intros Hr; destruct (Hr eq_refl)].
Qed.

Lemma core_drop_graph Q G T D N pk g fl s d gid : core (Ext Q G T D N) pk g fl s → gid ∈ D → otm_inv d → o_v2k d = delete gid (o_v2k (s_clients s)) →
  core (Ext Q G T (D ∖ {[gid]}) N) pk g fl (set_clients (λ _, d) s).
Proof.
  intros [] HD Hi Hd. cbn in *. split; ss; auto; cbn.
  - rewrite Hd, dom_delete_L, c_cldom, difference_union_distr_l_L. f_equal. apply difference_disjoint_L, disjoint_singleton_r. intros Hx. apply elem_of_dom in Hx as [k Hk]. rewrite c_ids in Hk by exact HD. discriminate.
  - intros t c. rewrite Hd. intros [_ Hc]%lookup_delete_Some. eauto.
  - intros t Ht. apply c_ids. set_solver.
Qed.
Lemma clean_spec done Q G T D N pk g s gid i : core (Ext Q G T D N) pk g [] s → G !! gid = Some i → gid ∈ D →
  cleanable (elements (g_ids i)) (g_nodes i) N (s_unassigned s) →
  wp (gm_clean (tm_cancel done) gid) (λ i' s', i' = i ∧ ∃ T' N', core (Ext Q (delete gid G) T' (D ∖ {[gid]}) N') pk g [] s' ∧ tidy s s' ∧
     (∀ t, t ∈ g_ids i → is_Some (g_nodes i !! t) → T' !! t = None) ∧ (∀ t, T' !! t = T !! t ∨ t ∈ g_ids i ∧ T' !! t = None) ∧
     (∀ t n, t ∈ g_ids i → g_nodes i !! t = Some n → ni_state n = NInactive → N' !! t = None) ∧ (∀ t, N' !! t = N !! t ∨ t ∈ g_ids i ∧ N' !! t = None) ∧ o_v2k (s_clients s') = delete gid (o_v2k (s_clients s)) ∧
     ((∀ t n, t ∈ g_ids i → g_nodes i !! t = Some n → ni_state n ≠ NRunning) → s_log s' = s_log s)) no_exn s.
Proof.
  intros H HG HD Hc. unfold gm_clean, cm_done, gm_graph. wgo.
  assert (is_Some (o_v2k (s_clients s) !! gid)) as [c Hcl]. { apply elem_of_dom. rewrite (c_cldom _ _ _ _ _ H). apply elem_of_union_r, HD. }
  destruct (otm_remove_known _ _ _ (c_cl _ _ _ _ _ H) Hcl) as (dc & Edc & Idc & Vdc). rewrite Edc. apply wp_ok. cbn [fst snd]. wgo.
  rewrite (c_graphs _ _ _ _ _ H). cbn [x_graphs]. rewrite HG. cbn [from_option_exn]. apply wp_ok. wgo. apply wp_order. intros ids Hp. wgo.
  match goal with |- wp _ _ _ ?s => set (s1 := s) end.
  assert (H1 : core (Ext Q (delete gid G) T (D ∖ {[gid]}) N) pk g [] s1).
  { subst s1. apply core_codes. eapply core_graphs_to; [eapply core_drop_graph; eassumption|reflexivity]. }
  assert (Hids : ∀ t, t ∈ ids ↔ t ∈ g_ids i) by (intros t; rewrite Hp; apply elem_of_elements).
  eapply wp_mono; [apply (clean_nodes_spec done ids _ _ _ _ _ _ _ s1 (g_nodes i) H1)| |auto].
  - intros t n Ht. apply Hc. apply elem_of_elements, Hids, Ht.
  - cbv beta. intros _ s' (T' & N' & A & B & C1 & C2 & C3 & C4 & C5 & C6). wgo. split; [reflexivity|]. exists T', N'. split; [exact A|].
    split; [eapply tidy_trans; [|exact B]; tidies|]. split; [intros t Ht; apply C1, Hids, Ht|]. split; [intros t; rewrite <- Hids; apply C2|]. split; [intros t n Ht; apply C3, Hids, Ht|]. split; [intros t; rewrite <- Hids; apply C4|].
    split; [rewrite C5; exact Vdc|]. intros Hr. etransitivity; [apply C6|reflexivity]. intros t n Ht. apply Hr, Hids, Ht.
Qed.

(** ** One step of one graph *)
Definition okay (xt : ext) (g : ledger) (s : sched) : Prop :=
  core xt (undispatched (s_log s)) g [] s ∧ (undispatched (s_log s) = true → s_unassigned s ≠ []).
Definition calm_graph (ns : list task) (T N : gmap bytes bytes) (tk : gmap bytes task) (gid : bytes) (i : graph) : Prop :=
  ∃ gr, live T N tk [] None gid i ns gr ∧ so_ready (g_sorter i) = [] ∧ so_finished (g_sorter i) < so_passed (g_sorter i).
Record frame (ids : gset bytes) (T T' N N' : gmap bytes bytes) (s s' : sched) : Prop := {
  fr_T t : t ∉ ids → T' !! t = T !! t;
  fr_N t : t ∉ ids → N' !! t = N !! t;
  fr_tk t : t ∉ ids → s_tasks s' !! t = s_tasks s !! t;
  fr_Ts t x : T' !! t = Some x → T !! t = Some x;
  fr_Ns t x : N' !! t = Some x → N !! t = Some x;
  fr_cl t : t ∉ ids → is_Some (s_tasks s !! t) → o_v2k (s_clients s') !! t = o_v2k (s_clients s) !! t;
  fr_tks t : is_Some (s_tasks s' !! t) → is_Some (s_tasks s !! t) ∨ is_Some (N !! t);
  fr_cfg : s_cfg s' = s_cfg s;
  fr_now : s_now s' = s_now s;
  fr_old t k : s_tasks s !! t = Some k → s_tasks s' !! t = Some k }.
(** Neither an input nor an answer to a graph. *)
Definition hush (e : entry) : Prop := match e with LIn _ _ | LSend _ (MGraphTaskResult _ _ _) => False | _ => True end.
Lemma calm_hush e : calm_e e → hush e.
Proof. destruct e as [| ? []| | | | |]; cbn; auto. Qed.
Lemma calms_hush l : Forall calm_e l → Forall hush l.
Proof. intros H. eapply Forall_impl; [exact H|]. apply calm_hush. Qed.
Lemma undispatched_app' h l : undispatched (h ++ l) = foldl (λ b e, match e with LSend _ (MTaskEcho _ SubmitOK) => true | LIn _ EDispatch => false | _ => b end) (undispatched h) l.
Proof. unfold undispatched. rewrite foldl_app. reflexivity. Qed.
Lemma undispatched_calm' h l : Forall calm_e l → undispatched (h ++ l) = undispatched h.
Proof.
  rewrite undispatched_app'. generalize (undispatched h). intros b H. revert b. induction H as [|e l He _ IH]; intros b; [reflexivity|].
  cbn. rewrite IH. destruct e as [| ? []| | | | |]; try reflexivity; cbn in He; [tauto|]. match goal with x : echo_status |- _ => destruct x; try reflexivity; tauto end.
Qed.
(** No node is lost between the graph and the task manager. *)
Definition stays (N N' : gmap bytes bytes) (s s' : sched) : Prop :=
  ∀ t, is_Some (N !! t) ∨ is_Some (s_tasks s !! t) → is_Some (N' !! t) ∨ is_Some (s_tasks s' !! t).
(** An answer to the start of a node of graph [i]. *)
Definition starts_e (i : graph) (e : entry) : Prop := internal e ∨ ∃ t, t ∈ g_ids i ∧ e = LSend (g_client i) (MTaskEcho t SubmitOK).
(** Tasks that are new in the table of clients belong to client [c]. *)
Definition clients_to (c : bytes) (s s' : sched) : Prop := ∀ t c', o_v2k (s_clients s') !! t = Some c' → o_v2k (s_clients s) !! t = Some c' ∨ c' = c.
(** The graph goes on, or is answered (with status [sx]). *)
Definition steps (sx : task_status) (ns : list task) (Q : list (bytes * graph_task)) (G : gmap bytes graph) (T : gmap bytes bytes) (D : gset bytes) (N : gmap bytes bytes) (g : ledger) (s : sched) (gid : bytes) (i : graph) (s' : sched) : Prop :=
  ∃ T' N' l, frame (g_ids i) T T' N N' s s' ∧ s_log s' = s_log s ++ l ∧ clients_to (g_client i) s s' ∧
   ((∃ i', okay (Ext Q (<[gid := i']> G) T' D N') g s' ∧ g_ids i' = g_ids i ∧ g_client i' = g_client i ∧ calm_graph ns T' N' (s_tasks s') gid i' ∧ Forall hush l ∧ stays N N' s s' ∧ Forall (starts_e i) l ∧ g_targets i' = g_targets i) ∨
    (okay (Ext Q (delete gid G) T' (D ∖ {[gid]}) N') g s' ∧ (∀ t, t ∈ g_ids i → T' !! t = None ∧ N' !! t = None) ∧
     ∃ l0 rs, l = l0 ++ [LSend (g_client i) (MGraphTaskResult gid sx rs)] ∧ Forall hush l0 ∧ (sx = Success → l0 = [] ∧ length rs = length (g_targets i) ∧ s_tasks s' = s_tasks s))).

Lemma frame_refl ids T N s : frame ids T T N N s s.
Proof. split; auto. Qed.
Lemma frame_trans ids T1 T2 T3 N1 N2 N3 s1 s2 s3 : frame ids T1 T2 N1 N2 s1 s2 → frame ids T2 T3 N2 N3 s2 s3 → frame ids T1 T3 N1 N3 s1 s3.
Proof.
  intros [A1 A2 A3 A4 A5 A9 A8 A6 A7 A0] [B1 B2 B3 B4 B5 B9 B8 B6 B7 B0]. split; try congruence; [intros t Ht; rewrite B1, A1 by exact Ht; reflexivity..| | | | | | |].
  - intros t Ht. rewrite B2, A2 by exact Ht. reflexivity.
  - intros t Ht. rewrite B3, A3 by exact Ht. reflexivity.
  - eauto.
  - eauto.
  - intros t Ht Hs. rewrite B9, A9; auto. rewrite A3 by exact Ht. exact Hs.
  - intros t Ht. destruct (B8 t Ht) as [Hx|[x Hx]]; [auto|right; eauto].
  - auto.
Qed.

Lemma okay_tidy xt xt' g s s' l : okay xt g s → core xt' (undispatched (s_log s)) g [] s' → s_unassigned s' = s_unassigned s → s_log s' = s_log s ++ l → Forall calm_e l → okay xt' g s'.
Proof. intros [_ H2] H1 Hu Hl Hc. split; rewrite Hl, undispatched_calm' by exact Hc; [exact H1|]. rewrite Hu. exact H2. Qed.
Lemma okay_emit xt g s c m : okay xt g s → (∀ t, m ≠ MTaskEcho t SubmitOK) → okay xt g (set_log (λ l, l ++ [LSend c m]) s).
Proof.
  intros [H1 H2] Hm. assert (E : undispatched (s_log s ++ [LSend c m]) = undispatched (s_log s)).
  { rewrite undispatched_app'. cbn. destruct m; try reflexivity. match goal with x : echo_status |- _ => destruct x; try reflexivity end. destruct (Hm _ eq_refl). }
  split; ss; rewrite E; [apply core_log, H1|exact H2].
Qed.

Lemma starts_spec Q D g gid ns gr L : ∀ G T N s i,
  okay (Ext Q G T D N) g s → G !! gid = Some i → live T N (s_tasks s) L None gid i ns gr → NoDup L →
  utf8 (g_client i) = true → c_max_waiting (s_cfg s) < 0 → (∀ t, t ∈ g_ids i → t ∉ D) →
  wp (foreach L (gm_start gid)) (λ _ s', ∃ i' T' N' l, okay (Ext Q (<[gid := i']> G) T' D N') g s' ∧ like i i' ∧ live T' N' (s_tasks s') [] None gid i' ns gr ∧
     frame (g_ids i) T T' N N' s s' ∧ s_log s' = s_log s ++ l ∧ Forall hush l ∧ stays N N' s s' ∧ Forall (starts_e i) l ∧ clients_to (g_client i) s s') no_exn s.
Proof.
  induction L as [|t L IH]; intros G T N s i [H Hq] HG Hl Hnd Hu Hw HD; cbn [foreach].
  { wgo. exists i, T, N, []. rewrite insert_id by exact HG. split; [split; assumption|]. split; [apply like_refl|]. split; [exact Hl|]. split; [apply frame_refl|]. rewrite app_nil_r. repeat split; auto; [intros t Ht; exact Ht|]. intros t c' Hc. auto. }
  apply NoDup_cons in Hnd as [HtL Hnd].
  assert (t ∈ g_ids i) as Hti. { rewrite (lv_ids _ _ _ _ _ _ _ _ _ Hl). apply elem_of_list_to_set, (lv_in _ _ _ _ _ _ _ _ _ Hl), (st_dom _ _ _ (lv_sorted _ _ _ _ _ _ _ _ _ Hl)). destruct (lv_L _ _ _ _ _ _ _ _ _ Hl t ltac:(left)) as [sc E]. eauto. }
  apply wp_bind. eapply wp_mono; [eapply start_spec; [exact H|exact HG|exact Hl|exact HtL|exact Hu|exact Hw|apply HD, Hti]| |auto].
  cbv beta. intros _ s1 (i1 & T1 & k & H1 & K1 & L1 & Et & Eu & _ & F1 & M1 & C1 & W1 & Ecl & e & He & Elog).
  assert (Hund : undispatched (s_log s1) = true).
  { rewrite Elog. change [?a; e] with ([a] ++ [e]). rewrite app_assoc, undispatched_calm', undispatched_app'; [reflexivity|]. repeat constructor. apply internal_calm, He. }
  assert (A1 : okay (Ext Q (<[gid := i1]> G) T1 D (delete t N)) g s1). { split; rewrite Hund; [exact H1|]. rewrite Eu. intros _ E. destruct (s_unassigned s); discriminate. }
  pose proof K1 as (K11 & K12 & K13 & K14).
  eapply wp_mono; [eapply (IH (<[gid := i1]> G) T1 (delete t N) s1 i1 A1); [apply lookup_insert|exact L1|exact Hnd|rewrite K14; exact Hu|rewrite C1; exact Hw|rewrite K12; exact HD]| |auto].
  cbv beta. intros _ s2 (i2 & T2 & N2 & l & A2 & K2 & L2 & F2 & E2 & Hl2 & St2 & Sl2 & Cl2). rewrite insert_insert in A2. exists i2, T2, N2, ([LSend (g_client i) (MTaskEcho t SubmitOK); e] ++ l).
  split; [exact A2|]. split; [eapply like_trans; eassumption|]. split; [exact L2|]. split; [|split; [rewrite E2, Elog, app_assoc; reflexivity|split; [|split; [|split]]]].
  - rewrite K12 in F2. eapply frame_trans; [|exact F2]. split; auto.
    + intros x Hx. apply lookup_delete_ne. intros <-. auto.
    + intros x Hx. rewrite Et. apply lookup_insert_ne. intros <-. auto.
    + intros x y [_ Hy]%lookup_delete_Some. exact Hy.
    + intros x Hx _. rewrite Ecl. apply lookup_insert_ne. intros <-. auto.
    + intros x Hx. rewrite Et in Hx. destruct (decide (x = t)) as [->|Hne]; [|rewrite lookup_insert_ne in Hx by auto; auto].
      right. pose proof (lv_L _ _ _ _ _ _ _ _ _ Hl t ltac:(left)) as [sc E]. pose proof Hti as Hti'. rewrite (lv_ids _ _ _ _ _ _ _ _ _ Hl) in Hti'. apply elem_of_list_to_set, elem_of_list_fmap in Hti' as (n & -> & Hn).
      destruct (lv_wait _ _ _ _ _ _ _ _ _ Hl n Hn) as (_ & -> & _); [right; left|eauto].
    + intros x y Hx. rewrite Et. rewrite lookup_insert_ne; [exact Hx|]. intros <-.
      pose proof Hti as Hti'. rewrite (lv_ids _ _ _ _ _ _ _ _ _ Hl) in Hti'. apply elem_of_list_to_set, elem_of_list_fmap in Hti' as (n & -> & Hn).
      destruct (lv_wait _ _ _ _ _ _ _ _ _ Hl n Hn) as (_ & HN & _); [right; left|]. apply (c_inactive _ _ _ _ _ H) in HN as [HN _]. congruence.
  - apply Forall_app. split; [|exact Hl2]. repeat constructor. apply calm_hush, internal_calm, He.
  - intros x Hx. apply St2. rewrite Et. destruct (decide (x = t)) as [->|Hne]; [right; rewrite lookup_insert; eauto|]. rewrite lookup_delete_ne, lookup_insert_ne by auto. exact Hx.
  - apply Forall_app. split; [constructor; [right; eauto|constructor; [left; exact He|constructor]]|]. eapply Forall_impl; [exact Sl2|]. intros x [Hx|(t' & Ht' & ->)]; [left; exact Hx|]. right. rewrite K12 in Ht'. rewrite K14. eauto.
  - intros x c' Hx. apply Cl2 in Hx as [Hx|Hx]; [|right; congruence]. rewrite Ecl in Hx. apply lookup_insert_Some in Hx as [[_ <-]|[_ Hx]]; auto.
Qed.

Lemma live_get_ready T N tk gid i ns gr so ready : live T N tk [] None gid i ns gr → so_get_ready (g_sorter i) = (so, ready) →
  live T N tk ready None gid (set_sorter so i) ns gr ∧ NoDup ready ∧ so_ready so = [] ∧ so_finished so = so_finished (g_sorter i) ∧ so_passed so = so_passed (g_sorter i) + Z.of_nat (length ready) ∧ ready = so_ready (g_sorter i).
Proof.
  intros [H1 H2 H3 H4 H5 H6 H7 H8 H9 H10 H11 H12 H13 H14 H15 H16 H17] E. destruct (get_ready_ok _ _ _ _ H7 H8 E) as (A1 & A2 & A3 & A4 & A5 & A6).
  split; [|unfold so_get_ready in E; injection E as <- <-; repeat split; exact A3].
  assert (Hu : ∀ x, unhanded so x ∨ x ∈ ready → unhanded (g_sorter i) x ∨ x ∈ []). { intros x [Hx|Hx]; [apply A6 in Hx as [Hx _]|apply A4 in Hx]; auto. }
  split; cbn; auto.
  - intros t Ht. pose proof (A4 _ Ht) as Hut. destruct (node_cases _ _ t A1) as [Hx|[Hx|Hx]]; [|apply A6 in Hx as [_ Hx]; contradiction|exact Hx|].
    + apply (st_dom _ _ _ H7). destruct Hut as (k & sc & Ek & _). eauto.
    + apply A5, done_not_unhanded in Hx. contradiction.
  - intros t sc Ht HtL. destruct (not_done_handed _ _ _ Ht) as [B1 B2]. destruct (node_cases _ _ t H7) as [Hx|[[sc' Hx]|Hx]].
    + apply (st_dom _ _ _ A1). eauto.
    + destruct B2. apply A6. auto.
    + eapply H12; [exact Hx|]. intros Hi; inversion Hi.
    + destruct B1. apply A5, Hx.
  - intros t Ht. apply H13, A5, Ht.
  - intros t Ht HN. destruct (H14 _ Ht HN) as [Hx|Hx]; [|inversion Hx]. destruct (decide (t ∈ ready)); [auto|]. left. apply A6. auto.
  - intros a t. rewrite H15. split; intros (B1 & B2 & B3); (split; [exact B1|]; split; [|exact B3]).
    + destruct B2 as [Hx|Hx]; [|inversion Hx]. destruct (decide (t ∈ ready)); [auto|]. left. apply A6. auto.
    + auto.
Qed.

Lemma gm_results_length i ts : ∀ rs, gm_results i ts = Ok rs → length rs = length ts.
Proof.
  induction ts as [|t ts IH]; intros rs E; cbn [gm_results] in E; [injection E as <-; reflexivity|]. destruct (from_option_exn _ (g_nodes i !! t)) as [n|]; cbn in E; [|discriminate].
  destruct (from_option_exn _ (ni_result n)) as [r|]; cbn in E; [|discriminate]. destruct (gm_results i ts) as [rs'|]; cbn in E; [|discriminate]. injection E as <-. cbn. rewrite (IH _ eq_refl). reflexivity.
Qed.
Lemma results_ok i ts : (∀ t, t ∈ ts → ∃ k r, g_nodes i !! t = Some (NodeInfo NSuccess k (Some r))) → ∃ rs, gm_results i ts = Ok rs.
Proof.
  induction ts as [|t ts IH]; intros H; cbn [gm_results]; [eauto|]. destruct (H t) as (k & r & E); [left|]. rewrite E. cbn.
  destruct IH as [rs ->]; [intros; apply H; right; assumption|]. cbn. eauto.
Qed.

Lemma tidy_frame ids T T' N N' s s' gid : tidy s s' → o_v2k (s_clients s') = delete gid (o_v2k (s_clients s)) → s_tasks s !! gid = None → (∀ t, T' !! t = T !! t ∨ t ∈ ids ∧ T' !! t = None) → (∀ t, N' !! t = N !! t ∨ t ∈ ids ∧ N' !! t = None) → frame ids T T' N N' s s'.
Proof.
  intros [] Hcl Hgid H1 H2. split; try congruence; [| | | |intros t Ht [k Hk]; rewrite Hcl; apply lookup_delete_ne; congruence|intros t Ht; left; congruence].
  - intros t Ht. destruct (H1 t) as [?|[? ?]]; [assumption|contradiction].
  - intros t Ht. destruct (H2 t) as [?|[? ?]]; [assumption|contradiction].
  - intros t x Hx. destruct (H1 t) as [<-|[_ ?]]; [assumption|congruence].
  - intros t x Hx. destruct (H2 t) as [<-|[_ ?]]; [assumption|congruence].
Qed.

(** [__check_one_graph] *)
Lemma check_spec done Q G T D N g s gid i ns gr : okay (Ext Q G T D N) g s → G !! gid = Some i → gid ∈ D → live T N (s_tasks s) [] None gid i ns gr →
  utf8 (g_client i) = true → c_max_waiting (s_cfg s) < 0 → (∀ t, t ∈ g_ids i → t ∉ D) →
  wp (gm_check (tm_cancel done) gid) (λ _ s', steps Success ns Q G T D N g s gid i s') no_exn s.
Proof.
  intros Hok HG HgD Hl Hu Hw HD. pose proof Hok as [H Hq]. unfold gm_check, gm_graph. wgo. rewrite (c_graphs _ _ _ _ _ H). cbn [x_graphs]. rewrite HG. cbn [from_option_exn]. apply wp_ok.
  destruct (so_is_active (g_sorter i)) eqn:Ea; cbn [negb].
  - destruct (so_get_ready (g_sorter i)) as [so ready] eqn:Er. destruct (live_get_ready _ _ _ _ _ _ _ _ _ Hl Er) as (L1 & Nd & R1 & R2 & R3 & R4).
    unfold gm_store. wgo. match goal with |- wp _ _ _ ?s => set (s1 := s) end.
    assert (O1 : okay (Ext Q (<[gid := set_sorter so i]> G) T D N) g s1). { split; [eapply core_graphs_to; [exact H|reflexivity]|exact Hq]. }
    eapply wp_mono; [eapply (starts_spec Q D g gid ns gr ready _ T N s1 (set_sorter so i) O1); [apply lookup_insert|exact L1|exact Nd|exact Hu|exact Hw|exact HD]| |auto].
    cbv beta. intros _ s2 (i2 & T2 & N2 & l & A2 & (K1 & K2 & K3 & K4) & L2 & F2 & E2 & Hl2 & St2 & Sl2 & Cl2). rewrite insert_insert in A2. exists T2, N2, l.
    split; [destruct F2; split; auto|]. split; [exact E2|]. split; [exact Cl2|]. left. exists i2. split; [exact A2|]. split; [exact K2|]. split; [exact K4|]. split; [|split; [exact Hl2|split; [exact St2|split; [exact Sl2|exact K1]]]].
    exists gr. split; [exact L2|]. rewrite K3. cbn. split; [exact R1|]. rewrite R2, R3, R4. unfold so_is_active in Ea. apply orb_true_iff in Ea as [Ea|Ea].
    + apply Z.ltb_lt in Ea. lia.
    + pose proof (lv_balanced _ _ _ _ _ _ _ _ _ Hl) as Hb. unfold balanced, outs in Hb. destruct (so_ready (g_sorter i)); [discriminate|]. cbn. lia.
  - pose proof Hl as [H1 H2 H3 H4 H5 H6 H7 H8 H9 H10 H11 H12 H13 H14 H15 H16 H17].
    pose proof (inactive_all_done _ _ H7 H8 H9 Ea) as Hall.
    destruct (results_ok i (g_targets i)) as [rs Hrs].
    { intros t Ht. destruct (H13 t) as (_ & [(k & r & E & _)|(_ & _ & E & _)]); [apply Hall, H6, H4, Ht|eauto|contradiction]. }
    wgo. rewrite Hrs. apply wp_ok. apply wp_bind. eapply wp_mono; [eapply clean_spec; [exact H|exact HG|exact HgD|]| |auto].
    + intros t n Ht En. apply elem_of_elements in Ht. rewrite H1 in Ht. apply elem_of_list_to_set in Ht. destruct (H13 t) as (_ & [(k & r & E & _)|(E & _)]); [apply Hall, H6, Ht| |congruence].
      rewrite En in E. injection E as ->. exact I.
    + cbv beta. intros i' s1 (-> & T1 & N1 & A1 & B1 & C1 & C2 & C3 & C4 & C5 & C6). wgo. destruct (td_log _ _ B1) as (l & El & Hcl).
      assert (l = []) as ->. { rewrite C6 in El; [destruct l; [reflexivity|]; apply (f_equal length) in El; rewrite app_length in El; cbn in El; lia|]. intros t n Ht En. rewrite H1 in Ht. apply elem_of_list_to_set in Ht. destruct (H13 t) as (_ & [(k & r & E & _)|(E & _)]); [apply Hall, H6, Ht| |congruence]. rewrite En in E. injection E as ->. discriminate. }
      exists T1, N1, ([] ++ [LSend (g_client i) (MGraphTaskResult gid Success rs)]).
      split; [destruct (tidy_frame (g_ids i) T T1 N N1 s s1 gid B1 C5 (c_ids _ _ _ _ _ H _ HgD) C2 C4); split; auto|]. split; [ss; rewrite El, app_assoc; reflexivity|].
      split; [intros t c' Hc; ss; rewrite C5 in Hc; apply lookup_delete_Some in Hc as [_ Hc]; auto|]. right.
      split; [apply okay_emit; [|discriminate]; eapply okay_tidy; [exact Hok|exact A1|apply B1|exact El|exact Hcl]|]. split; [|exists [], rs; split; [reflexivity|split; [constructor|intros _; split; [reflexivity|split; [eapply gm_results_length, Hrs|exact (td_tasks _ _ B1)]]]]].
      intros t Ht. pose proof Ht as Ht'. rewrite H1 in Ht'. apply elem_of_list_to_set in Ht'. pose proof (Hall _ (proj2 (H6 t) Ht')) as Hd. split.
      * destruct (H13 t Hd) as (_ & [(k & r & E & _)|(_ & E & _)]); [apply C1; [exact Ht|eauto]|]. destruct (C2 t) as [->|[_ ?]]; assumption.
      * destruct (C4 t) as [->|[_ ?]]; [|assumption]. destruct (N !! t) eqn:EN; [|reflexivity]. destruct (H14 t Ht') as [Hx|Hx]; [eauto|apply done_not_unhanded in Hd; contradiction|inversion Hx].
Qed.

Lemma so_done_ok s t sc : so_info s !! t = Some (-1, sc) → ∃ s', so_done s t = Ok s'.
Proof. intros E. unfold so_done. rewrite E. rewrite Z.eqb_refl. eauto. Qed.

(** [on_task_done] of a node, after the task has been forgotten *)
Lemma gm_done_spec done Q G T D N g s gid i ns gr r tk sc : okay (Ext Q G T D N) g s → G !! gid = Some i → gid ∈ D → live T N tk [] None gid i ns gr →
  utf8 (g_client i) = true → c_max_waiting (s_cfg s) < 0 → (∀ t, t ∈ g_ids i → t ∉ D) →
  T !! r_id r = Some gid → so_info (g_sorter i) !! r_id r = Some (-1, sc) → s_tasks s = delete (r_id r) tk →
  (r_status r = Success ∨ (r_status r = Failed ∨ r_status r = Canceled) ∧ ∀ t, t ∈ g_ids i → t ≠ r_id r → t ∉ s_unassigned s) →
  wp (gm_done (tm_cancel done) r) (λ b s', b = true ∧ steps (r_status r) ns Q G T D N g s gid i s' ∧ (r_status r ≠ Success → s_graphs s' !! gid = None)) no_exn s.
Proof.
  intros Hok HG HgD Hl Hu Hw HD HT Hsc Htk Hst. pose proof Hok as [H Hq]. set (t := r_id r) in *.
  pose proof Hl as [H1 H2 H3 H4 H5 H6 H7 H8 H9 H10 H11 H12 H13 H14 H15 H16 H17].
  destruct (so_done_ok _ _ _ Hsc) as [so Eso]. destruct (done_ok _ _ _ _ H7 H8 Eso) as (D1 & D2 & D3 & D4 & D5 & D6).
  destruct (H12 _ _ Hsc ltac:(intros Hi; inversion Hi)) as ((k & Hk) & _ & _).
  unfold gm_done. wgo. fold t. rewrite (c_t2g _ _ _ _ _ H). cbn [x_t2g]. rewrite HT. wgo. unfold gm_mark, gm_graph, gm_store. wgo.
  rewrite (c_graphs _ _ _ _ _ H). cbn [x_graphs]. rewrite HG. cbn [from_option_exn]. apply wp_ok. wgo. fold t. rewrite Hk. cbn [from_option_exn]. apply wp_ok. wgo.
  destruct Hst as [Est|[Est Hcalm]].
  - rewrite Est. wgo. fold t. rewrite Eso. apply wp_ok. wgo. fold t. cbn [ni_task].
    set (i1 := set_sorter so (set_nodes (<[t := NodeInfo NSuccess k (Some (r_payload r))]> (g_nodes i)) i)). match goal with |- wp _ _ _ ?s => set (s1 := s) end.
    assert (O1 : okay (Ext Q (<[gid := i1]> G) T D N) g s1). { split; [eapply core_graphs_to; [exact H|reflexivity]|exact Hq]. }
    assert (L1 : live T N (s_tasks s1) [] None gid i1 ns gr).
    { assert (Hd : ∀ x, is_done (g_sorter i) x → x ≠ t). { intros x Hx ->. apply not_done_handed in Hsc as [Hsc _]. auto. }
      change (s_tasks s1) with (s_tasks s). rewrite Htk. split; cbn; auto.
      - intros x Hx. inversion Hx.
      - intros n Hn [Hx|Hx]; [|inversion Hx]. assert (task_id n ≠ t). { intros E. rewrite E in Hx. apply D4 in Hx. auto. } rewrite lookup_insert_ne by auto. apply H11; [exact Hn|]. left. apply D4, Hx.
      - intros x sc' Hx _. destruct (not_done_handed _ _ _ Hx) as [B1 B2]. destruct (node_cases _ _ x H7) as [Hy|[[sc2 Hy]|Hy]].
        + apply (st_dom _ _ _ D1). eauto.
        + destruct B2. apply D4. exact Hy.
        + assert (x ≠ t). { intros ->. apply B1, D3. auto. } rewrite lookup_insert_ne, lookup_delete_ne by auto. eapply H12; [exact Hy|]. intros Hi; inversion Hi.
        + destruct B1. apply D3. auto.
      - intros x Hx. destruct (decide (x = t)) as [->|Hne]; [rewrite lookup_insert, lookup_delete; split; [reflexivity|left; eauto]|].
        apply D3 in Hx as [Hx|?]; [|contradiction]. rewrite lookup_insert_ne, lookup_delete_ne by auto. auto.
      - intros x Hx HN. destruct (H14 x Hx HN) as [Hy|Hy]; [left; apply D4, Hy|inversion Hy].
      - intros a x. rewrite H15. split; intros (B1 & B2 & B3); (split; [exact B1|]; split; [|exact B3]); (destruct B2 as [B2|B2]; [left; apply D4, B2|inversion B2]).
      - intros x Hx. destruct (decide (x = t)) as [->|Hne]; [apply H6, D6|]. rewrite lookup_insert_ne in Hx by auto. auto. }
    eapply wp_mono; [eapply (check_spec done Q _ T D N g s1 gid i1 ns gr O1); [apply lookup_insert|exact HgD|exact L1|exact Hu|exact Hw|exact HD]| |auto].
    cbv beta. intros _ s2 (T2 & N2 & l & F2 & E2 & Cl2 & A2). wgo. split; [reflexivity|]. split; [|intros E; contradiction]. exists T2, N2, l. split; [destruct F2; split; auto|]. split; [exact E2|]. split; [exact Cl2|].
    rewrite delete_insert_delete in A2. setoid_rewrite insert_insert in A2. exact A2.
  - assert (Ens : ∃ ns', (match r_status r with Success => ret NSuccess | Failed => ret NFailed | Canceled => ret NCanceled | _ => throw ValueError end : M node_state) = ret ns' ∧ ns' ≠ NInactive ∧ ns' ≠ NRunning).
    { destruct Est as [->| ->]; eexists; (split; [reflexivity|split; discriminate]). }
    destruct Ens as (ns' & Ens & Hn1 & Hn2).
    assert (Hrew : ∀ Q' E s, wp (ret ns') Q' E s → wp (match r_status r with Success => ret NSuccess | Failed => ret NFailed | Canceled => ret NCanceled | _ => throw ValueError end) Q' E s) by (intros; rewrite Ens; assumption).
    apply Hrew. wgo. fold t. rewrite Eso. apply wp_ok. wgo. fold t. cbn [ni_task].
    set (i1 := set_sorter so (set_nodes (<[t := NodeInfo ns' k (Some (r_payload r))]> (g_nodes i)) i)). match goal with |- wp _ _ _ ?s => set (s1 := s) end.
    assert (K1 : core (Ext Q (<[gid := i1]> G) T D N) (undispatched (s_log s)) g [] s1). { eapply core_graphs_to; [exact H|reflexivity]. }
    assert (Hclean : cleanable (elements (g_ids i1)) (g_nodes i1) N (s_unassigned s1)).
    { intros x n Hx Hn. apply elem_of_elements in Hx. change (x ∈ g_ids i) in Hx. cbn in Hn. apply lookup_insert_Some in Hn as [[<- <-]|[Hne Hn]]; [destruct ns'; auto; done|].
      pose proof Hx as Hx'. rewrite H1 in Hx'. apply elem_of_list_to_set in Hx'. destruct (node_cases _ _ x H7 (proj2 (H6 x) Hx')) as [Hy|[[sc2 Hy]|Hy]].
      - apply elem_of_list_fmap in Hx' as (m & -> & Hm). destruct (H11 m Hm (or_introl Hy)) as (E & E2 & _). rewrite Hn in E. injection E as ->. cbn. eauto.
      - destruct (H12 _ _ Hy ltac:(intros Hi; inversion Hi)) as ((k2 & E) & _). rewrite Hn in E. injection E as ->. cbn. apply Hcalm; auto.
      - destruct (H13 _ Hy) as (_ & [(k2 & r2 & E & _)|(E & _)]); rewrite Hn in E; [injection E as ->; exact I|discriminate]. }
    assert (Hrest : ∀ st, st = r_status r → (∀ t, MGraphTaskResult gid st [r_payload r] ≠ MTaskEcho t SubmitOK) → wp (let* i := gm_clean (tm_cancel done) gid in do* send (g_client i) (MGraphTaskResult gid st [r_payload r]) in ret true)
      (λ b s', b = true ∧ steps (r_status r) ns Q G T D N g s gid i s' ∧ s_graphs s' !! gid = None) no_exn s1).
    { intros st -> Hnm. apply wp_bind. eapply wp_mono; [eapply clean_spec; [exact K1|apply lookup_insert|exact HgD|exact Hclean]| |auto].
      cbv beta. intros i' s2 (-> & T1 & N1 & A1 & B1 & C1 & C2 & C3 & C4 & C5 & C6). wgo. split; [reflexivity|]. split; [|ss; rewrite (c_graphs _ _ _ _ _ A1); apply lookup_delete]. destruct (td_log _ _ B1) as (l & El & Hcl).
      change (s_log s1) with (s_log s) in El. exists T1, N1, (l ++ [LSend (g_client i) (MGraphTaskResult gid (r_status r) [r_payload r])]). rewrite delete_insert_delete in A1.
      split; [destruct (tidy_frame (g_ids i) T T1 N N1 s1 s2 gid B1 C5 (c_ids _ _ _ _ _ H _ HgD) C2 C4); split; auto|]. split; [ss; rewrite El, app_assoc; reflexivity|].
      split; [intros x c' Hcx; ss; rewrite C5 in Hcx; apply lookup_delete_Some in Hcx as [_ Hcx]; auto|]. right.
      split; [apply okay_emit; [|exact Hnm]; eapply okay_tidy; [exact Hok|exact A1|apply B1|exact El|exact Hcl]|]. split; [|exists l, [r_payload r]; split; [reflexivity|split; [apply calms_hush, Hcl|intros E; destruct Est; congruence]]].
      intros x Hx. pose proof Hx as Hx'. rewrite H1 in Hx'. apply elem_of_list_to_set in Hx'.
      assert (Hx2 : is_Some (g_nodes i1 !! x) ∨ T !! x = None).
      { cbn. destruct (decide (x = t)) as [->|Hne]; [rewrite lookup_insert; eauto|]. rewrite lookup_insert_ne by auto. destruct (node_cases _ _ x H7 (proj2 (H6 x) Hx')) as [Hy|[[sc2 Hy]|Hy]].
        - apply elem_of_list_fmap in Hx' as (m & -> & Hm). destruct (H11 m Hm (or_introl Hy)) as (E & _). eauto.
        - destruct (H12 _ _ Hy ltac:(intros Hi; inversion Hi)) as ((k2 & E) & _). eauto.
        - destruct (H13 _ Hy) as (_ & [(k2 & r2 & E & _)|(_ & E & _)]); eauto. }
      split.
      * destruct Hx2 as [Hx2|Hx2]; [apply C1; assumption|]. destruct (C2 x) as [->|[_ ?]]; assumption.
      * destruct (C4 x) as [E|[_ ?]]; [|assumption]. rewrite E. destruct (N !! x) as [f|] eqn:EN; [|reflexivity].
        destruct (H14 x Hx') as [Hy|Hy]; [eauto| |inversion Hy]. apply elem_of_list_fmap in Hx' as (m & -> & Hm). destruct (H11 m Hm (or_introl Hy)) as (E1 & E2 & _).
        rewrite (C3 (task_id m) (NodeInfo NInactive m None)) in E; [discriminate|exact Hx| |reflexivity]. cbn. rewrite lookup_insert_ne; [exact E1|]. intros E3. rewrite <- E3 in Hy. auto. }
    pose proof (Hrest (r_status r) eq_refl ltac:(discriminate)) as Hr. clear Hrest. destruct Est as [Est|Est]; rewrite Est in Hr |- *; (eapply wp_mono; [exact Hr| |auto]); cbv beta; intros b s' (A & B & C); auto.
Qed.
