(** * Graphs given to get *)

From stdpp Require Import relations.
From Verif.Model Require Import Base Message Sorter Client ClientCalls.
From Verif.Spec Require Import ClientCallsSpec.
From Verif.Proofs Require Import BaseProofs SorterProofs.

(** ** The sorter finds cycles exactly *)
Definition tracked (s : sorter) : Prop := ∀ n, is_Some (so_info s !! n) ↔ n ∈ so_order s.
Lemma tracked_touch s n : tracked s → tracked (so_touch s n) ∧ ∀ m, m ∈ so_order (so_touch s n) ↔ m ∈ so_order s ∨ m = n.
Proof.
  intros Hs. unfold so_touch. destruct (so_info s !! n) eqn:E.
  - split; [done|]. intros m. split; [auto|]. intros [H| ->]; [done|]. apply Hs. eauto.
  - split; [|intros m; cbn; rewrite elem_of_app, elem_of_list_singleton; done].
    intros m. cbn. rewrite lookup_insert_is_Some, elem_of_app, elem_of_list_singleton, (Hs m). destruct (decide (n = m)); naive_solver.
Qed.
Lemma tracked_alter f n s : tracked s → tracked (so_alter f n s).
Proof. intros Hs m. cbn. rewrite <- (Hs m). destruct (decide (n = m)) as [->|]; [rewrite lookup_alter, fmap_is_Some|rewrite lookup_alter_ne by done]; done. Qed.
Lemma tracked_preds f ps : ∀ s, tracked s → tracked (foldl (λ s p, so_alter f p (so_touch s p)) s ps) ∧
  ∀ m, m ∈ so_order (foldl (λ s p, so_alter f p (so_touch s p)) s ps) ↔ m ∈ so_order s ∨ m ∈ ps.
Proof.
  induction ps as [|p ps IH]; intros s Hs; [split; [done|]; intros m; cbn; set_solver|].
  cbn [foldl]. destruct (tracked_touch s p Hs) as [H1 H2]. destruct (IH _ (tracked_alter f p _ H1)) as [H3 H4]. split; [exact H3|].
  intros m. rewrite H4, elem_of_cons. cbn. rewrite (H2 m). tauto.
Qed.
Lemma tracked_add s n ps : tracked s → tracked (so_add s n ps) ∧ ∀ m, m ∈ so_order (so_add s n ps) ↔ m ∈ so_order s ∨ m = n ∨ m ∈ ps.
Proof.
  intros Hs. unfold so_add. destruct (tracked_touch s n Hs) as [H1 H2].
  destruct (tracked_preds (λ i, (i.1, i.2 ++ [n])) ps _ (tracked_alter (λ p, (p.1 + Z.of_nat (length ps), p.2)) n _ H1)) as [H3 H4].
  split; [exact H3|]. intros m. rewrite H4. cbn. rewrite (H2 m). tauto.
Qed.
Lemma order_of_graph gr : tracked (so_of_graph gr) ∧ ∀ n, n ∈ so_order (so_of_graph gr) ↔ node_in gr n.
Proof.
  unfold so_of_graph. induction gr as [|[n ps] gr IH] using rev_ind.
  - split; [intros n; cbn; rewrite lookup_empty, is_Some_alt; set_solver|]. intros n. unfold node_in, pr. cbn. set_solver.
  - rewrite foldl_app. cbn. destruct IH as [H1 H2]. destruct (tracked_add _ n ps H1) as [H3 H4]. split; [exact H3|].
    intros m. rewrite H4, H2. unfold node_in. rewrite fmap_app, elem_of_app. cbn. rewrite elem_of_list_singleton.
    setoid_rewrite pr_app. setoid_rewrite elem_of_app. setoid_rewrite pr_one. split.
    + intros [[H|[x H]]|[->|H]]; [auto|right; exists x; auto|auto|]. right. exists n. rewrite decide_True by done. auto.
    + intros [[H| ->]|[x [H|H]]]; [auto|auto|eauto|]. case_decide as E; [auto|set_solver].
Qed.

(** Elimination gets stuck only on a set in which every node has a predecessor. *)
Lemma eliminate_stuck gr r : ∀ gone order, (length order <= r)%nat → (∀ n, node_in gr n → n ∈ gone ∨ n ∈ order) →
  eliminate r gr gone order ≠ [] → ∃ S : list bytes, S ≠ [] ∧ ∀ n, n ∈ S → ∃ p, p ∈ pr gr n ∧ p ∈ S.
Proof.
  induction r as [|r IH]; intros gone order Hl Hn He; cbn [eliminate] in He; [destruct order; cbn in Hl; [done|lia]|].
  set (blocked := λ n, existsb _ gr) in He.
  destruct (List.filter (λ n, negb (blocked n)) order) as [|x go] eqn:Ego.
  - assert (Hb : ∀ n, n ∈ order → blocked n = true).
    { intros n Hin. destruct (blocked n) eqn:E; [done|]. exfalso. apply elem_of_list_In in Hin.
      assert (In n (List.filter (λ n, negb (blocked n)) order)) as Hx by (apply filter_In; rewrite E; done). rewrite Ego in Hx. destruct Hx. }
    exists order. split.
    { intros ->. cbn in He. apply He. clear. assert (Hx : ∀ g, eliminate r gr g [] = []); [|apply Hx]. induction r as [|r IH]; intros g; [done|]. cbn. apply IH. }
    intros n Hin. specialize (Hb n Hin). apply existsb_exists in Hb as ((m & ps) & Hm & Hx). apply elem_of_list_In in Hm. cbn in Hx.
    apply andb_true_iff in Hx as [E Hx]. apply String.eqb_eq in E as ->. apply existsb_exists in Hx as (q & Hq & Hg). apply elem_of_list_In in Hq.
    apply negb_true_iff, bool_decide_eq_false in Hg. assert (q ∈ pr gr n) by (apply elem_of_pr; eauto).
    exists q. split; [done|]. destruct (Hn q) as [?|?]; [right; eauto|done|done].
  - eapply IH; [| |exact He].
    + assert (length (List.filter blocked order) + length (List.filter (λ n, negb (blocked n)) order) = length order)%nat.
      { clear. induction order as [|a l IH]; [done|]. cbn. destruct (blocked a); cbn; lia. }
      rewrite Ego in H. cbn in H. lia.
    + intros n Hx. destruct (Hn n Hx) as [H|H]; [set_solver|]. destruct (blocked n) eqn:E.
      * right. apply elem_of_list_In, filter_In. split; [apply elem_of_list_In; done|done].
      * left. apply elem_of_union. right. apply elem_of_list_to_set. apply elem_of_list_In, filter_In. split; [apply elem_of_list_In; done|change (negb (blocked n) = true); rewrite E; done].
Qed.

Definition before (gr : list (bytes * list bytes)) (n p : bytes) : Prop := p ∈ pr gr n.
Lemma closed_cycle gr (S : list bytes) : S ≠ [] → (∀ n, n ∈ S → ∃ p, p ∈ pr gr n ∧ p ∈ S) → ¬ ∀ n, ¬ tc (before gr) n n.
Proof.
  intros HS Hcl Hno. set (R := λ n p, before gr n p ∧ p ∈ S).
  assert (HR : ∀ x y, tc R x y → tc (before gr) x y ∧ y ∈ S).
  { intros x y H. induction H as [x y [H1 H2]|x y z [H1 H2] H3 [IH1 IH2]]; [split; [apply tc_once|]; done|]. split; [eapply tc_l; eauto|done]. }
  destruct S as [|x S]; [done|]. assert (Hx : Acc (flip R) x).
  { apply tc_finite_sn.
    - intros y Hy. apply HR in Hy as [Hy _]. exact (Hno y Hy).
    - exists (x :: S). intros y Hy. apply HR in Hy as [_ Hy]. exact Hy. }
  assert (Hall : ∀ y, Acc (flip R) y → y ∈ x :: S → False); [|apply (Hall x Hx); left].
  intros y Hy. induction Hy as [y _ IH]. intros Hin. destruct (Hcl y Hin) as (p & Hp & Hps). apply (IH p); [split; done|done].
Qed.
Lemma has_cycle_iff gr order : (∀ n, node_in gr n → n ∈ order) →
  has_cycle gr order = false ↔ ∀ n, ¬ tc (before gr) n n.
Proof.
  intros Ho. split.
  - intros Hc n Hn. pose proof (has_cycle_ok gr order Hc Ho) as Ha.
    assert (Hnode : node_in gr n). { left. assert (∃ p, before gr n p) as (p & Hp) by (inversion Hn; eauto). apply elem_of_pr in Hp as (ps & Hp & _). apply elem_of_list_fmap. exists (n, ps). done. }
    apply (Ha (λ m, tc (before gr) m m)) in Hnode; [contradiction|]. clear. intros m Hm. inversion Hm as [? ? H|? p ? H H']; subst.
    + exists m. done.
    + exists p. split; [exact H|]. eapply tc_r; [exact H'|exact H].
  - intros Hno. destruct (has_cycle gr order) eqn:Hc; [|done]. exfalso. unfold has_cycle in Hc.
    destruct (eliminate_stuck gr (length order) ∅ order) as (S & HS & Hcl); [lia|auto|intros E; rewrite E in Hc; done|].
    exact (closed_cycle gr S HS Hcl Hno).
Qed.

(** ** Accepting *)
Lemma elem_of_calls graph n x : (n, x) ∈ c_calls graph ↔ (n, GCall x.1.1 x.1.2 x.2) ∈ graph.
Proof.
  unfold c_calls. rewrite elem_of_list_omap. split.
  - intros ([m [d|name content args]] & H1 & H2); cbn in H2; [done|]. injection H2 as -> <-. exact H1.
  - intros H. eexists. split; [exact H|]. cbn. destruct x as [[a b] c]. done.
Qed.
Lemma elem_of_data graph n d : (n, d) ∈ c_data graph ↔ (n, GData d) ∈ graph.
Proof.
  unfold c_data. rewrite elem_of_list_omap. split.
  - intros ([m [d'|name content args]] & H1 & H2); cbn in H2; [|done]. injection H2 as -> <-. exact H1.
  - intros H. eexists. split; [exact H|]. done.
Qed.
Lemma has_spec {A} k (d : list (bytes * A)) : has k d = true ↔ ∃ x, (k, x) ∈ d.
Proof.
  unfold has. rewrite existsb_exists. split.
  - intros ([m x] & H1 & H2). cbn in H2. apply String.eqb_eq in H2 as ->. exists x. apply elem_of_list_In, H1.
  - intros [x H]. exists (k, x). split; [apply elem_of_list_In, H|apply String.eqb_refl].
Qed.
Lemma has_calls graph k : has k (c_calls graph) = true ↔ computed graph k.
Proof.
  rewrite has_spec. unfold computed. split.
  - intros [[[a b] c] H]. apply elem_of_calls in H. eauto.
  - intros (a & b & c & H). exists (a, b, c). apply elem_of_calls. exact H.
Qed.
Lemma has_either graph k : has k (c_data graph) = true ∨ has k (c_calls graph) = true ↔ k ∈ graph.*1.
Proof.
  rewrite has_calls, has_spec, elem_of_list_fmap. split.
  - intros [[d H]|(a & b & c & H)]; [apply elem_of_data in H|]; eexists; (split; [|exact H]); done.
  - intros ([m [d|a b c]] & -> & H); [left; exists d; apply elem_of_data, H|right; cbn; unfold computed; eauto].
Qed.
Lemma check_args_iff graph args : c_check_args (c_data graph) (c_calls graph) args = None ↔ ∀ a, a ∈ args → ∃ m, a = AName m ∧ m ∈ graph.*1.
Proof.
  induction args as [|[m|b] args IH]; cbn; [set_solver| |].
  - destruct (negb _ && negb _) eqn:E.
    + apply andb_true_iff in E as [E1 E2]. apply negb_true_iff in E1, E2. split; [done|]. intros H. destruct (H (AName m)) as (x & [= <-] & Hx); [set_solver|].
      apply has_either in Hx. destruct Hx; congruence.
    + rewrite IH. assert (Hm : m ∈ graph.*1). { apply has_either. apply andb_false_iff in E. destruct E as [E|E]; apply negb_false_iff in E; auto. }
      split; [intros H a Ha; apply elem_of_cons in Ha as [->|Ha]; eauto|]. intros H a Ha. apply H. set_solver.
  - split; [done|]. intros H. destruct (H (AOther b)) as (x & ? & _); [set_solver|done].
Qed.
Lemma check_nodes_iff graph nodes : c_check_nodes (c_data graph) (c_calls graph) nodes = None ↔
  ∀ n x a, (n, x) ∈ nodes → a ∈ x.2 → ∃ m, a = AName m ∧ m ∈ graph.*1.
Proof.
  induction nodes as [|[n [[name content] args]] nodes IH]; cbn; [set_solver|].
  destruct (c_check_args _ _ args) eqn:E.
  - split; [done|]. intros H. exfalso. assert (c_check_args (c_data graph) (c_calls graph) args = None); [|congruence].
    apply check_args_iff. intros a Ha. apply (H n (name, content, args)); [set_solver|done].
  - rewrite IH. pose proof (proj1 (check_args_iff graph args) E) as E'. split.
    + intros H m x a Hm Ha. apply elem_of_cons in Hm as [[= -> ->]|Hm]; [apply E'; done|eauto].
    + intros H m x a Hm Ha. apply (H m x); [set_solver|done].
Qed.
Lemma arg_names_in args m : m ∈ arg_names args ↔ AName m ∈ args.
Proof. unfold arg_names. rewrite elem_of_list_omap. split; [intros ([x|] & H1 & H2); [injection H2 as ->; done|done]|]. intros H. eexists. split; [exact H|done]. Qed.
Lemma sorter_depends graph n m : before (c_sorter (c_calls graph)) n m ↔ depends graph n m.
Proof.
  unfold before, depends, c_sorter. rewrite elem_of_pr. split.
  - intros (ps & H1 & H2). apply elem_of_list_fmap in H1 as ([n' [[a b] c]] & [= <- ->] & H). apply elem_of_calls in H. apply arg_names_in in H2. cbn in *. eauto 6.
  - intros (a & b & c & H1 & H2). exists (arg_names c). split; [|apply arg_names_in, H2]. apply elem_of_list_fmap. exists (n, (a, b, c)). split; [done|]. apply elem_of_calls. exact H1.
Qed.
Lemma tc_iff {A} (R1 R2 : relation A) : (∀ x y, R1 x y ↔ R2 x y) → ∀ x y, tc R1 x y ↔ tc R2 x y.
Proof.
  intros H x y. split; intros Ht; (induction Ht as [? ? Hx|? ? ? Hx _ IH]; [apply tc_once|eapply tc_l; [|exact IH]]; apply H, Hx).
Qed.
Lemma check_iff graph keys : c_check (c_data graph) (c_calls graph) keys = None ↔ well_formed graph keys.
Proof.
  unfold c_check, well_formed, so_prepare. destruct (forallb _ keys) eqn:Ek.
  - assert (Hk : ∀ k, k ∈ keys → computed graph k).
    { intros k Hin. apply has_calls. eapply forallb_forall in Ek; [exact Ek|]. apply elem_of_list_In, Hin. }
    destruct (c_check_nodes _ _ _) eqn:En.
    + split; [done|]. intros (_ & Ha & _). exfalso. assert (c_check_nodes (c_data graph) (c_calls graph) (c_calls graph) = None); [|congruence].
      apply check_nodes_iff. intros n x a Hx Hin. apply elem_of_calls in Hx. eapply Ha; eauto.
    + assert (Ha : ∀ n name content args a, (n, GCall name content args) ∈ graph → a ∈ args → ∃ m, a = AName m ∧ m ∈ graph.*1).
      { intros n name content args a H1 H2. eapply (proj1 (check_nodes_iff _ _) En n (name, content, args)); [apply elem_of_calls, H1|exact H2]. }
      set (gr := c_sorter (c_calls graph)). pose proof (has_cycle_iff gr (so_order (so_of_graph gr)) (λ n H, proj2 (proj2 (order_of_graph gr) n) H)) as Hc.
      assert (Ht : (∀ n, ¬ tc (before gr) n n) ↔ ∀ n, ¬ tc (depends graph) n n).
      { pose proof (tc_iff _ _ (sorter_depends graph)) as Hx. split; intros H n Hn; apply (H n), Hx, Hn. }
      rewrite Ht in Hc. destruct (has_cycle gr _) eqn:Ec.
      * split; [done|]. intros (_ & _ & H). apply Hc in H. done.
      * split; [|done]. intros _. split; [done|]. split; [done|]. apply Hc. done.
  - split; [done|]. intros (H & _). exfalso. apply not_true_iff_false in Ek. apply Ek, forallb_forall. intros k Hin. apply has_calls, H, elem_of_list_In, Hin.
Qed.

(** ** The message *)
Lemma find_key_spec {A} k (d : list (bytes * A)) x : find_key k d = Some x → (k, x) ∈ d.
Proof.
  unfold find_key. destruct (List.find _ d) as [[m y]|] eqn:E; [|done]. intros [= ->]. apply List.find_some in E as [H1 H2]. cbn in H2.
  apply String.eqb_eq in H2 as ->. apply elem_of_list_In, H1.
Qed.
Lemma find_key_some {A} k (d : list (bytes * A)) : has k d = true → ∃ x, find_key k d = Some x.
Proof.
  unfold find_key, has. intros H. destruct (List.find _ d) eqn:E; [eauto|]. exfalso. apply existsb_exists in H as (p & H1 & H2).
  eapply List.find_none in E; [|exact H1]. cbn in E. congruence.
Qed.
Lemma elem_of_put {A} k (v : A) d p : p ∈ put_key k v d → p = (k, v) ∨ (p ∈ d ∧ p.1 ≠ k).
Proof.
  unfold put_key, put_last. destruct (existsb _ d) eqn:E.
  - intros H. apply elem_of_list_fmap in H as (q & -> & Hq). destruct (String.eqb_spec q.1 k); auto.
  - intros H. apply elem_of_app in H as [H|H]; [|apply elem_of_list_singleton in H as ->; auto]. right. split; [done|].
    intros Ep. apply not_true_iff_false in E. apply E. apply existsb_exists. exists p. split; [apply elem_of_list_In, H|]. rewrite Ep. apply String.eqb_refl.
Qed.
Lemma put_in {A} k (v : A) d : (k, v) ∈ put_key k v d.
Proof.
  unfold put_key, put_last. destruct (existsb _ d) eqn:E; [|apply elem_of_app; right; left].
  apply existsb_exists in E as (q & Hq & Eq). apply elem_of_list_fmap. exists q. rewrite Eq. split; [done|]. apply elem_of_list_In, Hq.
Qed.
Lemma put_keeps {A} k (v : A) d p : p ∈ d → p.1 ≠ k → p ∈ put_key k v d.
Proof.
  intros Hp Hk. unfold put_key, put_last. destruct (existsb _ d) eqn:E; [|apply elem_of_app; auto].
  apply elem_of_list_fmap. exists p. destruct (String.eqb_spec p.1 k); done.
Qed.
Lemma put_new {A} k (v : A) d : k ∉ d.*1 → put_key k v d = d ++ [(k, v)].
Proof.
  intros Hk. unfold put_key, put_last. destruct (existsb _ d) eqn:E; [|done]. exfalso. apply Hk.
  apply existsb_exists in E as (q & Hq & Eq). apply String.eqb_eq in Eq as <-. apply elem_of_list_fmap. exists q. split; [done|]. apply elem_of_list_In, Hq.
Qed.

(** How an argument is sent. *)
Definition sent_as (ids : bytes → bytes) (graph : ugraph) (a : garg) (x : argument) : Prop :=
  ∃ m, a = AName m ∧ (computed graph m ∧ x = ArgTask (ids m) ∨ ∃ d, (m, GData d) ∈ graph ∧ x = ArgData d).
Lemma arguments_ok ids graph args : (∀ a, a ∈ args → ∃ m, a = AName m ∧ m ∈ graph.*1) →
  ∃ xs, c_arguments ids (c_data graph) (c_calls graph) args = Ok xs ∧ Forall2 (sent_as ids graph) args xs.
Proof.
  induction args as [|a args IH]; intros Ha; [exists []; split; [done|constructor]|].
  destruct IH as (xs & E & HF); [intros b Hb; apply Ha; set_solver|].
  destruct (Ha a) as (m & -> & Hm); [set_solver|]. cbn. destruct (has m (c_calls graph)) eqn:Hc.
  - exists (ArgTask (ids m) :: xs). rewrite E. split; [done|]. constructor; [|done]. exists m. split; [done|]. left. split; [apply has_calls, Hc|done].
  - apply has_either in Hm as [Hm|Hm]; [|congruence]. destruct (find_key_some _ _ Hm) as [d Hd]. rewrite Hd, E.
    exists (ArgData d :: xs). split; [done|]. constructor; [|done]. exists m. split; [done|]. right. exists d. split; [|done]. apply elem_of_data, find_key_spec, Hd.
Qed.
(** The tasks and functions sent for a graph. *)
Definition sent_node (ids digest : bytes → bytes) (graph : ugraph) (p : bytes * (bytes * bytes * list garg)) (k : task) : Prop :=
  task_id k = ids p.1 ∧ task_function k = digest p.2.1.2 ∧ Forall2 (sent_as ids graph) p.2.2 (task_args k).
Lemma tasks_ok ids digest graph nodes : (∀ n x a, (n, x) ∈ nodes → a ∈ x.2 → ∃ m, a = AName m ∧ m ∈ graph.*1) → ∀ fns,
  ∃ fns' tasks, c_tasks ids digest (c_data graph) (c_calls graph) nodes fns = Ok (fns', tasks) ∧
    Forall2 (sent_node ids digest graph) nodes tasks ∧
    (∀ f b, (f, b) ∈ fns' → (f, b) ∈ fns ∨ ∃ n x, (n, x) ∈ nodes ∧ f = digest x.1.2 ∧ b.2 = x.1.2) ∧
    (∀ f, f ∈ fns.*1 → f ∈ fns'.*1) ∧ (∀ n x, (n, x) ∈ nodes → digest x.1.2 ∈ fns'.*1).
Proof.
  induction nodes as [|[n [[name content] args]] nodes IH]; intros Ha fns.
  { exists fns, []. cbn. split; [done|]. split; [constructor|]. split; [auto|]. split; [auto|]. intros n x Hn. inversion Hn. }
  destruct (arguments_ok ids graph args) as (xs & E & HF). { intros a Hin. apply (Ha n (name, content, args)); [left|done]. }
  destruct (IH (λ n x a H, Ha n x a (elem_of_list_further _ _ _ H)) (put_key (digest content) (name, content) fns)) as (fns' & tasks & E' & H1 & H2 & H3 & H4).
  exists fns', (Task (ids n) (digest content) xs :: tasks). cbn. rewrite E, E'. split; [done|]. split; [|split; [|split]].
  - constructor; [|done]. unfold sent_node. cbn. done.
  - intros f b Hf. destruct (H2 f b Hf) as [Hp|(m & x & Hm & Hx)].
    + apply elem_of_put in Hp as [[= -> ->]|[Hp _]]; [|auto]. right. exists n, (name, content, args). cbn. split; [left|done].
    + right. exists m, x. split; [right|]; done.
  - intros f Hf. apply H3. destruct (decide (f = digest content)) as [->|Hne].
    + apply elem_of_list_fmap. eexists. split; [|apply put_in]. done.
    + apply elem_of_list_fmap in Hf as (p & -> & Hp). apply elem_of_list_fmap. exists p. split; [done|]. apply put_keeps; done.
  - intros m x Hm. apply elem_of_cons in Hm as [[= -> ->]|Hm]; [|eauto]. cbn. apply H3.
    apply elem_of_list_fmap. eexists. split; [|apply put_in]. done.
Qed.

(** ** Values *)
Scheme node_value_mind := Minimality for node_value Sort Prop
  with node_values_mind := Minimality for node_values Sort Prop.
Scheme task_value_mind := Minimality for task_value Sort Prop
  with arg_values_mind := Minimality for arg_values Sort Prop.

Lemma nodup_fst {A} (d : list (bytes * A)) k x y : NoDup d.*1 → (k, x) ∈ d → (k, y) ∈ d → x = y.
Proof.
  intros HN Hx Hy. apply elem_of_list_lookup in Hx as [i Hi], Hy as [j Hj].
  assert (i = j) as ->.
  { eapply NoDup_lookup; [exact HN| |]; rewrite list_lookup_fmap; [rewrite Hi; reflexivity|rewrite Hj; reflexivity]. }
  congruence.
Qed.

Section values.
  Context (interp : bytes → list bytes → bytes) (graph : ugraph) (ids digest : bytes → bytes) (fns : list (bytes * (bytes * bytes))) (tasks : list task).
  Context (HN : NoDup graph.*1).
  Context (Hids : ∀ n m, computed graph n → computed graph m → ids n = ids m → n = m).
  Context (Hdig : ∀ n name c args n' name' c' args', (n, GCall name c args) ∈ graph → (n', GCall name' c' args') ∈ graph → digest c = digest c' → c = c').
  Context (HT : Forall2 (sent_node ids digest graph) (c_calls graph) tasks).
  Context (HF1 : ∀ f b, (f, b) ∈ fns → ∃ n x, (n, x) ∈ c_calls graph ∧ f = digest x.1.2 ∧ b.2 = x.1.2).
  Context (HF2 : ∀ n x, (n, x) ∈ c_calls graph → digest x.1.2 ∈ fns.*1).

  Lemma data_value m d v : (m, GData d) ∈ graph → node_value interp graph m v → v = d.
  Proof. intros Hm Hv. inversion Hv as [? ? H|? ? ? ? ? H _]; subst; pose proof (nodup_fst _ _ _ _ HN Hm H); congruence. Qed.
  Lemma values_forward n v : node_value interp graph n v → computed graph n → task_value interp fns tasks (ids n) v.
  Proof.
    revert n v. apply (node_value_mind interp graph (λ n v, computed graph n → task_value interp fns tasks (ids n) v)
      (λ args vs, node_values interp graph args vs ∧ ∀ xs, Forall2 (sent_as ids graph) args xs → arg_values interp fns tasks xs vs)).
    - intros n d Hn (a & b & c & Hc). pose proof (nodup_fst _ _ _ _ HN Hn Hc). done.
    - intros n name content args vs Hn _ [_ IH] _. assert (Hc : (n, (name, content, args)) ∈ c_calls graph) by (apply elem_of_calls, Hn).
      apply elem_of_list_lookup in Hc as [i Hi]. destruct (Forall2_lookup_l _ _ _ _ _ HT Hi) as (k & Hk & E1 & E2 & HA). cbn in *.
      rewrite <- E1. apply elem_of_list_lookup_2 in Hi as Hc. apply HF2 in Hc as Hf. apply elem_of_list_fmap in Hf as ([f [name' c']] & Ef & Hf). cbn in Ef. subst f.
      destruct (HF1 _ _ Hf) as (m & x & Hm & Hd & Hb). cbn in Hb. subst c'.
      assert (content = x.1.2) as Ec. { apply elem_of_calls in Hm. eapply Hdig; [exact Hn|exact Hm|done]. }
      rewrite Ec. rewrite <- Ec. apply (tvalue _ _ _ k name' content).
      + eapply elem_of_list_lookup_2, Hk.
      + rewrite E2. rewrite Ec at 2. exact Hf.
      + apply IH, HA.
    - split; [constructor|]. intros xs Hx. inversion Hx. constructor.
    - intros m v args vs Hv IHv Hvs [_ IH]. split; [constructor; done|]. intros xs Hx. inversion Hx as [|? x ? xs' Hs Hx']; subst.
      destruct Hs as (m' & [= <-] & [[Hc ->]|(d & Hd & ->)]).
      + constructor; [apply IHv, Hc|apply IH, Hx'].
      + rewrite (data_value m d v Hd Hv). constructor. apply IH, Hx'.
  Qed.
  Lemma values_backward t v : task_value interp fns tasks t v → ∀ n, computed graph n → t = ids n → node_value interp graph n v.
  Proof.
    revert t v. apply (task_value_mind interp fns tasks (λ t v, ∀ n, computed graph n → t = ids n → node_value interp graph n v)
      (λ xs vs, ∀ args, Forall2 (sent_as ids graph) args xs → node_values interp graph args vs)).
    - intros k name content vs Hk Hf _ IH n Hn Et. apply elem_of_list_lookup in Hk as [i Hi].
      destruct (Forall2_lookup_r _ _ _ _ _ HT Hi) as ([m [[a b] args]] & Hm & E1 & E2 & HA). cbn in *. apply elem_of_list_lookup_2 in Hm. apply elem_of_calls in Hm as Hg. cbn in Hg.
      assert (m = n) as -> by (apply Hids; [unfold computed; eauto|done|congruence]).
      destruct (HF1 _ _ Hf) as (n' & x & Hx & Ef & Eb). cbn in Eb. subst content.
      assert (b = x.1.2) as <-. { apply elem_of_calls in Hx. eapply Hdig; [exact Hg|exact Hx|congruence]. }
      apply (value_call _ _ _ a b args); [done|]. apply IH, HA.
    - intros args HA. inversion HA. constructor.
    - intros d xs vs _ IH args HA. inversion HA as [|? ? args' ? Hs HA']; subst. destruct Hs as (m & -> & [[_ ?]|(d' & Hd & [= <-])]); [done|].
      constructor; [apply value_data, Hd|apply IH, HA'].
    - intros t v xs vs _ IHv _ IH args HA. inversion HA as [|? ? args' ? Hs HA']; subst. destruct Hs as (m & -> & [[Hc [= ->]]|(d' & Hd & ?)]); [|done].
      constructor; [apply IHv; done|apply IH, HA'].
  Qed.
End values.

(** Every node of a well-formed graph has exactly one value. *)
Lemma node_value_unique interp graph n v : NoDup graph.*1 → node_value interp graph n v → ∀ w, node_value interp graph n w → v = w.
Proof.
  intros HN. revert n v. apply (node_value_mind interp graph (λ n v, ∀ w, node_value interp graph n w → v = w) (λ args vs, ∀ ws, node_values interp graph args ws → vs = ws)).
  - intros n d Hn w Hw. symmetry. eapply data_value; eauto.
  - intros n name content args vs Hn _ IH w Hw. inversion Hw as [? ? H|? ? ? ? ? H Hs]; subst; pose proof (nodup_fst _ _ _ _ HN Hn H) as E; [done|].
    injection E as <- <- <-. f_equal. auto.
  - intros ws H. inversion H. done.
  - intros m v args vs _ IH1 _ IH2 ws H. inversion H; subst. f_equal; auto.
Qed.
Lemma depends_sn graph : (∀ n, ¬ tc (depends graph) n n) → (∀ n name content args a, (n, GCall name content args) ∈ graph → a ∈ args → ∃ m, a = AName m ∧ m ∈ graph.*1) →
  ∀ n, Acc (flip (depends graph)) n.
Proof.
  intros Hac Ha n. apply tc_finite_sn.
  - intros y Hy. exact (Hac y Hy).
  - exists graph.*1. intros y Hy. induction Hy as [x y (a & b & c & H1 & H2)|x y z _ _ IH]; [|done]. destruct (Ha _ _ _ _ _ H1 H2) as (m & [= <-] & Hm). exact Hm.
Qed.
Lemma node_value_total interp graph keys : well_formed graph keys → ∀ n, n ∈ graph.*1 → ∃ v, node_value interp graph n v.
Proof.
  intros (_ & Ha & Hac) n. pose proof (depends_sn graph Hac Ha n) as Hacc. induction Hacc as [n _ IH]. intros Hn.
  apply elem_of_list_fmap in Hn as ([m [d|name content args]] & -> & Hm); cbn; [exists d; apply value_data, Hm|]. cbn in IH.
  assert (Hvs : ∃ vs, node_values interp graph args vs).
  { assert (Hsub : ∀ a, a ∈ args → a ∈ args) by auto. revert Hsub. generalize args at 1 3. intros l. induction l as [|a l IHl]; intros Hsub; [exists []; constructor|].
    destruct IHl as [vs Hvs]; [intros b Hb; apply Hsub; right; done|]. destruct (Ha m name content args a Hm) as (x & -> & Hx); [apply Hsub; left|].
    destruct (IH x) as [v Hv]; [unfold flip, depends; exists name, content, args; split; [done|]; apply Hsub; left|done|].
    exists (v :: vs). constructor; done. }
  destruct Hvs as [vs Hvs]. eexists. eapply value_call; eauto.
Qed.

(** ** Targets and futures *)
Lemma puts_fresh {A} (l : list (bytes * A)) : ∀ d, NoDup (d.*1 ++ l.*1) → foldl (λ d p, put_key p.1 p.2 d) d l = d ++ l.
Proof.
  induction l as [|[k v] l IH]; intros d HN; [cbn; rewrite app_nil_r; done|]. cbn [foldl]. rewrite put_new.
  - rewrite IH; [rewrite <- app_assoc; done|]. rewrite fmap_app, <- app_assoc. exact HN.
  - apply NoDup_app in HN as (_ & HN & _). intros Hk. apply (HN _ Hk). left.
Qed.
Lemma targets_distinct (ids : bytes → bytes) keys : NoDup (ids <$> keys) → c_targets ids keys = ids <$> keys.
Proof.
  intros HN. unfold c_targets.
  assert (E : foldl (λ d k, put_key (ids k) tt d) [] keys = foldl (λ d p, put_key p.1 p.2 d) [] ((λ k, (ids k, tt)) <$> keys)).
  { generalize (@nil (bytes * unit)). clear. induction keys as [|k keys IH]; intros d; [done|]. cbn. apply IH. }
  rewrite E, puts_fresh; cbn; rewrite <- list_fmap_compose; done.
Qed.
Lemma put_keys_of {A} k (v : A) d : (put_key k v d).*1 = if has k d then d.*1 else d.*1 ++ [k].
Proof.
  unfold put_key, put_last, has. destruct (existsb _ d); [|rewrite fmap_app; done]. rewrite <- list_fmap_compose. apply list_fmap_ext.
  intros i p Hp. cbn. destruct (String.eqb_spec p.1 k); done.
Qed.
Lemma targets_spec (ids : bytes → bytes) keys : NoDup (c_targets ids keys) ∧ ∀ t, t ∈ c_targets ids keys ↔ t ∈ ids <$> keys.
Proof.
  unfold c_targets. induction keys as [|k keys IH] using rev_ind; [split; [constructor|done]|]. rewrite foldl_app. cbn. rewrite put_keys_of.
  destruct IH as [H1 H2]. set (d := foldl _ _ keys) in *. destruct (has (ids k) d) eqn:E.
  - split; [done|]. intros t. rewrite H2, fmap_app, elem_of_app. cbn. rewrite elem_of_list_singleton. split; [auto|]. intros [?| ->]; [done|].
    apply H2. apply has_spec in E as [x Hx]. apply elem_of_list_fmap. exists (ids k, x). done.
  - split.
    + apply NoDup_app. split; [done|]. split; [|apply NoDup_singleton]. intros x Hx Hy. apply elem_of_list_singleton in Hy as ->.
      apply elem_of_list_fmap in Hx as ([y []] & Ey & Hy). cbn in Ey. assert (has (ids k) d = true); [|congruence]. apply has_spec. rewrite Ey. eauto.
    + intros t. rewrite elem_of_app, H2, fmap_app, elem_of_app. done.
Qed.

(** What [get] sends and returns for an accepted graph. *)
Lemma get_ok ids digest g graph keys : well_formed graph keys →
  ∃ fns tasks,
    c_get ids digest g graph keys =
      Ok (MGraphTask g fns (c_targets ids keys) tasks, (λ i, FGraph g i) <$> seq 0 (length (c_targets ids keys)),
          foldl (λ d p, put_key p.1 p.2 d) [] (zip keys ((λ i, FGraph g i) <$> seq 0 (length (c_targets ids keys))))) ∧
    Forall2 (sent_node ids digest graph) (c_calls graph) tasks ∧
    (∀ f b, (f, b) ∈ fns → ∃ n x, (n, x) ∈ c_calls graph ∧ f = digest x.1.2 ∧ b.2 = x.1.2) ∧
    (∀ n x, (n, x) ∈ c_calls graph → digest x.1.2 ∈ fns.*1).
Proof.
  intros Hw. pose proof (proj2 (check_iff graph keys) Hw) as Hc. destruct Hw as (_ & Ha & _).
  destruct (tasks_ok ids digest graph (c_calls graph)) with (fns := @nil (bytes * (bytes * bytes))) as (fns & tasks & E & H1 & H2 & H3 & H4).
  { intros n x a Hn Hx. apply elem_of_calls in Hn. eapply Ha; eauto. }
  exists fns, tasks. unfold c_get. rewrite Hc. unfold c_construct. rewrite E. split; [done|]. split; [done|]. split; [|done].
  intros f b Hf. destruct (H2 f b Hf) as [Hx|Hx]; [inversion Hx|exact Hx].
Qed.
Lemma get_raises ids digest g graph keys : (∃ e, c_get ids digest g graph keys = Raise e) ↔ ¬ well_formed graph keys.
Proof.
  rewrite <- check_iff. split.
  - intros [e E] Hc. destruct (get_ok ids digest g graph keys) as (fns & tasks & E' & _); [apply check_iff, Hc|]. congruence.
  - intros Hn. unfold c_get. destruct (c_check _ _ _) eqn:E; [eauto|done].
Qed.
