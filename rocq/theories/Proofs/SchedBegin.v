(** Graphs under well-behaved traffic (C73, C74): starting a graph. *)

From Verif.Model Require Import Base OneToManyDict PriorityQueue Allocator Message Sorter Scheduler.
From Verif.Spec Require Import AllocatorSpec DictSpec SchedulerSpec TrafficSpec.
From Verif.Proofs Require Import BaseProofs DictProofs AllocatorProofs SchedWp SchedCount SchedHold SchedContent SchedSend SchedPrim SchedFn SchedGlobal SchedStep SchedRemove SchedPlain SorterProofs SchedLive.

Lemma depends_add d a t b u : depends (kvs_add d a t) b u ↔ depends d b u ∨ (b = a ∧ u = t).
Proof.
  unfold depends, kvs_add. destruct (decide (b = a)) as [->|Hne].
  - rewrite lookup_alter. destruct (d !! a) as [S|] eqn:E.
    + rewrite E. cbn. split; [intros (S' & [= <-] & Hu)|intros [(S' & [= <-] & Hu)|[_ ->]]]; [|exists ({[t]} ∪ S); split; [reflexivity|set_solver]..].
      apply elem_of_union in Hu as [Hu|Hu]; [right; set_solver|left; eauto].
    + rewrite lookup_insert. cbn. split; [intros (S' & [= <-] & Hu)|intros [(S' & [=] & Hu)|[_ ->]]]; [|exists ({[t]} ∪ ∅); split; [reflexivity|set_solver]].
      apply elem_of_union in Hu as [Hu|Hu]; [right; set_solver|set_solver].
  - rewrite lookup_alter_ne by auto. destruct (d !! a) as [S|] eqn:E; [|rewrite lookup_insert_ne by auto]; (split; [auto|intros [?|[? _]]; [assumption|contradiction]]).
Qed.
Lemma add_nonempty (d : kvs bytes bytes) (a t : bytes) : (∀ b S, d !! b = Some S → S ≠ ∅) → ∀ b S, kvs_add d a t !! b = Some S → S ≠ ∅.
Proof.
  intros H b S. unfold kvs_add. destruct (decide (b = a)) as [->|Hne].
  - rewrite lookup_alter. destruct (d !! a) as [S0|] eqn:E; [rewrite E|rewrite lookup_insert]; intros [= <-]; set_solver.
  - rewrite lookup_alter_ne by auto. destruct (d !! a) as [S0|] eqn:E; [|rewrite lookup_insert_ne by auto]; eauto.
Qed.
Lemma depends_adds (l : list bytes) (t : bytes) : ∀ d : kvs bytes bytes, (∀ b S, d !! b = Some S → S ≠ ∅) →
  (∀ b u, depends (foldl (λ d a, kvs_add d a t) d l) b u ↔ depends d b u ∨ (b ∈ l ∧ u = t)) ∧ (∀ b S, foldl (λ d a, kvs_add d a t) d l !! b = Some S → S ≠ ∅).
Proof.
  induction l as [|a l IH]; intros d Hd; cbn [foldl]; [split; [set_solver|exact Hd]|].
  destruct (IH (kvs_add d a t) (add_nonempty d a t Hd)) as [A B]. split; [|exact B]. intros b u. rewrite A, depends_add, elem_of_cons. tauto.
Qed.
Lemma dict_put_new {A} k (v : A) (d : list (bytes * A)) : k ∉ d.*1 → Message.dict_put k v d = d ++ [(k, v)].
Proof.
  induction d as [|[k' v'] d IH]; intros H; [reflexivity|]. cbn in H. apply not_elem_of_cons in H as [H1 H2]. cbn. destruct (String.eqb_spec k k'); [contradiction|]. rewrite IH by exact H2. reflexivity.
Qed.

(** ** Functions *)
(** An answer to the functions a graph brings. *)
Definition replies (c : bytes) (e : entry) : Prop := internal e ∨ ∃ st f, (st = FnOK ∨ st = FnDuplicated) ∧ e = LSend c (MFunctionResponse st f "" "").
Definition answers (c : bytes) (s s' : sched) : Prop := ∃ l, s_log s' = s_log s ++ l ∧ Forall (replies c) l.
Lemma answers_refl c s s' : s_log s' = s_log s → answers c s s'.
Proof. intros E. exists []. rewrite app_nil_r. auto. Qed.
Lemma answers_trans c s1 s2 s3 : answers c s1 s2 → answers c s2 s3 → answers c s1 s3.
Proof. intros (l1 & A & B) (l2 & C & D). exists (l1 ++ l2). rewrite C, A, app_assoc. split; [reflexivity|]. apply Forall_app. auto. Qed.
Lemma add_function_spec xt pk g s c f n code : core xt pk g [] s → utf8 n = true →
  wp (fm_on_function c FnAdd f n code) (λ _ s', core xt pk g [] s' ∧ tidy s s' ∧ is_Some (s_funcs s' !! f) ∧ (∀ f', is_Some (s_funcs s !! f') → is_Some (s_funcs s' !! f')) ∧ s_clients s' = s_clients s ∧ answers c s s') no_exn s.
Proof.
  intros H Hn. assert (Hmono : ∀ i f', is_Some (s_funcs s !! f') → is_Some (<[f := i]> (s_funcs s) !! f')).
  { intros i f' Hf. destruct (decide (f' = f)) as [->|]; [rewrite lookup_insert; eauto|rewrite lookup_insert_ne by done; exact Hf]. }
  cbn [fm_on_function]. unfold fm_add, fm_respond. wgo. destruct (s_funcs s !! f) as [i|] eqn:Ef; wgo;
    (split; [apply core_log|split; [split; [reflexivity..|eexists; split; [reflexivity|repeat constructor]]|split; [rewrite lookup_insert; eauto|split; [apply Hmono|split; [reflexivity|eexists; split; [reflexivity|]; constructor; [right; do 2 eexists; split; [|reflexivity]; auto|constructor]]]]]]).
  - apply (core_funcs _ _ _ _ s (<[f:=FuncInfo (fi_name i) (fi_content i) (s_now s)]> (s_funcs s)) H); [apply Hmono|].
    intros f' i' [[<- <-]|[_ Hi]]%lookup_insert_Some; [cbn; exact (c_tf _ _ _ _ _ H _ _ Ef)|exact (c_tf _ _ _ _ _ H _ _ Hi)].
  - apply (core_funcs _ _ _ _ s (<[f:=FuncInfo n code (s_now s)]> (s_funcs s)) H); [apply Hmono|].
    intros f' i' [[<- <-]|[_ Hi]]%lookup_insert_Some; [cbn; auto|exact (c_tf _ _ _ _ _ H _ _ Hi)].
Qed.
Lemma add_functions_spec xt pk g c (fs : list (bytes * (bytes * bytes))) : ∀ s, core xt pk g [] s → (∀ p, p ∈ fs → utf8 p.2.1 = true) →
  wp (foreach fs (λ p, fm_on_function c FnAdd p.1 p.2.1 p.2.2)) (λ _ s', core xt pk g [] s' ∧ tidy s s' ∧ (∀ f, f ∈ fs.*1 ∨ is_Some (s_funcs s !! f) → is_Some (s_funcs s' !! f)) ∧ s_clients s' = s_clients s ∧ answers c s s') no_exn s.
Proof.
  induction fs as [|p fs IH]; intros s H Hn; cbn [foreach]; [split; [exact H|split; [apply tidy_refl|split; [intros f [Hf|Hf]; [inversion Hf|exact Hf]|split; [reflexivity|apply answers_refl; reflexivity]]]]|].
  apply wp_bind. eapply wp_mono; [apply add_function_spec; [exact H|apply Hn; left]| |auto]. cbv beta. intros _ s1 (H1 & T1 & F1 & M1 & K1 & R1).
  eapply wp_mono; [apply (IH s1 H1); intros q Hq; apply Hn; right; exact Hq| |auto]. cbv beta. intros _ s2 (H2 & T2 & M2 & K2 & R2). split; [exact H2|]. split; [eapply tidy_trans; eassumption|].
  split; [|split; [congruence|eapply answers_trans; eassumption]]. cbn. intros f [Hf|Hf]; [|auto]. apply elem_of_cons in Hf as [->|Hf]; auto.
Qed.
Lemma use_spec Q G T D N pk g s t f : core (Ext Q G T D N) pk g [] s → is_Some (s_funcs s !! f) → s_tasks s !! t = None → N !! t = None →
  wp (fm_use t f) (λ _ s', core (Ext Q G T D (<[t := f]> N)) pk g [] s' ∧ tidy s s' ∧ (∀ f', is_Some (s_funcs s !! f') → is_Some (s_funcs s' !! f')) ∧ s_clients s' = s_clients s ∧ s_log s' = s_log s) no_exn s.
Proof.
  intros H [i Hi] Ht HN. unfold fm_use. wgo. rewrite Hi. cbn [from_option_exn]. apply wp_ok. wgo.
  destruct (otm_add_new (s_ftasks s) f t (c_ft _ _ _ _ _ H)) as (df & Edf & Idf & Vdf). { rewrite (c_ftv _ _ _ _ _ H). cbn [x_inactive]. rewrite lookup_union_r by (rewrite lookup_fmap, Ht; reflexivity). exact HN. }
  rewrite Edf. apply wp_ok. wgo.
  assert (Hmono : ∀ f', is_Some (s_funcs s !! f') → is_Some (<[f := FuncInfo (fi_name i) (fi_content i) (s_now s)]> (s_funcs s) !! f')).
  { intros f' Hf. destruct (decide (f' = f)) as [->|]; [rewrite lookup_insert; eauto|rewrite lookup_insert_ne by done; exact Hf]. }
  split; [|split; [tidies|split; [exact Hmono|split; reflexivity]]]. destruct H. split; ss; auto; cbn in *.
  - rewrite Vdf, c_ftv. apply map_eq. intros x. destruct (decide (x = t)) as [->|Hne].
    + rewrite lookup_insert, lookup_union_r, lookup_insert; [reflexivity|]. rewrite lookup_fmap, Ht. reflexivity.
    + rewrite lookup_insert_ne, !lookup_union, lookup_insert_ne by auto. reflexivity.
  - intros t' k Hk. apply Hmono. eauto.
  - intros f' i' [[<- <-]|[_ Hi']]%lookup_insert_Some; [cbn; eauto|eauto].
  - intros t' f' [[<- <-]|[_ Hf']]%lookup_insert_Some; [split; [exact Ht|apply Hmono; eauto]|]. apply c_inactive in Hf' as [? ?]. auto.
Qed.
Lemma new_graph_spec Q G T D N pk g s c gid : core (Ext Q G T D N) pk g [] s → utf8 c = true → s_tasks s !! gid = None → gid ∉ D →
  wp (cm_new c gid) (λ _ s', core (Ext Q G T ({[gid]} ∪ D) N) pk g [] s' ∧ tidy s s' ∧ s_funcs s' = s_funcs s ∧ o_v2k (s_clients s') = <[gid := c]> (o_v2k (s_clients s)) ∧ s_log s' = s_log s) no_exn s.
Proof.
  intros H Hu Ht HD. unfold cm_new. wgo. destruct (otm_add_new (s_clients s) c gid (c_cl _ _ _ _ _ H)) as (dc & Edc & Idc & Vdc).
  { apply not_elem_of_dom. rewrite (c_cldom _ _ _ _ _ H). cbn [x_ids]. apply not_elem_of_union. split; [apply not_elem_of_dom; exact Ht|exact HD]. }
  rewrite Edc. apply wp_ok. wgo. split; [|split; [tidies|split; [reflexivity|split; [exact Vdc|reflexivity]]]]. destruct H. split; ss; auto; cbn in *.
  - rewrite Vdc, dom_insert_L, c_cldom. rewrite !(assoc_L _), (comm_L _ {[gid]}). reflexivity.
  - intros t c'. rewrite Vdc. intros [[<- <-]|[_ Hc]]%lookup_insert_Some; [exact Hu|eauto].
  - intros t [->%elem_of_singleton|Hx]%elem_of_union; [exact Ht|auto].
Qed.

(** ** The tables of a new graph *)
Record tables (pre : list task) (nodes : gmap bytes node_info) (deps : kvs bytes bytes) (gr : dict) : Prop := {
  tb_nodes n : n ∈ pre → nodes !! task_id n = Some (NodeInfo NInactive n None);
  tb_dom t : is_Some (nodes !! t) → t ∈ task_id <$> pre;
  tb_deps a t : depends deps a t ↔ ∃ n, n ∈ pre ∧ task_id n = t ∧ a ∈ references (task_args n);
  tb_ne a S : deps !! a = Some S → S ≠ ∅;
  tb_keys : gr.*1 = task_id <$> pre;
  tb_nodup n ps : (n, ps) ∈ gr → NoDup ps;
  tb_pr n x : n ∈ pre → x ∈ pr gr (task_id n) ↔ x ∈ references (task_args n) }.
Lemma tables_add pre nodes deps gr n required : tables pre nodes deps gr → task_id n ∉ task_id <$> pre → required ≡ₚ elements (task_deps n) →
  tables (pre ++ [n]) (<[task_id n := NodeInfo NInactive n None]> nodes) (foldl (λ d a, kvs_add d a (task_id n)) deps required) (Message.dict_put (task_id n) required gr).
Proof.
  intros [H1 H2 H3 H4 H5 H6 H7] Hn Hp. destruct (depends_adds required (task_id n) deps H4) as [A B].
  assert (Hr : ∀ x, x ∈ required ↔ x ∈ references (task_args n)). { intros x. rewrite Hp, elem_of_elements. unfold task_deps. rewrite elem_of_list_to_set. reflexivity. }
  assert (Hk : task_id n ∉ gr.*1) by (rewrite H5; exact Hn). rewrite dict_put_new by exact Hk. split.
  - intros m [Hm|Hm]%elem_of_app.
    + rewrite lookup_insert_ne; [auto|]. intros E. apply Hn. rewrite E. apply elem_of_list_fmap. eauto.
    + apply elem_of_list_singleton in Hm as ->. apply lookup_insert.
  - intros t Ht. rewrite fmap_app, elem_of_app. destruct (decide (t = task_id n)) as [->|Hne]; [right; left|]. rewrite lookup_insert_ne in Ht by auto. auto.
  - intros a t. rewrite A, H3. setoid_rewrite elem_of_app. setoid_rewrite elem_of_list_singleton. rewrite Hr. split.
    + intros [(m & ? & ? & ?)|[? ->]]; [exists m; auto|exists n; auto].
    + intros (m & [?| ->] & ? & ?); [left; exists m; auto|right; auto].
  - exact B.
  - rewrite !fmap_app, H5. reflexivity.
  - intros m ps [Hm|Hm]%elem_of_app; [eauto|]. apply elem_of_list_singleton in Hm. injection Hm as -> ->. rewrite Hp. apply NoDup_elements.
  - intros m x [Hm|Hm]%elem_of_app; rewrite pr_app, elem_of_app, pr_one.
    + rewrite decide_False; [|intros E; apply Hn; rewrite E; apply elem_of_list_fmap; eauto]. rewrite H7 by exact Hm. set_solver.
    + apply elem_of_list_singleton in Hm as ->. rewrite decide_True by reflexivity. rewrite pr_fresh by exact Hk. rewrite Hr. set_solver.
Qed.
Lemma nodes_spec gid targets ts : ∀ Q G T D N pk g s pre nodes deps gr, core (Ext Q G T D N) pk g [] s → tables pre nodes deps gr → NoDup (task_id <$> (pre ++ ts)) →
  (∀ n, n ∈ ts → is_Some (s_funcs s !! task_function n) ∧ s_tasks s !! task_id n = None ∧ N !! task_id n = None) →
  wp (gm_nodes gid targets ts nodes deps gr) (λ p s', tables (pre ++ ts) p.1.1 p.1.2 p.2 ∧ ∃ T' N', core (Ext Q G T' D N') pk g [] s' ∧ tidy s s' ∧
    (∀ n, n ∈ ts → T' !! task_id n = Some gid ∧ N' !! task_id n = Some (task_function n)) ∧ (∀ t, t ∉ task_id <$> ts → T' !! t = T !! t ∧ N' !! t = N !! t) ∧ s_clients s' = s_clients s ∧ ∃ l, s_log s' = s_log s ++ l ∧ Forall internal l) no_exn s.
Proof.
  induction ts as [|n ts IH]; intros Q G T D N pk g s pre nodes deps gr H Ht Hnd Hts; cbn [gm_nodes].
  { wgo. rewrite app_nil_r. split; [exact Ht|]. exists T, N. split; [exact H|]. split; [apply tidy_refl|]. split; [intros n Hn; inversion Hn|]. split; [auto|]. split; [reflexivity|]. exists []. rewrite app_nil_r. auto. }
  destruct (Hts n) as (Hf & Htk & HN); [left|]. rewrite fmap_app in Hnd. cbn in Hnd. apply NoDup_app in Hnd as (Nd1 & Nd2 & Nd3). apply NoDup_cons in Nd3 as [Nd3 Nd4].
  assert (Hnp : task_id n ∉ task_id <$> pre). { intros Hx. apply (Nd2 _ Hx). left. }
  apply wp_bind. eapply wp_mono; [apply (use_spec Q G T D N pk g s (task_id n) (task_function n) H Hf Htk HN)| |auto]. cbv beta. intros _ s1 (H1 & T1 & M1 & K1 & R1). wgo.
  apply wp_order. intros required Hp. wgo. unfold send_monitor. apply wp_emit. match goal with |- wp _ _ _ ?s => set (s2 := s) end.
  assert (H2 : core (Ext Q G (<[task_id n := gid]> T) D (<[task_id n := task_function n]> N)) pk g [] s2). { apply core_log, core_codes. eapply core_t2g_to; [exact H1|reflexivity]. }
  assert (T2 : tidy s s2). { eapply tidy_trans; [exact T1|]. split; [reflexivity..|]. eexists. split; [reflexivity|repeat constructor]. }
  eapply wp_mono; [apply (IH _ _ _ _ _ _ _ s2 (pre ++ [n]) _ _ _ H2)| |auto].
  - apply tables_add; assumption.
  - rewrite <- app_assoc. cbn. rewrite fmap_app. apply NoDup_app. split; [exact Nd1|]. split; [exact Nd2|]. cbn. constructor; assumption.
  - intros m Hm. destruct (Hts m) as (A1 & A2 & A3); [right; exact Hm|]. split; [apply M1, A1|]. split; [change (s_tasks s2) with (s_tasks s1); rewrite (td_tasks _ _ T1); exact A2|].
    rewrite lookup_insert_ne; [exact A3|]. intros E. apply Nd3. rewrite E. apply elem_of_list_fmap. eauto.
  - cbv beta. intros p s' (B1 & T' & N' & B2 & B3 & B4 & B5 & K2 & l2 & R2 & R3). rewrite <- app_assoc in B1. split; [exact B1|]. exists T', N'. split; [exact B2|]. split; [eapply tidy_trans; eassumption|]. split.
    + intros m [->|Hm]%elem_of_cons; [|auto]. destruct (B5 _ Nd3) as [-> ->]. rewrite !lookup_insert. auto.
    + split; [|split; [rewrite K2; exact K1|]].
      * intros t [Hne Ht']%not_elem_of_cons. destruct (B5 _ Ht') as [-> ->]. rewrite !lookup_insert_ne by auto. auto.
      * rewrite R2. unfold s2. ss. rewrite R1, <- app_assoc. eexists. split; [reflexivity|]. constructor; [exact I|exact R3].
Qed.
Lemma tables_empty : tables [] ∅ ∅ [].
Proof.
  split; auto.
  - intros n Hn. inversion Hn.
  - intros t [x Hx]. rewrite lookup_empty in Hx. discriminate.
  - intros a t. unfold depends. rewrite lookup_empty. split; [intros (S & HS & _); discriminate|]. intros (n & Hn & _). inversion Hn.
  - intros n ps Hn. inversion Hn.
  - intros n x Hn. inversion Hn.
Qed.

(** [__add_new_graph]; [i0] only names the ids and the client. *)
Lemma add_spec Q G T D N g s c gt : okay (Ext Q G T D N) g s → utf8 c = true → graph_fit utf8 (gt_id gt) (gt_functions gt) (gt_targets gt) (gt_graph gt) → c_max_waiting (s_cfg s) < 0 →
  (∀ x, x ∈ gt_id gt :: (task_id <$> gt_graph gt) → s_tasks s !! x = None ∧ x ∉ D ∧ N !! x = None ∧ T !! x = None) → G !! gt_id gt = None →
  wp (gm_add c gt) (λ _ s', ∃ i0 T0 N0 s0, g_ids i0 = list_to_set (task_id <$> gt_graph gt) ∧ g_client i0 = c ∧ tidy s s0 ∧ g_targets i0 = gt_targets gt ∧ o_v2k (s_clients s0) = <[gt_id gt := c]> (o_v2k (s_clients s)) ∧ answers c s s0 ∧
    (∀ t, t ∉ task_id <$> gt_graph gt → T0 !! t = T !! t ∧ N0 !! t = N !! t) ∧ (∀ n, n ∈ gt_graph gt → T0 !! task_id n = Some (gt_id gt) ∧ is_Some (N0 !! task_id n)) ∧
    steps Success (gt_graph gt) Q (<[gt_id gt := i0]> G) T0 ({[gt_id gt]} ∪ D) N0 g s0 (gt_id gt) i0 s') no_exn s.
Proof.
  intros [H Hq] Hu [F1 F2 [rank F3] F4 F5 F6 F7] Hw Hfr HG. set (gid := gt_id gt) in *. set (ns := gt_graph gt) in *.
  apply NoDup_cons in F1 as [F1 Fnd].
  unfold gm_add. fold gid ns. apply wp_bind. eapply wp_mono; [apply add_functions_spec; [exact H|exact F7]| |auto]. cbv beta. intros _ s1 (H1 & T1 & M1 & K1 & R1).
  apply wp_bind. eapply wp_mono; [apply (new_graph_spec Q G T D N _ g s1 c gid H1 Hu)| |auto].
  { rewrite (td_tasks _ _ T1). apply Hfr. left. } { apply Hfr. left. }
  cbv beta. intros _ s2 (H2 & T2 & E2 & K2 & R2). apply wp_bind. eapply wp_mono; [apply (nodes_spec gid (gt_targets gt) ns _ _ _ _ _ _ _ s2 [] ∅ ∅ [] H2 tables_empty Fnd)| |auto].
  { intros n Hn. assert (task_id n ∈ gid :: (task_id <$> ns)) as Hx. { right. apply elem_of_list_fmap. eauto. } destruct (Hfr _ Hx) as (A1 & A2 & A3 & A4).
    split; [rewrite E2; apply M1; left; apply F6, Hn|]. split; [rewrite (td_tasks _ _ T2), (td_tasks _ _ T1); exact A1|exact A3]. }
  cbv beta. intros [[nodes deps] gr] s3 (Htb & T3 & N3 & H3 & Td3 & A3 & B3 & K3 & l3 & R3 & R4). cbn [fst snd app] in Htb. pose proof Htb as [B4 B5 B6 B7 B8 B9 B10].
  assert (Hgood : good_dict gr). { split; [rewrite B8; exact Fnd|exact B9]. }
  assert (Hpr : ∀ n p, p ∈ pr gr n → ∃ m, m ∈ ns ∧ task_id m = n ∧ p ∈ references (task_args m)).
  { intros n p Hp. assert (n ∈ gr.*1) as Hn. { apply elem_of_pr in Hp as (ps & Hps & _). apply elem_of_list_fmap. exists (n, ps). auto. }
    rewrite B8 in Hn. apply elem_of_list_fmap in Hn as (m & -> & Hm). exists m. split; [exact Hm|]. split; [reflexivity|]. apply B10; assumption. }
  assert (Href : ∀ m p, p ∈ references (task_args m) → ArgTask p ∈ task_args m). { intros m p Hp. apply elem_of_list_omap in Hp as ([d|x] & Hx & E); [discriminate|]. injection E as ->. exact Hx. }
  destruct (prepare_ok gr rank Hgood) as [so Eso]. { intros n p Hp. destruct (Hpr _ _ Hp) as (m & Hm & <- & Hx). apply F3; [exact Hm|apply Href, Hx]. }
  destruct (sorted_prepare gr so Hgood Eso) as (S1 & S2 & S3 & S4).
  wgo. rewrite Eso. apply wp_ok. unfold gm_store. wgo. set (i0 := Graph (gt_targets gt) (list_to_set (task_id <$> ns)) so nodes deps c). match goal with |- wp _ _ _ ?s => set (s4 := s) end.
  assert (Td : tidy s s4). { eapply tidy_trans; [exact T1|]. eapply tidy_trans; [exact T2|]. eapply tidy_trans; [exact Td3|]. tidies. }
  assert (Hin : ∀ t, node_in gr t ↔ t ∈ task_id <$> ns).
  { intros t. unfold node_in. rewrite B8. split; [|auto]. intros [?|[m Hm]]; [assumption|]. destruct (Hpr _ _ Hm) as (k & Hk & _ & Hx). destruct (F2 k t Hk (Href _ _ Hx)) as (n' & Hn' & <-). apply elem_of_list_fmap. eauto. }
  assert (Hunh : ∀ t, t ∈ task_id <$> ns → unhanded so t). { intros t Ht. apply Hin, (st_dom _ _ _ S1) in Ht as [[k sc] E]. exists k, sc. split; [exact E|eapply S4, E]. }
  assert (Hl : live T3 N3 (s_tasks s4) [] None gid i0 ns gr).
  { split; cbn; auto.
    - intros t Ht. inversion Ht.
    - intros n Hn _. split; [apply B4, Hn|]. destruct (A3 n Hn). auto.
    - intros t sc E. apply S4 in E. lia.
    - intros t [sc E]. apply S4 in E. lia.
    - intros a t. rewrite B6. split.
      + intros (n & Hn & <- & Ha). split; [exists n; auto|]. split; [left; apply Hunh, elem_of_list_fmap; eauto|discriminate].
      + tauto. }
  assert (O4 : okay (Ext Q (<[gid := i0]> G) T3 ({[gid]} ∪ D) N3) g s4).
  { destruct (td_log _ _ Td) as (l & El & Hcl). eapply okay_tidy; [split; [exact H|exact Hq]|eapply core_graphs_to; [exact H3|reflexivity]|apply Td|exact El|exact Hcl]. }
  eapply wp_mono; [apply (check_spec tm_done Q (<[gid := i0]> G) T3 ({[gid]} ∪ D) N3 g s4 gid i0 ns gr O4); [apply lookup_insert|set_solver|exact Hl|exact Hu|rewrite (td_cfg _ _ Td); exact Hw|]| |auto].
  - cbn. intros t Ht. apply elem_of_list_to_set in Ht. destruct (Hfr t) as (_ & C1 & _); [right; exact Ht|]. apply not_elem_of_union. split; [|exact C1]. apply not_elem_of_singleton. intros ->. auto.
  - cbv beta. intros _ s' Hs'. exists i0, T3, N3, s4. split; [reflexivity|]. split; [reflexivity|]. split; [exact Td|]. split; [reflexivity|]. split; [unfold s4; ss; rewrite K3, K2, K1; reflexivity|].
    split; [eapply answers_trans; [exact R1|]; exists l3; split; [unfold s4; ss; rewrite R3, R2; reflexivity|eapply Forall_impl; [exact R4|]; left; assumption]|]. split; [exact B3|]. split; [|exact Hs']. intros n Hn. destruct (A3 n Hn) as [? ->]. eauto.
Qed.
