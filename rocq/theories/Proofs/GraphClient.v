(** * Orderly executions with graphs: a client *)

From Verif.Model Require Import Base Message Client Worker Processor Scheduler System.
From Verif.Spec Require Import SchedulerSpec FlowSpec TrafficSpec GraphFlowSpec.
From Verif.Proofs Require Import BaseProofs FlowWorker FlowClient.

(** ** What is left without the graphs with ids in [X] *)
Definition keeps (X : gset bytes) (m : message) : bool :=
  match m with
  | MGraphTask _ _ _ _ | MGraphTaskResult _ _ _ => false
  | MTaskEcho t _ | MTaskResult t _ _ _ => bool_decide (t ∉ X)
  | _ => true
  end.
Definition plain (X : gset bytes) (q : list message) : list message := List.filter (keeps X) q.
Lemma plain_app X q q' : plain X (q ++ q') = plain X q ++ plain X q'.
Proof. apply List.filter_app. Qed.
Lemma plain_in X q m : m ∈ plain X q ↔ m ∈ q ∧ keeps X m = true.
Proof. unfold plain. rewrite !elem_of_list_In. apply filter_In. Qed.
Lemma plain_cons X m q : plain X (m :: q) = if keeps X m then m :: plain X q else plain X q.
Proof. reflexivity. Qed.
Lemma plain_grow X X' q : X ⊆ X' → (∀ m, m ∈ plain X q → keeps X' m = true) → plain X' q = plain X q.
Proof.
  intros Hs. induction q as [|m q IH]; [reflexivity|]. rewrite !plain_cons. destruct (keeps X m) eqn:E.
  - intros H. rewrite (H m) by left. f_equal. apply IH. intros m' Hm'. apply H. right. exact Hm'.
  - intros H. rewrite (IH H). destruct m; cbn in *; try reflexivity; try discriminate; rewrite bool_decide_eq_false_2; auto; apply bool_decide_eq_false in E; set_solver.
Qed.
Definition off (X : gset bytes) (CL : gmap bytes bytes) : gmap bytes bytes := filter (λ p, p.1 ∉ X) CL.
Lemma off_Some X CL t c : off X CL !! t = Some c ↔ t ∉ X ∧ CL !! t = Some c.
Proof. unfold off. rewrite map_filter_lookup_Some. cbn. tauto. Qed.
Lemma off_eq X CL CL' : (∀ t, t ∉ X → CL' !! t = CL !! t) → off X CL' = off X CL.
Proof.
  intros H. apply map_eq. intros t. apply option_eq. intros c. rewrite !off_Some. split; intros [H1 H2]; (split; [exact H1|]); [rewrite <- H|rewrite H]; auto.
Qed.

(** ** Steps that do not touch the tasks *)
Definition neutral (e : kentry) : Prop := match e with CCrash _ | CSet (inl _) _ | CIn (KSubmit _ _ _ _ _) => False | _ => True end.
Lemma client_ok_same CL c F B A D k h Qcs Qsc k' out : client_ok CL c F B A D k h Qcs Qsc →
  k_up k' = k_up k → k_flight k' = k_flight k → k_buffer k' = k_buffer k → k_tasks k' = k_tasks k → k_bodies k' = k_bodies k → k_futures k' = k_futures k →
  (∀ t, k_state k' !! FTask t = k_state k !! FTask t) → Forall neutral out → client_ok CL c F B A D k' (h ++ out) Qcs Qsc.
Proof.
  intros H E1 E2 E3 E4 E5 E6 E7 Hn. rewrite Forall_forall in Hn.
  assert (HS : subs (h ++ out) = subs h).
  { rewrite subs_app. replace (subs out) with (@nil bytes); [apply app_nil_r|]. symmetry. apply elem_of_nil_inv. intros t Ht. unfold subs in Ht. apply elem_of_list_omap in Ht as (e & He & E). specialize (Hn _ He). destruct e as [[]| | |]; try discriminate; done. }
  split; rewrite ?E1, ?E2, ?E3, ?E4, ?E5, ?E6, ?HS; try (destruct H; assumption).
  - intros e [He|He]%elem_of_app; [exact (ko_crash H _ He)|exact (Hn _ He)].
  - intros t. rewrite (ko_D H). split; intros [v Hv]; exists v; [apply elem_of_app; auto|]. apply elem_of_app in Hv as [Hv|Hv]; [exact Hv|destruct (Hn _ Hv)].
  - intros t Ht. rewrite E7. exact (ko_state H t Ht).
Qed.
Lemma client_extra CL c x Qcs Qsc st f n ct : client_flow CL c x Qcs Qsc → st = FnOK ∨ st = FnDuplicated → client_flow CL c x Qcs (Qsc ++ [MFunctionResponse st f n ct]).
Proof.
  intros (F & B & A & D & H) Hst. exists F, B, A, D.
  split; rewrite ?refused_app, ?oks_app, ?results_app, ?app_nil_r; try (destruct H; assumption).
  - apply Forall_app. split; [exact (ko_sc H)|]. constructor; [exact Hst|constructor].
  - apply order_snoc; [exact (ko_order H)|discriminate].
  - intros f' Hf'. apply will_answer_more, (ko_pending H _ Hf').
Qed.
Lemma client_extras CL c x Qcs Qsc q : client_flow CL c x Qcs Qsc → Forall (λ m, match m with MFunctionResponse st _ _ _ => st = FnOK ∨ st = FnDuplicated | _ => False end) q →
  client_flow CL c x Qcs (Qsc ++ q).
Proof.
  intros H Hq. revert Qsc H. induction Hq as [|m q Hm _ IH]; intros Qsc H; [rewrite app_nil_r; exact H|].
  change (m :: q) with ([m] ++ q). rewrite app_assoc. apply IH. destruct m; try done. apply client_extra; assumption.
Qed.
(** The ids a client has to do with. *)
Lemma flow_ids CL c x Qcs Qsc : client_flow CL c x Qcs Qsc →
  (∀ m, m ∈ Qsc → match m with MTaskEcho t _ | MTaskResult t _ _ _ => t ∈ subs x.2 | MGraphTaskResult _ _ _ => False | _ => True end) ∧ (∀ t, CL !! t = Some c → t ∈ subs x.2) ∧
  (∀ t v, CSet (FTask t) v ∈ x.2 → t ∈ subs x.2) ∧ (∀ t, t ∈ k_futures x.1 → t ∈ subs x.2) ∧ (∀ t, is_Some (k_tasks x.1 !! t) → t ∈ subs x.2) ∧ (∀ z, MTask z ∈ Qcs → task_id z ∈ subs x.2).
Proof.
  intros (F & B & A & D & H). split; [|split; [|split; [|split; [|split]]]].
  - intros m Hm. pose proof (ko_sc H) as Hs. rewrite Forall_forall in Hs. specialize (Hs _ Hm). destruct m; cbn in Hs; try done.
    + destruct Hs as [-> | ->].
      * assert (Ho : id ∈ oks Qsc) by (unfold oks; apply elem_of_list_omap; eexists; split; [exact Hm|reflexivity]). apply (proj2 (ko_oks H)) in Ho. rewrite (ko_all H), !elem_of_app in *. tauto.
      * assert (Ho : id ∈ refused Qsc) by (unfold refused; apply elem_of_list_omap; eexists; split; [exact Hm|reflexivity]). rewrite (ko_all H), !elem_of_app. tauto.
    + assert (Ho : id ∈ results Qsc) by (unfold results; apply elem_of_list_omap; eexists; split; [exact Hm|reflexivity]). rewrite (ko_all H), !elem_of_app. tauto.
  - intros t Ht%(ko_A H). rewrite (ko_all H), !elem_of_app. tauto.
  - intros t v Hv. assert (HD : t ∈ D) by (apply (ko_D H); eauto). rewrite (ko_all H), !elem_of_app. tauto.
  - intros t Ht%(ko_futures H). tauto.
  - intros t Ht. eapply known_subs; eassumption.
  - intros z Hz. assert (Ho : z ∈ tasks_in Qcs) by (unfold tasks_in; apply elem_of_list_omap; eexists; split; [exact Hz|reflexivity]). rewrite (ko_all H), !elem_of_app. apply (elem_of_list_fmap_1 task_id) in Ho. tauto.
Qed.
(** A task that is sent is not with the scheduler, and has no value. *)
Lemma flow_sent CL c x Qcs Qsc z : client_flow CL c x Qcs Qsc → MTask z ∈ Qcs → ¬ (CL !! task_id z = Some c ∨ task_id z ∈ results Qsc ∨ ∃ v, CSet (FTask (task_id z)) v ∈ x.2).
Proof.
  intros (F & B & A & D & H) Hz Hc. assert (Ho : task_id z ∈ task_id <$> tasks_in Qcs) by (apply elem_of_list_fmap_1; unfold tasks_in; apply elem_of_list_omap; eexists; split; [exact Hz|reflexivity]).
  pose proof (parts_nodup _ _ _ _ _ _ _ _ _ _ H) as Hn. apply NoDup_app in Hn as (_ & _ & Hn). apply NoDup_app in Hn as (_ & _ & Hn). apply NoDup_app in Hn as (_ & Hn & _). apply (Hn _ Ho).
  rewrite <- (ko_A H), <- (ko_D H) in Hc. rewrite !elem_of_app. tauto.
Qed.
(** A result that arrives sets its future. *)
Lemma flow_result CL c x t st d p Qcs Qsc : client_flow CL c x Qcs (MTaskResult t st d p :: Qsc) → k_flight x.1 = ∅ → ∃ v, CSet (FTask t) v ∈ (k_step x (KRecv (MTaskResult t st d p) true)).2.
Proof.
  intros (F & B & A & D & H) Hfl. destruct x as [k h]. cbn [fst snd] in *.
  destruct (receive_ok _ _ _ _ _ _ _ _ _ _ _ H Hfl) as (F' & B' & A' & D' & k' & out & E & _).
  assert (Ht : t ∈ k_futures k).
  { apply (ko_futures H). pose proof (parts_nodup _ _ _ _ _ _ _ _ _ _ H) as Hn. rewrite (ko_all H), Hfl. change (results (MTaskResult t st d p :: Qsc)) with (t :: results Qsc) in *.
    split; [rewrite !elem_of_app, elem_of_cons; tauto|]. split; [|apply lookup_empty]. intros HD. rewrite !app_assoc in Hn. apply NoDup_app in Hn as (_ & Hn & _). apply (Hn t); [|exact HD]. rewrite !elem_of_app, elem_of_cons. tauto. }
  unfold k_step. cbn [k_handle]. rewrite (ko_up H), E. cbn [k_settle snd]. cbn [k_receive] in E. unfold k_result in E. rewrite (in_existsb _ _ Ht) in E.
  pose proof (ko_sc H) as Hs. apply Forall_cons in Hs as [Hs _]. cbn in Hs.
  assert (Hgo : ∀ v k0, f_set (FTask t) v k0 = (k', out, None) → ∃ v, CSet (FTask t) v ∈ h ++ CIn (KRecv (MTaskResult t st d p) true) :: out).
  { intros v k0. unfold f_set. destruct (k_state k0 !! FTask t) as [[]|]; intros [= <- <-]; exists v; rewrite elem_of_app, !elem_of_cons; auto. }
  destruct Hs as [-> | ->]; eapply Hgo, E.
Qed.

(** ** Graphs *)
Definition graph_id (m : message) : option bytes := match m with MGraphTask g _ _ _ => Some g | _ => None end.
Definition graphs_sent (h : list kentry) : list bytes := omap graph_id (client_sent h).
Lemma graphs_sent_app h h' : graphs_sent (h ++ h') = graphs_sent h ++ graphs_sent h'.
Proof. unfold graphs_sent, client_sent. rewrite !omap_app. reflexivity. Qed.
Lemma sent_in h m : m ∈ client_sent h ↔ COut m ∈ h.
Proof.
  unfold client_sent. rewrite elem_of_list_omap. split; [|intros H; exists (COut m); auto]. intros (e & He & E). destruct e; try discriminate. injection E as ->. exact He.
Qed.
Lemma omap_inj {A B} (f : A → option B) (l : list A) a b z : NoDup (omap f l) → a ∈ l → b ∈ l → f a = Some z → f b = Some z → a = b.
Proof.
  induction l as [|x l IH]; [intros _ []%elem_of_nil|]. cbn. intros Hn Ha Hb Ea Eb.
  assert (Hin : ∀ u, u ∈ l → f u = Some z → z ∈ omap f l) by (intros u Hu Eu; apply elem_of_list_omap; eauto).
  destruct (f x) as [z'|] eqn:E.
  - apply NoDup_cons in Hn as [Hx Hn]. apply elem_of_cons in Ha as [-> |Ha], Hb as [-> |Hb]; auto.
    + rewrite E in Ea. injection Ea as ->. destruct Hx. eauto.
    + rewrite E in Eb. injection Eb as ->. destruct Hx. eauto.
  - apply elem_of_cons in Ha as [-> |Ha], Hb as [-> |Hb]; auto; congruence.
Qed.
Record graphs_ok (x : client * list kentry) : Prop := {
  go_nodup : NoDup (graphs_sent x.2);
  go_fit g fs ts ns : COut (MGraphTask g fs ts ns) ∈ x.2 → graph_fit utf8 g fs ts ns ∧ ∃ n, CIn (KGraph (MGraphTask g fs ts ns) n) ∈ x.2;
  go_wait g n : (g, n) ∈ k_graphs x.1 ∨ k_sending x.1 !! g = Some n →
    (∃ fs ts ns, COut (MGraphTask g fs ts ns) ∈ x.2 ∧ n = length ts) ∧ ∀ i, (i < n)%nat → k_state x.1 !! (FGraph g i) = Some FPending }.
Lemma same_graph x g fs ts ns fs' ts' ns' : graphs_ok x → COut (MGraphTask g fs ts ns) ∈ x.2 → COut (MGraphTask g fs' ts' ns') ∈ x.2 → fs = fs' ∧ ts = ts' ∧ ns = ns'.
Proof.
  intros H H1 H2. apply sent_in in H1, H2. pose proof (omap_inj _ _ _ _ g (go_nodup _ H) H1 H2 eq_refl eq_refl) as E. injection E as <- <- <-. auto.
Qed.
(** Nothing happens to graphs. *)
Record still (x x' : client * list kentry) : Prop := {
  sl_graphs p : p ∈ k_graphs x'.1 → p ∈ k_graphs x.1;
  sl_sending : k_sending x'.1 = k_sending x.1;
  sl_state g i : k_state x'.1 !! (FGraph g i) = k_state x.1 !! (FGraph g i);
  sl_hist : ∃ out, x'.2 = x.2 ++ out ∧ ∀ g fs ts ns, COut (MGraphTask g fs ts ns) ∉ out }.
Lemma still_ok x x' : still x x' → graphs_ok x → graphs_ok x'.
Proof.
  intros [S1 S2 S3 (out & S4 & S5)] H.
  assert (Hc : ∀ g fs ts ns, COut (MGraphTask g fs ts ns) ∈ x'.2 ↔ COut (MGraphTask g fs ts ns) ∈ x.2). { intros g fs ts ns. rewrite S4, elem_of_app. split; [intros [?|E]; [assumption|destruct (S5 _ _ _ _ E)]|auto]. }
  split.
  - rewrite S4, graphs_sent_app. replace (graphs_sent out) with (@nil bytes); [rewrite app_nil_r; apply (go_nodup _ H)|]. symmetry. apply elem_of_nil_inv. intros g Hg.
    apply elem_of_list_omap in Hg as (m & Hm & E). apply sent_in in Hm. destruct m; try discriminate. exact (S5 _ _ _ _ Hm).
  - intros g fs ts ns Hi%Hc. destruct (go_fit _ H _ _ _ _ Hi) as (G1 & n & G2). split; [exact G1|]. exists n. rewrite S4. apply elem_of_app. auto.
  - intros g n Hgn. rewrite S2 in Hgn. destruct (go_wait _ H g n) as ((fs & ts & ns & G1 & G2) & G3); [destruct Hgn as [E|E]; auto|].
    split; [exists fs, ts, ns; split; [apply Hc, G1|exact G2]|]. intros i Hi. rewrite S3. auto.
Qed.
Definition quiet_k (e : kevent) : Prop :=
  match e with KSubmit _ _ _ _ _ | KStep _ => True | KRecv (MTaskEcho _ _) _ | KRecv (MFunctionResponse _ _ _ _) _ | KRecv (MTaskResult _ _ _ _) _ => True | _ => False end.
Lemma quiet_out e k : quiet_k e → (∀ p, p ∈ k_graphs (k_handle e k).1 → p ∈ k_graphs k) ∧ k_sending (k_handle e k).1 = k_sending k ∧
  (∀ g i, k_state (k_handle e k).1 !! (FGraph g i) = k_state k !! (FGraph g i)) ∧ ∀ g fs ts ns, COut (MGraphTask g fs ts ns) ∉ (k_handle e k).2.
Proof.
  assert (Hfs : ∀ t v k0, match f_set (FTask t) v k0 with (k1, out, _) => k_graphs k1 = k_graphs k0 ∧ k_sending k1 = k_sending k0 ∧ (∀ g i, k_state k1 !! (FGraph g i) = k_state k0 !! (FGraph g i)) ∧ ∀ m, COut m ∉ out end).
  { intros t v k0. unfold f_set. destruct (k_state k0 !! FTask t) as [[]|]; cbn; (split; [reflexivity|]); (split; [reflexivity|]); (split; [|set_solver]); intros; rewrite ?lookup_insert_ne by discriminate; reflexivity. }
  assert (Hck : ∀ z k0, ∀ g fs ts ns, COut (MGraphTask g fs ts ns) ∉ (k_check z k0).1).
  { intros z k0 g fs ts ns. unfold k_check. destruct (k_buffer k0 !! task_function z); cbn; [apply not_elem_of_nil|]. destruct (k_bodies k0 !! task_id z) as [[]|]; cbn; [|apply not_elem_of_nil]. intros E%elem_of_list_singleton. discriminate. }
  intros He. destruct e as [t f name content args|t| | | |m loads|]; try done; cbn [k_handle].
  - cbn. repeat split; auto. intros *. apply not_elem_of_nil.
  - unfold k_step_submit. destruct (k_flight k !! t) as [[z []]|]; cbn.
    + pose proof (Hck z k). destruct (k_check z k) as [out [|]]; cbn in *; auto.
    + repeat split; auto. intros *. apply not_elem_of_nil.
    + repeat split; auto; [|intros *; apply not_elem_of_nil]. intros g i. rewrite lookup_insert_ne by discriminate. reflexivity.
    + repeat split; auto. intros *. apply not_elem_of_nil.
  - assert (Hset : ∀ r, (∀ p, p ∈ k_graphs r.1.1 → p ∈ k_graphs k) ∧ k_sending r.1.1 = k_sending k ∧ (∀ g i, k_state r.1.1 !! (FGraph g i) = k_state k !! (FGraph g i)) ∧ (∀ g fs ts ns, COut (MGraphTask g fs ts ns) ∉ r.1.2) →
      (∀ p, p ∈ k_graphs (k_settle r).1 → p ∈ k_graphs k) ∧ k_sending (k_settle r).1 = k_sending k ∧ (∀ g i, k_state (k_settle r).1 !! (FGraph g i) = k_state k !! (FGraph g i)) ∧ (∀ g fs ts ns, COut (MGraphTask g fs ts ns) ∉ (k_settle r).2)).
    { intros [[k1 out] [e|]] (G1 & G2 & G3 & G4); cbn in *; auto. repeat split; auto. intros *. rewrite elem_of_app, elem_of_list_singleton. intros [E|E]; [exact (G4 _ _ _ _ E)|discriminate]. }
    assert (H0 : (∀ p, p ∈ k_graphs k → p ∈ k_graphs k) ∧ k_sending k = k_sending k ∧ (∀ g i, k_state k !! (FGraph g i) = k_state k !! (FGraph g i)) ∧ ∀ g fs ts ns, COut (MGraphTask g fs ts ns) ∉ @nil kentry).
    { repeat split; auto. intros *. apply not_elem_of_nil. }
    destruct (k_up k); [|exact H0]. apply Hset. clear Hset. destruct m; try done; cbn [k_receive].
    + unfold k_echo. destruct (k_tasks k !! id) as [z|]; [|exact H0]. destruct status; try exact H0.
      * cbn [k_with k_futures k_state]. destruct (existsb _ _); [|exact H0]. destruct (k_state k !! FTask id) as [[]|]; try exact H0. cbn. repeat split; auto; [|intros *; apply not_elem_of_nil]. intros g i. rewrite lookup_insert_ne by discriminate. reflexivity.
      * pose proof (Hck z k) as Hz. destruct (k_check z k) as [out [|]]; cbn in *; auto.
    + unfold k_result. destruct (existsb _ _); [|exact H0]. destruct status; cbn; try exact H0; destruct loads; try exact H0.
      * specialize (Hfs id (Value result) (k_with (k_tasks k) (k_bodies k) (pop_key id (k_futures k)) (k_buffer k) k)). destruct (f_set _ _ _) as [[k1 out] e]. cbn in *. destruct Hfs as (G1 & G2 & G3 & G4). rewrite G1, G2. auto.
      * specialize (Hfs id (Error result) (k_with (k_tasks k) (k_bodies k) (pop_key id (k_futures k)) (k_buffer k) k)). destruct (f_set _ _ _) as [[k1 out] e]. cbn in *. destruct Hfs as (G1 & G2 & G3 & G4). rewrite G1, G2. auto.
    + unfold k_function_response. destruct status; try exact H0; destruct (k_buffer k !! id) as [ks|]; try exact H0; cbn; repeat split; auto; intros * (z & E & _)%elem_of_list_fmap; discriminate.
Qed.
Lemma quiet_still e x : quiet_k e → still x (k_step x e).
Proof.
  intros He. destruct x as [k h]. unfold k_step. destruct (quiet_out e k He) as (G1 & G2 & G3 & G4). destruct (k_handle e k) as [k' out]. cbn in *. split; cbn; auto.
  exists (CIn e :: out). split; [reflexivity|]. intros g fs ts ns [E|E]%elem_of_cons; [discriminate|exact (G4 _ _ _ _ E)].
Qed.

(** ** Steps with graphs *)
Lemma sets_all kvs k : (∀ i, i ∈ kvs.*1 → k_state k !! i = Some FPending) → NoDup kvs.*1 →
  ∃ k' out, f_set_all kvs k = (k', out, None) ∧ (∃ st, k' = k_with_state (k_graphs k) st k ∧ ∀ i, i ∉ kvs.*1 → st !! i = k_state k !! i) ∧ Forall (λ e, ∃ i v, e = CSet i v ∧ i ∈ kvs.*1) out.
Proof.
  revert k. induction kvs as [|[i v] kvs IH]; intros k Hk Hn; cbn.
  - exists k, []. split; [reflexivity|]. split; [|constructor]. exists (k_state k). split; [by destruct k|auto].
  - cbn in Hn. apply NoDup_cons in Hn as [Hi Hn]. unfold f_set. rewrite (Hk i) by left. set (k1 := k_with_state (k_graphs k) (<[i := FFinished]> (k_state k)) k).
    destruct (IH k1) as (k' & out & E & (st & -> & Hst) & Ho); [|exact Hn|].
    + intros j Hj. cbn. rewrite lookup_insert_ne by (intros ->; auto). apply Hk. right. exact Hj.
    + rewrite E. eexists _, _. split; [reflexivity|]. split.
      * exists st. split; [reflexivity|]. intros j Hj. cbn in Hj. rewrite elem_of_cons in Hj. rewrite Hst by tauto. cbn. rewrite lookup_insert_ne by (intros ->; tauto). reflexivity.
      * cbn. constructor; [exists i, v; split; [reflexivity|left]|]. eapply Forall_impl; [exact Ho|]. intros e (j & u & -> & Hj). exists j, u. split; [reflexivity|right; exact Hj].
Qed.
Lemma imap_keys g (f : bytes → fvalue) ps : (imap (λ i p, ((FGraph g i), f p)) ps).*1 = (λ i, FGraph g i) <$> seq 0 (length ps).
Proof.
  assert (H : ∀ o, (imap (λ i p, ((FGraph g (o + i)%nat), f p)) ps).*1 = (λ i, FGraph g i) <$> seq o (length ps)).
  { induction ps as [|p ps IH]; intros o; [reflexivity|]. cbn. rewrite Nat.add_0_r. f_equal. rewrite <- IH. f_equal. apply imap_ext. intros i x _. cbn. do 3 f_equal. lia. }
  apply (H 0%nat).
Qed.
Lemma find_graph g l p : List.find (λ x : bytes * nat, String.eqb x.1 g) l = Some p → p ∈ l ∧ p.1 = g.
Proof. intros E. apply List.find_some in E as [E1 E2]. apply String.eqb_eq in E2. split; [apply elem_of_list_In, E1|exact E2]. Qed.
Lemma pop_in g l p : p ∈ pop_graph g l → p ∈ l ∧ p.1 ≠ g.
Proof.
  unfold pop_graph. rewrite !elem_of_list_In, filter_In. intros [H1 H2]. split; [exact H1|]. intros E. rewrite E, String.eqb_refl in H2. discriminate.
Qed.
(** An answer to a graph. *)
Lemma graph_result_ok k h g rs : k_up k = true → graphs_ok (k, h) → k_sending k = ∅ → (∀ n, (g, n) ∈ k_graphs k → n = length rs) →
  let e := KRecv (MGraphTaskResult g Success rs) true in
  ∃ gs st out, k_step (k, h) e = (k_with_state gs st k, h ++ CIn e :: out) ∧ (∀ t, st !! FTask t = k_state k !! FTask t) ∧ Forall (λ e, ∃ i v, e = CSet (FGraph g i) v) out ∧
    graphs_ok (k_step (k, h) e).
Proof.
  intros Hup H Hs Hlen. cbv zeta. set (e := KRecv (MGraphTaskResult g Success rs) true).
  cut (∃ gs st out, k_step (k, h) e = (k_with_state gs st k, h ++ CIn e :: out) ∧ (∀ t, st !! FTask t = k_state k !! FTask t) ∧ Forall (λ e, ∃ i v, e = CSet (FGraph g i) v) out ∧
    (∀ p, p ∈ gs → p ∈ k_graphs k ∧ ((∃ i, st !! (FGraph g i) ≠ k_state k !! (FGraph g i)) → p.1 ≠ g)) ∧ (∀ g' i, g' ≠ g → st !! (FGraph g' i) = k_state k !! (FGraph g' i))).
  { intros (gs & st & out & E & G1 & G2 & G3 & G4). exists gs, st, out. split; [exact E|]. split; [exact G1|]. split; [exact G2|]. rewrite E. rewrite Forall_forall in G2.
    assert (Hc : ∀ m, COut m ∈ h ++ CIn e :: out ↔ COut m ∈ h). { intros m. rewrite elem_of_app, elem_of_cons. split; [|auto]. intros [?|[?|Hi]]; [assumption|discriminate|]. destruct (G2 _ Hi) as (? & ? & ?). discriminate. }
    assert (Hss : client_sent (h ++ CIn e :: out) = client_sent h).
    { unfold client_sent. rewrite omap_app. cbn. replace (omap _ out) with (@nil message); [apply app_nil_r|]. symmetry. apply elem_of_nil_inv. intros m (o & Ho & Eo)%elem_of_list_omap. destruct (G2 _ Ho) as (? & ? & ->). discriminate. }
    split; cbn [fst snd].
    - unfold graphs_sent. rewrite Hss. exact (go_nodup _ H).
    - intros g' fs ts ns Hi%Hc. destruct (go_fit _ H _ _ _ _ Hi) as (F1 & n & F2). split; [exact F1|]. exists n. apply elem_of_app. left. exact F2.
    - cbn [k_with_state k_graphs k_sending k_state]. intros g' n [Hp|Hp]; [|rewrite Hs, lookup_empty in Hp; discriminate]. destruct (G3 _ Hp) as [Hp' Hne].
      destruct (go_wait _ H g' n (or_introl Hp')) as ((fs & ts & ns & W1 & W2) & W3). split; [exists fs, ts, ns; split; [apply Hc, W1|exact W2]|]. intros i Hi.
      destruct (decide (g' = g)) as [->|Hgg]; [|rewrite G4 by exact Hgg; exact (W3 i Hi)].
      destruct (decide (st !! (FGraph g i) = k_state k !! (FGraph g i))) as [->|Hd]; [exact (W3 i Hi)|]. destruct (Hne ltac:(eauto)). reflexivity. }
  unfold k_step. cbn [k_handle e]. rewrite Hup. cbn [k_receive]. unfold k_graph_result. destruct (List.find _ (k_graphs k)) as [[g' n]|] eqn:Ef.
  - apply find_graph in Ef as [Hin E0]. cbn in E0. subst g'. specialize (Hlen _ Hin). destruct (go_wait _ H g n (or_introl Hin)) as (_ & Hw). cbn in Hw.
    set (k1 := k_with_state (pop_graph g (k_graphs k)) (k_state k) k). rewrite take_ge by lia.
    destruct (sets_all (imap (λ i p, ((FGraph g i), Value p)) rs) k1) as (k' & out & E & (st & -> & Hst) & Ho).
    + rewrite imap_keys. intros i (j & -> & Hj)%elem_of_list_fmap. apply elem_of_seq in Hj. cbn. apply Hw. lia.
    + rewrite imap_keys. apply NoDup_fmap_2; [|apply NoDup_seq]. intros ? ? [= ?]. assumption.
    + rewrite E. unfold k_enumerate. replace (n <? length rs)%nat with false by (symmetry; apply Nat.ltb_ge; lia). cbn [k_settle].
      rewrite imap_keys in Hst, Ho. exists (pop_graph g (k_graphs k)), st, out. split; [reflexivity|]. split; [|split; [|split]].
      * intros t. rewrite Hst; [reflexivity|]. intros (j & Ej & _)%elem_of_list_fmap. discriminate.
      * eapply Forall_impl; [exact Ho|]. intros o (i & v & -> & (j & -> & _)%elem_of_list_fmap). eauto.
      * intros p Hp%pop_in. tauto.
      * intros g' i Hne. rewrite Hst; [reflexivity|]. intros (j & Ej & _)%elem_of_list_fmap. congruence.
  - cbn [k_settle]. exists (k_graphs k), (k_state k), []. split; [by destruct k|]. split; [reflexivity|]. split; [constructor|]. split; [|reflexivity]. intros p Hp. split; [exact Hp|]. intros (i & Hi). done.
Qed.

Section graph_steps.
  Context (CL : gmap bytes bytes) (c : bytes) (X : gset bytes) (x : client * list kentry).
  (** A message about graphs. *)
  Lemma ghost_ok m Qcs Qsc : client_flow CL c x Qcs Qsc → graphs_ok x → keeps X m = false → (∀ t, t ∈ subs x.2 → t ∉ X) → k_sending x.1 = ∅ →
    match m with MGraphTask _ _ _ _ => False | MGraphTaskResult g st rs => st = Success ∧ ∀ n, (g, n) ∈ k_graphs x.1 → n = length rs | _ => True end →
    let x' := k_step x (KRecv m true) in
    (∃ out, x'.2 = x.2 ++ CIn (KRecv m true) :: out ∧ client_sent out = []) ∧ client_flow CL c x' Qcs Qsc ∧ graphs_ok x' ∧ k_flight x'.1 = k_flight x.1.
  Proof.
    intros HF HG Hm HX Hs Hok. pose proof (flow_ids _ _ _ _ _ HF) as (_ & _ & _ & I4 & I5 & _). destruct HF as (F & B & A & D & H). destruct x as [k h]. cbn [fst snd] in *. cbv zeta.
    assert (Hnop : k_step (k, h) (KRecv m true) = (k, h ++ [CIn (KRecv m true)]) → (∃ g rs, m = MGraphTaskResult g Success rs) ∨ still (k, h) (k, h ++ [CIn (KRecv m true)]) → 
       (∃ g rs, m = MGraphTaskResult g Success rs) ∨ (∃ out, (k_step (k, h) (KRecv m true)).2 = h ++ CIn (KRecv m true) :: out ∧ client_sent out = []) ∧ client_flow CL c (k_step (k, h) (KRecv m true)) Qcs Qsc ∧ graphs_ok (k_step (k, h) (KRecv m true)) ∧ k_flight (k_step (k, h) (KRecv m true)).1 = k_flight k).
    { intros E [Hg|Hst]; [left; exact Hg|]. right. rewrite E. cbn [fst snd]. split; [exists []; split; reflexivity|]. split; [|split; [exact (still_ok _ _ Hst HG)|reflexivity]].
      exists F, B, A, D. cbn. apply (client_ok_same _ _ _ _ _ _ _ _ _ _ k [CIn (KRecv m true)] H); auto. repeat constructor. }
    assert (Hst : still (k, h) (k, h ++ [CIn (KRecv m true)])). { split; auto. exists [CIn (KRecv m true)]. split; [reflexivity|]. intros * E%elem_of_list_singleton. discriminate. }
    destruct m as [|t st| |t st d p| | | |g st rs| | | | | | | | | | | |]; cbn in Hm; try discriminate; try done; try apply bool_decide_eq_false in Hm.
    - destruct Hnop as [(? & ? & ?)|?]; [|right; exact Hst|discriminate|assumption].
      unfold k_step. cbn [k_handle]. rewrite (ko_up H). cbn [k_receive]. unfold k_echo. destruct (k_tasks k !! t) eqn:E; [|reflexivity]. destruct (HX t); [apply I5; eauto|]. by apply dec_stable.
    - destruct Hnop as [(? & ? & ?)|?]; [|right; exact Hst|discriminate|assumption].
      unfold k_step. cbn [k_handle]. rewrite (ko_up H). cbn [k_receive]. unfold k_result. destruct (existsb (String.eqb t) (k_futures k)) eqn:E; [|reflexivity].
      apply existsb_exists in E as (t' & Ht & E). apply String.eqb_eq in E as <-. apply elem_of_list_In in Ht. destruct (HX t); [apply I4, Ht|]. by apply dec_stable.
    - destruct Hok as [-> Hlen]. destruct (graph_result_ok k h g rs (ko_up H) HG Hs Hlen) as (gs & sta & out & E & G1 & G2 & G3). rewrite E in *. cbn [fst snd]. rewrite Forall_forall in G2.
      split; [exists out; split; [reflexivity|]; apply elem_of_nil_inv; intros m' (o & Ho & Eo)%elem_of_list_omap; destruct (G2 _ Ho) as (? & ? & ->); discriminate|].
      split; [|split; [exact G3|reflexivity]]. exists F, B, A, D. cbn.
      apply (client_ok_same _ _ _ _ _ _ _ _ _ _ (k_with_state gs sta k) _ H); auto. constructor; [exact I|]. apply Forall_forall. intros o Ho. destruct (G2 _ Ho) as (? & ? & ->). exact I.
  Qed.
  (** A graph is sent. *)
  Lemma foldr_state (g : bytes) (n : nat) (st : gmap fkey fstate) : let st' := foldr (λ i st, <[FGraph g i := FPending]> st) st (seq 0 n) in
    (∀ i, (i < n)%nat → st' !! (FGraph g i) = Some FPending) ∧ (∀ k, (∀ i, k ≠ FGraph g i) → st' !! k = st !! k).
  Proof.
    cbv zeta. assert (H : ∀ o, (∀ i, (o <= i < o + n)%nat → foldr (λ i st, <[FGraph g i := FPending]> st) st (seq o n) !! (FGraph g i) = Some FPending) ∧ (∀ k, (∀ i, k ≠ FGraph g i) → foldr (λ i st, <[FGraph g i := FPending]> st) st (seq o n) !! k = st !! k)).
    { induction n as [|n IH]; intros o; cbn; [split; [lia|reflexivity]|]. destruct (IH (S o)) as [H1 H2]. split.
      - intros i Hi. destruct (decide (i = o)) as [->|Hne]; [apply lookup_insert|]. rewrite lookup_insert_ne by congruence. apply H1. lia.
      - intros k Hk. rewrite lookup_insert_ne by (intros <-; eapply Hk; reflexivity). auto. }
    destruct (H 0%nat) as [H1 H2]. split; [|exact H2]. intros i Hi. apply H1. lia.
  Qed.
  Lemma send_graph_ok g fs ts ns Qcs Qsc : client_flow CL c x Qcs Qsc → graphs_ok x → graph_fit utf8 g fs ts ns → g ∉ graphs_sent x.2 →
    let m := MGraphTask g fs ts ns in let x' := k_step x (KGraph m (length ts)) in
    x'.2 = x.2 ++ [CIn (KGraph m (length ts)); COut m] ∧ client_flow CL c x' Qcs Qsc ∧ graphs_ok x'.
  Proof.
    intros (F & B & A & D & H) HG Hfit Hnew. cbv zeta. set (m := MGraphTask g fs ts ns). destruct x as [k h]. cbn [fst snd] in *.
    unfold k_step. cbn [k_handle k_graph m]. fold m. destruct (foldr_state g (length ts) (k_state k)) as [S1 S2]. set (st := foldr _ (k_state k) _) in *. cbn [fst snd].
    assert (Hold : ∀ g' n', (g', n') ∈ k_graphs k ∨ k_sending k !! g' = Some n' → g' ≠ g).
    { intros g' n' Hw ->. destruct (go_wait _ HG g n' Hw) as ((fs' & ts' & ns' & W1 & _) & _). apply Hnew. unfold graphs_sent. apply elem_of_list_omap. eexists. split; [apply sent_in, W1|reflexivity]. }
    split; [reflexivity|]. split.
    - exists F, B, A, D. cbn. apply (client_ok_same _ _ _ _ _ _ _ _ _ _ _ _ H); try reflexivity; [|repeat constructor]. intros t. cbn. apply S2. discriminate.
    - split; cbn [fst snd k_with_flight k_with_state k_graphs k_sending k_state].
      + rewrite graphs_sent_app. cbn. apply NoDup_app. split; [exact (go_nodup _ HG)|]. split; [|apply NoDup_singleton]. intros g' Hg ->%elem_of_list_singleton. auto.
      + intros g' fs' ts' ns'. rewrite elem_of_app, !elem_of_cons. intros [Hi|[Hi|[Hi|[]%elem_of_nil]]]; [|discriminate|].
        * destruct (go_fit _ HG _ _ _ _ Hi) as (G1 & n & G2). split; [exact G1|]. exists n. apply elem_of_app. left. exact G2.
        * injection Hi as -> -> -> ->. split; [exact Hfit|]. exists (length ts). apply elem_of_app. right. left.
      + intros g' n Hw. destruct (decide (g' = g)) as [->|Hne].
        * assert (n = length ts) as ->. { destruct Hw as [Hw|Hw]; [destruct (Hold g n); auto|]. rewrite lookup_insert in Hw. congruence. }
          split; [|exact S1]. exists fs, ts, ns. split; [|reflexivity]. apply elem_of_app. right. right. left.
        * rewrite lookup_insert_ne in Hw by done. destruct (go_wait _ HG g' n Hw) as ((fs' & ts' & ns' & W1 & W2) & W3). split; [exists fs', ts', ns'; split; [apply elem_of_app; left; exact W1|exact W2]|].
          intros i Hi. rewrite S2 by congruence. exact (W3 i Hi).
  Qed.
  (** Its futures are registered. *)
  Lemma register_graph_ok g Qcs Qsc : client_flow CL c x Qcs Qsc → graphs_ok x →
    let x' := k_step x (KGraphStep g) in x'.2 = x.2 ++ [CIn (KGraphStep g)] ∧ client_flow CL c x' Qcs Qsc ∧ graphs_ok x'.
  Proof.
    intros (F & B & A & D & H) HG. cbv zeta. destruct x as [k h]. cbn [fst snd] in *. unfold k_step. cbn [k_handle fst snd]. unfold k_graph_step.
    assert (Hgo : ∀ k', k_up k' = k_up k → k_flight k' = k_flight k → k_buffer k' = k_buffer k → k_tasks k' = k_tasks k → k_bodies k' = k_bodies k → k_futures k' = k_futures k → k_state k' = k_state k →
      (∀ g' n, (g', n) ∈ k_graphs k' ∨ k_sending k' !! g' = Some n → (g', n) ∈ k_graphs k ∨ k_sending k !! g' = Some n) →
      h ++ [CIn (KGraphStep g)] = h ++ [CIn (KGraphStep g)] ∧ client_flow CL c (k', h ++ [CIn (KGraphStep g)]) Qcs Qsc ∧ graphs_ok (k', h ++ [CIn (KGraphStep g)])).
    { intros k' E1 E2 E3 E4 E5 E6 E7 E8. split; [reflexivity|]. split.
      - exists F, B, A, D. cbn. apply (client_ok_same _ _ _ _ _ _ _ _ _ _ _ _ H); auto; [intros t; rewrite E7; reflexivity|repeat constructor].
      - assert (Hc : ∀ m, COut m ∈ h ++ [CIn (KGraphStep g)] ↔ COut m ∈ h) by (intros m; rewrite elem_of_app, elem_of_list_singleton; split; [intros [?|?]; [assumption|discriminate]|auto]).
        split; cbn [fst snd].
        + rewrite graphs_sent_app. cbn. rewrite app_nil_r. exact (go_nodup _ HG).
        + intros g' fs ts ns Hi%Hc. destruct (go_fit _ HG _ _ _ _ Hi) as (G1 & n & G2). split; [exact G1|]. exists n. apply elem_of_app. left. exact G2.
        + intros g' n Hw%E8. destruct (go_wait _ HG g' n Hw) as ((fs & ts & ns & W1 & W2) & W3). split; [exists fs, ts, ns; split; [apply Hc, W1|exact W2]|]. rewrite E7. exact W3. }
    destruct (k_sending k !! g) as [n|] eqn:Es; [|apply Hgo; auto]. apply Hgo; try reflexivity. cbn. intros g' n' [Hp|Hp].
    - unfold put_last in Hp. destruct (existsb _ (k_graphs k)).
      + apply elem_of_list_fmap in Hp as ([g0 n0] & E & Hp). cbn in E. destruct (String.eqb_spec g g0); [injection E as -> ->; right; exact Es|]. injection E as -> ->. auto.
      + apply elem_of_app in Hp as [Hp|Hp]; [auto|]. apply elem_of_list_singleton in Hp. injection Hp as -> ->. auto.
    - apply lookup_delete_Some in Hp as [_ Hp]. auto.
  Qed.
End graph_steps.
Lemma graphs_new : graphs_ok (k_init, []).
Proof. split; cbn; [constructor|intros * []%elem_of_nil|]. intros g n [[]%elem_of_nil|E]. rewrite lookup_empty in E. discriminate. Qed.
