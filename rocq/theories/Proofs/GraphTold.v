(** * The futures of graphs are set when the results arrive (C87) *)

From Verif.Model Require Import Base OneToManyDict PriorityQueue Allocator Message Sorter Client Worker Processor Scheduler System.
From Verif.Spec Require Import AllocatorSpec DictSpec SchedulerSpec SystemSpec FlowSpec TrafficSpec GraphFlowSpec.
From Verif.Proofs Require SchedContent ClientProofs.
From Verif.Proofs Require Import BaseProofs DictProofs AllocatorProofs SchedWp SchedCount SchedHold SchedGlobal SchedStep SchedRemove SchedPlain SchedPolite SchedLive SchedBegin SchedTraffic SchedFinish SystemParts SystemProofs FlowSched FlowWorker FlowWork FlowClient FlowSystem GraphClient GraphRounds GraphFlow GraphStep GraphFinish.

Definition waits (k : client) (g : bytes) (n : nat) : Prop := k_sending k !! g = Some n ∨ (g, n) ∈ k_graphs k.
Definition heard_result (g : bytes) (h : list kentry) : Prop := ∃ st rs b, CIn (KRecv (MGraphTaskResult g st rs) b) ∈ h.
Definition all_set (g : bytes) (n : nat) (h : list kentry) : Prop := ∀ i, (i < n)%nat → ∃ v, CSet (FGraph g i) (Value v) ∈ h.
Record told (x : client * list kentry) : Prop := {
  td_graph g fs ts ns n : CIn (KGraph (MGraphTask g fs ts ns) n) ∈ x.2 → COut (MGraphTask g fs ts ns) ∈ x.2 ∧ (waits x.1 g n ∧ ¬ heard_result g x.2 ∨ all_set g n x.2);
  td_cancel g : COut (MGraphTaskCancel g) ∉ x.2 }.
Lemma all_set_app g n h l : all_set g n h → all_set g n (h ++ l).
Proof. intros H i Hi. destruct (H i Hi) as [v Hv]. exists v. apply elem_of_app. auto. Qed.

Lemma told_same x x' e out : told x → x'.2 = x.2 ++ CIn e :: out → (∀ o, o ∈ out → match o with CIn _ | COut (MGraphTaskCancel _) => False | _ => True end) →
  match e with KGraph (MGraphTask _ _ _ _) _ | KRecv (MGraphTaskResult _ _ _) _ => False | _ => True end → (∀ g n, waits x.1 g n → waits x'.1 g n) → told x'.
Proof.
  intros [H1 H2] E Ho He Hw. split.
  - intros g fs ts ns n. rewrite E, elem_of_app, elem_of_cons. intros [Hi|[Hi|Hi]]; [|injection Hi as <-; destruct He|destruct (Ho _ Hi)].
    destruct (H1 _ _ _ _ _ Hi) as [A B]. split; [apply elem_of_app; auto|]. destruct B as [[B1 B2]|B]; [|right; by apply all_set_app]. left. split; [auto|]. intros (st & rs & b & Hr).
    rewrite elem_of_app, elem_of_cons in Hr. destruct Hr as [Hr|[Hr|Hr]]; [apply B2; red; eauto|injection Hr as <-; destruct He|destruct (Ho _ Hr)].
  - intros g. rewrite E, elem_of_app, elem_of_cons. intros [Hi|[Hi|Hi]]; [exact (H2 g Hi)|discriminate|destruct (Ho _ Hi)].
Qed.
Definition plain_out (o : kentry) : Prop := match o with CIn _ | COut (MGraphTaskCancel _) => False | _ => True end.
Lemma quiet_plain e k : quiet_k e → Forall plain_out (k_handle e k).2 ∧ (k_graphs (k_handle e k).1 = k_graphs k).
Proof.
  assert (Hfs : ∀ t v k0, match f_set t v k0 with (k1, out, _) => k_graphs k1 = k_graphs k0 ∧ Forall plain_out out end). { intros t v k0. unfold f_set. destruct (k_state k0 !! t) as [[]|]; cbn; (split; [reflexivity|]); repeat constructor. }
  assert (Hck : ∀ z k0, Forall plain_out (k_check z k0).1). { intros z k0. unfold k_check. destruct (k_buffer k0 !! task_function z); cbn; [constructor|]. destruct (k_bodies k0 !! task_id z) as [[]|]; cbn; repeat constructor. }
  intros He. destruct e as [t f name content args|t| | | |m loads|]; try done; cbn [k_handle].
  - split; [constructor|reflexivity].
  - unfold k_step_submit. destruct (k_flight k !! t) as [[z []]|]; cbn; try (split; [constructor|reflexivity]). pose proof (Hck z k). destruct (k_check z k) as [out [|]]; cbn in *; auto.
  - assert (H0 : Forall plain_out [] ∧ k_graphs k = k_graphs k) by (split; [constructor|reflexivity]). destruct (k_up k); [|exact H0].
    assert (Hset : ∀ r, Forall plain_out r.1.2 ∧ k_graphs r.1.1 = k_graphs k → Forall plain_out (k_settle r).2 ∧ k_graphs (k_settle r).1 = k_graphs k).
    { intros [[k1 out] [e|]] [G1 G2]; cbn in *; auto. split; [|exact G2]. apply Forall_app. split; [exact G1|]. repeat constructor. }
    apply Hset. destruct m; try done; cbn [k_receive].
    + unfold k_echo. destruct (k_tasks k !! id) as [z|]; [|exact H0]. destruct status; try exact H0.
      * cbn [k_with k_futures k_state]. destruct (existsb _ _); [|exact H0]. destruct (k_state k !! FTask id) as [[]|]; exact H0.
      * pose proof (Hck z k) as Hz. destruct (k_check z k) as [out [|]]; cbn in *; auto.
    + unfold k_result. destruct (existsb _ _); [|exact H0]. destruct status; cbn; try exact H0; destruct loads; try exact H0.
      * specialize (Hfs (FTask id) (Value result) (k_with (k_tasks k) (k_bodies k) (pop_key id (k_futures k)) (k_buffer k) k)). destruct (f_set _ _ _) as [[k1 out] e]. cbn in *. tauto.
      * specialize (Hfs (FTask id) (Error result) (k_with (k_tasks k) (k_bodies k) (pop_key id (k_futures k)) (k_buffer k) k)). destruct (f_set _ _ _) as [[k1 out] e]. cbn in *. tauto.
    + unfold k_function_response. destruct status; try exact H0; destruct (k_buffer k !! id) as [ks|]; try exact H0; cbn; (split; [|reflexivity]); apply Forall_fmap, Forall_true; intros; exact I.
Qed.
Lemma told_quiet e x : quiet_k e → told x → told (k_step x e).
Proof.
  intros He H. destruct x as [k h]. destruct (quiet_plain e k He) as [P1 P2]. destruct (quiet_out e k He) as (_ & P3 & _ & _). unfold k_step. destruct (k_handle e k) as [k' out] eqn:E. cbn in *.
  eapply (told_same (k, h) (k', h ++ CIn e :: out) e out H); [reflexivity| |destruct e as [| | | | |[]|]; done|].
  - intros o Ho. rewrite Forall_forall in P1. specialize (P1 _ Ho). exact P1.
  - intros g n. unfold waits. cbn. rewrite P2, P3. auto.
Qed.
Lemma told_step x g : graphs_ok x → told x → told (k_step x (KGraphStep g)).
Proof.
  intros HG H. destruct x as [k h]. cbn. eapply (told_same (k, h) _ (KGraphStep g) [] H); [reflexivity|intros o Ho; by apply elem_of_nil in Ho|exact I|].
  intros g' n. unfold waits, k_graph_step. cbn. destruct (k_sending k !! g) as [n0|] eqn:Eg; [|auto]. cbn. assert (Hput : ∀ p, p = (g, n0) ∨ (p ∈ k_graphs k ∧ p.1 ≠ g) → p ∈ put_last (λ x, String.eqb g x.1) (g, n0) (k_graphs k)).
  { intros p Hp. unfold put_last. destruct (existsb (λ x, String.eqb g x.1) (k_graphs k)) eqn:Ex.
    - destruct Hp as [->|[Hp Hne]].
      + apply existsb_exists in Ex as (q & Hq & Eq). apply elem_of_list_fmap. exists q. rewrite Eq. split; [reflexivity|by apply elem_of_list_In].
      + apply elem_of_list_fmap. exists p. split; [|exact Hp]. destruct (String.eqb_spec g p.1); congruence.
    - apply elem_of_app. destruct Hp as [->|[Hp _]]; [right; by left|left; exact Hp]. }
  destruct (decide (g' = g)) as [->|Hne].
  - intros [Hs|Hs]; right; apply Hput; left; [congruence|]. destruct (go_wait _ HG g n (or_introl Hs)) as ((fs & ts & ns & W1 & ->) & _). destruct (go_wait _ HG g n0 (or_intror Eg)) as ((fs' & ts' & ns' & W1' & ->) & _).
    destruct (same_graph _ _ _ _ _ _ _ _ HG W1 W1') as (_ & <- & _). reflexivity.
  - rewrite lookup_delete_ne by done. intros [Hs|Hs]; [auto|]. right. apply Hput. right. auto.
Qed.
Lemma told_graph x g fs ts ns n : (∀ fs ts ns n, CIn (KGraph (MGraphTask g fs ts ns) n) ∉ x.2) → ¬ heard_result g x.2 → told x → told (k_step x (KGraph (MGraphTask g fs ts ns) n)).
Proof.
  intros Hnew Hh [H1 H2]. destruct x as [k h]. cbn in *. set (e := KGraph (MGraphTask g fs ts ns) n).
  assert (Hr : ∀ g', heard_result g' (h ++ [CIn e; COut (MGraphTask g fs ts ns)]) → heard_result g' h). { intros g' (st & rs & b & Hi). rewrite elem_of_app, !elem_of_cons in Hi. destruct Hi as [Hi|[Hi|[Hi|[]%elem_of_nil]]]; [red; eauto|discriminate|discriminate]. }
  split; cbn.
  - intros g' fs' ts' ns' n' Hi. rewrite elem_of_app, !elem_of_cons in Hi. destruct Hi as [Hi|[Hi|[Hi|[]%elem_of_nil]]]; [|injection Hi as -> -> -> -> ->|discriminate].
    + destruct (H1 _ _ _ _ _ Hi) as [A B]. split; [apply elem_of_app; auto|]. destruct B as [[B1 B2]|B]; [|right; by apply all_set_app]. left. split; [|intros Hq; apply B2, Hr, Hq].
      destruct B1 as [B1|B1]; [left; cbn|right; exact B1]. rewrite lookup_insert_ne; [exact B1|]. intros <-. exact (Hnew _ _ _ _ Hi).
    + split; [apply elem_of_app; right; right; left|]. left. split; [left; apply lookup_insert|]. intros Hq. apply Hh, Hr, Hq.
  - intros g'. rewrite elem_of_app, !elem_of_cons. intros [Hi|[Hi|[Hi|[]%elem_of_nil]]]; [exact (H2 _ Hi)|discriminate|discriminate].
Qed.
Lemma sets_each kvs k : (∀ i, i ∈ kvs.*1 → k_state k !! i = Some FPending) → NoDup kvs.*1 → match f_set_all kvs k with (_, out, _) => out = (λ p, CSet p.1 p.2) <$> kvs end.
Proof.
  revert k. induction kvs as [|[i v] kvs IH]; intros k Hk Hn; cbn; [reflexivity|]. cbn in Hn. apply NoDup_cons in Hn as [Hi Hn]. unfold f_set. rewrite (Hk i) by left. set (k1 := k_with_state _ _ _).
  specialize (IH k1). destruct (f_set_all kvs k1) as [[k' out] e]. rewrite IH; [reflexivity| |exact Hn]. intros j Hj. cbn. rewrite lookup_insert_ne by (intros ->; auto). apply Hk. right. exact Hj.
Qed.
Lemma pop_keep g l p : p ∈ l → p.1 ≠ g → p ∈ pop_graph g l.
Proof. unfold pop_graph. rewrite !elem_of_list_In, filter_In. intros H1 H2. split; [exact H1|]. destruct (String.eqb_spec p.1 g); [done|reflexivity]. Qed.
Lemma told_result x g rs : k_up x.1 = true → graphs_ok x → k_sending x.1 = ∅ → (∀ n, (g, n) ∈ k_graphs x.1 → n = length rs) → told x → told (k_step x (KRecv (MGraphTaskResult g Success rs) true)).
Proof.
  intros Hup HG Hs Hlen [H1 H2]. destruct x as [k h]. cbn [fst snd] in *. set (e := KRecv (MGraphTaskResult g Success rs) true).
  assert (Hgo : ∃ k' out, k_step (k, h) e = (k', h ++ CIn e :: out) ∧ (∀ o, o ∈ out → ∃ i v, o = CSet i v) ∧ (∀ g' n, g' ≠ g → (g', n) ∈ k_graphs k → (g', n) ∈ k_graphs k') ∧
    (∀ n i, (g, n) ∈ k_graphs k → (i < n)%nat → ∃ v, CSet (FGraph g i) (Value v) ∈ out)).
  { unfold k_step. cbn [k_handle e]. rewrite Hup. cbn [k_receive]. unfold k_graph_result. destruct (List.find _ (k_graphs k)) as [[g' n]|] eqn:Ef.
    - apply find_graph in Ef as [Hin E0]. cbn in E0. subst g'. pose proof (Hlen _ Hin) as El. destruct (go_wait _ HG g n (or_introl Hin)) as (_ & Hw). cbn in Hw.
      set (k1 := k_with_state (pop_graph g (k_graphs k)) (k_state k) k). rewrite take_ge by lia. set (kvs := imap (λ i p, ((FGraph g i), Value p)) rs).
      assert (K1 : ∀ i, i ∈ kvs.*1 → k_state k1 !! i = Some FPending). { unfold kvs. rewrite imap_keys. intros i (j & -> & Hj)%elem_of_list_fmap. apply elem_of_seq in Hj. cbn. apply Hw. lia. }
      assert (K2 : NoDup kvs.*1). { unfold kvs. rewrite imap_keys. apply NoDup_fmap_2; [|apply NoDup_seq]. intros ? ? [= ?]. assumption. }
      pose proof (sets_each kvs k1 K1 K2) as E1. destruct (sets_all kvs k1 K1 K2) as (k' & out & E & (st & -> & _) & _). rewrite E in *. subst out.
      unfold k_enumerate. replace (n <? length rs)%nat with false by (symmetry; apply Nat.ltb_ge; lia). cbn [k_settle]. eexists _, _. split; [reflexivity|]. split; [|split].
      + intros o (p & -> & _)%elem_of_list_fmap. eauto.
      + intros g' n' Hne Hi. cbn. apply pop_keep; [exact Hi|exact Hne].
      + intros n' i Hi Hlt. rewrite (Hlen _ Hi) in Hlt. apply lookup_lt_is_Some in Hlt as [p Hp]. exists p. apply elem_of_list_fmap. exists (FGraph g i, Value p). split; [reflexivity|]. apply elem_of_list_lookup. exists i. unfold kvs. rewrite list_lookup_imap, Hp. reflexivity.
    - cbn [k_settle]. eexists _, _. split; [reflexivity|]. split; [intros o []%elem_of_nil|]. split; [auto|]. intros n i Hi _. destruct (List.find_none _ _ Ef (g, n)) as []; [by apply elem_of_list_In|]. exfalso.
      pose proof (List.find_none _ _ Ef (g, n) ltac:(by apply elem_of_list_In)) as Hq. cbn in Hq. rewrite String.eqb_refl in Hq. discriminate. }
  destruct Hgo as (k' & out & E & G1 & G2 & G3). rewrite E. split; cbn [fst snd].
  - intros g' fs ts ns n. rewrite elem_of_app, elem_of_cons. intros [Hi|[Hi|Hi]]; [|discriminate|destruct (G1 _ Hi) as (? & ? & ?); discriminate]. destruct (H1 _ _ _ _ _ Hi) as [A B]. split; [apply elem_of_app; auto|].
    destruct B as [[B1 B2]|B]; [|right; by apply all_set_app]. destruct B1 as [B1|B1]; [rewrite Hs, lookup_empty in B1; discriminate|]. destruct (decide (g' = g)) as [->|Hne].
    + right. intros i Hlt. destruct (G3 n i B1 Hlt) as [v Hv]. exists v. apply elem_of_app. right. right. exact Hv.
    + left. split; [right; exact (G2 _ _ Hne B1)|]. intros (st & rs' & b & Hq). rewrite elem_of_app, elem_of_cons in Hq. destruct Hq as [Hq|[Hq|Hq]]; [apply B2; red; eauto|injection Hq as -> _ _ _; done|destruct (G1 _ Hq) as (? & ? & ?); discriminate].
  - intros g'. rewrite elem_of_app, elem_of_cons. intros [Hi|[Hi|Hi]]; [exact (H2 _ Hi)|discriminate|destruct (G1 _ Hi) as (? & ? & ?); discriminate].
Qed.
Lemma told_other m b x : match m with MTaskEcho _ _ | MTaskResult _ _ _ _ | MGraphTaskResult _ _ _ | MFunctionResponse _ _ _ _ => False | _ => True end → told x → told (k_step x (KRecv m b)).
Proof.
  intros Hm H. destruct x as [k h]. assert (Hgo : ∃ k' out, k_step (k, h) (KRecv m b) = (k', h ++ CIn (KRecv m b) :: out) ∧ (∀ o, o ∈ out → ∃ e, o = CCrash e) ∧ k_graphs k' = k_graphs k ∧ k_sending k' = k_sending k).
  { unfold k_step. cbn [k_handle]. destruct (k_up k); [|eexists _, _; split; [reflexivity|]; split; [intros o []%elem_of_nil|auto]].
    replace (k_receive m b k) with ((k, [], Some TypeError) : kres) by (by destruct m). cbn. eexists _, _. split; [reflexivity|]. split; [|auto]. intros o ->%elem_of_list_singleton. eauto. }
  destruct Hgo as (k' & out & -> & G1 & G2 & G3). eapply (told_same (k, h) _ (KRecv m b) out H); [reflexivity| |by destruct m|].
  - intros o Ho. destruct (G1 _ Ho) as [e ->]. exact I.
  - intros g n. unfold waits. cbn. rewrite G2, G3. auto.
Qed.
