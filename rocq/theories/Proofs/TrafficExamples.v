(** Concrete histories with graphs that are well-behaved (C73, C74). *)

From Verif.Model Require Import Base OneToManyDict Allocator Message Sorter Scheduler.
From Verif.Spec Require Import SchedulerSpec TrafficSpec.
From Verif.Proofs Require Import BaseProofs SchedExamples GraphExamples.

(** ** Checking that a concrete history is well-behaved *)
Definition pos (ids : list bytes) (x : bytes) : nat := match list_find (x =.) ids with Some (i, _) => i | None => 0%nat end.
Definition fitb (g : bytes) (fs : list (bytes * (bytes * bytes))) (ts : list bytes) (ns : list task) : bool :=
  let ids := task_id <$> ns in
  bool_decide (NoDup (g :: ids)) &&
  forallb (λ n, bool_decide (NoDup (references (task_args n))) && bool_decide (task_function n ∈ fs.*1) &&
    forallb (λ x, bool_decide (x ∈ ids) && bool_decide (pos ids x < pos ids (task_id n))%nat) (references (task_args n))) ns &&
  forallb (λ t, bool_decide (t ∈ ids)) ts && forallb (λ p, utf8 p.2.1) fs.
Lemma in_references x args : ArgTask x ∈ args → x ∈ references args.
Proof. intros H. apply elem_of_list_omap. eexists. split; [exact H|reflexivity]. Qed.
Lemma fitb_ok g fs ts ns : fitb g fs ts ns = true → graph_fit utf8 g fs ts ns.
Proof.
  unfold fitb. rewrite !andb_true_iff, !forallb_forall. setoid_rewrite andb_true_iff. setoid_rewrite andb_true_iff. setoid_rewrite forallb_forall.
  setoid_rewrite <- elem_of_list_In. setoid_rewrite andb_true_iff. setoid_rewrite bool_decide_eq_true. intros (((H1 & H2) & H3) & H4). split.
  - exact H1.
  - intros n x Hn Hx. destruct (H2 n Hn) as [_ H]. destruct (H x (in_references _ _ Hx)) as [Hi _]. apply elem_of_list_fmap in Hi as (n' & -> & Hn'). eauto.
  - exists (pos (task_id <$> ns)). intros n x Hn Hx. destruct (H2 n Hn) as [_ H]. apply (H x (in_references _ _ Hx)).
  - intros n Hn. apply (H2 n Hn).
  - exact H3.
  - intros n Hn. apply (H2 n Hn).
  - exact H4.
Qed.
Definition namedb (x : bytes) (m : message) : bool :=
  match m with MTask k => String.eqb x (task_id k) | MGraphTask g _ _ ns => String.eqb x g || bool_decide (x ∈ task_id <$> ns) | _ => false end.
Definition new_idb (x : bytes) (h : history) : bool := forallb (λ e, match e with LIn _ (ERecv _ m) => negb (namedb x m) | _ => true end) h.
Lemma new_idb_ok x h : new_idb x h = true → new_id x h.
Proof.
  unfold new_idb. rewrite forallb_forall. intros H c m [now Hr] Hn. apply elem_of_list_In in Hr. specialize (H _ Hr). cbn in H. apply negb_true_iff in H.
  destruct m; cbn in *; try contradiction; [apply String.eqb_neq in H; contradiction|]. apply orb_false_iff in H as [H1 H2]. apply String.eqb_neq in H1. apply bool_decide_eq_false in H2. tauto.
Qed.
Definition free_idb (x : bytes) (h : history) : bool :=
  forallb (λ e, match e with LIn _ (ERecv _ (MTask _)) => true | LIn _ (ERecv _ m) => negb (namedb x m) | LSend _ (MTaskEcho t SubmitOK) => negb (String.eqb t x) | _ => true end) h.
Lemma free_idb_ok x h : free_idb x h = true → free_id x h.
Proof.
  unfold free_idb. rewrite forallb_forall. intros H. split.
  - intros c g fs ts ns [now Hr] Hn. apply elem_of_list_In in Hr. specialize (H _ Hr). cbn in H. apply negb_true_iff, orb_false_iff in H as [H1 H2]. apply String.eqb_neq in H1. apply bool_decide_eq_false in H2. cbn in Hn. tauto.
  - intros c Hr. apply elem_of_list_In in Hr. specialize (H _ Hr). cbn in H. rewrite String.eqb_refl in H. discriminate.
Qed.
Fixpoint settledb (t : bytes) (before h : history) : bool :=
  match h with
  | [] => false
  | e :: h => (match e with LIn _ (ERecv _ (MTaskResult t' _ _ _)) => String.eqb t' t && bool_decide (is_Some (holder before !! t)) | _ => false end) || settledb t (before ++ [e]) h
  end.
Lemma settledb_ok t : ∀ h before, settledb t before h = true → settled t (before ++ h).
Proof.
  induction h as [|e h IH]; intros before H; [discriminate|]. cbn [settledb] in H. apply orb_true_iff in H as [H|H].
  - destruct e as [now [src m| | | | |]| | | | | |]; try discriminate. destruct m; try discriminate. apply andb_true_iff in H as [H1 H2]. apply String.eqb_eq in H1 as ->. apply bool_decide_eq_true in H2. unfold settled. eauto 12.
  - apply IH in H. rewrite <- app_assoc in H. exact H.
Qed.
Lemma settled_check t h : settledb t [] h = true → settled t h.
Proof. exact (settledb_ok t h []). Qed.
Definition placedb (t : bytes) (h : history) : bool := negb (acceptedb t h) || bool_decide (is_Some (holder h !! t)) || settledb t [] h.
Lemma placedb_ok t h : placedb t h = true → ¬ unplaced t h.
Proof.
  unfold placedb. rewrite !orb_true_iff. intros [[H|H]|H] ((c & Ha) & Hn & Hs).
  - apply negb_true_iff, not_true_iff_false in H. apply H. apply existsb_exists. eexists. split; [apply elem_of_list_In; exact Ha|]. apply String.eqb_refl.
  - apply bool_decide_eq_true in H as [? ?]. congruence.
  - apply settledb_ok in H. auto.
Qed.
Definition nodes_of (P : bytes → list task → bool) (h : history) : list bytes :=
  h ≫= λ e, match e with LIn _ (ERecv _ (MGraphTask g _ _ ns)) => if P g ns then task_id <$> ns else [] | _ => [] end.
Lemma nodes_of_ok P c g fs ts ns n h : received c (MGraphTask g fs ts ns) h → P g ns = true → n ∈ ns → task_id n ∈ nodes_of P h.
Proof. intros [now Hr] HP Hn. apply elem_of_list_bind. exists (LIn now (ERecv c (MGraphTask g fs ts ns))). rewrite HP. split; [apply elem_of_list_fmap; eauto|exact Hr]. Qed.
(** All other nodes of graphs with node [t] are placed. *)
Definition alone (t : bytes) (h : history) : bool :=
  forallb (λ t', String.eqb t' t || placedb t' h) (nodes_of (λ _ ns, bool_decide (t ∈ task_id <$> ns)) h).
Definition unique (h : history) : bool := bool_decide (NoDup (omap (λ e, match e with LIn _ (ERecv _ (MGraphTask g _ _ _)) => Some g | _ => None end) h)).
Definition openb (g : bytes) (h : history) : bool :=
  existsb (λ e, match e with LIn _ (ERecv _ (MGraphTask g' _ _ _)) => String.eqb g' g | _ => false end) h &&
  bool_decide (g ∉ pending_graphs h) &&
  forallb (λ e, match e with LSend _ (MGraphTaskResult g' _ _) | LIn _ (ERecv _ (MGraphTaskCancel g')) => negb (String.eqb g' g) | _ => true end) h.
Lemma openb_ok g h : openb g h = true → open_graph g h.
Proof.
  unfold openb. rewrite !andb_true_iff, forallb_forall. intros [[H1 H2] H3]. apply existsb_exists in H1 as (e & He & H1). apply bool_decide_eq_true in H2. split; [|split; [exact H2|split]].
  - destruct e as [now [src m| | | | |]| | | | | |]; try discriminate. destruct m; try discriminate. apply String.eqb_eq in H1 as ->. apply elem_of_list_In in He. eexists _, _, _, _, _. exact He.
  - intros (c & st & rs & H). apply elem_of_list_In in H. specialize (H3 _ H). cbn in H3. rewrite String.eqb_refl in H3. discriminate.
  - intros (c & now & H). apply elem_of_list_In in H. specialize (H3 _ H). cbn in H3. rewrite String.eqb_refl in H3. discriminate.
Qed.
Definition polite_graphsb (before : history) (e : entry) : bool :=
  match e with
  | LIn _ (ERecv src m) =>
      negb (undispatched before) && utf8 src &&
      match m with
      | MTask k => free_idb (task_id k) before
      | MGraphTask g fs ts ns => fitb g fs ts ns && forallb (λ x, new_idb x before) (g :: (task_id <$> ns))
      | MGraphTaskCancel g => openb g before && forallb (λ t, placedb t before) (nodes_of (λ g' _, String.eqb g' g) before)
      | MTaskCancel t => placedb t before || (unique before && alone t before)
      | MTaskResult t Success _ _ => true
      | MTaskResult t st _ _ => bool_decide (holder before !! t = None) || ((match st with Failed | Canceled => true | _ => false end) && unique before && alone t before)
      | MFunctionRequest FnAdd _ name _ => utf8 name
      | MFunctionRequest FnDelete _ _ _ => false
      | _ => true
      end
  | LIn _ EWorkers => negb (undispatched before)
  | _ => true
  end.
Lemma unique_ok h : unique h = true → ∀ c g fs ts ns c' fs' ts' ns', received c (MGraphTask g fs ts ns) h → received c' (MGraphTask g fs' ts' ns') h → ns = ns'.
Proof.
  unfold unique. rewrite bool_decide_eq_true. intros H c g fs ts ns c' fs' ts' ns' [now H1] [now' H2].
  apply elem_of_list_split in H1 as (a & b & E). rewrite E in H, H2. rewrite omap_app in H. cbn in H. apply NoDup_app in H as (_ & Ha & Hb). apply NoDup_cons in Hb as [Hb _].
  assert (Hin : ∀ l : history, LIn now' (ERecv c' (MGraphTask g fs' ts' ns')) ∈ l → g ∈ omap (λ e, match e with LIn _ (ERecv _ (MGraphTask g _ _ _)) => Some g | _ => None end) l).
  { intros l Hl. apply elem_of_list_omap. eexists. split; [exact Hl|reflexivity]. }
  apply elem_of_app in H2 as [H2|H2]; [destruct (Ha g (Hin _ H2)); left|]. apply elem_of_cons in H2 as [H2|H2]; [injection H2; auto|destruct Hb; apply (Hin _ H2)].
Qed.
Lemma alone_ok t h : unique h = true → alone t h = true → ∀ g t', node_of_graph t g h → node_of_graph t' g h → t' ≠ t → ¬ unplaced t' h.
Proof.
  unfold alone. rewrite forallb_forall. intros Hu H g t' (c & fs & ts & ns & n & H1 & H2 & H3) (c' & fs' & ts' & ns' & n' & H1' & H2' & <-) Hne.
  assert (ns = ns') as <- by (eapply unique_ok; eauto). assert (Hin : task_id n' ∈ nodes_of (λ _ ns, bool_decide (t ∈ task_id <$> ns)) h).
  { eapply nodes_of_ok; [exact H1| |exact H2']. apply bool_decide_eq_true. apply elem_of_list_fmap. eauto. }
  apply elem_of_list_In in Hin. specialize (H _ Hin). apply orb_true_iff in H as [H|H]; [apply String.eqb_eq in H; contradiction|]. apply placedb_ok, H.
Qed.
Lemma polite_graphsb_ok before e : polite_graphsb before e = true → polite_graphs utf8 before e.
Proof.
  destruct e as [now ev| | | | | |]; try done. destruct ev as [src m| | | | |]; try done; cbn [polite_graphsb polite_graphs].
  2: { intros H. apply negb_true_iff in H. exact H. }
  intros H. apply andb_true_iff in H as [H Hm]. apply andb_true_iff in H as [H1 H2]. apply negb_true_iff in H1. split; [exact H1|]. split; [exact H2|]. destruct m; try done.
  - apply free_idb_ok, Hm.
  - intros Hu g t' _ A B C. apply orb_true_iff in Hm as [Hm|Hm]; [destruct (placedb_ok _ _ Hm Hu)|]. apply andb_true_iff in Hm as [M1 M2]. eapply alone_ok; eauto.
  - intros Hh Hs g _ A. match goal with st : task_status |- _ => destruct st; try contradiction end; apply orb_true_iff in Hm as [Hm|Hm];
      try (apply bool_decide_eq_true in Hm; destruct Hh; congruence); apply andb_true_iff in Hm as [Hm M2]; apply andb_true_iff in Hm as [M0 M1]; try discriminate;
      (split; [auto|]; intros t' B C; eapply alone_ok; eauto).
  - apply andb_true_iff in Hm as [M1 M2]. split; [apply fitb_ok, M1|]. rewrite forallb_forall in M2. intros x Hx. apply new_idb_ok, M2, elem_of_list_In. cbn in Hx. destruct Hx as [->|Hx]; [left|right; exact Hx].
  - apply andb_true_iff in Hm as [M1 M2]. split; [apply openb_ok, M1|]. rewrite forallb_forall in M2. intros t (c & fs & ts & ns & n & A & B & <-). apply placedb_ok, M2, elem_of_list_In. eapply nodes_of_ok; [exact A| |exact B]. apply String.eqb_refl.
  - match goal with ty : function_request_type |- _ => destruct ty end; done.
Qed.
Lemma polite_graphs_check h : alwaysb polite_graphsb [] h = true → always (polite_graphs utf8) h.
Proof. intros H before e after E. exact (alwaysb_ok _ _ polite_graphsb_ok h [] H before e after E). Qed.

(** Three graphs and a task on two workers: "G" is a diamond, "H" fails, "K" is cancelled. *)
Definition crowd : list round :=
  [from "w1" beat; from "w2" beat; add "f"] ++ graph "G" ["z"; "x"] diamond ++ [tick EDispatch] ++
  graph "H" ["u"; "v"] [node "u" [ArgData "1"]; node "v" [ArgData "2"]; node "t" [ArgTask "u"; ArgTask "v"]] ++ [tick EDispatch; tick EDispatch; reply "x" "1"; tick EDispatch] ++ submit "a".
Definition crowd_ends : list round :=
  [reply "v" "2"; from "w2" (MTaskResult "u" Failed 3 "sorry"); tick EDispatch; from "cl" (MGraphTask "K" [("f", ("name", "code"))] ["k"] [node "k" []]); tick EGraph; tick EDispatch;
   from "cl" (MGraphTaskCancel "K"); later 61 EWorkers; tick EStatus].
