(** * Orderly executions: a client *)

From Verif.Model Require Import Base Message Client Worker Processor Scheduler System.
From Verif.Spec Require Import FlowSpec.
From Verif.Proofs Require Import BaseProofs FlowWorker.

(** ** What is on its way *)
Definition refused (q : list message) : list bytes := omap (λ m, match m with MTaskEcho t FunctionNotExists => Some t | _ => None end) q.
Definition oks (q : list message) : list bytes := omap (λ m, match m with MTaskEcho t SubmitOK => Some t | _ => None end) q.
Definition results (q : list message) : list bytes := omap (λ m, match m with MTaskResult t _ _ _ => Some t | _ => None end) q.
Definition from_client (m : message) : Prop :=
  match m with MFunctionRequest ty _ n _ => ty = FnAdd ∧ utf8 n = true | MTask _ => True | _ => False end.
Definition for_client (m : message) : Prop :=
  match m with
  | MTaskEcho _ st => st = SubmitOK ∨ st = FunctionNotExists
  | MFunctionResponse st _ _ _ => st = FnOK ∨ st = FnDuplicated
  | MTaskResult _ st _ _ => st = Success ∨ st = Failed
  | _ => False
  end.
Lemma refused_app q q' : refused (q ++ q') = refused q ++ refused q'.  Proof. apply omap_app. Qed.
Lemma oks_app q q' : oks (q ++ q') = oks q ++ oks q'.  Proof. apply omap_app. Qed.
Lemma results_app q q' : results (q ++ q') = results q ++ results q'.  Proof. apply omap_app. Qed.
Definition subs (h : list kentry) : list bytes := omap (λ e, match e with CIn (KSubmit t _ _ _ _) => Some t | _ => None end) h.
Lemma subs_app h h' : subs (h ++ h') = subs h ++ subs h'.  Proof. apply omap_app. Qed.
Definition of_fn (f : bytes) (B : list task) : list task := filter (λ k, task_function k = f) B.
Definition will_answer (f : bytes) (Qcs Qsc : list message) : Prop :=
  (∃ n ct, MFunctionRequest FnAdd f n ct ∈ Qcs) ∨ ∃ st n ct, MFunctionResponse st f n ct ∈ Qsc.

(** [F]: calls of submit that have not put their task into the buffer; [B]: tasks in the buffer; [A]: tasks the scheduler has; [D]: tasks with a
    value. *)
Record client_ok (CL : gmap bytes bytes) (c : bytes) (F : list bytes) (B : list task) (A D : list bytes) (k : client) (h : list kentry) (Qcs Qsc : list message) : Prop := {
  ko_up : k_up k = true;
  ko_crash e : CCrash e ∉ h;
  ko_cs : Forall from_client Qcs;
  ko_sc : Forall for_client Qsc;
  ko_flight t z st : k_flight k !! t = Some (z, st) → task_id z = t ∧ k_tasks k !! t = Some z ∧ (st = AtRegister ∨ t ∈ F);
  ko_F t : t ∈ F → ∃ z st, k_flight k !! t = Some (z, st) ∧ st ≠ AtRegister;
  ko_B f : default [] (k_buffer k !! f) = of_fn f B;
  ko_A t : t ∈ A ↔ CL !! t = Some c;
  ko_D t : t ∈ D ↔ ∃ v, CSet (FTask t) v ∈ h;
  ko_nodup : NoDup (subs h);
  ko_all : subs h ≡ₚ F ++ (task_id <$> B) ++ (task_id <$> tasks_in Qcs) ++ refused Qsc ++ A ++ results Qsc ++ D;
  ko_known t : is_Some (k_tasks k !! t) ↔ t ∈ F ++ (task_id <$> B) ++ (task_id <$> tasks_in Qcs) ++ refused Qsc ++ oks Qsc;
  ko_tasks z : z ∈ B ++ tasks_in Qcs → k_tasks k !! task_id z = Some z;
  ko_bodies t z : k_tasks k !! t = Some z → task_id z = t ∧ ∃ n ct, k_bodies k !! t = Some (n, ct) ∧ utf8 n = true;
  ko_oks : NoDup (oks Qsc) ∧ ∀ t, t ∈ oks Qsc → t ∈ A ++ results Qsc;
  ko_order l1 t st d p l2 : Qsc = l1 ++ MTaskResult t st d p :: l2 → t ∉ oks l2;
  ko_futures t : t ∈ k_futures k ↔ t ∈ subs h ∧ t ∉ D ∧ k_flight k !! t = None;
  ko_state t : t ∈ k_futures k → k_state k !! FTask t = Some (if k_tasks k !! t then FPending else FRunning);
  ko_pending f : is_Some (k_buffer k !! f) ∨ (∃ t z, k_flight k !! t = Some (z, AtAppend) ∧ task_function z = f) → will_answer f Qcs Qsc }.
Arguments ko_up {_ _ _ _ _ _ _ _ _ _} _.
Arguments ko_crash {_ _ _ _ _ _ _ _ _ _} _.
Arguments ko_cs {_ _ _ _ _ _ _ _ _ _} _.
Arguments ko_sc {_ _ _ _ _ _ _ _ _ _} _.
Arguments ko_flight {_ _ _ _ _ _ _ _ _ _} _.
Arguments ko_F {_ _ _ _ _ _ _ _ _ _} _.
Arguments ko_B {_ _ _ _ _ _ _ _ _ _} _.
Arguments ko_A {_ _ _ _ _ _ _ _ _ _} _.
Arguments ko_D {_ _ _ _ _ _ _ _ _ _} _.
Arguments ko_nodup {_ _ _ _ _ _ _ _ _ _} _.
Arguments ko_all {_ _ _ _ _ _ _ _ _ _} _.
Arguments ko_known {_ _ _ _ _ _ _ _ _ _} _.
Arguments ko_tasks {_ _ _ _ _ _ _ _ _ _} _.
Arguments ko_bodies {_ _ _ _ _ _ _ _ _ _} _.
Arguments ko_oks {_ _ _ _ _ _ _ _ _ _} _.
Arguments ko_order {_ _ _ _ _ _ _ _ _ _} _.
Arguments ko_futures {_ _ _ _ _ _ _ _ _ _} _.
Arguments ko_state {_ _ _ _ _ _ _ _ _ _} _.
Arguments ko_pending {_ _ _ _ _ _ _ _ _ _} _.

Lemma ids_of_fn f B t : t ∈ task_id <$> of_fn f B → t ∈ task_id <$> B.
Proof. intros (z & -> & Hz)%elem_of_list_fmap. apply elem_of_list_filter in Hz as [_ Hz]. apply elem_of_list_fmap_1, Hz. Qed.
Lemma of_fn_app f B B' : of_fn f (B ++ B') = of_fn f B ++ of_fn f B'.
Proof. apply filter_app. Qed.
Lemma of_fn_one f z : of_fn f [z] = if decide (task_function z = f) then [z] else [].
Proof. reflexivity. Qed.
Lemma will_answer_app f Qcs Qsc q q' : will_answer f Qcs Qsc → will_answer f (Qcs ++ q) (Qsc ++ q').
Proof. intros [(n & ct & H)|(st & n & ct & H)]; [left; exists n, ct|right; exists st, n, ct]; apply elem_of_app; auto. Qed.

Definition ids_perm (B1 Q1 B2 Q2 : list task) : Prop := (task_id <$> B2) ++ (task_id <$> Q2) ≡ₚ (task_id <$> B1) ++ (task_id <$> Q1).

Lemma unset (h out : list kentry) t : Forall (λ e, match e with CSet _ _ => False | _ => True end) out →
  (∃ v, CSet (FTask t) v ∈ h) ↔ ∃ v, CSet (FTask t) v ∈ h ++ out.
Proof.
  intros Ho. rewrite Forall_forall in Ho. split; intros [v Hv]; exists v; [apply elem_of_app; auto|]. apply elem_of_app in Hv as [Hv|Hv]; [exact Hv|]. destruct (Ho _ Hv).
Qed.
Ltac sets := repeat first [exact I | match goal with H : Forall _ ?l |- Forall _ ?l => refine (Forall_impl _ _ _ H _); intros []; tauto end | constructor].

Section steps.
  Context (CL : gmap bytes bytes) (c : bytes).
  Lemma known_subs F B A D k h Qcs Qsc t : client_ok CL c F B A D k h Qcs Qsc → is_Some (k_tasks k !! t) → t ∈ subs h.
  Proof.
    intros H Ht%(ko_known H). pose proof (proj2 (ko_oks H) t). rewrite (ko_all H). rewrite !elem_of_app in *. naive_solver.
  Qed.
  (** The two sides of a client's life: before and after its tasks are accepted. *)
  Lemma parts_nodup F B A D k h Qcs Qsc : client_ok CL c F B A D k h Qcs Qsc →
    NoDup (F ++ (task_id <$> B) ++ (task_id <$> tasks_in Qcs) ++ refused Qsc ++ A ++ results Qsc ++ D).
  Proof. intros H. rewrite <- (ko_all H). exact (ko_nodup H). Qed.

  Lemma known_undone F B A D k h Qcs Qsc t : client_ok CL c F B A D k h Qcs Qsc → is_Some (k_tasks k !! t) → t ∈ D → False.
  Proof.
    intros H Ht%(ko_known H) HD. pose proof (parts_nodup _ _ _ _ _ _ _ _ H) as Hn. pose proof (proj2 (ko_oks H) t) as Ho.
    rewrite !app_assoc in Hn. apply NoDup_app in Hn as (_ & Hn & _). apply (Hn t); [|exact HD]. rewrite !elem_of_app in *. naive_solver.
  Qed.

  Lemma submit_ok F B A D k h Qcs Qsc t f name content args : client_ok CL c F B A D k h Qcs Qsc → t ∉ subs h → utf8 name = true →
    client_ok CL c (t :: F) B A D (k_submit t f name content args k) (h ++ [CIn (KSubmit t f name content args)]) Qcs Qsc.
  Proof.
    intros H Ht Hn. assert (Hk : k_tasks k !! t = None). { apply eq_None_not_Some. intros Hs. apply Ht. eapply known_subs; eassumption. }
    assert (Hfl : k_flight k !! t = None). { destruct (k_flight k !! t) as [[z st]|] eqn:E; [|reflexivity]. destruct (ko_flight H _ _ _ E) as (_ & E' & _). congruence. }
    assert (Hnk : t ∉ F ++ (task_id <$> B) ++ (task_id <$> tasks_in Qcs) ++ refused Qsc ++ oks Qsc). { rewrite <- (ko_known H t), Hk. intros [? ?]. discriminate. }
    split; try (destruct H; assumption); cbn.
    - intros e. rewrite elem_of_app, elem_of_list_singleton. intros [He|He]; [exact (ko_crash H _ He)|discriminate].
    - intros t' z st. destruct (decide (t' = t)) as [->|Hne].
      + rewrite !lookup_insert. intros [= <- <-]. split; [reflexivity|]. split; [reflexivity|]. right. left.
      + rewrite !lookup_insert_ne by done. intros E. destruct (ko_flight H _ _ _ E) as (E1 & E2 & E3). rewrite elem_of_cons. naive_solver.
    - intros t' [-> |Ht']%elem_of_cons; [rewrite lookup_insert; eauto|]. destruct (decide (t' = t)) as [->|Hne]; [rewrite lookup_insert; eauto|]. rewrite lookup_insert_ne by done. exact (ko_F H _ Ht').
    - intros t'. rewrite (ko_D H). apply unset. sets.
    - rewrite subs_app. cbn. apply NoDup_app. split; [exact (ko_nodup H)|]. split; [|apply NoDup_singleton]. intros t' Ht' ->%elem_of_list_singleton. auto.
    - rewrite subs_app. cbn. rewrite (ko_all H). solve_Permutation.
    - intros t'. destruct (decide (t' = t)) as [->|Hne].
      + rewrite lookup_insert, elem_of_cons. split; [auto|intros _; eauto].
      + rewrite lookup_insert_ne by done. rewrite (ko_known H), elem_of_cons. naive_solver.
    - intros z Hz. rewrite lookup_insert_ne; [exact (ko_tasks H _ Hz)|]. intros ->. pose proof (ko_tasks H _ Hz). congruence.
    - intros t' z. destruct (decide (t' = t)) as [->|Hne].
      + rewrite !lookup_insert. intros [= <-]. eauto.
      + rewrite !lookup_insert_ne by done. exact (ko_bodies H t' z).
    - intros t'. rewrite (ko_futures H), subs_app. cbn. rewrite elem_of_app, elem_of_list_singleton. destruct (decide (t' = t)) as [->|Hne].
      + rewrite lookup_insert. naive_solver.
      + rewrite lookup_insert_ne by done. naive_solver.
    - intros t' Ht'. assert (t' ≠ t). { intros ->. apply (ko_futures H) in Ht' as [? _]. auto. }
      rewrite lookup_insert_ne by done. exact (ko_state H t' Ht').
    - intros f' [Hf|(t' & z & Hz & Hf)].
      + apply (ko_pending H). auto.
      + destruct (decide (t' = t)) as [->|Hne]; [rewrite lookup_insert in Hz; discriminate|]. rewrite lookup_insert_ne in Hz by done. apply (ko_pending H). eauto.
  Qed.

  (** The steps of a submit. *)
  Lemma k_check_ok F B A D k h Qcs Qsc t z : client_ok CL c F B A D k h Qcs Qsc → k_tasks k !! t = Some z →
    ∃ out, k_check z k = (out, None) ∧ (out = [] ∧ is_Some (k_buffer k !! task_function z) ∨
       ∃ n ct, out = [COut (MFunctionRequest FnAdd (task_function z) n ct)] ∧ utf8 n = true).
  Proof.
    intros H Hz. unfold k_check. destruct (k_buffer k !! task_function z); [eauto 6|]. destruct (ko_bodies H _ _ Hz) as (-> & n & ct & E & Hn).
    rewrite E. eauto 8.
  Qed.
  Lemma check_ok F B A D k h Qcs Qsc t z : client_ok CL c F B A D k h Qcs Qsc → k_flight k !! t = Some (z, AtCheck) →
    ∃ k' out, k_step_submit t k = (k', out) ∧ client_ok CL c F B A D k' (h ++ CIn (KStep t) :: out) (Qcs ++ client_sent out) Qsc ∧ k_flight k' = <[t := (z, AtAppend)]> (k_flight k).
  Proof.
    intros H Hfl. destruct (ko_flight H _ _ _ Hfl) as (Hid & Hk & [?|HF]); [discriminate|]. destruct (k_check_ok _ _ _ _ _ _ _ _ _ _ H Hk) as (out & E & Ho).
    unfold k_step_submit. rewrite Hfl, E. eexists _, out. split; [reflexivity|]. split; [|reflexivity].
    assert (Ho' : Forall (λ e, match e with COut (MFunctionRequest ty _ n _) => ty = FnAdd ∧ utf8 n = true | _ => False end) out).
    { destruct Ho as [[-> _]|(n & ct & -> & Hn)]; repeat constructor; auto. }
    assert (HT : tasks_in (client_sent out) = [] ∧ Forall from_client (client_sent out) ∧ subs out = [] ∧ ∀ e, CCrash e ∉ out).
    { destruct Ho as [[-> _]|(n & ct & -> & Hn)]; cbn; (split; [reflexivity|]); (split; [repeat constructor; auto|]); (split; [reflexivity|]); set_solver. }
    destruct HT as (T1 & T2 & T3 & T4).
    assert (HS : subs (h ++ CIn (KStep t) :: out) = subs h). { rewrite subs_app. cbn. fold (subs out). rewrite T3, app_nil_r. reflexivity. }
    split; rewrite ?HS; try (destruct H; assumption); cbn.
    - intros e. rewrite elem_of_app, elem_of_cons. intros [He|[He|He]]; [exact (ko_crash H _ He)|discriminate|exact (T4 _ He)].
    - apply Forall_app. split; [exact (ko_cs H)|exact T2].
    - intros t' z' st. destruct (decide (t' = t)) as [->|Hne]; [rewrite lookup_insert; intros [= <- <-]; auto|rewrite lookup_insert_ne by done]. exact (ko_flight H t' z' st).
    - intros t' Ht'. destruct (decide (t' = t)) as [->|Hne]; [rewrite lookup_insert; eauto|rewrite lookup_insert_ne by done]. exact (ko_F H _ Ht').
    - intros t'. rewrite (ko_D H). apply unset. sets.
    - rewrite tasks_in_app, T1, app_nil_r. exact (ko_all H).
    - rewrite tasks_in_app, T1, app_nil_r. exact (ko_known H).
    - rewrite tasks_in_app, T1, app_nil_r. exact (ko_tasks H).
    - intros t'. rewrite (ko_futures H). destruct (decide (t' = t)) as [->|Hne]; [rewrite lookup_insert, Hfl; naive_solver|rewrite lookup_insert_ne by done; reflexivity].
    - intros f Hf. assert (Hz : will_answer (task_function z) (Qcs ++ client_sent out) Qsc).
      { destruct Ho as [[-> Hb]|(n & ct & -> & _)]; [rewrite app_nil_r; apply (ko_pending H); auto|]. left. exists n, ct. set_solver. }
      destruct Hf as [Hf|(t' & z' & Hz' & Hf)].
      + rewrite <- (app_nil_r Qsc). apply will_answer_app, (ko_pending H). auto.
      + destruct (decide (t' = t)) as [->|Hne]; [rewrite lookup_insert in Hz'; injection Hz' as <-; congruence|]. rewrite lookup_insert_ne in Hz' by done.
        rewrite <- (app_nil_r Qsc). apply will_answer_app, (ko_pending H). eauto.
  Qed.
  Lemma remove_one (t : bytes) (l : list bytes) : t ∈ l → ∃ l', l ≡ₚ t :: l'.
  Proof. intros (l1 & l2 & ->)%elem_of_list_split. exists (l1 ++ l2). solve_Permutation. Qed.
  Lemma append_ok F B A D k h Qcs Qsc t z : client_ok CL c F B A D k h Qcs Qsc → k_flight k !! t = Some (z, AtAppend) →
    ∃ k' F', k_step_submit t k = (k', []) ∧ client_ok CL c F' (B ++ [z]) A D k' (h ++ [CIn (KStep t)]) Qcs Qsc ∧ k_flight k' = <[t := (z, AtRegister)]> (k_flight k).
  Proof.
    intros H Hfl. destruct (ko_flight H _ _ _ Hfl) as (Hid & Hk & [?|HF]); [discriminate|]. destruct (remove_one _ _ HF) as [F' HF'].
    unfold k_step_submit. rewrite Hfl. eexists _, F'. split; [reflexivity|]. split; [|reflexivity].
    assert (HS : subs (h ++ [CIn (KStep t)]) = subs h). { rewrite subs_app. cbn. rewrite app_nil_r. reflexivity. }
    pose proof (parts_nodup _ _ _ _ _ _ _ _ H) as Hnd. rewrite HF' in Hnd. cbn in Hnd. apply NoDup_cons in Hnd as [Hnd _]. rewrite elem_of_app in Hnd.
    split; rewrite ?HS; try (destruct H; assumption); cbn.
    - intros e. rewrite elem_of_app, elem_of_list_singleton. intros [He|He]; [exact (ko_crash H _ He)|discriminate].
    - intros t' z' st. destruct (decide (t' = t)) as [->|Hne]; [rewrite lookup_insert; intros [= <- <-]; auto|rewrite lookup_insert_ne by done].
      intros E. destruct (ko_flight H _ _ _ E) as (E1 & E2 & E3). rewrite HF', elem_of_cons in E3. naive_solver.
    - intros t' Ht'. rewrite lookup_insert_ne by (intros <-; tauto). apply (ko_F H). rewrite HF', elem_of_cons. auto.
    - intros f. rewrite of_fn_app, <- (ko_B H). destruct (decide (f = task_function z)) as [->|Hne].
      + rewrite lookup_insert, of_fn_one, decide_True by done. reflexivity.
      + rewrite lookup_insert_ne by done. rewrite of_fn_one, decide_False, app_nil_r by done. reflexivity.
    - intros t'. rewrite (ko_D H). apply unset. sets.
    - rewrite (ko_all H), HF', fmap_app. cbn. rewrite Hid. solve_Permutation.
    - intros t'. rewrite (ko_known H), HF', fmap_app. cbn. rewrite Hid. rewrite !elem_of_app, elem_of_cons. set_solver.
    - intros z'. rewrite <- app_assoc, elem_of_app. cbn. rewrite elem_of_cons. intros [Hz|[-> |Hz]]; [| |]; [apply (ko_tasks H), elem_of_app; auto|rewrite Hid; exact Hk|apply (ko_tasks H), elem_of_app; auto].
    - intros t'. rewrite (ko_futures H). destruct (decide (t' = t)) as [->|Hne]; [rewrite lookup_insert, Hfl; naive_solver|rewrite lookup_insert_ne by done; reflexivity].
    - intros f [Hf|(t' & z' & Hz' & Hf)].
      + destruct (decide (f = task_function z)) as [->|Hne]; [apply (ko_pending H); eauto|]. rewrite lookup_insert_ne in Hf by done. apply (ko_pending H). auto.
      + destruct (decide (t' = t)) as [->|Hne]; [rewrite lookup_insert in Hz'; discriminate|]. rewrite lookup_insert_ne in Hz' by done. apply (ko_pending H). eauto.
  Qed.
  Lemma put_last_in t t' l : t' ∈ put_last (String.eqb t) t l ↔ t' = t ∨ t' ∈ l.
  Proof.
    unfold put_last. destruct (existsb (String.eqb t) l) eqn:E.
    - rewrite elem_of_list_fmap. apply existsb_exists in E as (i & Hi & Ei). apply String.eqb_eq in Ei. subst i. apply elem_of_list_In in Hi. split.
      + intros (j & -> & Hj). destruct (String.eqb t j) eqn:Ej; auto.
      + intros [-> |H]; [exists t; rewrite String.eqb_refl; auto|]. exists t'. destruct (String.eqb t t') eqn:Ej; [apply String.eqb_eq in Ej; auto|auto].
    - rewrite elem_of_app, elem_of_list_singleton. tauto.
  Qed.
  Lemma register_ok F B A D k h Qcs Qsc t z : client_ok CL c F B A D k h Qcs Qsc → k_flight k !! t = Some (z, AtRegister) →
    ∃ k', k_step_submit t k = (k', []) ∧ client_ok CL c F B A D k' (h ++ [CIn (KStep t)]) Qcs Qsc ∧ k_flight k' = delete t (k_flight k).
  Proof.
    intros H Hfl. destruct (ko_flight H _ _ _ Hfl) as (Hid & Hk & _).
    unfold k_step_submit. rewrite Hfl. eexists _. split; [reflexivity|]. split; [|reflexivity].
    assert (HS : subs (h ++ [CIn (KStep t)]) = subs h). { rewrite subs_app. cbn. rewrite app_nil_r. reflexivity. }
    assert (HnF : t ∉ F). { intros HF. destruct (ko_F H _ HF) as (z' & st & E & Hst). rewrite Hfl in E. injection E as <- <-. auto. }
    assert (HnD : t ∉ D). { intros HD. eapply known_undone; eauto. }
    split; rewrite ?HS; try (destruct H; assumption); cbn.
    - intros e. rewrite elem_of_app, elem_of_list_singleton. intros [He|He]; [exact (ko_crash H _ He)|discriminate].
    - intros t' z' st [_ E]%lookup_delete_Some. exact (ko_flight H _ _ _ E).
    - intros t' Ht'. rewrite lookup_delete_ne by (intros <-; auto). exact (ko_F H _ Ht').
    - intros t'. rewrite (ko_D H). apply unset. sets.
    - intros t'. rewrite put_last_in, (ko_futures H). destruct (decide (t' = t)) as [->|Hne].
      + rewrite lookup_delete. assert (t ∈ subs h) by (eapply known_subs; eauto). naive_solver.
      + rewrite lookup_delete_ne by done. naive_solver.
    - intros t' Ht'. destruct (decide (t' = t)) as [->|Hne]; [rewrite lookup_insert, Hk; reflexivity|]. rewrite lookup_insert_ne by congruence. apply (ko_state H).
      apply put_last_in in Ht' as [?|?]; auto. done.
    - intros f [Hf|(t' & z' & Hz' & Hf)]; apply (ko_pending H); [auto|]. apply lookup_delete_Some in Hz' as [_ Hz']. eauto.
  Qed.

  (** ** Messages of the scheduler *)
  Lemma no_flight F B A D k h Qcs Qsc : client_ok CL c F B A D k h Qcs Qsc → k_flight k = ∅ → F = [].
  Proof. intros H Hf. destruct F as [|t F]; [reflexivity|]. destruct (ko_F H t (elem_of_list_here _ _)) as (z & st & E & _). rewrite Hf, lookup_empty in E. discriminate. Qed.
  Lemma will_answer_cons f m Qcs Qsc q : (∀ st n ct, m ≠ MFunctionResponse st f n ct) → will_answer f Qcs (m :: Qsc) → will_answer f (Qcs ++ q) Qsc.
  Proof.
    intros Hm [(n & ct & H)|(st & n & ct & [E|H]%elem_of_cons)]; [left; exists n, ct; apply elem_of_app; auto| |right; eauto]. exfalso. eapply Hm. symmetry. exact E.
  Qed.
  Lemma order_cons m Qsc : (∀ l1 t st d p l2, m :: Qsc = l1 ++ MTaskResult t st d p :: l2 → t ∉ oks l2) → ∀ l1 t st d p l2, Qsc = l1 ++ MTaskResult t st d p :: l2 → t ∉ oks l2.
  Proof. intros H l1 t st d p l2 ->. apply (H (m :: l1) t st d p l2). reflexivity. Qed.
  Notation goes m k h Qcs Qsc' := (∃ F B A D k' out, k_receive m true k = (k', out, None) ∧ client_ok CL c F B A D k' (h ++ CIn (KRecv m true) :: out) (Qcs ++ client_sent out) Qsc' ∧ k_flight k' = ∅).
  Lemma in_existsb t l : t ∈ l → existsb (String.eqb t) l = true.
  Proof. intros H. apply existsb_exists. exists t. split; [apply elem_of_list_In, H|apply String.eqb_refl]. Qed.
  Lemma accepted_ok F B A D k h Qcs t Qsc : client_ok CL c F B A D k h Qcs (MTaskEcho t SubmitOK :: Qsc) → k_flight k = ∅ → goes (MTaskEcho t SubmitOK) k h Qcs Qsc.
  Proof.
    intros H Hfl. pose proof (parts_nodup _ _ _ _ _ _ _ _ H) as Hnd. destruct (ko_oks H) as [Ho1 Ho2]. cbn in Hnd. change (oks (MTaskEcho t SubmitOK :: Qsc)) with (t :: oks Qsc) in *. apply NoDup_cons in Ho1 as [Ho0 Ho1].
    assert (Hk : is_Some (k_tasks k !! t)). { apply (ko_known H). change (oks (MTaskEcho t SubmitOK :: Qsc)) with (t :: oks Qsc). set_solver. }
    assert (Hf : t ∈ k_futures k). { apply (ko_futures H). split; [eapply known_subs; eassumption|]. split; [intros HD; eapply known_undone; eassumption|]. rewrite Hfl. apply lookup_empty. }
    pose proof (ko_state H t Hf) as Hs. destruct Hk as [z Hz]. rewrite Hz in Hs.
    assert (Hno : t ∉ F ++ (task_id <$> B) ++ (task_id <$> tasks_in Qcs) ++ refused Qsc).
    { intros Hi. rewrite !app_assoc in Hnd. pose proof (Ho2 t (elem_of_list_here _ _)) as Ht. cbn in Ht. rewrite <- (app_assoc _ A), <- (app_assoc _ (A ++ _)) in Hnd.
      apply NoDup_app in Hnd as (_ & Hnd & _). apply (Hnd t); [rewrite !elem_of_app in *; tauto|]. change (results (MTaskEcho t SubmitOK :: Qsc)) with (results Qsc) in Ht. rewrite !elem_of_app in *. tauto. }
    exists F, B, A, D. unfold k_receive, k_echo. rewrite Hz. cbn [k_with k_futures k_state]. rewrite (in_existsb _ _ Hf), Hs. eexists _, _. split; [reflexivity|]. split; [|exact Hfl].
    assert (HS : subs (h ++ [CIn (KRecv (MTaskEcho t SubmitOK) true)]) = subs h). { rewrite subs_app. cbn. rewrite app_nil_r. reflexivity. }
    split; rewrite ?HS; cbn [client_sent omap list_omap]; rewrite ?app_nil_r; try (destruct H; assumption); cbn.
    - intros e. rewrite elem_of_app, elem_of_list_singleton. intros [He|He]; [exact (ko_crash H _ He)|discriminate].
    - pose proof (ko_sc H) as Hsc. apply Forall_cons in Hsc as [_ Hsc]. exact Hsc.
    - intros t' z' st E. rewrite Hfl, lookup_empty in E. discriminate.
    - intros t'. rewrite (ko_D H). apply unset. sets.
    - intros t'. destruct (decide (t' = t)) as [->|Hne].
      + rewrite lookup_delete. split; [intros [? ?]; discriminate|]. rewrite !app_assoc, elem_of_app, <- !app_assoc. intros [?|?]; contradiction.
      + rewrite lookup_delete_ne by done. rewrite (ko_known H). change (oks (MTaskEcho t SubmitOK :: Qsc)) with (t :: oks Qsc). change (refused (MTaskEcho t SubmitOK :: Qsc)) with (refused Qsc). rewrite !elem_of_app, elem_of_cons. naive_solver.
    - intros z' Hz'. rewrite lookup_delete_ne; [exact (ko_tasks H _ Hz')|]. intros ->. apply Hno. rewrite elem_of_app in Hz'. rewrite !elem_of_app. destruct Hz' as [Hz'|Hz']; [right; left|right; right; left]; apply elem_of_list_fmap_1, Hz'.
    - intros t' z' [Hne E]%lookup_delete_Some. rewrite lookup_delete_ne by done. exact (ko_bodies H _ _ E).
    - split; [exact Ho1|]. intros t' Ht'. apply (Ho2 t'). right. exact Ht'.
    - exact (order_cons _ _ (ko_order H)).
    - intros t' Ht'. destruct (decide (t' = t)) as [->|Hne]; [rewrite lookup_insert, lookup_delete; reflexivity|]. rewrite lookup_insert_ne, lookup_delete_ne by congruence. exact (ko_state H _ Ht').
    - intros f Hf'. rewrite <- (app_nil_r Qcs). eapply will_answer_cons; [|exact (ko_pending H _ Hf')]. done.
  Qed.
  Lemma refused_ok F B A D k h Qcs t Qsc : client_ok CL c F B A D k h Qcs (MTaskEcho t FunctionNotExists :: Qsc) → k_flight k = ∅ → goes (MTaskEcho t FunctionNotExists) k h Qcs Qsc.
  Proof.
    intros H Hfl.
    assert (Hk : is_Some (k_tasks k !! t)). { apply (ko_known H). change (refused (MTaskEcho t FunctionNotExists :: Qsc)) with (t :: refused Qsc). set_solver. }
    destruct Hk as [z Hz]. destruct (ko_bodies H _ _ Hz) as [Hid _]. destruct (k_check_ok _ _ _ _ _ _ _ _ _ _ H Hz) as (out & E & Ho).
    exists F, (B ++ [z]), A, D. unfold k_receive, k_echo. rewrite Hz, E. eexists _, _. split; [reflexivity|]. split; [|exact Hfl].
    assert (HT : tasks_in (client_sent out) = [] ∧ Forall from_client (client_sent out) ∧ subs out = [] ∧ ∀ e, CCrash e ∉ out).
    { destruct Ho as [[-> _]|(n & ct & -> & Hn)]; cbn; (split; [reflexivity|]); (split; [repeat constructor; auto|]); (split; [reflexivity|]); set_solver. }
    destruct HT as (T1 & T2 & T3 & T4).
    assert (HS : subs (h ++ CIn (KRecv (MTaskEcho t FunctionNotExists) true) :: out) = subs h). { rewrite subs_app. cbn. fold (subs out). rewrite T3, app_nil_r. reflexivity. }
    assert (Hin : ∀ t', t' ∈ F ++ (task_id <$> B ++ [z]) ++ (task_id <$> tasks_in Qcs) ++ refused Qsc ++ oks Qsc ↔ t' ∈ F ++ (task_id <$> B) ++ (task_id <$> tasks_in Qcs) ++ (t :: refused Qsc) ++ oks Qsc).
    { intros t'. rewrite fmap_app. cbn. rewrite Hid. set_solver. }
    split; rewrite ?HS; try (destruct H; assumption); cbn.
    - intros e. rewrite elem_of_app, elem_of_cons. intros [He|[He|He]]; [exact (ko_crash H _ He)|discriminate|exact (T4 _ He)].
    - apply Forall_app. split; [exact (ko_cs H)|exact T2].
    - pose proof (ko_sc H) as Hsc. apply Forall_cons in Hsc as [_ Hsc]. exact Hsc.
    - intros f. rewrite of_fn_app, <- (ko_B H). destruct (decide (f = task_function z)) as [->|Hne].
      + rewrite lookup_insert, of_fn_one, decide_True by done. reflexivity.
      + rewrite lookup_insert_ne by done. rewrite of_fn_one, decide_False, app_nil_r by done. reflexivity.
    - intros t'. rewrite (ko_D H). apply unset. constructor; [exact I|]. destruct Ho as [[-> _]|(n & ct & -> & _)]; sets.
    - rewrite tasks_in_app, T1, app_nil_r. rewrite (ko_all H), fmap_app. cbn. rewrite Hid. solve_Permutation.
    - intros t'. rewrite tasks_in_app, T1, app_nil_r. rewrite (ko_known H), Hin. reflexivity.
    - rewrite tasks_in_app, T1, app_nil_r. intros z'. rewrite <- app_assoc, elem_of_app. cbn. rewrite elem_of_cons.
      intros [Hz'|[-> |Hz']]; [apply (ko_tasks H), elem_of_app; auto|rewrite Hid; exact Hz|apply (ko_tasks H), elem_of_app; auto].
    - exact (order_cons _ _ (ko_order H)).
    - intros f [Hf|(t' & z' & Hz' & _)]; [|rewrite Hfl, lookup_empty in Hz'; discriminate]. destruct (decide (f = task_function z)) as [->|Hne].
      + destruct Ho as [[-> Hb]|(n & ct & -> & _)]; [|left; exists n, ct; set_solver]. eapply will_answer_cons; [|exact (ko_pending H _ (or_introl Hb))]. done.
      + rewrite lookup_insert_ne in Hf by done. eapply will_answer_cons; [|exact (ko_pending H _ (or_introl Hf))]. done.
  Qed.
  Definition not_fn (f : bytes) (B : list task) : list task := filter (λ k, task_function k ≠ f) B.
  Lemma split_fn f B : B ≡ₚ of_fn f B ++ not_fn f B.
  Proof.
    induction B as [|z B IH]; [reflexivity|]. unfold of_fn, not_fn in *. rewrite !filter_cons. destruct (decide (task_function z = f)); destruct (decide (task_function z ≠ f)); try done; cbn.
    - rewrite IH at 1. reflexivity.
    - rewrite IH at 1. solve_Permutation.
  Qed.
  Lemma of_not_fn f f' B : of_fn f' (not_fn f B) = if decide (f' = f) then [] else of_fn f' B.
  Proof.
    induction B as [|z B IH]; [by destruct (decide _)|]. unfold of_fn, not_fn in *. rewrite !filter_cons. destruct (decide (task_function z = f)) as [E|E]; destruct (decide (task_function z ≠ f)); try done.
    - rewrite IH. destruct (decide (f' = f)); [reflexivity|]. rewrite decide_False by congruence. reflexivity.
    - rewrite filter_cons, IH. destruct (decide (f' = f)) as [->|]; [rewrite decide_False by done; reflexivity|]. reflexivity.
  Qed.
  Lemma sent_tasks ks : client_sent ((λ k, COut (MTask k)) <$> ks) = MTask <$> ks.
  Proof. induction ks as [|k ks IH]; [reflexivity|]. cbn. f_equal. exact IH. Qed.
  Lemma tasks_in_tasks ks : tasks_in (MTask <$> ks) = ks.
  Proof. induction ks as [|k ks IH]; [reflexivity|]. cbn. f_equal. exact IH. Qed.
  Lemma function_ok F B A D k h Qcs st f n ct Qsc : client_ok CL c F B A D k h Qcs (MFunctionResponse st f n ct :: Qsc) → k_flight k = ∅ → goes (MFunctionResponse st f n ct) k h Qcs Qsc.
  Proof.
    intros H Hfl. pose proof (ko_sc H) as Hsc. apply Forall_cons in Hsc as [Hst Hsc]. cbn in Hst.
    assert (E : k_receive (MFunctionResponse st f n ct) true k = (k_with (k_tasks k) (k_bodies k) (k_futures k) (delete f (k_buffer k)) k, (λ z, COut (MTask z)) <$> of_fn f B, None)).
    { cbn. unfold k_function_response. rewrite <- (ko_B H). destruct Hst as [-> | ->]; destruct (k_buffer k !! f) eqn:Eb; cbn; try reflexivity; rewrite delete_notin by done; destruct k; reflexivity. }
    exists F, (not_fn f B), A, D. rewrite E. eexists _, _. split; [reflexivity|]. split; [|exact Hfl]. clear E.
    assert (HS : subs (h ++ CIn (KRecv (MFunctionResponse st f n ct) true) :: ((λ z, COut (MTask z)) <$> of_fn f B)) = subs h).
    { rewrite subs_app. cbn. rewrite <- (app_nil_r (subs h)) at 2. f_equal. induction (of_fn f B) as [|z l IH]; [reflexivity|]. cbn. exact IH. }
    assert (Hall : ids_perm (not_fn f B) (tasks_in Qcs ++ of_fn f B) B (tasks_in Qcs)). { unfold ids_perm. rewrite !fmap_app. rewrite (split_fn f B) at 1. rewrite fmap_app. solve_Permutation. }
    split; rewrite ?HS; rewrite ?sent_tasks, ?tasks_in_app, ?tasks_in_tasks; try (destruct H; assumption); cbn.
    - intros e. rewrite elem_of_app, elem_of_cons. intros [He|[He|He]]; [exact (ko_crash H _ He)|discriminate|]. apply elem_of_list_fmap in He as (? & ? & _). discriminate.
    - apply Forall_app. split; [exact (ko_cs H)|]. apply Forall_fmap, Forall_true. done.
    - intros f'. rewrite of_not_fn. destruct (decide (f' = f)) as [->|Hne]; [rewrite lookup_delete; reflexivity|rewrite lookup_delete_ne by done; apply (ko_B H)].
    - intros t'. rewrite (ko_D H). apply unset. constructor; [exact I|]. apply Forall_fmap, Forall_true. done.
    - rewrite (ko_all H). unfold ids_perm in Hall. change (refused (MFunctionResponse st f n ct :: Qsc)) with (refused Qsc). change (results (MFunctionResponse st f n ct :: Qsc)) with (results Qsc).
      rewrite !app_assoc. repeat (apply Permutation_app; [|reflexivity]). rewrite <- !app_assoc. apply Permutation_app_head. rewrite Hall. reflexivity.
    - intros t'. rewrite (ko_known H). unfold ids_perm in Hall. change (refused (MFunctionResponse st f n ct :: Qsc)) with (refused Qsc). change (oks (MFunctionResponse st f n ct :: Qsc)) with (oks Qsc).
      rewrite !(app_assoc (task_id <$> _)), Hall. reflexivity.
    - intros z Hz. apply (ko_tasks H). rewrite !elem_of_app in *. destruct Hz as [Hz|[Hz|Hz]]; auto; apply elem_of_list_filter in Hz as [_ Hz]; auto.
    - exact (order_cons _ _ (ko_order H)).
    - intros f' [Hf|(t' & z' & Hz' & _)]; [|rewrite Hfl, lookup_empty in Hz'; discriminate]. destruct (decide (f' = f)) as [->|Hne]; [rewrite lookup_delete in Hf; destruct Hf; discriminate|].
      rewrite lookup_delete_ne in Hf by done. eapply will_answer_cons; [|exact (ko_pending H _ (or_introl Hf))]. congruence.
  Qed.
  Lemma pop_key_in t t' l : t' ∈ pop_key t l ↔ t' ≠ t ∧ t' ∈ l.
  Proof.
    unfold pop_key. rewrite !elem_of_list_In, filter_In, negb_true_iff, String.eqb_neq. tauto.
  Qed.
  Lemma result_ok F B A D k h Qcs t st d p Qsc : client_ok CL c F B A D k h Qcs (MTaskResult t st d p :: Qsc) → k_flight k = ∅ → goes (MTaskResult t st d p) k h Qcs Qsc.
  Proof.
    intros H Hfl. pose proof (ko_sc H) as Hsc. apply Forall_cons in Hsc as [Hst Hsc]. cbn in Hst.
    pose proof (parts_nodup _ _ _ _ _ _ _ _ H) as Hnd. change (results (MTaskResult t st d p :: Qsc)) with (t :: results Qsc) in Hnd. change (refused (MTaskResult t st d p :: Qsc)) with (refused Qsc) in Hnd.
    assert (Hperm : F ++ (task_id <$> B) ++ (task_id <$> tasks_in Qcs) ++ refused Qsc ++ A ++ (t :: results Qsc) ++ D ≡ₚ t :: F ++ (task_id <$> B) ++ (task_id <$> tasks_in Qcs) ++ refused Qsc ++ A ++ results Qsc ++ D) by solve_Permutation.
    rewrite Hperm in Hnd. apply NoDup_cons in Hnd as [Hnd _].
    assert (Hs : t ∈ subs h). { rewrite (ko_all H). change (results (MTaskResult t st d p :: Qsc)) with (t :: results Qsc). rewrite !elem_of_app, elem_of_cons. tauto. }
    assert (Ho : t ∉ oks Qsc) by (apply (ko_order H [] t st d p Qsc); reflexivity).
    assert (HnD : t ∉ D) by (intros HD; apply Hnd; rewrite !elem_of_app; tauto).
    assert (Hf : t ∈ k_futures k). { apply (ko_futures H). split; [exact Hs|]. split; [exact HnD|]. rewrite Hfl. apply lookup_empty. }
    assert (Hk : k_tasks k !! t = None). { apply eq_None_not_Some. intros Hk%(ko_known H). change (oks (MTaskResult t st d p :: Qsc)) with (oks Qsc) in Hk. change (refused (MTaskResult t st d p :: Qsc)) with (refused Qsc) in Hk. rewrite !elem_of_app in *. tauto. }
    pose proof (ko_state H t Hf) as Hst'. rewrite Hk in Hst'.
    assert (E : ∃ v, k_receive (MTaskResult t st d p) true k =
       (k_with_state (k_graphs k) (<[FTask t := FFinished]> (k_state k)) (k_with (k_tasks k) (k_bodies k) (pop_key t (k_futures k)) (k_buffer k) k), [CSet (FTask t) v], None)).
    { cbn. unfold k_result. rewrite (in_existsb _ _ Hf). unfold f_set. destruct Hst as [-> | ->]; cbn [k_with k_state]; rewrite Hst'; eauto. }
    destruct E as [v E]. exists F, B, A, (t :: D). rewrite E. eexists _, _. split; [reflexivity|]. split; [|exact Hfl].
    assert (HS : subs (h ++ [CIn (KRecv (MTaskResult t st d p) true); CSet (FTask t) v]) = subs h). { rewrite subs_app. cbn. rewrite app_nil_r. reflexivity. }
    split; rewrite ?HS; cbn [client_sent omap list_omap]; rewrite ?app_nil_r; try (destruct H; assumption); cbn.
    - intros e. rewrite elem_of_app, !elem_of_cons. intros [He|[He|[He|[]%elem_of_nil]]]; [exact (ko_crash H _ He)|discriminate..].
    - intros t'. rewrite elem_of_cons, (ko_D H). split.
      + intros [-> |[v' Hv]]; [exists v; set_solver|]. exists v'. apply elem_of_app. auto.
      + intros [v' Hv]. rewrite elem_of_app, !elem_of_cons in Hv. destruct Hv as [Hv|[Hv|[Hv|[]%elem_of_nil]]]; [right; eauto|discriminate|]. injection Hv as -> _. auto.
    - rewrite (ko_all H). change (results (MTaskResult t st d p :: Qsc)) with (t :: results Qsc). change (refused (MTaskResult t st d p :: Qsc)) with (refused Qsc). solve_Permutation.
    - split; [exact (proj1 (ko_oks H))|]. intros t' Ht'. pose proof (proj2 (ko_oks H) t' Ht') as Hi. change (results (MTaskResult t st d p :: Qsc)) with (t :: results Qsc) in Hi.
      rewrite !elem_of_app, ?elem_of_cons in *. destruct (decide (t' = t)) as [->|]; [contradiction|tauto].
    - exact (order_cons _ _ (ko_order H)).
    - intros t'. rewrite pop_key_in, (ko_futures H), not_elem_of_cons. naive_solver.
    - intros t' Ht'. apply pop_key_in in Ht' as [Hne Ht']. rewrite lookup_insert_ne by congruence. exact (ko_state H _ Ht').
    - intros f Hf'. rewrite <- (app_nil_r Qcs). eapply will_answer_cons; [|exact (ko_pending H _ Hf')]. done.
  Qed.
  Lemma receive_ok F B A D k h Qcs m Qsc : client_ok CL c F B A D k h Qcs (m :: Qsc) → k_flight k = ∅ → goes m k h Qcs Qsc.
  Proof.
    intros H Hfl. pose proof (ko_sc H) as Hsc. apply Forall_cons in Hsc as [Hm _]. destruct m; cbn in Hm; try done.
    - destruct Hm as [-> | ->]; [eapply accepted_ok|eapply refused_ok]; eassumption.
    - eapply result_ok; eassumption.
    - eapply function_ok; eassumption.
  Qed.
End steps.

(** ** What the scheduler does to it *)
Lemma snoc_split {A} (Q : list A) m l1 x l2 : Q ++ [m] = l1 ++ x :: l2 → (l2 = [] ∧ m = x ∧ Q = l1) ∨ ∃ l2', l2 = l2' ++ [m] ∧ Q = l1 ++ x :: l2'.
Proof.
  destruct l2 as [|y l2 _] using rev_ind; intros E.
  - apply app_inj_tail in E as [-> ->]. auto.
  - rewrite app_comm_cons, app_assoc in E. apply app_inj_tail in E as [-> ->]. eauto.
Qed.
Lemma order_snoc m Qsc : (∀ l1 t st d p l2, Qsc = l1 ++ MTaskResult t st d p :: l2 → t ∉ oks l2) → (∀ t, oks [m] = [t] → t ∉ results Qsc) →
  ∀ l1 t st d p l2, Qsc ++ [m] = l1 ++ MTaskResult t st d p :: l2 → t ∉ oks l2.
Proof.
  intros H Hm l1 t st d p l2 [(-> & _ & _)|(l2' & -> & E)]%snoc_split; [cbn; apply not_elem_of_nil|]. rewrite oks_app, elem_of_app. intros [Hi|Hi]; [exact (H _ _ _ _ _ _ E Hi)|].
  assert (oks [m] = [t]) as Ht. { destruct m; cbn in Hi; try (by apply elem_of_nil in Hi). destruct status; cbn in Hi; try (by apply elem_of_nil in Hi). apply elem_of_list_singleton in Hi. subst. reflexivity. }
  apply (Hm _ Ht). rewrite E, results_app. set_solver.
Qed.
Lemma will_answer_more f Qcs Qsc q : will_answer f Qcs Qsc → will_answer f Qcs (Qsc ++ q).
Proof. intros H. rewrite <- (app_nil_r Qcs). apply will_answer_app, H. Qed.
Lemma will_answer_less f m Qcs Qsc q : (∀ n ct, m ≠ MFunctionRequest FnAdd f n ct) → will_answer f (m :: Qcs) Qsc → will_answer f Qcs (Qsc ++ q).
Proof.
  intros Hm [(n & ct & [E|H]%elem_of_cons)|(st & n & ct & H)]; [exfalso; eapply Hm; symmetry; exact E|left; eauto|right; exists st, n, ct; apply elem_of_app; auto].
Qed.

Definition client_flow (CL : gmap bytes bytes) (c : bytes) (x : client * list kentry) (Qcs Qsc : list message) : Prop := ∃ F B A D, client_ok CL c F B A D x.1 x.2 Qcs Qsc.
Section effects.
  Context (CL : gmap bytes bytes) (c : bytes) (x : client * list kentry).
  Lemma effect_other CL' Qcs Qsc : client_flow CL c x Qcs Qsc → (∀ t, CL' !! t = Some c ↔ CL !! t = Some c) → client_flow CL' c x Qcs Qsc.
  Proof. intros (F & B & A & D & H) Hc. exists F, B, A, D. split; try (destruct H; assumption). intros t. rewrite Hc. apply (ko_A H). Qed.
  Lemma effect_add ty f n ct Qcs Qsc : client_flow CL c x (MFunctionRequest ty f n ct :: Qcs) Qsc →
    ty = FnAdd ∧ utf8 n = true ∧ ∀ st n' ct', st = FnOK ∨ st = FnDuplicated → client_flow CL c x Qcs (Qsc ++ [MFunctionResponse st f n' ct']).
  Proof.
    intros (F & B & A & D & H). pose proof (ko_cs H) as Hcs. apply Forall_cons in Hcs as [[-> Hn] Hcs]. split; [reflexivity|]. split; [exact Hn|]. intros st n' ct' Hst. exists F, B, A, D.
    split; rewrite ?refused_app, ?oks_app, ?results_app, ?app_nil_r; try (destruct H; assumption).
    - apply Forall_app. split; [exact (ko_sc H)|]. constructor; [exact Hst|constructor].
    - apply order_snoc; [exact (ko_order H)|discriminate].
    - intros f' Hf'. destruct (decide (f' = f)) as [->|Hne]; [right; exists st, n', ct'; set_solver|]. eapply will_answer_less; [|exact (ko_pending H _ Hf')]. congruence.
  Qed.
  Lemma sent_nodup z Qcs Qsc : client_flow CL c x (MTask z :: Qcs) Qsc → CL !! task_id z ≠ Some c ∧ task_id z ∈ subs x.2.
  Proof.
    intros (F & B & A & D & H). split.
    - intros Hz%(ko_A H). pose proof (parts_nodup _ _ _ _ _ _ _ _ _ _ H) as Hn. change (tasks_in (MTask z :: Qcs)) with (z :: tasks_in Qcs) in Hn. cbn in Hn.
      apply NoDup_app in Hn as (_ & _ & Hn). apply NoDup_app in Hn as (_ & _ & Hn). cbn in Hn. apply NoDup_cons in Hn as [Hn _]. apply Hn. rewrite !elem_of_app. tauto.
    - rewrite (ko_all H). change (tasks_in (MTask z :: Qcs)) with (z :: tasks_in Qcs). cbn. rewrite !elem_of_app, elem_of_cons. tauto.
  Qed.
  Lemma effect_accept z Qcs Qsc : client_flow CL c x (MTask z :: Qcs) Qsc → client_flow (<[task_id z := c]> CL) c x Qcs (Qsc ++ [MTaskEcho (task_id z) SubmitOK]).
  Proof.
    intros (F & B & A & D & H). pose proof (ko_cs H) as Hcs. apply Forall_cons in Hcs as [_ Hcs].
    assert (Hperm : F ++ (task_id <$> B) ++ (task_id <$> tasks_in (MTask z :: Qcs)) ++ refused Qsc ++ A ++ results Qsc ++ D ≡ₚ task_id z :: F ++ (task_id <$> B) ++ (task_id <$> tasks_in Qcs) ++ refused Qsc ++ A ++ results Qsc ++ D).
    { cbn. solve_Permutation. }
    pose proof (parts_nodup _ _ _ _ _ _ _ _ _ _ H) as Hn. rewrite Hperm in Hn. apply NoDup_cons in Hn as [Hn _]. rewrite !elem_of_app in Hn.
    exists F, B, (task_id z :: A), D.
    split; rewrite ?refused_app, ?oks_app, ?results_app, ?app_nil_r; try (destruct H; assumption).
    - apply Forall_app. split; [exact (ko_sc H)|]. repeat constructor.
    - intros t. rewrite elem_of_cons, (ko_A H). destruct (decide (t = task_id z)) as [->|Hne]; [rewrite lookup_insert; tauto|rewrite lookup_insert_ne by done; tauto].
    - cbn. rewrite (ko_all H), Hperm. solve_Permutation.
    - intros t. rewrite (ko_known H). cbn. fold (tasks_in Qcs). rewrite ?elem_of_app, ?elem_of_cons, ?elem_of_nil. set_solver.
    - intros z' Hz'. apply (ko_tasks H). cbn. rewrite elem_of_app in *. rewrite elem_of_cons. fold (tasks_in Qcs). tauto.
    - cbn. rewrite ?app_nil_r. split.
      + apply NoDup_app. split; [exact (proj1 (ko_oks H))|]. split; [|apply NoDup_singleton]. intros t Ht ->%elem_of_list_singleton. apply (proj2 (ko_oks H)) in Ht. rewrite elem_of_app in Ht. tauto.
      + intros t [Ht| ->%elem_of_list_singleton]%elem_of_app; [right; exact (proj2 (ko_oks H) t Ht)|left].
    - apply order_snoc; [exact (ko_order H)|]. intros t [= <-]. tauto.
    - intros f Hf. eapply will_answer_less; [|exact (ko_pending H _ Hf)]. done.
  Qed.
  Lemma effect_refuse z Qcs Qsc : client_flow CL c x (MTask z :: Qcs) Qsc → client_flow CL c x Qcs (Qsc ++ [MTaskEcho (task_id z) FunctionNotExists]).
  Proof.
    intros (F & B & A & D & H). pose proof (ko_cs H) as Hcs. apply Forall_cons in Hcs as [_ Hcs]. exists F, B, A, D.
    split; rewrite ?refused_app, ?oks_app, ?results_app, ?app_nil_r; try (destruct H; assumption).
    - apply Forall_app. split; [exact (ko_sc H)|]. constructor; [cbn; auto|constructor].
    - rewrite (ko_all H). cbn. solve_Permutation.
    - intros t. rewrite (ko_known H). cbn. fold (tasks_in Qcs). set_solver.
    - intros z' Hz'. apply (ko_tasks H). cbn. rewrite elem_of_app in *. rewrite elem_of_cons. fold (tasks_in Qcs). tauto.
    - apply order_snoc; [exact (ko_order H)|discriminate].
    - intros f Hf. eapply will_answer_less; [|exact (ko_pending H _ Hf)]. done.
  Qed.
  Lemma effect_done t st d p Qcs Qsc : client_flow CL c x Qcs Qsc → CL !! t = Some c → st = Success ∨ st = Failed → client_flow (delete t CL) c x Qcs (Qsc ++ [MTaskResult t st d p]).
  Proof.
    intros (F & B & A & D & H) Ht%(ko_A H) Hst. destruct (remove_one _ _ Ht) as [A' HA].
    pose proof (parts_nodup _ _ _ _ _ _ _ _ _ _ H) as Hn. apply NoDup_app in Hn as (_ & _ & Hn). apply NoDup_app in Hn as (_ & _ & Hn). apply NoDup_app in Hn as (_ & _ & Hn). apply NoDup_app in Hn as (_ & _ & Hn).
    apply NoDup_app in Hn as (Hn & _ & _). rewrite HA in Hn. apply NoDup_cons in Hn as [Hn _].
    exists F, B, A', D.
    split; rewrite ?refused_app, ?oks_app, ?results_app, ?app_nil_r; try (destruct H; assumption).
    - apply Forall_app. split; [exact (ko_sc H)|]. constructor; [exact Hst|constructor].
    - intros t'. rewrite lookup_delete_Some, <- (ko_A H), HA, elem_of_cons. split; [|naive_solver]. intros Ht'. split; [|auto]. intros <-. auto.
    - rewrite (ko_all H), HA. cbn. solve_Permutation.
    - cbn. rewrite ?app_nil_r. split; [exact (proj1 (ko_oks H))|]. intros t' Ht'%(proj2 (ko_oks H)). rewrite HA in Ht'. cbn in Ht'. rewrite !elem_of_app, ?elem_of_cons in *. rewrite elem_of_app in Ht'. set_solver.
    - apply order_snoc; [exact (ko_order H)|discriminate].
    - intros f Hf. apply will_answer_more, (ko_pending H _ Hf).
  Qed.
  (** ** Its own steps *)
  Definition stepped (t : bytes) (fl : gmap bytes (task * stage)) : gmap bytes (task * stage) :=
    match fl !! t with Some (z, AtCheck) => <[t := (z, AtAppend)]> fl | Some (z, AtAppend) => <[t := (z, AtRegister)]> fl | Some (z, AtRegister) => delete t fl | None => fl end.
  Lemma user_ok e Qcs Qsc : client_flow CL c x Qcs Qsc →
    match e with KSubmit t _ name _ _ => utf8 name = true ∧ t ∉ subs x.2 | KStep t => True | _ => False end →
    ∃ out, (k_step x e).2 = x.2 ++ CIn e :: out ∧ client_flow CL c (k_step x e) (Qcs ++ client_sent out) Qsc ∧
      ∀ t, e = KStep t → k_flight (k_step x e).1 = stepped t (k_flight x.1).
  Proof.
    intros (F & B & A & D & H) He. destruct x as [k h]. unfold k_step. destruct e as [t f name content args|t| | | | |]; try done; cbn [k_handle].
    - destruct He as [Hn Ht]. exists []. cbn. rewrite app_nil_r. split; [reflexivity|]. split; [|discriminate]. exists (t :: F), B, A, D. cbn. exact (submit_ok _ _ _ _ _ _ _ _ _ _ _ _ _ _ _ H Ht Hn).
    - cbn in H. destruct (k_flight k !! t) as [[z []]|] eqn:Efl.
      + destruct (check_ok _ _ _ _ _ _ _ _ _ _ _ _ H Efl) as (k' & out & E & H' & Ef). rewrite E. exists out. split; [reflexivity|]. split; [exists F, B, A, D; exact H'|]. intros t' [= <-]. cbn. unfold stepped. rewrite Efl. exact Ef.
      + destruct (append_ok _ _ _ _ _ _ _ _ _ _ _ _ H Efl) as (k' & F' & E & H' & Ef). rewrite E. exists []. split; [reflexivity|]. rewrite app_nil_r. split; [exists F', (B ++ [z]), A, D; exact H'|]. intros t' [= <-]. cbn. unfold stepped. rewrite Efl. exact Ef.
      + destruct (register_ok _ _ _ _ _ _ _ _ _ _ _ _ H Efl) as (k' & E & H' & Ef). rewrite E. exists []. split; [reflexivity|]. rewrite app_nil_r. split; [exists F, B, A, D; exact H'|]. intros t' [= <-]. cbn. unfold stepped. rewrite Efl. exact Ef.
      + unfold k_step_submit. rewrite Efl. exists []. split; [reflexivity|]. rewrite app_nil_r. split; [|intros t' [= <-]; cbn; unfold stepped; rewrite Efl; reflexivity]. exists F, B, A, D. cbn.
        assert (HS : subs (h ++ [CIn (KStep t)]) = subs h). { rewrite subs_app. cbn. rewrite app_nil_r. reflexivity. }
        split; rewrite ?HS; try (destruct H; assumption).
        * intros e. rewrite elem_of_app, elem_of_list_singleton. intros [He'|He']; [exact (ko_crash H _ He')|discriminate].
        * intros t'. rewrite (ko_D H). apply unset. sets.
  Qed.
  Lemma message_ok m Qcs Qsc : client_flow CL c x Qcs (m :: Qsc) → k_flight x.1 = ∅ →
    ∃ out, (k_step x (KRecv m true)).2 = x.2 ++ CIn (KRecv m true) :: out ∧ client_flow CL c (k_step x (KRecv m true)) (Qcs ++ client_sent out) Qsc ∧ k_flight (k_step x (KRecv m true)).1 = ∅.
  Proof.
    intros (F & B & A & D & H) Hfl. destruct x as [k h]. cbn in *. destruct (receive_ok _ _ _ _ _ _ _ _ _ _ _ H Hfl) as (F' & B' & A' & D' & k' & out & E & H' & Hfl').
    unfold k_step. cbn [k_handle]. rewrite (ko_up H), E. cbn [k_settle]. exists out. split; [reflexivity|]. split; [|exact Hfl']. exists F', B', A', D'. exact H'.
  Qed.
End effects.
Lemma client_new CL c : (∀ t, CL !! t ≠ Some c) → client_flow CL c (k_init, []) [] [].
Proof.
  intros Hc. exists [], [], [], []. split; cbn; try done; try (by repeat constructor); auto.
  - intros e. apply not_elem_of_nil.
  - intros t Ht. by apply elem_of_nil in Ht.
  - intros t. split; [intros Ht; by apply elem_of_nil in Ht|intros E; by apply Hc in E].
  - intros t. split; [intros []%elem_of_nil|intros [? []%elem_of_nil]].
  - intros t. rewrite lookup_empty. split; [intros [? ?]; discriminate|intros Ht; by apply elem_of_nil in Ht].
  - intros z Hz. by apply elem_of_nil in Hz.
  - intros l1 t st d p l2 E. destruct l1; discriminate.
  - intros t. split; [intros Ht; by apply elem_of_nil in Ht|]. intros (Ht & _). by apply elem_of_nil in Ht.
  - intros t Ht. by apply elem_of_nil in Ht.
  - intros f [Hf|(t & z & Hz & _)]; [rewrite lookup_empty in Hf; destruct Hf|rewrite lookup_empty in Hz]; discriminate.
Qed.
