(** What a submission is answered (C30). *)

From Verif.Model Require Import Base OneToManyDict PriorityQueue Allocator Message Sorter Scheduler.
From Verif.Spec Require Import AllocatorSpec DictSpec SchedulerSpec.
From Verif.Proofs Require Import BaseProofs DictProofs AllocatorProofs SchedWp SchedCount SchedHold SchedContent SchedSend SchedPrim SchedFn SchedGlobal SchedStep SchedRemove SchedPlain.

Lemma available_total a g : allocd a g → ∃ a' b, al_has_available a = Ok (a', b) ∧ allocd a' g ∧
  (b = true → ∃ w, w ∈ lg_workers g ∧ load g w ≠ al_max a ∧ (0 <= al_max a → load g w < al_max a)).
Proof.
  intros (mq & ml & st & R).
  assert (∃ a' b, al_has_available a = Ok (a', b)) as (a' & b & E).
  { pose proof (step_available _ _ _ _ _ R) as Hs. destruct (pq_queue (al_pq a)).
    - destruct Hs as [_ ->]. eauto.
    - destruct Hs as (a' & p & d & -> & _). eauto. }
  exists a', b. split; [exact E|].
  assert (E' : al_call a AHasAvailable = Ok (a', ABool b)) by (cbn; rewrite E; reflexivity).
  destruct (al_call_weak _ _ _ _ _ _ _ _ R E') as (g' & mq' & ml' & st' & Hd & R' & Hm).
  inversion Hd; subst; cbn in *. split; [do 3 eexists; exact R'|assumption].
Qed.

Lemma otm_add_v2k (d : otm bytes bytes) k v d' : otm_add d k v = Ok d' → o_v2k d' = <[v := k]> (o_v2k d).
Proof. unfold otm_add. destruct (o_v2k d !! v); [destruct (bool_decide _)|]; intros [= <-]; reflexivity. Qed.

Lemma accept_rest src k (s : sched) :
  wp (do* fm_use (task_id k) (task_function k) in do* cm_new src (task_id k) in
      do* modify (set_tasks (<[task_id k := k]>)) in do* tm_put (task_id k) in tm_monitor (task_id k) Inactive)
     (λ _ s', s_dead s' = s_dead s ∧ stored src k s s' ∧ ∃ rest, s_log s' = s_log s ++ rest ∧ Forall internal rest)
     (λ e s', ∃ rest, s_log s' = s_log s ++ rest ∧ Forall internal rest) s.
Proof.
  assert (Hnil : ∀ h : history, ∃ rest, h = h ++ rest ∧ Forall internal rest) by (intros h; exists []; rewrite app_nil_r; auto).
  unfold fm_use, cm_new, tm_put, tm_monitor, fm_get_name.
  wsteps; ss; auto. split; [reflexivity|]. split; [|eexists; split; [reflexivity|repeat constructor]].
  split; ss; try reflexivity; eapply otm_add_v2k; eassumption.
Qed.

Lemma echo_lemma c rs src k now codes : let s := run c rs in s_dead s = None →
  let ev := ERecv src (MTask k) in let s' := step s (Round now codes ev) in
  let waiting := Z.of_nat (length (s_unassigned s)) in
  ∃ status rest, s_log s' = s_log s ++ LIn now ev :: LSend src (MTaskEcho (task_id k) status) :: rest ∧ Forall internal rest ∧
    match status with
    | SubmitOK => is_Some (s_funcs s !! task_function k) ∧
        (0 <= c_max_waiting c → waiting < c_max_waiting c ∨
           ∃ w, w ∈ registered (s_log s) ∧ outstanding (s_log s) w ≠ c_queue_size c ∧
             (0 <= c_queue_size c → outstanding (s_log s) w < c_queue_size c)) ∧
        (s_dead s' = None → stored src k s s')
    | FunctionNotExists => s_funcs s !! task_function k = None ∧ untouched s s'
    | NoWorker => is_Some (s_funcs s !! task_function k) ∧ 0 <= c_max_waiting c <= waiting ∧ untouched s s'
    | _ => False
    end.
Proof.
  intros s Hd ev s' waiting. destruct (Inv2_run c rs) as [_ H2]. specialize (H2 Hd). fold s in H2.
  pose proof (run_cfg c rs) as Hcfg. fold s in Hcfg.
  destruct (available_total _ _ (i2_alloc _ _ H2)) as (a' & b & Ha & Ha' & Hb).
  subst s'. by_step Hd. unfold tm_new, fm_has_function. wstep. wstep. ss.
  destruct (s_funcs s !! task_function k) as [i|] eqn:Ef.
  2: { rewrite bool_decide_eq_false_2 by (intros [? ?]; discriminate). cbn [negb]. wsteps. ss.
       exists FunctionNotExists, []. rewrite app_snoc. split; [reflexivity|]. split; [constructor|]. split; [reflexivity|split; reflexivity]. }
  rewrite bool_decide_eq_true_2 by eauto. cbn [negb]. unfold wm_has_available.
  wstep. wstep. wstep. ss. rewrite Ha. wstep. apply wp_ok. wgo.
  destruct (negb b && ((0 <=? c_max_waiting (s_cfg s)) && (c_max_waiting (s_cfg s) <=? Z.of_nat (length (s_unassigned s))))) eqn:Ec.
  { wsteps. ss. apply andb_true_iff in Ec as [_ Ec]. rewrite Hcfg in Ec. exists NoWorker, []. rewrite app_snoc. split; [reflexivity|]. split; [constructor|].
    split; [eauto|]. split; [lia|split; reflexivity]. }
  assert (Hroom : 0 <= c_max_waiting c → waiting < c_max_waiting c ∨
           ∃ w, w ∈ registered (s_log s) ∧ outstanding (s_log s) w ≠ c_queue_size c ∧
             (0 <= c_queue_size c → outstanding (s_log s) w < c_queue_size c)).
  { intros H0. destruct (Z.lt_ge_cases waiting (c_max_waiting c)) as [Hw|Hw]; [left; exact Hw|right].
    rewrite Hcfg in Ec. subst waiting. destruct b.
    - destruct (Hb eq_refl) as (w & Hw1 & Hw2 & Hw3). rewrite (i2_max _ _ H2), Hcfg, load_outstanding in *. exists w. auto.
    - exfalso. cbn [negb] in Ec. rewrite andb_true_l in Ec. apply andb_false_iff in Ec. lia. }
  wstep. wstep. eapply wp_mono; [apply accept_rest| |]; cbv beta; ss.
  - intros _ s' (Hd' & [S1 S2 S3 S4] & rest & El & Hr). exists SubmitOK, rest. split; [rewrite El, <- !app_assoc; reflexivity|]. split; [exact Hr|].
    split; [eauto|]. split; [exact Hroom|]. intros _. split; assumption.
  - intros e s' (rest & El & Hr). exists SubmitOK, (rest ++ [LCrash e]). split; [rewrite El, <- !app_assoc; reflexivity|].
    split; [apply Forall_app; split; [exact Hr|repeat constructor]|]. split; [eauto|]. split; [exact Hroom|]. discriminate.
Qed.
