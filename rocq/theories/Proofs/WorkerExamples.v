(** Concrete worker and processor runs, used by the examples and refutations. *)

From Verif.Model Require Import Base Message Worker Processor.
From Verif.Spec Require Import WorkerSpec ProcessorSpec.
From Verif.Proofs Require Import HistoryProofs.

Definition freshb (before : list wentry) (e : wentry) : bool :=
  match e with
  | WIn _ (WExt (MTask k)) =>
      negb (existsb (String.eqb (task_id k)) (task_id <$> waiting before)) &&
      match busy before with Some k' => negb (String.eqb (task_id k') (task_id k)) | None => true end
  | _ => true
  end.
Lemma freshb_ok b e : freshb b e = true → fresh b e.
Proof.
  destruct e as [now [[]| | | |]| | | |]; cbn [freshb fresh]; try exact (λ _, I). intros [H1 H2]%andb_true_iff. split.
  - intros Hin. apply negb_true_iff in H1. rewrite <- not_true_iff_false in H1. apply H1. apply existsb_exists. eexists. split; [apply elem_of_list_In; exact Hin|apply String.eqb_refl].
  - intros k' Hk. rewrite Hk in H2. apply negb_true_iff in H2. apply String.eqb_neq. exact H2.
Qed.
Lemma fresh_check h : checked freshb [] h = true → always fresh h.
Proof. apply checked_always. exact freshb_ok. Qed.

Definition welcomeb (before : list wentry) (e : wentry) : bool :=
  match e with
  | WIn _ (WExt m) =>
      match m with
      | MTask k => freshb before e
      | MTaskCancel _ | MFunctionResponse _ _ _ _ => match busy before with Some _ => true | None => negb (up before) end
      | MBalanceRequest n => 0 <=? n
      | MFunctionRequest FnDelete _ _ _ => true
      | MHeartbeatEcho => true
      | _ => false
      end
  | WIn _ (WProc m) => match m with MTaskResult _ _ _ _ | MFunctionRequest FnRequest _ _ _ => true | _ => false end
  | _ => true
  end.
Lemma welcomeb_ok b e : welcomeb b e = true → welcome b e.
Proof.
  destruct e as [now [[]|[]| | |]| | | |]; cbn [welcomeb welcome]; try exact (λ _, I); try discriminate.
  - apply freshb_ok.
  - destruct (busy b); [eauto|]. intros H%negb_true_iff. auto.
  - apply Z.leb_le.
  - destruct type; congruence.
  - destruct (busy b); [eauto|]. intros H%negb_true_iff. auto.
  - destruct type; congruence.
Qed.
Lemma welcome_check h : checked welcomeb [] h = true → always welcome h.
Proof. apply checked_always. exact welcomeb_ok. Qed.
Lemma clock_check h : checked (λ _ e, match e with WIn now _ => negb (now =? 0) | _ => true end) [] h = true → always clock_runs h.
Proof. apply checked_always. intros b [| | | |]; cbn; try exact (λ _, I). intros H%negb_true_iff. apply Z.eqb_neq. exact H. Qed.

Definition one_by_oneb (before : list pentry) (e : pentry) : bool :=
  match e with
  | PIn (MTask _) => match outstanding before with None => true | _ => false end
  | PIn (MFunctionResponse _ f _ _) => asked before && match outstanding before with Some k => String.eqb (task_function k) f | None => false end
  | _ => true
  end.
Lemma one_by_oneb_ok b e : one_by_oneb b e = true → one_by_one b e.
Proof.
  destruct e as [[]| | |]; cbn [one_by_oneb one_by_one]; try exact (λ _, I).
  - destruct (outstanding b); [discriminate|reflexivity].
  - intros [-> H]%andb_true_iff. split; [reflexivity|]. destruct (outstanding b) as [k|]; [|discriminate]. exists k. split; [reflexivity|]. apply String.eqb_eq. exact H.
Qed.
Lemma one_by_one_check h : checked one_by_oneb [] h = true → always one_by_one h.
Proof. apply checked_always. exact one_by_oneb_ok. Qed.

(** Two tasks, the first is answered, the second is running, a third is queued. *)
Definition fn (t : bytes) : task := Task t "f" [ArgData t].
Definition wk_up : wround := WRound 1 (WProc (MTaskResult "" Success 0 "")).
Definition wk (t : bytes) : wround := WRound 2 (WExt (MTask (fn t))).
Definition wk_loop : wround := WRound 3 WLoop.
Definition wk_cancel (t : bytes) : wround := WRound 5 (WExt (MTaskCancel t)).
Definition wk_demo : list wround :=
  [wk "a"; wk "b"; wk_loop; wk_up; wk_loop; wk_loop; wk "c";
   WRound 4 (WProc (MTaskResult "a" Success 5 "va")); wk_loop; wk_loop; wk_loop].
