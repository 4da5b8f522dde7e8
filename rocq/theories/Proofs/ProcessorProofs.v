(** The processor: invariants behind C50, C51. *)

From Verif.Model Require Import Base Message Processor.
From Verif.Spec Require Import ProcessorSpec.
From Verif.Proofs Require Import HistoryProofs.

Ltac pp := cbn [c_retention c_functions c_since c_doomed c_task c_main pc_with pc_main pc_add pc_del fst snd] in *.

Lemma outstanding_app h l : outstanding (h ++ l) = foldl outstanding_step (outstanding h) l. Proof. apply foldl_app. Qed.
Lemma provided_app f h l : provided f (h ++ l) = foldl (provided_step f) (provided f h) l. Proof. apply foldl_app. Qed.
Lemma asked_app h l : asked (h ++ l) = foldl asked_step (asked h) l. Proof. apply foldl_app. Qed.

Definition thread_task (m : main_thread) : option task :=
  match m with Found k | Calling k _ => Some k | _ => None end.

(** What holds in every state, as long as the agent behaves. *)
Definition good_state (p : processor) (h : list pentry) : Prop :=
  match c_main p with
  | Stopped => True
  | Waiting => outstanding h = c_task p ∧ (asked h = true ↔ is_Some (c_task p))
  | Found k | Calling k _ => outstanding h = Some k ∧ c_task p = None ∧ asked h = false
  end.
Record pinv (p : processor) (h : list pentry) : Prop := {
  q_cache : c_main p ≠ Stopped → ∀ f c, c_functions p !! f = Some c → provided f h = Some c;
  q_state : good_state p h;
  q_call k f : c_main p = Calling k f → ∀ c, f = Some c → provided (task_function k) h = Some c;
  q_nocall : c_main p ≠ Waiting → c_main p ≠ Stopped → ∀ earlier c a o, h ≠ earlier ++ [PCalled c a o] }.

(** One step, described completely. *)
Inductive pdid (now : Z) (p : processor) : pevent → processor → list pentry → Prop :=
| pdid_delete f n c loads : c_main p = Waiting → pdid now p (PMsg (MFunctionRequest FnDelete f n c) loads) (pc_del f p) [PIn (MFunctionRequest FnDelete f n c)]
| pdid_task k c loads : c_main p = Waiting → c_functions p !! task_function k = Some c →
    pdid now p (PMsg (MTask k) loads) (pc_with (c_functions p) (<[task_function k := now]> (c_since p)) (c_doomed p) (c_task p) (Found k) p) [PIn (MTask k)]
| pdid_ask k loads : c_main p = Waiting → c_functions p !! task_function k = None →
    pdid now p (PMsg (MTask k) loads) (pc_with (c_functions p) (c_since p) (c_doomed p) (Some k) Waiting p)
      [PIn (MTask k); POut (MFunctionRequest FnRequest (task_function k) "" "")]
| pdid_function k st f n c : c_main p = Waiting → c_task p = Some k →
    pdid now p (PMsg (MFunctionResponse st f n c) true)
      (pc_with (<[f := c]> (c_functions p)) (<[f := now]> (c_since p)) (c_doomed p) None (Found k) p) [PIn (MFunctionResponse st f n c)]
| pdid_function_bad st f n c p' loads : c_main p = Waiting → (loads = false ∨ c_task p = None) →
    (p' = p ∨ p' = pc_add now f c p) →
    pdid now p (PMsg (MFunctionResponse st f n c) loads) (pc_main Stopped p') [PIn (MFunctionResponse st f n c); PStop]
| pdid_other m loads : c_main p = Waiting →
    match m with MTask _ | MFunctionResponse _ _ _ _ | MFunctionRequest FnDelete _ _ _ => False | _ => True end →
    pdid now p (PMsg m loads) p [PIn m]
| pdid_look_found k c : c_main p = Found k → c_functions p !! task_function k = Some c →
    pdid now p PLook (pc_with (c_functions p) (<[task_function k := now]> (c_since p)) (c_doomed p) (c_task p) (Calling k (Some c)) p) []
| pdid_look_gone k : c_main p = Found k → c_functions p !! task_function k = None →
    pdid now p PLook (pc_main (Calling k None) p) []
| pdid_return k c v d : c_main p = Calling k (Some c) →
    pdid now p (PRun (Returned v) d) (pc_main Waiting p) [PCalled c (arg_data <$> task_args k) (Returned v); POut (MTaskResult (task_id k) Success d v)]
| pdid_raise k c v d : c_main p = Calling k (Some c) →
    pdid now p (PRun (Raised v) d) (pc_main Waiting p) [PCalled c (arg_data <$> task_args k) (Raised v); POut (MTaskResult (task_id k) Failed d v)]
| pdid_gone k v d : c_main p = Calling k None →
    pdid now p (PRun (Raised v) d) (pc_main Waiting p) [POut (MTaskResult (task_id k) Failed d v)]
| pdid_end k c d : c_main p = Calling k (Some c) →
    pdid now p (PRun Ended d) (pc_main Stopped p) [PCalled c (arg_data <$> task_args k) Ended; PStop]
| pdid_end_gone k d : c_main p = Calling k None → pdid now p (PRun Ended d) (pc_main Stopped p) [PStop]
| pdid_scan doomed : pdid now p PScan (pc_with (c_functions p) (c_since p) doomed (c_task p) (c_main p) p) []
| pdid_clean f rest : c_doomed p = f :: rest →
    pdid now p PDelete (pc_with (delete f (c_functions p)) (delete f (c_since p)) rest (c_task p) (c_main p) p) []
| pdid_nothing e : match e with PMsg _ _ => c_main p ≠ Waiting
                   | PLook => ∀ k, c_main p ≠ Found k
                   | PRun o _ => (∃ k v, c_main p = Calling k None ∧ o = Returned v) ∨ (∀ k f, c_main p ≠ Calling k f)
                   | PScan => False | PDelete => c_doomed p = [] end → pdid now p e p [].

Lemma p_step_did now e p h : c_main p ≠ Stopped →
  ∃ p' out, pdid now p e p' out ∧ p_step (p, h) (PRound now e) = (p', h ++ out).
Proof.
  intros Hs. unfold p_step. cbn [pr_now pr_event].
  assert (Ha : ∀ x : processor * list pentry, match c_main p with Stopped => (p, h) | _ => x end = x) by (intros x; destruct (c_main p); congruence).
  rewrite Ha. clear Ha. destruct e as [m loads| |o d| |].
  - destruct (c_main p) eqn:Em; try (exists p, []; split; [apply pdid_nothing; congruence|rewrite app_nil_r; reflexivity]).
    destruct m; try (eexists _, _; split; [apply pdid_other; [assumption|exact I]|reflexivity]); cbn [p_receive].
    + unfold pc_get. destruct (c_functions p !! task_function t) as [c|] eqn:Ec; eexists _, _; (split; [|reflexivity]); cbn [pc_main].
      * apply (pdid_task now p t c); assumption.
      * rewrite Em. apply pdid_ask; assumption.
    + destruct type; eexists _, _; (split; [|reflexivity]); first [apply pdid_delete; assumption|apply pdid_other; [assumption|exact I]].
    + destruct loads; cbn [negb]; [|eexists _, _; split; [apply pdid_function_bad with (p' := p); auto|reflexivity]].
      cbn [pc_add pc_with c_task]. destruct (c_task p) as [k|] eqn:Ek; eexists _, _; (split; [|reflexivity]).
      * apply (pdid_function now p k status id name content); assumption.
      * apply (pdid_function_bad now p status id name content (pc_add now id content p)); auto.
  - destruct (c_main p) as [|k|k f|] eqn:Em; try (exists p, []; split; [apply pdid_nothing; congruence|rewrite app_nil_r; reflexivity]).
    unfold pc_get. destruct (c_functions p !! task_function k) as [c|] eqn:Ec; eexists _, []; (split; [|rewrite app_nil_r; reflexivity]).
    + apply (pdid_look_found now p k c); assumption.
    + apply pdid_look_gone; assumption.
  - unfold p_run. destruct (c_main p) as [|k|k f|] eqn:Em; try (exists p, []; split; [apply pdid_nothing; right; congruence|rewrite app_nil_r; reflexivity]).
    destruct f as [c|], o; eexists _, _; (split; [|reflexivity]); first [apply (pdid_return now p k c); exact Em|apply (pdid_raise now p k c); exact Em|apply (pdid_end now p k c); exact Em|apply (pdid_gone now p k); exact Em|apply (pdid_end_gone now p k); exact Em|idtac].
    apply pdid_nothing. eauto.
  - eexists _, []. split; [|rewrite app_nil_r; reflexivity]. unfold p_scan. destruct (c_doomed p) eqn:Ed; [apply pdid_scan|].
    replace p with (pc_with (c_functions p) (c_since p) (c_doomed p) (c_task p) (c_main p) p) at 2 by (destruct p; reflexivity). apply pdid_scan.
  - eexists _, []. split; [|rewrite app_nil_r; reflexivity]. unfold p_delete. destruct (c_doomed p) eqn:Ed; [apply pdid_nothing; assumption|].
    apply (pdid_clean now p s l). assumption.
Qed.

Lemma cache_did now p h e p' out : (∀ f c, c_functions p !! f = Some c → provided f h = Some c) → pdid now p e p' out → c_main p' ≠ Stopped →
  ∀ f c, c_functions p' !! f = Some c → provided f (h ++ out) = Some c.
Proof.
  intros Hc Hd Hst f0 c0 H0. rewrite provided_app. inversion Hd; subst; pp; cbn [foldl provided_step]; try congruence; auto.
  - apply lookup_delete_Some in H0 as [Hne H0]. apply String.eqb_neq in Hne. rewrite Hne. auto.
  - apply lookup_insert_Some in H0 as [[<- <-]|[Hne H0]]; [rewrite String.eqb_refl; reflexivity|]. apply String.eqb_neq in Hne. rewrite Hne. auto.
  - destruct m; try contradiction; auto. destruct type; try contradiction; auto.
  - apply lookup_delete_Some in H0 as [Hne H0]. auto.
Qed.

Lemma snoc_ne {A} (h earlier : list A) x y : x ≠ y → h ++ [x] ≠ earlier ++ [y].
Proof. intros Hne [_ E]%app_inj_tail. contradiction. Qed.

Lemma pinv_did now p h e p' out : c_main p ≠ Stopped → pinv p h → always one_by_one (h ++ out) → pdid now p e p' out → pinv p' (h ++ out).
Proof.
  intros Hst Hi Ho Hd. pose proof (cache_did _ _ _ _ _ _ (q_cache _ _ Hi Hst) Hd) as Hc'. destruct Hi as [Hc Hs Hk Hn]. specialize (Hc Hst).
  assert (Hob : match out with PIn m :: _ => one_by_one h (PIn m) | _ => True end).
  { destruct out as [|[m| | |] l]; try exact I. eapply always_at. exact Ho. }
  split; [exact Hc'| | |]; clear Hc'; inversion Hd; subst; unfold good_state in *; pp; cbn [one_by_one] in Hob;
    rewrite ?app_nil_r, ?outstanding_app, ?asked_app; cbn [foldl outstanding_step asked_step thread_task]; try assumption; try discriminate; try congruence;
    try exact I; repeat match goal with E : c_main p = _ |- _ => rewrite E in Hs end.
  - destruct Hs as [Hs1 Hs2]. rewrite Hob in Hs1. rewrite <- Hs1 in Hs2 |- *. split; [reflexivity|]. split; [reflexivity|].
    destruct (asked h); [|reflexivity]. destruct (proj1 Hs2 eq_refl). discriminate.
  - split; [reflexivity|]. split; eauto.
  - split; [|auto]. destruct Hs as [-> _]. assumption.
  - match goal with E : c_main _ = Waiting |- _ => rewrite E in Hs |- * end. destruct m; try contradiction; exact Hs.
  - exact Hs.
  - exact Hs.
  - destruct Hs as (_ & -> & ->). split; [reflexivity|]. split; [discriminate|intros [? ?]; discriminate].
  - destruct Hs as (_ & -> & ->). split; [reflexivity|]. split; [discriminate|intros [? ?]; discriminate].
  - destruct Hs as (_ & -> & ->). split; [reflexivity|]. split; [discriminate|intros [? ?]; discriminate].
  - intros k0 f [= <- <-] c0 [= <-]. auto.
  - intros _ _ earlier c0 a o. apply snoc_ne. discriminate.
  - intros _ _ earlier c0 a o. apply snoc_ne. discriminate.
  - intros _ _. apply Hn; congruence.
  - intros _ _. apply Hn; congruence.
Qed.

Lemma p_ind r (I : processor → list pentry → Prop) :
  I (p_init r).1 (p_init r).2 →
  (∀ now p h e p' out, c_main p ≠ Stopped → I p h → pdid now p e p' out → I p' (h ++ out)) →
  ∀ rs, I (p_exec r rs).1 (p_exec r rs).2.
Proof.
  intros H0 Hs rs. induction rs as [|[now e] rs IH] using rev_ind; [exact H0|].
  unfold p_exec in *. rewrite foldl_app. cbn [foldl]. destruct (foldl p_step (p_init r) rs) as [p h]; cbn [fst snd] in *.
  assert (Hdec : c_main p = Stopped ∨ c_main p ≠ Stopped) by (destruct (c_main p); auto; right; discriminate). destruct Hdec as [E|E].
  - unfold p_step. rewrite E. exact IH.
  - destruct (p_step_did now e p h E) as (p' & out & Hd & ->). eapply Hs; eassumption.
Qed.

Lemma pinv_init r : pinv (p_init r).1 (p_init r).2.
Proof.
  split; cbn.
  - intros _ f c. rewrite lookup_empty. discriminate.
  - split; [reflexivity|]. split; [discriminate|intros [? ?]; discriminate].
  - discriminate.
  - congruence.
Qed.
Lemma pinv_run r rs : always one_by_one (p_exec r rs).2 → pinv (p_exec r rs).1 (p_exec r rs).2.
Proof.
  apply (p_ind r (λ p h, always one_by_one h → pinv p h)).
  - intros _. apply pinv_init.
  - intros now p h e p' out Hs IH Hd Ho. eapply pinv_did; try eassumption. apply IH. eapply always_inv. exact Ho.
Qed.

Lemma papp0 (P : list pentry → pentry → Prop) h : always P h → always P (h ++ []).
Proof. rewrite app_nil_r. auto. Qed.
Lemma papp2 (P : list pentry → pentry → Prop) h x y : P h x → P (h ++ [x]) y → always P h → always P (h ++ [x; y]).
Proof. intros H1 H2 H. change [x; y] with ([x] ++ [y]). rewrite app_assoc. apply always_snoc; [|exact H2]. apply always_snoc; assumption. Qed.
Lemma always_first (P : list pentry → pentry → Prop) e : P [] e → always P [e].
Proof. intros H. change [e] with ([] ++ [e]). apply always_snoc; [apply always_nil|exact H]. Qed.
Ltac pshape h := first [apply papp0|apply always_snoc|apply papp2].

Lemma p_always r (P : list pentry → pentry → Prop) : P [] (POut (MTaskResult "" Success 0 "")) →
  (∀ now p h e p' out, pinv p h → c_main p ≠ Stopped → pdid now p e p' out → always P h → always P (h ++ out)) →
  ∀ rs, always one_by_one (p_exec r rs).2 → always P (p_exec r rs).2.
Proof.
  intros H0 Hs rs Ho. apply (p_ind r (λ p h, always one_by_one h → pinv p h ∧ always P h)); [| |exact Ho].
  - intros _. split; [apply pinv_init|]. apply always_first. exact H0.
  - intros now p h e p' out Hst IH Hd Ho'. destruct IH as [Hi IH]; [eapply always_inv; exact Ho'|]. split.
    + eapply pinv_did; eassumption.
    + eapply Hs; eassumption.
Qed.

Lemma tells_run r rs : always one_by_one (p_exec r rs).2 → always tells (p_exec r rs).2.
Proof.
  apply p_always; [left; auto|].
  intros now p h e p' out Hi Hst Hd Hh. pose proof (q_state _ _ Hi) as Hs. unfold good_state in Hs.
  inversion Hd; subst; pshape h; try exact Hh; try exact I; cbn [tells];
    match goal with E : c_main p = _ |- _ => rewrite E in Hs; destruct Hs as (Hs & _ & _) end; right; exists k.
  - rewrite outstanding_app. cbn [foldl outstanding_step]. split; [exact Hs|]. split; [reflexivity|]. left. exists c. split; [reflexivity|]. exists h. split; [reflexivity|].
    eapply (q_call _ _ Hi); [eassumption|reflexivity].
  - rewrite outstanding_app. cbn [foldl outstanding_step]. split; [exact Hs|]. split; [reflexivity|]. right; left. exists c. split; [reflexivity|]. exists h. split; [reflexivity|].
    eapply (q_call _ _ Hi); [eassumption|reflexivity].
  - split; [exact Hs|]. split; [reflexivity|]. right; right. split; [reflexivity|]. apply (q_nocall _ _ Hi); congruence.
Qed.
Lemma calls_run r rs : always one_by_one (p_exec r rs).2 → always calls_for_task (p_exec r rs).2.
Proof.
  apply p_always; [exact I|].
  intros now p h e p' out Hi Hst Hd Hh. pose proof (q_state _ _ Hi) as Hs. unfold good_state in Hs.
  inversion Hd; subst; pshape h; try exact Hh; try exact I; cbn [calls_for_task];
    match goal with E : c_main p = _ |- _ => rewrite E in Hs; destruct Hs as (Hs & _ & _) end; exists k;
    (split; [exact Hs|]; split; [reflexivity|]; eapply (q_call _ _ Hi); [eassumption|reflexivity]).
Qed.
Lemma requests_run r rs : always one_by_one (p_exec r rs).2 → always requests_for_task (p_exec r rs).2.
Proof.
  apply p_always; [exact I|].
  intros now p h e p' out Hi Hst Hd Hh. inversion Hd; subst; pshape h; try exact Hh; try exact I; cbn [requests_for_task].
  split; [reflexivity|]. eauto.
Qed.

(** Counting. *)
Lemma counted r rs : always one_by_one (p_exec r rs).2 →
  (total tasks_in (p_exec r rs).2 + 1 = total results_out (p_exec r rs).2 + (if outstanding (p_exec r rs).2 then 1 else 0))%nat.
Proof.
  intros Ho. apply (p_ind r (λ p h, always one_by_one h → pinv p h ∧ (total tasks_in h + 1 = total results_out h + (if outstanding h then 1 else 0))%nat)); [| |exact Ho].
  - intros _. split; [apply pinv_init|]. reflexivity.
  - intros now p h e p' out Hst IH Hd Ho'. destruct IH as [Hi IH]; [eapply always_inv; exact Ho'|]. split; [eapply pinv_did; eassumption|].
    pose proof (q_state _ _ Hi) as Hs. unfold good_state in Hs.
    assert (Hob : match out with PIn m :: _ => one_by_one h (PIn m) | _ => True end).
    { destruct out as [|[m| | |] l]; try exact I. eapply always_at. exact Ho'. }
    rewrite !total_app, outstanding_app. unfold total in *.
    inversion Hd; subst; cbn [sum_list_with tasks_in results_out foldl outstanding_step one_by_one] in *;
      try match goal with E : c_main p = _ |- _ => rewrite E in Hs end; try lia.
    + rewrite Hob in IH. lia.
    + rewrite Hob in IH. lia.
    + destruct m; try contradiction; lia.
    + destruct Hs as (Hs & _). rewrite Hs in IH. lia.
    + destruct Hs as (Hs & _). rewrite Hs in IH. lia.
    + destruct Hs as (Hs & _). rewrite Hs in IH. lia.
Qed.

(** Without expiry every result comes from a call. *)
Definition ready (p : processor) : Prop :=
  match c_main p with
  | Found k => is_Some (c_functions p !! task_function k)
  | Calling k f => is_Some f
  | _ => True
  end.
Lemma ready_did now p h e p' out : c_main p ≠ Stopped → pinv p h → ready p → e ≠ PDelete → always one_by_one (h ++ out) → pdid now p e p' out → ready p'.
Proof.
  intros Hst Hi Hr He Ho Hd. pose proof (q_state _ _ Hi) as Hs. unfold good_state, ready in *.
  inversion Hd; subst; pp; try exact I; try congruence; try assumption;
    try match goal with E : c_main _ = _ |- _ => rewrite E in * end; eauto; try exact I.
  - apply always_at in Ho. cbn [one_by_one] in Ho. destruct Ho as [_ (k' & Hk & Hf)]. destruct Hs as [Hs _]. rewrite <- Hf.
    replace k with k' by congruence. rewrite lookup_insert. eauto.
  - match goal with E : c_functions p !! _ = None |- _ => rewrite E in Hr end. destruct Hr; discriminate.
Qed.
Lemma tells_call_run r rs : (∀ now, PRound now PDelete ∉ rs) → always one_by_one (p_exec r rs).2 → always tells_call (p_exec r rs).2.
Proof.
  intros Hnd Ho. cut ((c_main (p_exec r rs).1 ≠ Stopped → ready (p_exec r rs).1) ∧ always tells_call (p_exec r rs).2); [tauto|].
  revert Hnd Ho. induction rs as [|[now e] rs IH] using rev_ind; intros Hnd Ho.
  { split; [intros _; exact I|]. apply always_first. left. reflexivity. }
  unfold p_exec in *. rewrite foldl_app in *. cbn [foldl] in *. 
  pose proof (pinv_run r rs) as Hi. unfold p_exec in Hi.
  destruct (foldl p_step (p_init r) rs) as [p h]; cbn [fst snd] in *.
  assert (Hdec : c_main p = Stopped ∨ c_main p ≠ Stopped) by (destruct (c_main p); auto; right; discriminate). destruct Hdec as [E|E].
  - assert (Ep : p_step (p, h) (PRound now e) = (p, h)) by (unfold p_step; rewrite E; reflexivity). rewrite Ep in *. cbn [fst snd] in *. apply IH; [|exact Ho]. intros n Hn. apply (Hnd n). set_solver.
  - destruct (p_step_did now e p h E) as (p' & out & Hd & Eq). rewrite Eq in *. cbn [fst snd] in *.
    pose proof (always_inv _ _ _ Ho) as Ho'. specialize (Hi Ho'). destruct IH as [IH1 IH2]; [intros n Hn; apply (Hnd n); set_solver|exact Ho'|]. specialize (IH1 E).
    assert (He : e ≠ PDelete) by (intros ->; apply (Hnd now); set_solver).
    split; [intros _; eapply ready_did; eassumption|].
    inversion Hd; subst; pshape h; try exact IH2; try exact I; cbn [tells_call]; try (right; eexists _, _, _, _; reflexivity).
    unfold ready in IH1. match goal with E : c_main _ = _ |- _ => rewrite E in IH1 end. destruct IH1; discriminate.
Qed.

(** Progress. *)
Lemma answer_now r rs k v x d d' now1 now2 now3 : always one_by_one (p_exec r rs).2 → c_main (p_exec r rs).1 ≠ Stopped →
  outstanding (p_exec r rs).2 = Some k → asked (p_exec r rs).2 = false →
  ∃ l st d'' p, (p_exec r (rs ++ [PRound now1 PLook; PRound now2 (PRun (Returned v) d); PRound now3 (PRun (Raised x) d')])).2
    = (p_exec r rs).2 ++ l ++ [POut (MTaskResult (task_id k) st d'' p)].
Proof.
  intros Ho Hst Hk Ha. pose proof (pinv_run r rs Ho) as Hi. pose proof (q_state _ _ Hi) as Hs. clear Ho Hi.
  unfold p_exec in *. rewrite foldl_app. destruct (foldl p_step (p_init r) rs) as [[ret fs since doomed tk m] h]; cbn [fst snd] in *. unfold good_state in Hs. pp.
  destruct m as [|k'|k' f|]; [exfalso|destruct Hs as (Hs & _); replace k' with k by congruence; clear Hs..|congruence].
  - destruct Hs as [Hs1 Hs2]. rewrite <- Hs1, Hk, Ha in Hs2. assert (false = true) by (apply Hs2; eauto). discriminate.
  - cbn. unfold pc_get. cbn. destruct (fs !! task_function k) as [c|]; cbn; rewrite <- ?app_assoc; cbn.
    + eexists [_], _, _, _. reflexivity.
    + eexists [], _, _, _. reflexivity.
  - cbn. destruct f as [c|]; cbn; rewrite <- ?app_assoc; cbn.
    + eexists [_], _, _, _. reflexivity.
    + eexists [], _, _, _. reflexivity.
Qed.
Definition verdict (o : outcome) : option (task_status * bytes) :=
  match o with Returned v => Some (Success, v) | Raised x => Some (Failed, x) | Ended => None end.
Lemma answer_with_function r rs k n c o st v d now1 now2 now3 : always one_by_one (p_exec r rs).2 → c_main (p_exec r rs).1 ≠ Stopped →
  outstanding (p_exec r rs).2 = Some k → asked (p_exec r rs).2 = true → verdict o = Some (st, v) →
  (p_exec r (rs ++ [PRound now1 (PMsg (MFunctionResponse FnOK (task_function k) n c) true); PRound now2 PLook; PRound now3 (PRun o d)])).2
    = (p_exec r rs).2 ++ [PIn (MFunctionResponse FnOK (task_function k) n c); PCalled c (arg_data <$> task_args k) o; POut (MTaskResult (task_id k) st d v)].
Proof.
  intros Ho Hst Hk Ha Hv. pose proof (pinv_run r rs Ho) as Hi. pose proof (q_state _ _ Hi) as Hs. clear Ho Hi.
  unfold p_exec in *. rewrite foldl_app. destruct (foldl p_step (p_init r) rs) as [[ret fs since doomed tk m] h]; cbn [fst snd] in *. unfold good_state in Hs. pp.
  destruct m as [|k'|k' f|]; [|destruct Hs as (_ & _ & Hs); congruence..|congruence].
  destruct Hs as [Hs _]. rewrite Hk in Hs. subst tk. cbn. unfold pc_get. cbn. rewrite lookup_insert. cbn.
  destruct o; try discriminate; injection Hv as <- <-; cbn; rewrite <- app_assoc; reflexivity.
Qed.

(** Once stopped, nothing happens any more. *)
Lemma stopped_for_ever r rs rs' : c_main (p_exec r rs).1 = Stopped → p_exec r (rs ++ rs') = p_exec r rs.
Proof.
  intros Hs. unfold p_exec in *. rewrite foldl_app. induction rs' as [|x rs' IH]; [reflexivity|]. cbn [foldl].
  replace (p_step (foldl p_step (p_init r) rs) x) with (foldl p_step (p_init r) rs); [exact IH|].
  destruct (foldl p_step (p_init r) rs) as [p h]; cbn [fst] in Hs. unfold p_step. rewrite Hs. reflexivity.
Qed.
Lemma stop_run r rs : PStop ∈ (p_exec r rs).2 ↔ c_main (p_exec r rs).1 = Stopped.
Proof.
  apply (p_ind r (λ p h, PStop ∈ h ↔ c_main p = Stopped)).
  - cbn. split; [set_solver|discriminate].
  - intros now p h e p' out Hst IH Hd. rewrite elem_of_app. assert (Hn : PStop ∉ h) by tauto.
    inversion Hd; subst; pp; try (split; [set_solver|congruence]); try (split; [reflexivity|set_solver]).
Qed.
Lemma unexpected_function r rs now st f n c loads : always one_by_one (p_exec r rs).2 → outstanding (p_exec r rs).2 = None →
  PStop ∈ (p_exec r (rs ++ [PRound now (PMsg (MFunctionResponse st f n c) loads)])).2.
Proof.
  intros Ho Hn. rewrite stop_run. pose proof (q_state _ _ (pinv_run r rs Ho)) as Hs. unfold p_exec in *. rewrite foldl_app. cbn [foldl].
  destruct (foldl p_step (p_init r) rs) as [p h]; cbn [fst snd] in *. unfold good_state in Hs. unfold p_step. cbn [pr_event pr_now].
  destruct (c_main p) as [|k|k g|] eqn:Em; [|destruct Hs as (Hs & _); congruence..|exact Em].
  destruct Hs as [Hs _]. rewrite Hn in Hs. cbn [p_receive]. destruct loads; cbn [negb]; [|reflexivity].
  cbn [pc_add pc_with c_task]. rewrite <- Hs. reflexivity.
Qed.
