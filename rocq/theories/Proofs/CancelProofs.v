(** * Cancelled futures stay cancelled (for C69) *)

From Verif.Model Require Import Base Message Client ClientCalls.
From Verif.Spec Require Import HistorySpec ClientSpec.
From Verif.Proofs Require Import BaseProofs HistoryProofs ClientProofs ClientRuns ClientStates ClientFacts MapProofs.

(** The same futures are cancelled. *)
Definition alike (c c' : client) : Prop := ∀ k, k_state c' !! k = Some FCancelled ↔ k_state c !! k = Some FCancelled.
Lemma alike_refl c : alike c c.
Proof. done. Qed.
Lemma alike_trans c1 c2 c3 : alike c1 c2 → alike c2 c3 → alike c1 c3.
Proof. intros H1 H2 k. by rewrite (H2 k), (H1 k). Qed.
Lemma alike_state c c' : k_state c' = k_state c → alike c c'.
Proof. intros H k. by rewrite H. Qed.
Lemma alike_insert c c' k v : v ≠ FCancelled → k_state c !! k ≠ Some FCancelled → k_state c' = <[k := v]> (k_state c) → alike c c'.
Proof.
  intros Hv Hk E k'. rewrite E. destruct (decide (k = k')) as [<-|Hne]; [|by rewrite lookup_insert_ne].
  rewrite lookup_insert. split; congruence.
Qed.

Lemma alike_set k v c : alike c (f_set k v c).1.1.
Proof. unfold f_set. destruct (k_state c !! k) as [[]|] eqn:E; try apply alike_refl; apply (alike_insert _ _ k FFinished); try done; by rewrite E. Qed.
Lemma alike_set_all kvs c : alike c (f_set_all kvs c).1.1.
Proof.
  revert c. induction kvs as [|[k v] kvs IH]; intros c; [apply alike_refl|]. cbn [f_set_all]. pose proof (alike_set k v c) as H.
  destruct (f_set k v c) as [[c1 o1] [e|]]; [done|]. specialize (IH c1). destruct (f_set_all kvs c1) as [[c2 o2] e2]. by eapply alike_trans.
Qed.
Lemma alike_exit_tasks ts c : alike c (k_exit_tasks ts c).1.1.
Proof.
  revert c. induction ts as [|t ts IH]; intros c; [apply alike_refl|]. cbn [k_exit_tasks]. pose proof (alike_set (FTask t) Disconnected c) as H.
  destruct (f_set (FTask t) Disconnected c) as [[c1 o1] [e|]]; [done|]. specialize (IH c1). destruct (k_exit_tasks ts c1) as [[c2 o2] e2]. by eapply alike_trans.
Qed.
Lemma alike_exit_graphs gs c : alike c (k_exit_graphs gs c).1.1.
Proof.
  revert c. induction gs as [|[g n] gs IH]; intros c; [apply alike_refl|]. cbn [k_exit_graphs]. pose proof (alike_set_all ((λ i, (FGraph g i, Disconnected)) <$> seq 0 n) c) as H.
  destruct (f_set_all _ c) as [[c1 o1] [e|]]; [done|]. specialize (IH c1). destruct (k_exit_graphs gs c1) as [[c2 o2] e2]. by eapply alike_trans.
Qed.
Lemma alike_exit c : alike c (k_exit c).1.1.
Proof.
  unfold k_exit. pose proof (alike_exit_tasks (k_futures c) c) as H. destruct (k_exit_tasks _ c) as [[c1 o1] [e|]]; [done|].
  pose proof (alike_exit_graphs (k_graphs c1) c1) as H2. destruct (k_exit_graphs _ c1) as [[c2 o2] e2]. by eapply alike_trans.
Qed.
Lemma alike_enumerate n ps r c : alike c r.1.1 → alike c (k_enumerate n ps r).1.1.
Proof. by destruct r as [[c1 o1] [e|]]. Qed.
Lemma alike_receive m loads c : alike c (k_receive m loads c).1.1.
Proof.
  assert (Hset : ∀ k v c0, k_state c0 = k_state c → alike c (f_set k v c0).1.1).
  { intros k v c0 H. eapply alike_trans; [exact (alike_state c c0 H)|apply alike_set]. }
  destruct m; try apply alike_refl; cbn [k_receive].
  - unfold k_echo. destruct (k_tasks c !! _) as [k|]; [|apply alike_refl]. destruct status; try apply alike_refl.
    + set (c0 := k_with _ _ _ _ c). destruct (existsb _ (k_futures c0)); [|apply alike_state; done].
      destruct (k_state c0 !! FTask id) as [[]|] eqn:E; try (by apply alike_state).
      apply (alike_insert _ _ (FTask id) FRunning); [done| |done]. change (k_state c0) with (k_state c) in E. by rewrite E.
    + destruct (k_check k c) as [o1 [e1|]]; [apply alike_refl|]. by apply alike_state.
  - unfold k_result. destruct (existsb _ _); [|apply alike_refl]. destruct status, loads; try (by apply alike_state); by apply Hset.
  - unfold k_graph_result. destruct (List.find _ _) as [[g n]|]; [|apply alike_refl].
    set (c0 := k_with_state _ _ c). assert (H0 : alike c c0) by (by apply alike_state).
    assert (Ha : ∀ v, alike c (k_enumerate n results (f_set_all (imap (λ i p, (FGraph id i, v p)) (take n results)) c0)).1.1).
    { intros v. apply alike_enumerate. eapply alike_trans; [exact H0|apply alike_set_all]. }
    destruct status; try exact H0; [destruct loads; [apply Ha|exact H0]|].
    destruct results as [|p ps]; [exact H0|]. destruct loads; [apply (Ha (λ _, Error p))|exact H0].
  - unfold k_function_response. destruct status; try apply alike_refl; destruct (k_buffer c !! _); try apply alike_refl; by apply alike_state.
Qed.

(** Only a call of cancel makes a future cancelled, and nothing undoes it. *)
Lemma cancel_step e c h c' out : base c h → new_ids (h ++ CIn e :: out) → k_handle e c = (c', out) →
  ∀ k, k_state c' !! k = Some FCancelled ↔ k_state c !! k = Some FCancelled ∨ (e = KCancel k ∧ k_state c !! k = Some FPending).
Proof.
  intros Hb Hn Hh k.
  assert (Ha : (∀ k, e ≠ KCancel k) → alike c c' → k_state c' !! k = Some FCancelled ↔ k_state c !! k = Some FCancelled ∨ (e = KCancel k ∧ k_state c !! k = Some FPending)).
  { intros Hne H. rewrite (H k). split; [auto|]. intros [?|[He _]]; [done|]. by destruct (Hne k). }
  destruct e as [t f name content args|t|m n|g|k'|m loads|]; cbn in Hh.
  - apply Ha; [done|]. injection Hh as <- <-. by apply alike_state.
  - apply Ha; [done|]. unfold k_step_submit in Hh. destruct (k_flight c !! t) as [[k1 st]|] eqn:Ef; [|injection Hh as <- <-; apply alike_refl].
    destruct (a_flight _ _ Hb _ _ _ Ef) as (_ & Hnone & _). destruct st.
    + destruct (k_check k1 c) as [o1 [e1|]]; injection Hh as <- <-; by apply alike_state.
    + injection Hh as <- <-. by apply alike_state.
    + injection Hh as <- <-. apply (alike_insert _ _ (FTask t) FPending); [done| |done]. by rewrite Hnone.
  - apply Ha; [done|]. apply new_ids_here in Hn. destruct m; try (injection Hh as <- <-; apply alike_refl). cbn in Hn, Hh. injection Hh as <- <-.
    intros k1. cbn. rewrite pending_graph. destruct k1 as [t1|[g1 i1]]; [done|]. destruct (bool_decide (g1 = id ∧ (i1 < n)%nat)) eqn:E; [|done].
    apply bool_decide_eq_true in E as [-> _]. rewrite (a_gfresh _ _ Hb _ Hn i1). split; congruence.
  - apply Ha; [done|]. injection Hh as <- <-. unfold k_graph_step. destruct (k_sending c !! g); by apply alike_state.
  - injection Hh as <- <-. unfold k_cancel. destruct (decide (k' = k)) as [->|Hne].
    + destruct (k_state c !! k) as [[]|] eqn:E; cbn; rewrite ?lookup_insert, ?E; split; try done; auto; intros [?|[_ ?]]; congruence.
    + destruct (k_state c !! k') as [[]|] eqn:E; cbn; rewrite ?lookup_insert_ne by done; (split; [auto|]; intros [?|[[= ?] _]]; congruence).
  - apply Ha; [done|]. destruct (k_up c); [|injection Hh as <- <-; apply alike_refl]. pose proof (alike_receive m loads c) as H.
    destruct (k_receive m loads c) as [[c1 o1] [e1|]]; injection Hh as <- <-; [|done]. by eapply alike_trans; [exact H|apply alike_state].
  - apply Ha; [done|]. destruct (k_up c); [|injection Hh as <- <-; apply alike_refl]. pose proof (alike_exit c) as H.
    destruct (k_exit c) as [[c1 o1] [e1|]]; injection Hh as <- <-; by eapply alike_trans; [exact H|apply alike_state].
Qed.

(** Runs that go on from a state. *)
Lemma cancel_stays k es' : ∀ c h, base c h → k_state c !! k = Some FCancelled → new_ids (foldl k_step (c, h) es').2 →
  k_state (foldl k_step (c, h) es').1 !! k = Some FCancelled.
Proof.
  intros c h Hb Hk. assert (H : new_ids (foldl k_step (c, h) es').2 → base (foldl k_step (c, h) es').1 (foldl k_step (c, h) es').2 ∧ k_state (foldl k_step (c, h) es').1 !! k = Some FCancelled); [|by intros Hn; apply H].
  induction es' as [|e es' IH] using rev_ind; [done|]. rewrite foldl_app. cbn [foldl]. destruct (foldl k_step (c, h) es') as [c1 h1]. cbn [k_step].
  destruct (k_handle e c1) as [c2 out] eqn:E. cbn [fst snd] in *. intros Hn. destruct (IH (always_inv _ _ _ Hn)) as [Hb1 Hk1].
  split; [by eapply base_step|]. apply (cancel_step _ _ _ _ _ Hb1 Hn E). by left.
Qed.

Lemma result_cancelled_state s k : f_result s k = Some RaisesCancelled ↔ k_state s.1 !! k = Some FCancelled.
Proof.
  unfold f_result. destruct (k_state s.1 !! k) as [[]|]; try done. destruct (List.find _ s.2) as [[| |? []|]|]; done.
Qed.

(** A pending future that is cancelled raises from then on. *)
Lemma cancel_raises es es' k : new_ids (k_run (es ++ KCancel k :: es')).2 → connected (k_run es).2 = true → cancellable k (k_run es).2 = true →
  f_result (k_run (es ++ KCancel k :: es')) k = Some RaisesCancelled.
Proof.
  assert (Hrun : k_run (es ++ KCancel k :: es') = foldl k_step (k_step (k_run es) (KCancel k)) es') by (unfold k_run; by rewrite foldl_app). rewrite Hrun. clear Hrun. destruct (k_run es) as [c h] eqn:Er. cbn [snd fst k_step k_handle].
  intros Hn Hc Hk.
  assert (Hn1 : new_ids (h ++ [CIn (KCancel k)])).
  { clear -Hn. revert Hn. generalize (k_cancel k c) (h ++ [CIn (KCancel k)]). intros c1 h1.
    induction es' as [|e es' IH] using rev_ind; [done|]. rewrite foldl_app. cbn [foldl]. destruct (foldl k_step (c1, h1) es') as [c2 h2]. cbn [k_step].
    destruct (k_handle e c2) as [c3 out]. cbn [snd]. intros H. apply IH. by eapply always_inv. }
  destruct (settled_run _ _ _ Er (always_inv _ _ _ Hn1)) as [Hb Hl]. destruct (Hl Hc) as (HL & HG & HS).
  apply result_cancelled_state. eapply (cancel_stays k es' (k_cancel k c)); [|  |exact Hn].
  - eapply base_cancel; done.
  - apply (cancel_step (KCancel k) c h _ _ Hb Hn1 eq_refl). destruct k as [t|[g i]]; cbn [cancellable] in Hk.
    + apply andb_true_iff in Hk as [Hw Ha%negb_true_iff]. rewrite (s_task _ _ HS t), Ha by (by apply (l_futures _ _ HL)).
      destruct (cancelled (FTask t) h); auto.
    + destruct (graph_waits g h) as [|n|n|] eqn:Eg; try done; apply Nat.ltb_lt in Hk;
        rewrite (s_graph _ _ HS g n i) by auto; destruct (cancelled (FGraph g i) h); auto.
Qed.
(** Nothing else makes it raise, and such a future never has a value. *)
Lemma raises_cancelled es c h k : k_run es = (c, h) → new_ids h → f_result (c, h) k = Some RaisesCancelled → CIn (KCancel k) ∈ h ∧ ∀ v, CSet k v ∉ h.
Proof.
  intros Hr Hn Hf. apply result_cancelled_state in Hf. cbn in Hf.
  assert (H : base c h ∧ (∀ k, k_state c !! k = Some FCancelled → CIn (KCancel k) ∈ h)).
  { apply (k_ind (λ c h, ∀ k, k_state c !! k = Some FCancelled → CIn (KCancel k) ∈ h)) with (es := es); [| |done|done].
    - intros k'. cbn. by rewrite lookup_empty.
    - intros e c1 h1 c2 out Hb IH Hn1 Hh k' Hk'. apply (cancel_step _ _ _ _ _ Hb Hn1 Hh) in Hk' as [Hk'|[-> _]]; apply elem_of_app; [by left; apply IH|right; by constructor]. }
  destruct H as [Hb H]. split; [by apply H|]. intros v Hv. pose proof (a_once _ _ Hb k) as Ho. rewrite bool_decide_eq_false_2 in Ho by congruence.
  pose proof (occ_pos (sets k) h _ Hv) as Hp. cbn in Hp. rewrite bool_decide_eq_true_2 in Hp by done. specialize (Hp eq_refl). lia.
Qed.

(** ** What result() does, and that it does not change *)
Lemma later_history es es' : ∃ more, (k_run (es ++ es')).2 = (k_run es).2 ++ more.
Proof.
  rewrite k_run_app. induction es' as [|e es' IH] using rev_ind; [exists []; by rewrite app_nil_r|]. rewrite foldl_app. cbn [foldl].
  destruct IH as [more IH]. destruct (foldl k_step (k_run es) es') as [c h]. cbn in IH. subst h. cbn [k_step]. destruct (k_handle e c) as [c' out].
  exists (more ++ CIn e :: out). cbn. by rewrite app_assoc.
Qed.
Lemma f_result_iff es c h k v : k_run es = (c, h) → new_ids h →
  CSet k v ∈ h ↔ f_result (c, h) k = Some (match v with Value p => Returns p | _ => Raises v end).
Proof.
  intros Hr Hn. split; [by apply f_result_set with es|]. unfold f_result. cbn. destruct (k_state c !! k) as [[]|]; try (by destruct v).
  destruct (List.find _ h) as [e|] eqn:Ef; [|by destruct v]. apply List.find_some in Ef as [H1 H2]. apply elem_of_list_In in H1.
  destruct e as [| |k' w|]; try done. apply bool_decide_eq_true in H2 as ->. intros H. assert (w = v) as ->; [|done]. by destruct w, v; simplify_eq.
Qed.
Lemma f_result_cases es c h k o : k_run es = (c, h) → new_ids h → f_result (c, h) k = Some o →
  (∃ v, CSet k v ∈ h) ∨ o = RaisesCancelled.
Proof.
  intros Hr Hn. unfold f_result. cbn. destruct (k_state c !! k) as [[]|]; try done; [intros [= <-]; auto|].
  destruct (List.find _ h) as [e|] eqn:Ef; [|done]. apply List.find_some in Ef as [H1 H2]. apply elem_of_list_In in H1.
  destruct e as [| |k' w|]; try done. apply bool_decide_eq_true in H2 as ->. intros _. left. by exists w.
Qed.
Lemma f_result_stable es es' k o : new_ids (k_run (es ++ es')).2 → f_result (k_run es) k = Some o → f_result (k_run (es ++ es')) k = Some o.
Proof.
  intros Hn Hf. destruct (later_history es es') as [more Hm].
  assert (Hn0 : new_ids (k_run es).2) by (rewrite Hm in Hn; revert Hn; clear; induction more as [|x more IH] using rev_ind; [by rewrite app_nil_r|]; rewrite app_assoc; intros H; apply IH; by eapply always_inv).
  destruct (k_run es) as [c h] eqn:Er. destruct (k_run (es ++ es')) as [c' h'] eqn:Er'. cbn in Hm, Hn, Hn0. subst h'.
  destruct (f_result_cases _ _ _ _ _ Er Hn0 Hf) as [[v Hv]| ->].
  - rewrite (f_result_set _ _ _ _ _ Er Hn0 Hv) in Hf. rewrite <-Hf. apply f_result_set with (es ++ es'); [done|done|]. apply elem_of_app. by left.
  - apply result_cancelled_state in Hf. apply result_cancelled_state. rewrite k_run_app, Er in Er'. rewrite <-Er'. apply cancel_stays; [by eapply run_base|done|]. by rewrite Er'.
Qed.
