(** * The states of the futures of the client *)

From Verif.Model Require Import Base Message Client.
From Verif.Spec Require Import HistorySpec ClientSpec.
From Verif.Proofs Require Import BaseProofs HistoryProofs ClientProofs ClientRuns.


(** ** The state of every waiting future *)

Lemma cancelled_later h e out k : Forall output out → cancelled k (h ++ CIn e :: out) = cancelled k h || (cancels k (CIn e) && cancellable k h).
Proof.
  intros Ho. unfold cancelled. rewrite moments_app. cbn [moments_from]. rewrite moments_outs; [|by intros ? []|done].
  destruct (cancels k (CIn e) && cancellable k h); destruct (moments _ h); cbn; done.
Qed.
Lemma steps_grow t h x n : steps t h = Some n → new_ids (h ++ [x]) → ∃ n', steps t (h ++ [x]) = Some n' ∧ (n <= n')%nat.
Proof.
  intros Hs Hn. unfold steps in *. rewrite foldl_app, Hs. cbn. destruct x as [[]| | |]; cbn; eauto.
  - destruct (String.eqb t0 t) eqn:E; [|eauto]. exfalso. apply always_at in Hn. cbn in Hn. apply String.eqb_eq in E as ->.
    apply steps_submitted in Hn. unfold steps in Hn. congruence.
  - destruct (String.eqb t0 t); eauto.
Qed.
Lemma waits_steps t h : new_ids h → waits t h = true → ∃ n, steps t h = Some n ∧ (3 <= n)%nat.
Proof.
  induction h as [|x h IH] using rev_ind; [done|]. intros Hn. unfold waits. rewrite waits_from_app. cbn. intros Hw.
  pose proof (always_inv _ _ _ Hn) as Hn0.
  assert (Hc : waits t h = true ∨ ∃ t', x = CIn (KStep t') ∧ String.eqb t' t = true ∧ steps t h = Some 2%nat).
  { destruct x as [[| | | | |[]|]| | |]; auto; cbn in Hw; [|destruct (String.eqb _ _); [done|auto]].
    destruct (String.eqb t0 t) eqn:E; [|auto]. cbn in Hw. case_bool_decide; [|auto]. right. eauto. }
  destruct Hc as [Hc|(t' & -> & He & Hs)].
  - destruct (IH Hn0 Hc) as (n & Hs & Hle). destruct (steps_grow _ _ x _ Hs Hn) as (n' & Hs' & Hle'). exists n'. split; [done|lia].
  - exists 3%nat. split; [|lia]. unfold steps in *. rewrite foldl_app, Hs. cbn. by rewrite He.
Qed.
Lemma cancelled_snoc k h x : cancelled k (h ++ [x]) = cancelled k h || (cancels k x && cancellable k h).
Proof.
  unfold cancelled. rewrite moments_app. cbn [moments_from]. destruct (cancels k x && cancellable k h); destruct (moments _ h); cbn; done.
Qed.
Lemma cancelled_steps t h : new_ids h → cancelled (FTask t) h = true → ∃ n, steps t h = Some n ∧ (3 <= n)%nat.
Proof.
  induction h as [|x h IH] using rev_ind; [done|]. intros Hn. pose proof (always_inv _ _ _ Hn) as Hn0. rewrite cancelled_snoc. intros Hx.
  assert (Hs : ∃ n, steps t h = Some n ∧ (3 <= n)%nat).
  { apply orb_true_iff in Hx as [Hx|[_ Hx]%andb_true_iff]; [auto|]. cbn in Hx. apply andb_true_iff in Hx as [Hx _]. by apply waits_steps. }
  destruct Hs as (n & Hs & Hle). destruct (steps_grow _ _ x _ Hs Hn) as (n' & Hs' & Hle'). exists n'. split; [done|lia].
Qed.
Lemma cancelled_graph g i h : existsb (asks_graph g) h = false → cancelled (FGraph g i) h = false.
Proof.
  induction h as [|x h IH] using rev_ind; [done|]. rewrite existsb_app, cancelled_snoc. cbn. rewrite orb_false_r. intros [Hh Hx]%orb_false_iff.
  rewrite (IH Hh), (graph_asked _ _ Hh). by rewrite andb_false_r.
Qed.

Record settled (c : client) (h : list kentry) : Prop := Settled {
  s_task : ∀ t, t ∈ k_futures c → k_state c !! FTask t = Some (if cancelled (FTask t) h then FCancelled else if accepted t h then FRunning else FPending);
  s_graph : ∀ g n i, graph_waits g h = Asked n ∨ graph_waits g h = Waits n → (i < n)%nat →
    k_state c !! FGraph g i = Some (if cancelled (FGraph g i) h then FCancelled else FPending) }.

Lemma settled_init : settled k_init [].
Proof. split; [intros t Ht; by apply elem_of_nil in Ht|intros g n i []; done]. Qed.
Lemma settled_frame e c c' h out : settled c h → Forall output out → (∀ k, cancels k (CIn e) = false) → (∀ t, t ∈ k_futures c' → accepted t (h ++ CIn e :: out) = accepted t h) →
  (∀ t, t ∈ k_futures c' → t ∈ k_futures c ∧ k_state c' !! FTask t = k_state c !! FTask t) →
  (∀ g n i, graph_waits g (h ++ CIn e :: out) = Asked n ∨ graph_waits g (h ++ CIn e :: out) = Waits n → (i < n)%nat →
    (graph_waits g h = Asked n ∨ graph_waits g h = Waits n) ∧ k_state c' !! FGraph g i = k_state c !! FGraph g i) →
  settled c' (h ++ CIn e :: out).
Proof.
  intros [S1 S2] Ho Hc Ha Ht Hg. split.
  - intros t Hin. destruct (Ht t Hin) as [Hin' ->]. rewrite cancelled_later, Hc, Ha, orb_false_r by done. by apply S1.
  - intros g n i Hw Hi. destruct (Hg g n i Hw Hi) as [Hw' ->]. rewrite cancelled_later, Hc, orb_false_r by done. by eapply S2.
Qed.
Lemma settled_same e c c' h out : settled c h → Forall output out → k_futures c' = k_futures c → k_state c' = k_state c →
  match e with KCancel _ | KGraph (MGraphTask _ _ _ _) _ | KRecv (MTaskEcho _ SubmitOK) _ => False | _ => True end →
  settled c' (h ++ CIn e :: out).
Proof.
  intros HS Ho F1 F2 He. apply (settled_frame _ c); rewrite ?F1, ?F2; try done.
  - intros k. by destruct e.
  - intros t _. rewrite accepted_later by done. destruct e as [| | | | |[]|]; cbn; rewrite ?orb_false_r; try done. by destruct status; cbn; rewrite ?orb_false_r.
  - intros g n i. rewrite graph_later by done. intros Hw _. split; [|done]. destruct e as [| |[]| | |[]|]; cbn in Hw; try done.
    + destruct (String.eqb _ g); [|done]. destruct (graph_waits g h); try done; destruct Hw as [|[= ->]]; auto; done.
    + destruct (String.eqb _ g); [|done]. destruct (graph_waits g h); try done; by destruct Hw.
Qed.

Lemma settled_step e c h c' out : base c h → live c h → glive c h → settled c h → new_ids (h ++ CIn e :: out) → k_handle e c = (c', out) →
  connected (h ++ CIn e :: out) = true → settled c' (h ++ CIn e :: out).
Proof.
  intros Hb Hl Hg HS Hn Hh Hc. pose proof (always_inv _ _ _ Hn) as Hn0. destruct (calm_prefix _ _ _ Hc) as [Hch He].
  pose proof (k_handle_out e c) as Ho. rewrite Hh in Ho. cbn in Ho.
  assert (Hup : k_up c = true) by (rewrite (a_up _ _ Hb); done).
  destruct e as [t f name content args|t|m n|g|k|m loads|]; [| | | | | |done].
  - cbn in Hh. injection Hh as <- <-. by apply (settled_same _ c).
  - (* step of submit *)
    cbn in Hh. unfold k_step_submit in Hh. destruct (k_flight c !! t) as [[k st]|] eqn:Ef; [|injection Hh as <- <-; by apply (settled_same _ c)].
    destruct st; [destruct (k_check k c) as [out1 [e1|]]; injection Hh as <- <-; by apply (settled_same _ c)|injection Hh as <- <-; by apply (settled_same _ c)|].
    injection Hh as <- <-. destruct (a_flight _ _ Hb _ _ _ Ef) as (_ & _ & Hst & _). destruct HS as [S1 S2]. split; cbn.
    + intros t' Ht'. rewrite cancelled_later, accepted_later by done. cbn. rewrite !orb_false_r.
      destruct (decide (t' = t)) as [->|Hne].
      * rewrite lookup_insert. destruct (l_flight _ _ Hl t _ Hst) as [_ ->]; [cbn; lia|].
        destruct (cancelled (FTask t) h) eqn:Ec; [|done]. destruct (cancelled_steps _ _ Hn0 Ec) as (n & Hs & Hle). rewrite Hs in Hst. injection Hst as ->. cbn in Hle. lia.
      * rewrite lookup_insert_ne by congruence. apply in_put_last in Ht' as [|Ht']; [done|]. by apply S1.
    + intros g n i. rewrite graph_later, cancelled_later by done. cbn. rewrite orb_false_r, lookup_insert_ne by done. apply S2.
  - (* get *)
    pose proof (new_ids_here _ _ _ Hn) as Hnew. destruct m; cbn in Hh; injection Hh as <- <-; try (by apply (settled_same _ c)). cbn in Hnew.
    destruct HS as [S1 S2]. split; cbn.
    + intros t Ht. rewrite cancelled_later, accepted_later, pending_graph by done. cbn. rewrite !orb_false_r. by apply S1.
    + intros g n' i. rewrite graph_later, cancelled_later, pending_graph by done. cbn [graph_of cancels andb]. rewrite orb_false_r. destruct (String.eqb id g) eqn:E.
      * apply String.eqb_eq in E as <-. intros [[= ->]|]; [|done]. intros Hi. rewrite bool_decide_eq_true_2 by done. by rewrite cancelled_graph.
      * apply String.eqb_neq in E. intros Hw Hi. rewrite bool_decide_eq_false_2 by (intros [-> _]; done). by eapply S2.
  - (* get registers *)
    cbn in Hh. injection Hh as <- <-. apply (settled_same _ c); try done; unfold k_graph_step; by destruct (k_sending c !! g).
  - (* cancel *)
    cbn in Hh. injection Hh as <- <-. destruct HS as [S1 S2].
    assert (Hf : k_futures (k_cancel k c) = k_futures c) by (unfold k_cancel; by destruct (k_state c !! k) as [[]|]).
    assert (Hs : ∀ k', k' ≠ k → k_state (k_cancel k c) !! k' = k_state c !! k').
    { intros k' Hne. unfold k_cancel. destruct (k_state c !! k) as [[]|]; try done. cbn. by rewrite lookup_insert_ne. }
    assert (Hk : k_state (k_cancel k c) !! k = match k_state c !! k with Some FPending => Some FCancelled | x => x end).
    { unfold k_cancel. destruct (k_state c !! k) as [[]|] eqn:E; cbn; rewrite ?E; try done. by rewrite lookup_insert. }
    split.
    + intros t. rewrite Hf. intros Ht. rewrite cancelled_later, accepted_later by done. cbn [accepts andb cancels]. rewrite orb_false_r. destruct (decide (k = FTask t)) as [->|Hne].
      * rewrite bool_decide_eq_true_2 by done. cbn [andb cancellable]. rewrite Hk, (S1 t Ht). rewrite (proj1 (l_futures _ _ Hl t) Ht). by destruct (cancelled (FTask t) h), (accepted t h).
      * rewrite bool_decide_eq_false_2 by done. rewrite orb_false_r, Hs by congruence. by apply S1.
    + intros g n i. rewrite graph_later, cancelled_later by done. cbn [graph_of cancels]. intros Hw Hi. destruct (decide (k = FGraph g i)) as [->|Hne].
      * rewrite bool_decide_eq_true_2 by done. cbn [andb cancellable]. rewrite Hk, (S2 g n i Hw Hi).
        assert (match graph_waits g h with Asked n | Waits n => (i <? n)%nat | _ => false end = true) as ->.
        { destruct Hw as [-> | ->]; by apply Nat.ltb_lt. }
        by destruct (cancelled (FGraph g i) h).
      * rewrite bool_decide_eq_false_2 by done. rewrite orb_false_r, Hs by congruence. by eapply S2.
  - pose proof (no_crash _ _ _ _ _ _ Hup Hh Hc) as Hr. destruct m; try discriminate Hr; cbn [k_receive] in Hr.
    + unfold k_echo in Hr. destruct (k_tasks c !! id) as [k|] eqn:Ek.
      2:{ injection Hr as <- <-. apply (settled_frame _ c); try done; [|intros g n i; by rewrite graph_later].
          intros t Ht. rewrite accepted_later by done. destruct (accepted t h) eqn:Ea; [done|]. cbn. destruct status; try done. destruct (String.eqb id t) eqn:E; [|done].
          apply String.eqb_eq in E as ->. destruct (submitted t h) eqn:Es; [|done]. destruct (proj2 (l_tasks _ _ Hl t)); [done|]. congruence. }
      destruct status; try discriminate Hr.
      * cbn zeta in Hr. set (c0 := k_with _ _ _ _ c) in Hr. destruct (existsb _ _) eqn:Efut; [|done]. apply in_futures in Efut. change (k_futures c0) with (k_futures c) in Efut.
        destruct (proj1 (l_tasks _ _ Hl id)) as [Hsub Hacc]; [eauto|]. pose proof (s_task _ _ HS id Efut) as Hst. rewrite Hacc in Hst. change (k_state c0) with (k_state c) in Hr.
        assert (Hgen : k_futures c' = k_futures c ∧ out = [] ∧ k_state c' !! FTask id = Some (if cancelled (FTask id) h then FCancelled else FRunning) ∧ ∀ k, k ≠ FTask id → k_state c' !! k = k_state c !! k).
        { rewrite Hst in Hr. destruct (cancelled (FTask id) h); injection Hr as <- <-; cbn; split_and!; auto; [by rewrite lookup_insert|]. intros k' Hne. by rewrite lookup_insert_ne. }
        destruct Hgen as (F1 & -> & F2 & F3). destruct HS as [S1 S2]. split.
        -- intros t. rewrite F1. intros Ht. rewrite cancelled_later, accepted_later by done. cbn. rewrite orb_false_r. destruct (String.eqb id t) eqn:E.
           ++ apply String.eqb_eq in E as <-. by rewrite F2, Hsub, orb_true_r.
           ++ apply String.eqb_neq in E. cbn. rewrite orb_false_r, F3 by congruence. by apply S1.
        -- intros g n i. rewrite graph_later, cancelled_later, F3 by done. cbn. rewrite orb_false_r. apply S2.
      * injection Hr as <- <-. by apply (settled_same _ c).
      * destruct (k_check k c) as [out1 [e1|]]; [done|]. injection Hr as <- <-. by apply (settled_same _ c).
    + (* result *)
      unfold k_result in Hr. destruct (existsb _ _) eqn:Efut; [|injection Hr as <- <-; by apply (settled_same _ c)]. cbn zeta in Hr. set (c0 := k_with _ _ _ _ c) in Hr.
      assert (Hgen : k_futures c' = pop_key id (k_futures c) ∧ ∀ k, k ≠ FTask id → k_state c' !! k = k_state c !! k).
      { assert (Hset : ∀ v, f_set (FTask id) v c0 = (c', out, None) → k_futures c' = pop_key id (k_futures c) ∧ ∀ k, k ≠ FTask id → k_state c' !! k = k_state c !! k).
        { intros v Hv. destruct (f_set_ok _ _ _ _ _ _ h Hv (a_once _ _ Hb)) as (_ & (s & -> & Hs) & _). cbn. split_and!; auto. }
        destruct status; try (injection Hr as <- <-; done); destruct loads; try done; by eapply Hset. }
      destruct Hgen as [F1 F2]. apply (settled_frame _ c); try done.
      * intros t _. rewrite accepted_later by done. cbn. by rewrite orb_false_r.
      * intros t. rewrite F1. intros [Hne Ht]%in_pop_key. split; [done|]. apply F2. congruence.
      * intros g n i. rewrite graph_later by done. cbn. intros Hw Hi. split; [done|]. by apply F2.
    + (* graph result *)
      unfold k_graph_result in Hr. destruct (find_graph id (k_graphs c) (g_nodup _ _ Hg)) as [Hf|(n & Hf & Hin)]; rewrite Hf in Hr; [injection Hr as <- <-; by apply (settled_same _ c)|].
      pose proof (proj1 (g_graphs _ _ Hg _ _) Hin) as Hwait. cbn zeta in Hr. set (c0 := k_with_state _ _ c) in Hr.
      assert (Hgen : k_futures c' = k_futures c ∧ ∀ k, (∀ i, k ≠ FGraph id i) → k_state c' !! k = k_state c !! k).
      { assert (Hset : ∀ (v : bytes → fvalue), k_enumerate n results (f_set_all (imap (λ i p, (FGraph id i, v p)) (take n results)) c0) = (c', out, None) →
          k_futures c' = k_futures c ∧ ∀ k, (∀ i, k ≠ FGraph id i) → k_state c' !! k = k_state c !! k).
        { intros v Hv. clear Hr. destruct (f_set_all _ c0) as [[c1 out1] e1] eqn:E1. assert (c1 = c' ∧ out1 = out) as [-> ->] by (destruct e1; cbn in Hv; by injection Hv).
          destruct (f_set_all_ok _ _ _ _ _ h E1 (a_once _ _ Hb)) as (_ & (s & -> & Hs) & _). cbn. split; [done|]. intros k Hk. apply Hs.
          intros ([k2 v2] & Hk2 & Hkv)%elem_of_list_fmap. apply elem_of_lookup_imap in Hkv as (i & p & [= -> ->] & _). by apply (Hk i). }
        destruct status; try (injection Hr as <- <-; done).
        - destruct loads; [|done]. by apply (Hset Value).
        - destruct results as [|p ps]; [done|]. destruct loads; [|done]. by apply (Hset (λ _, Error p)). }
      destruct Hgen as [F1 F2]. apply (settled_frame _ c); try done.
      * intros t _. rewrite accepted_later by done. cbn. by rewrite orb_false_r.
      * intros t. rewrite F1. intros Ht. split; [done|]. by apply F2.
      * intros g n' i. rewrite graph_later by done. cbn. destruct (String.eqb id g) eqn:E.
        -- apply String.eqb_eq in E as <-. rewrite Hwait. by intros [].
        -- apply String.eqb_neq in E. intros Hw Hi. split; [done|]. apply F2. congruence.
    + unfold k_function_response in Hr. destruct status; try discriminate Hr;
        (destruct (k_buffer c !! id) as [ks|]; injection Hr as <- <-; by apply (settled_same _ c)).
Qed.
Lemma settled_run es c h : k_run es = (c, h) → new_ids h → base c h ∧ (connected h = true → live c h ∧ glive c h ∧ settled c h).
Proof.
  apply (k_ind (λ c h, connected h = true → live c h ∧ glive c h ∧ settled c h)).
  - intros _. split_and!; [apply live_init|apply glive_init|apply settled_init].
  - intros e c0 h0 c1 out Hb IH Hn Hh Hc. destruct (calm_prefix _ _ _ Hc) as [Hch _]. destruct (IH Hch) as (Hl & Hg & HS).
    split_and!; [by eapply live_step|by eapply glive_step|by eapply settled_step].
Qed.
