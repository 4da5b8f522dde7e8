(** * Properties of runs of the client *)

From Verif.Model Require Import Base Message Client.
From Verif.Spec Require Import HistorySpec ClientSpec.
From Verif.Proofs Require Import BaseProofs HistoryProofs ClientProofs.

(** ** Outputs and their causes *)

Definition fits (e : kevent) (x : kentry) : Prop :=
  match x with
  | CSet (inl t) (Value p) => ∃ d, e = KRecv (MTaskResult t Success d p) true
  | CSet (inl t) (Error p) => ∃ d, e = KRecv (MTaskResult t Failed d p) true
  | CSet (inr (g, i)) (Value p) => ∃ ps, e = KRecv (MGraphTaskResult g Success ps) true ∧ ps !! i = Some p
  | CSet (inr (g, i)) (Error p) => ∃ ps, e = KRecv (MGraphTaskResult g Failed ps) true ∧ ps !! 0%nat = Some p
  | CSet _ Disconnected => e = KExit
  | COut (MTask k) => ∃ st name content loads, e = KRecv (MFunctionResponse st (task_function k) name content) loads ∧ positive st = true
  | COut (MTaskCancel _) | COut (MGraphTaskCancel _) => e = KExit
  | COut (MGraphTask g a b d) => ∃ n, e = KGraph (MGraphTask g a b d) n
  | COut (MFunctionRequest ty _ _ _) => ty = FnAdd
  | COut _ => False
  | CCrash _ => True
  | CIn _ => False
  end.

Lemma f_set_all_sets kvs c c' out e : f_set_all kvs c = (c', out, e) → ∀ x, x ∈ out → ∃ k v, (k, v) ∈ kvs ∧ x = CSet k v.
Proof.
  revert c out. induction kvs as [|[k v] kvs IH]; intros c out Hs x Hx; cbn in Hs; [injection Hs as <- <- <-; by apply elem_of_nil in Hx|].
  destruct (f_set k v c) as [[c1 out1] [e1|]] eqn:E1.
  - injection Hs as <- <- <-. exists k, v. split; [left|]. by eapply f_set_sets.
  - destruct (f_set_all kvs c1) as [[c2 out2] e2] eqn:E2. injection Hs as <- <- <-. apply elem_of_app in Hx as [Hx|Hx].
    + exists k, v. split; [left|]. by eapply f_set_sets.
    + destruct (IH _ _ E2 _ Hx) as (k' & v' & Hin & ->). exists k', v'. split; [by right|done].
Qed.
Lemma k_check_fits k c e : ∀ x, x ∈ (k_check k c).1 → fits e x.
Proof.
  unfold k_check. intros x Hx. destruct (k_buffer c !! _); [by apply elem_of_nil in Hx|]. destruct (k_bodies c !! _) as [[]|]; [|by apply elem_of_nil in Hx].
  apply elem_of_list_singleton in Hx as ->. done.
Qed.
Lemma k_receive_fits m loads c c' out e : (∀ f ks, k_buffer c !! f = Some ks → ∀ k, k ∈ ks → task_function k = f) →
  k_receive m loads c = (c', out, e) → ∀ x, x ∈ out → fits (KRecv m loads) x.
Proof.
  intros Hbuf Hs x Hx.
  assert (Hno : ∀ c1 e1, (c1, [], e1) = (c', out, e) → fits (KRecv m loads) x) by (intros c1 e1 [= <- <- <-]; by apply elem_of_nil in Hx).
  destruct m; try exact (Hno _ _ Hs); cbn [k_receive] in Hs.
  - unfold k_echo in Hs. destruct (k_tasks c !! id) as [k|]; [|exact (Hno _ _ Hs)]. destruct status; try exact (Hno _ _ Hs).
    + cbn zeta in Hs. destruct (existsb _ _); [|exact (Hno _ _ Hs)]. destruct (k_state _ !! _) as [[]|]; exact (Hno _ _ Hs).
    + pose proof (k_check_fits k c (KRecv (MTaskEcho id FunctionNotExists) loads)) as Hc. destruct (k_check k c) as [out1 [e1|]]; injection Hs as <- <- <-; by apply Hc.
  - unfold k_result in Hs. destruct (existsb _ _); [|exact (Hno _ _ Hs)]. cbn zeta in Hs.
    destruct status; try exact (Hno _ _ Hs); destruct loads; try exact (Hno _ _ Hs); pose proof (f_set_sets _ _ _ _ _ _ Hs _ Hx) as ->; cbn; eauto.
  - unfold k_graph_result in Hs. destruct (List.find _ _) as [[g n]|]; [|exact (Hno _ _ Hs)]. cbn zeta in Hs.
    assert (Hset : ∀ (v : bytes → fvalue) c1, k_enumerate n results (f_set_all (imap (λ i p, (FGraph id i, v p)) (take n results)) c1) = (c', out, e) →
      ∃ i p, results !! i = Some p ∧ x = CSet (FGraph id i) (v p)).
    { intros v c1 Hv. clear Hs. destruct (f_set_all _ c1) as [[c2 out2] e2] eqn:E2.
      assert (out2 = out) as -> by (destruct e2; cbn in Hv; by injection Hv).
      destruct (f_set_all_sets _ _ _ _ _ E2 _ Hx) as (k' & v' & Hin & ->). apply elem_of_lookup_imap in Hin as (i & p & [= -> ->] & Hi).
      exists i, p. split; [|done]. apply lookup_take_Some in Hi as [Hi _]. done. }
    destruct status; try exact (Hno _ _ Hs).
    + destruct loads; [|exact (Hno _ _ Hs)]. destruct (Hset Value _ Hs) as (i & p & Hi & ->). cbn. eauto.
    + destruct results as [|p ps]; [exact (Hno _ _ Hs)|]. destruct loads; [|exact (Hno _ _ Hs)].
      destruct (Hset (λ _, Error p) _ Hs) as (i & p' & Hi & ->). cbn. eauto.
  - unfold k_function_response in Hs.
    assert (Hpop : positive status = true → match k_buffer c !! id with None => (c, [], None) | Some ks => (k_with (k_tasks c) (k_bodies c) (k_futures c) (delete id (k_buffer c)) c, (λ k, COut (MTask k)) <$> ks, None) end = (c', out, e)
      → fits (KRecv (MFunctionResponse status id name content) loads) x).
    { intros Hpos. destruct (k_buffer c !! id) as [ks|] eqn:Eb; intros Hs'; [|exact (Hno _ _ Hs')]. injection Hs' as <- <- <-.
      apply elem_of_list_fmap in Hx as (k & -> & Hk). cbn. rewrite (Hbuf _ _ Eb _ Hk). eauto 6. }
    destruct status; try exact (Hno _ _ Hs); exact (Hpop eq_refl Hs).
Qed.
Lemma gone_fits x : gone x → fits KExit x.
Proof. destruct x as [|[]|[|[? ?]]|]; cbn; try done; intros ->; done. Qed.
Lemma k_handle_fits e c h c' out : base c h → k_handle e c = (c', out) → ∀ x, x ∈ out → fits e x.
Proof.
  intros Hb Hh x Hx.
  assert (Hno : ∀ c1, (c1, []) = (c', out) → fits e x) by (intros c1 [= <- <-]; by apply elem_of_nil in Hx).
  destruct e; cbn in Hh; try exact (Hno _ Hh).
  - unfold k_step_submit in Hh. destruct (k_flight c !! t) as [[k []]|]; try exact (Hno _ Hh).
    pose proof (k_check_fits k c (KStep t)) as Hc. destruct (k_check k c) as [out1 [e1|]]; injection Hh as <- <-; by apply Hc.
  - destruct m; try exact (Hno _ Hh). injection Hh as <- <-. apply elem_of_list_singleton in Hx as ->. cbn. eauto.
  - destruct (k_up c); [|exact (Hno _ Hh)]. destruct (k_receive m loads c) as [[c1 out1] e1] eqn:E.
    pose proof (k_receive_fits _ _ _ _ _ _ (a_buffer_function _ _ Hb) E) as Hf. destruct e1 as [e1|]; injection Hh as <- <-; [|auto].
    apply elem_of_app in Hx as [Hx|Hx]; [auto|]. by apply elem_of_list_singleton in Hx as ->.
  - destruct (k_up c); [|exact (Hno _ Hh)]. destruct (k_exit c) as [[c1 out1] e1] eqn:E.
    destruct (k_exit_ok _ _ _ _ h E) as (_ & _ & Hg & _); [apply Hb|].
    assert (Hf : ∀ x, x ∈ out1 → fits KExit x) by (intros y Hy; apply gone_fits; by eapply Forall_forall in Hg).
    destruct e1 as [e1|]; cbn in Hh; injection Hh as <- <-; [|auto].
    apply elem_of_app in Hx as [Hx|Hx]; [auto|]. by apply elem_of_list_singleton in Hx as ->.
Qed.

(** A property of outputs and their cause holds throughout a run. *)
Lemma outs_always (P : list kentry → kentry → Prop) :
  (∀ b x, match x with CIn _ => True | _ => False end → P b x) →
  (∀ e c h c' out b x a, base c h → new_ids (h ++ CIn e :: out) → k_handle e c = (c', out) → out = b ++ x :: a → cause (h ++ CIn e :: b) = Some e → P (h ++ CIn e :: b) x) →
  ∀ es c h, k_run es = (c, h) → new_ids h → always P h.
Proof.
  intros Hin Hout es c h Hr Hn. apply (k_ind (λ _ h, always P h)) with (es := es) (c := c) (h := h); [apply always_nil| |done|done].
  clear es c h Hr Hn. intros e c h c' out Hb HP Hn Hh. pose proof (k_handle_out e c) as Ho. rewrite Hh in Ho. cbn in Ho.
  apply always_app; [done|]. intros b x a Hba. destruct b as [|y b]; cbn in Hba; injection Hba as <- Hba.
  - by apply Hin.
  - eapply Hout; eauto. rewrite Hba in Ho. apply Forall_app in Ho as [Ho _]. by apply cause_later.
Qed.

Lemma own_result_run es c h : k_run es = (c, h) → new_ids h → own_result h.
Proof.
  apply outs_always; [by intros b []|]. clear. intros e c h c' out b x a Hb Hn Hh Ho Hc.
  assert (Hf : fits e x). { eapply k_handle_fits; eauto. rewrite Ho. apply elem_of_app. right. left. }
  rewrite Hc. destruct x as [|m|[t|[g i]] []|]; cbn in *; try done.
  - destruct Hf as [d ->]. eauto.
  - destruct Hf as [d ->]. eauto.
  - by subst e.
  - destruct Hf as (ps & -> & Hp). eauto.
  - destruct Hf as (ps & -> & Hp). eauto.
  - by subst e.
Qed.
Lemma set_once_run es c h : k_run es = (c, h) → new_ids h → ∀ k, (occurrences (sets k) h <= 1)%nat.
Proof.
  intros Hr Hn k. destruct (k_ind (λ _ _, True) I (λ _ _ _ _ _ _ _ _ _, I) _ _ _ Hr Hn) as [Hb _].
  rewrite (a_once _ _ Hb k). destruct (bool_decide _); lia.
Qed.
Lemma run_base es c h : k_run es = (c, h) → new_ids h → base c h.
Proof. intros Hr Hn. apply (k_ind (λ _ _, True) I (λ _ _ _ _ _ _ _ _ _, I) _ _ _ Hr Hn). Qed.

Lemma upload_first_run es c h : k_run es = (c, h) → new_ids h → upload_first h.
Proof.
  apply outs_always; [by intros b []|]. clear. intros e c h c' out b x a Hb Hn Hh Ho Hc.
  assert (Hx : x ∈ out) by (rewrite Ho; apply elem_of_app; right; left).
  assert (Hf : fits e x) by (eapply k_handle_fits; eauto).
  rewrite Hc. destruct x as [|[]| |]; try done. cbn in Hf. split.
  - destruct Hf as (st & name & content & loads & -> & Hp). eauto 6.
  - destruct Hf as (st & name & content & loads & -> & Hp). cbn in Hh. destruct (k_up c); [|injection Hh as <- <-; by apply elem_of_nil in Hx].
    cbn in Hh. unfold k_function_response in Hh.
    assert (Hbuf : ∃ ks, k_buffer c !! task_function t = Some ks ∧ t ∈ ks).
    { destruct st; try done; destruct (k_buffer c !! task_function t) as [ks|]; cbn in Hh; injection Hh as <- <-; try (by apply elem_of_nil in Hx);
        apply elem_of_list_fmap in Hx as (k & [= <-] & Hk); eauto. }
    destruct Hbuf as (ks & Hks & Hin). destruct (a_buffer _ _ Hb _ _ Hks) as [_ Hk]. destruct (Hk _ Hin) as [_ Hkn]. by apply known_later.
Qed.
Lemma true_uploads_run es c h : k_run es = (c, h) → new_ids h → true_uploads h.
Proof.
  apply outs_always; [by intros b []|]. clear. intros e c h c' out b x a Hb Hn Hh Ho Hc.
  assert (Hx : x ∈ out) by (rewrite Ho; apply elem_of_app; right; left).
  assert (Hf : fits e x) by (eapply k_handle_fits; eauto).
  destruct x as [|[]| |]; try done. cbn in Hf. subst type. split; [done|].
  assert (Hck : ∀ k, known k h → COut (MFunctionRequest FnAdd id name content) ∈ (k_check k c).1 → ∃ k, task_function k = id ∧ submitted_as k name content h).
  { intros k (name1 & content1 & args1 & Hin1 & Hargs1) Hin. unfold k_check in Hin. destruct (k_buffer c !! _); [by apply elem_of_nil in Hin|].
    destruct (k_bodies c !! task_id k) as [[name' content']|] eqn:Eb; [|by apply elem_of_nil in Hin]. apply elem_of_list_singleton in Hin as [= -> -> ->].
    destruct (a_bodies _ _ Hb _ _ _ Eb) as (f2 & args2 & Hin2).
    destruct (submission_unique h _ _ _ _ _ _ _ _ _ (always_inv _ _ _ Hn) Hin1 Hin2) as (<- & <- & <- & <-).
    exists k. split; [done|]. exists args1. done. }
  assert (Hgoal : ∃ k, task_function k = id ∧ submitted_as k name content h); [|destruct Hgoal as (k & ? & ?); exists k; split; [done|by apply submitted_as_app]].
  destruct e; cbn in Hh; try (injection Hh as <- <-; by apply elem_of_nil in Hx).
  - unfold k_step_submit in Hh. destruct (k_flight c !! t) as [[k []]|] eqn:Ef; try (injection Hh as <- <-; by apply elem_of_nil in Hx).
    destruct (a_flight _ _ Hb _ _ _ Ef) as (_ & _ & _ & Hkn). apply (Hck k Hkn). destruct (k_check k c) as [out1 [e1|]]; by injection Hh as <- <-.
  - destruct m; injection Hh as <- <-; try (by apply elem_of_nil in Hx); by apply elem_of_list_singleton in Hx.
  - destruct (k_up c); [|injection Hh as <- <-; by apply elem_of_nil in Hx]. destruct (k_receive m loads c) as [[c1 out1] e1] eqn:E.
    assert (Hx1 : COut (MFunctionRequest FnAdd id name content) ∈ out1).
    { destruct e1; injection Hh as <- <-; [|done]. apply elem_of_app in Hx as [Hx|Hx]; [done|]. by apply elem_of_list_singleton in Hx. }
    clear Hh Hx. assert (Hno : ∀ c1' e1', (c1', [], e1') = (c1, out1, e1) → ∃ k, task_function k = id ∧ submitted_as k name content h) by (intros ?? [= <- <- <-]; by apply elem_of_nil in Hx1).
    destruct m; try exact (Hno _ _ E); cbn [k_receive] in E.
    + unfold k_echo in E. destruct (k_tasks c !! id0) as [k|] eqn:Ek; [|exact (Hno _ _ E)]. destruct status; try exact (Hno _ _ E).
      * cbn zeta in E. destruct (existsb _ _); [|exact (Hno _ _ E)]. destruct (k_state _ !! _) as [[]|]; exact (Hno _ _ E).
      * destruct (a_tasks _ _ Hb _ _ Ek) as (name' & content' & _ & _ & Hkn). apply (Hck k); [eauto|]. destruct (k_check k c) as [out2 [e2|]]; by injection E as <- <- <-.
    + unfold k_result in E. destruct (existsb _ _); [|exact (Hno _ _ E)]. cbn zeta in E.
      destruct status; try exact (Hno _ _ E); destruct loads; try exact (Hno _ _ E); by pose proof (f_set_sets _ _ _ _ _ _ E _ Hx1).
    + exfalso.
      unfold k_graph_result in E. destruct (List.find _ _) as [[g n]|]; [|injection E as <- <- <-; by apply elem_of_nil in Hx1]. cbn zeta in E.
      assert (Hset : ∀ (v : bytes → fvalue) c2, k_enumerate n results (f_set_all (imap (λ i p, (FGraph id0 i, v p)) (take n results)) c2) = (c1, out1, e1) → False).
      { intros v c2 Hv. clear E. destruct (f_set_all _ c2) as [[c3 out3] e3] eqn:E3.
        assert (out3 = out1) as -> by (destruct e3; cbn in Hv; by injection Hv).
        by destruct (f_set_all_sets _ _ _ _ _ E3 _ Hx1) as (? & ? & _ & ?). }
      destruct status; try (injection E as <- <- <-; by apply elem_of_nil in Hx1).
      * destruct loads; [|injection E as <- <- <-; by apply elem_of_nil in Hx1]. by eapply (Hset Value).
      * destruct results as [|p ps]; [injection E as <- <- <-; by apply elem_of_nil in Hx1|]. destruct loads; [|injection E as <- <- <-; by apply elem_of_nil in Hx1]. by eapply (Hset (λ _, Error p)).
    + exfalso. unfold k_function_response in E. destruct status; try (injection E as <- <- <-; by apply elem_of_nil in Hx1);
        (destruct (k_buffer c !! id0) as [ks|]; injection E as <- <- <-; [|by apply elem_of_nil in Hx1]; by apply elem_of_list_fmap in Hx1 as (? & ? & _)).
  - destruct (k_up c); [|injection Hh as <- <-; by apply elem_of_nil in Hx]. destruct (k_exit c) as [[c1 out1] e1] eqn:E.
    destruct (k_exit_ok _ _ _ _ h E) as (_ & _ & Hg & _); [apply Hb|].
    destruct e1; cbn in Hh; injection Hh as <- <-; [apply elem_of_app in Hx as [Hx|Hx]; [|by apply elem_of_list_singleton in Hx]|]; eapply Forall_forall in Hg; eauto; done.
Qed.

(** ** Submissions while connected *)

Record live (c : client) (h : list kentry) : Prop := Live {
  l_flight : ∀ t n, steps t h = Some n → (n < 3)%nat → is_Some (k_flight c !! t) ∧ accepted t h = false;
  l_tasks : ∀ t, is_Some (k_tasks c !! t) ↔ submitted t h = true ∧ accepted t h = false;
  l_futures : ∀ t, t ∈ k_futures c ↔ waits t h = true;
  l_nodup : NoDup (k_futures c);
  l_steps : ∀ t, t ∈ k_futures c → ∃ n, steps t h = Some n ∧ (3 <= n)%nat;
  l_state : ∀ t, t ∈ k_futures c → k_state c !! FTask t = Some FPending ∨ k_state c !! FTask t = Some FRunning ∨ (k_state c !! FTask t = Some FCancelled ∧ existsb (cancels (FTask t)) h = true) }.

Lemma live_frame e c c' h out : live c h → Forall output out → k_flight c' = k_flight c → k_tasks c' = k_tasks c → k_futures c' = k_futures c →
  (∀ t, k_state c' !! FTask t = k_state c !! FTask t) →
  match e with KSubmit _ _ _ _ _ | KStep _ | KRecv (MTaskEcho _ SubmitOK) _ | KRecv (MTaskResult _ _ _ _) _ => False | _ => True end →
  live c' (h ++ CIn e :: out).
Proof.
  intros [L1 L2 L3 L4 L5 L6] Ho F1 F2 F3 F4 He.
  assert (Hst : ∀ t, steps t (h ++ CIn e :: out) = steps t h) by (intros t; rewrite steps_later by done; by destruct e).
  assert (Hsu : ∀ t, submitted t (h ++ CIn e :: out) = submitted t h) by (intros t; rewrite submitted_later by done; destruct e; try done; by rewrite orb_false_r).
  assert (Hac : ∀ t, accepted t (h ++ CIn e :: out) = accepted t h).
  { intros t. rewrite accepted_later by done. destruct e as [| | | | |[]|]; try done; cbn; try by rewrite orb_false_r. destruct status; try done; by rewrite orb_false_r. }
  assert (Hwa : ∀ t, waits t (h ++ CIn e :: out) = waits t h) by (intros t; rewrite waits_later by done; destruct e as [| | | | |[]|]; done).
  split; rewrite ?F1, ?F2, ?F3; try done.
  - intros t n. rewrite Hst, Hac. apply L1.
  - intros t. rewrite Hsu, Hac. apply L2.
  - intros t. rewrite Hwa. apply L3.
  - intros t Ht. rewrite Hst. auto.
  - intros t Ht. rewrite !F4. destruct (L6 t Ht) as [H|[H|[H1 H2]]]; auto. right. right. split; [done|]. rewrite existsb_app. by rewrite H2.
Qed.

Lemma accepted_submitted t h : submitted t h = false → accepted t h = false.
Proof.
  induction h as [|x h IH] using rev_ind; [done|]. intros Hs. unfold submitted in Hs. rewrite existsb_app in Hs. apply orb_false_iff in Hs as [Hs _].
  specialize (IH Hs). unfold accepted in *. rewrite moments_app. cbn [moments_from]. unfold submitted in *. rewrite Hs, andb_false_r. cbn [Nat.add]. rewrite Nat.add_0_r. done.
Qed.
Lemma waits_submitted t h : submitted t h = false → waits t h = false.
Proof.
  induction h as [|x h IH] using rev_ind; [done|]. intros Hs. unfold submitted in Hs. rewrite existsb_app in Hs. apply orb_false_iff in Hs as [Hs _].
  specialize (IH Hs). unfold waits in *. rewrite waits_from_app. cbn [waits_from]. rewrite IH. destruct x as [[]| | |]; cbn; try done.
  - pose proof (steps_submitted t h Hs) as H0. unfold steps in H0. rewrite H0. by rewrite andb_false_r.
  - destruct m; try done. by destruct (String.eqb _ _).
Qed.

Lemma in_put_last t t' l : t' ∈ put_last (String.eqb t) t l ↔ t' = t ∨ t' ∈ l.
Proof.
  unfold put_last. destruct (existsb (String.eqb t) l) eqn:E.
  - apply in_futures in E. rewrite elem_of_list_fmap. split.
    + intros (y & -> & Hy). destruct (String.eqb t y) eqn:Ey; auto.
    + intros [->|H]; [exists t; by rewrite String.eqb_refl|]. exists t'. split; [|done]. destruct (String.eqb t t') eqn:Ey; [|done]. by apply String.eqb_eq in Ey.
  - rewrite elem_of_app, elem_of_list_singleton. tauto.
Qed.
Lemma nodup_put_last t l : NoDup l → NoDup (put_last (String.eqb t) t l).
Proof.
  intros Hl. unfold put_last. destruct (existsb (String.eqb t) l) eqn:E.
  - assert (H : (λ y, if String.eqb t y then t else y) <$> l = l) by (rewrite <-(list_fmap_id l) at 2; apply list_fmap_ext; intros i x _; cbn; destruct (String.eqb t x) eqn:Ex; [|done]; by apply String.eqb_eq in Ex).
    by rewrite H.
  - apply NoDup_app. split_and!; [done| |apply NoDup_singleton]. intros x Hx Hx'. apply elem_of_list_singleton in Hx' as ->.
    apply in_futures in Hx. congruence.
Qed.
Lemma in_pop_key t t' l : t' ∈ pop_key t l ↔ t' ≠ t ∧ t' ∈ l.
Proof.
  unfold pop_key. rewrite !elem_of_list_In, filter_In. rewrite negb_true_iff, String.eqb_neq. tauto.
Qed.
Lemma nodup_pop_key t l : NoDup l → NoDup (pop_key t l).
Proof. rewrite !NoDup_ListNoDup. apply List.NoDup_filter. Qed.

Lemma calm_prefix h e out : connected (h ++ CIn e :: out) = true → connected h = true ∧ e ≠ KExit.
Proof.
  unfold connected. rewrite existsb_app. cbn. rewrite !negb_orb. intros [H1 [H2 H3]%andb_true_iff]%andb_true_iff. split; [done|]. by intros ->.
Qed.
Lemma no_crash c c' m loads h out : k_up c = true → k_handle (KRecv m loads) c = (c', out) → connected (h ++ CIn (KRecv m loads) :: out) = true →
  k_receive m loads c = (c', out, None).
Proof.
  cbn. intros -> Hh Hc. destruct (k_receive m loads c) as [[c1 out1] [e1|]]; injection Hh as <- <-; [|done].
  rewrite app_comm_cons, app_assoc, connected_snoc, andb_false_r in Hc. done.
Qed.

Lemma steps_known h t n : steps t h = Some n → submitted t h = true.
Proof. intros Hs. destruct (submitted t h) eqn:E; [done|]. apply steps_submitted in E. congruence. Qed.

Lemma live_init : live k_init [].
Proof.
  split; try done.
  - intros t. cbn. rewrite lookup_empty. split; [by intros []|by intros []].
  - intros t. cbn. split; [intros H; by apply elem_of_nil in H|done].
  - constructor.
  - intros t Ht. by apply elem_of_nil in Ht.
  - intros t Ht. by apply elem_of_nil in Ht.
Qed.
Lemma live_step e c h c' out : base c h → (connected h = true → live c h) → new_ids (h ++ CIn e :: out) → k_handle e c = (c', out) →
  connected (h ++ CIn e :: out) = true → live c' (h ++ CIn e :: out).
Proof.
  - intros Hb IH Hn Hh Hc. destruct (calm_prefix _ _ _ Hc) as [Hch He]. specialize (IH Hch).
    pose proof (k_handle_out e c) as Ho. rewrite Hh in Ho. cbn in Ho.
    assert (Hup : k_up c = true) by (rewrite (a_up _ _ Hb); done).
    destruct e as [t f name content args|t|m n|g|k|m loads|]; [| | | | | |done].
    + (* submit *)
      apply new_ids_here in Hn. cbn in Hn, Hh. injection Hh as <- <-. destruct IH as [L1 L2 L3 L4 L5 L6]. split; cbn.
      * intros t' n. rewrite steps_later, accepted_later by done. cbn. rewrite orb_false_r. destruct (String.eqb t t') eqn:E.
        -- apply String.eqb_eq in E as <-. intros _ _. rewrite lookup_insert. split; [done|]. by apply accepted_submitted.
        -- apply String.eqb_neq in E. rewrite lookup_insert_ne by done. apply L1.
      * intros t'. rewrite submitted_later, accepted_later by done. cbn. rewrite orb_false_r. destruct (String.eqb t t') eqn:E.
        -- apply String.eqb_eq in E as <-. rewrite lookup_insert, orb_true_r. split; [intros _; split; [done|by apply accepted_submitted]|done].
        -- apply String.eqb_neq in E. rewrite lookup_insert_ne, orb_false_r by done. apply L2.
      * intros t'. rewrite waits_later by done. apply L3.
      * done.
      * intros t' Ht. destruct (L5 _ Ht) as (n & Hs & Hle). rewrite steps_later by done. cbn. destruct (String.eqb t t') eqn:E; [|eauto].
        apply String.eqb_eq in E as <-. apply steps_submitted in Hn. congruence.
      * intros t' Ht. rewrite existsb_app. destruct (L6 t' Ht) as [H|[H|[H1 H2]]]; auto. rewrite H2. auto.
    + (* step of submit *)
      cbn in Hh. unfold k_step_submit in Hh. destruct (k_flight c !! t) as [[k st]|] eqn:Ef.
      * destruct (a_flight _ _ Hb _ _ _ Ef) as (Hid & Hnone & Hst & Hkn). destruct (l_flight _ _ IH t _ Hst) as [_ Hacc]; [destruct st; cbn; lia|].
        assert (Hgen : ∀ c' out, Forall output out → match st with AtRegister => k_flight c' = delete t (k_flight c) | _ => is_Some (k_flight c' !! t) ∧ ∀ t', t' ≠ t → k_flight c' !! t' = k_flight c !! t' end →
          k_tasks c' = k_tasks c → match st with AtRegister => k_futures c' = put_last (String.eqb t) t (k_futures c) ∧ k_state c' = <[FTask t := FPending]> (k_state c) | _ => k_futures c' = k_futures c ∧ k_state c' = k_state c end →
          live c' (h ++ CIn (KStep t) :: out)).
        { clear Hh Hc Ho Hn c' out. intros c' out Ho C1 C2 C3. destruct IH as [L1 L2 L3 L4 L5 L6].
          assert (Hfut : ∀ t', t' ∈ k_futures c' ↔ (st = AtRegister ∧ t' = t) ∨ t' ∈ k_futures c).
          { intros t'. destruct st; [destruct C3 as [-> _]; naive_solver|destruct C3 as [-> _]; naive_solver|]. destruct C3 as [-> _]. rewrite in_put_last. naive_solver. }
          split.
          - intros t' n. rewrite steps_later, accepted_later by done. cbn [step_of accepts andb]. rewrite orb_false_r. destruct (String.eqb t t') eqn:E.
            + apply String.eqb_eq in E as <-. rewrite Hst. cbn. intros [= <-] Hlt. split; [|done]. destruct st; cbn in Hlt; [apply C1|apply C1|lia].
            + apply String.eqb_neq in E. intros Hs Hlt. destruct (L1 _ _ Hs Hlt) as [H1 H2]. split; [|done].
              destruct st; [destruct C1 as [_ C1]; rewrite C1; done|destruct C1 as [_ C1]; rewrite C1; done|]. by rewrite C1, lookup_delete_ne.
          - intros t'. rewrite submitted_later, accepted_later, C2 by done. cbn. rewrite !orb_false_r. apply L2.
          - intros t'. rewrite waits_later by done. cbn [wait_of]. rewrite Hfut. destruct (String.eqb t t') eqn:E; cbn [andb].
            + apply String.eqb_eq in E as <-. rewrite Hst. destruct st; [rewrite bool_decide_eq_false_2 by done|rewrite bool_decide_eq_false_2 by done|rewrite bool_decide_eq_true_2 by done].
              * rewrite <-L3. naive_solver.
              * rewrite <-L3. naive_solver.
              * naive_solver.
            + apply String.eqb_neq in E. rewrite <-L3. naive_solver.
          - destruct st; [by destruct C3 as [-> _]|by destruct C3 as [-> _]|]. destruct C3 as [-> _]. by apply nodup_put_last.
          - intros t' Ht. rewrite steps_later by done. cbn. apply Hfut in Ht as [[-> ->]|Ht].
            + rewrite String.eqb_refl, Hst. cbn. eauto.
            + destruct (L5 _ Ht) as (n & Hs & Hle). destruct (String.eqb t t') eqn:E; [|eauto]. rewrite Hs. cbn. exists (S n). split; [done|lia].
          - intros t' Ht. rewrite existsb_app. apply Hfut in Ht as [[-> ->]|Ht].
            + destruct C3 as [_ ->]. rewrite lookup_insert. auto.
            + destruct (decide (t' = t)) as [->|Hne].
              * destruct (L6 t Ht) as [H|[H|[H1 H2]]]; congruence.
              * assert (Hsame : k_state c' !! FTask t' = k_state c !! FTask t') by (destruct st; [by destruct C3 as [_ ->]|by destruct C3 as [_ ->]|destruct C3 as [_ ->]; rewrite lookup_insert_ne; [done|congruence]]).
                rewrite Hsame. destruct (L6 t' Ht) as [H|[H|[H1 H2]]]; auto. rewrite H2. auto. }
        destruct st.
        -- unfold k_check in Hh. destruct (k_buffer c !! task_function k).
           ++ injection Hh as <- <-. apply Hgen; auto. cbn. rewrite lookup_insert. split; [done|]. intros t' Hne. by rewrite lookup_insert_ne.
           ++ assert (Hin : is_Some (k_tasks c !! t)) by (apply (l_tasks _ _ IH); split; [by eapply steps_known|done]).
              destruct Hin as [k1 Hk1]. destruct (a_tasks _ _ Hb _ _ Hk1) as (name & content & _ & Hbo & _). rewrite Hid, Hbo in Hh.
              injection Hh as <- <-. apply Hgen; auto. cbn. rewrite lookup_insert. split; [done|]. intros t' Hne. by rewrite lookup_insert_ne.
        -- injection Hh as <- <-. apply Hgen; auto. cbn. rewrite lookup_insert. split; [done|]. intros t' Hne. by rewrite lookup_insert_ne.
        -- injection Hh as <- <-. apply Hgen; auto.
      * injection Hh as <- <-. destruct IH as [L1 L2 L3 L4 L5 L6].
        assert (Hst : ∀ n, steps t h = Some n → (3 <= n)%nat).
        { intros n Hs. destruct (decide (n < 3)%nat) as [Hlt|Hge]; [|lia]. destruct (L1 _ _ Hs Hlt) as [[x Hx] _]. congruence. }
        split; try done.
        -- intros t' n. rewrite steps_later, accepted_later by done. cbn [step_of accepts andb]. rewrite orb_false_r. destruct (String.eqb t t') eqn:E; [|apply L1].
           apply String.eqb_eq in E as <-. destruct (steps t h) as [n'|]; [|done]. intros [= <-] Hlt. specialize (Hst _ eq_refl). lia.
        -- intros t'. rewrite submitted_later, accepted_later by done. cbn. rewrite !orb_false_r. apply L2.
        -- intros t'. rewrite waits_later by done. cbn [wait_of]. destruct (String.eqb t t') eqn:E; [|apply L3]. apply String.eqb_eq in E as <-.
           destruct (steps t h) as [n'|]; [|apply L3]. specialize (Hst _ eq_refl). rewrite bool_decide_eq_false_2; [apply L3|]. intros [= ->]. lia.
        -- intros t' Ht. rewrite steps_later by done. cbn. destruct (L5 _ Ht) as (n & Hs & Hle). destruct (String.eqb t t') eqn:E; [|eauto]. rewrite Hs. cbn. exists (S n). split; [done|lia].
        -- intros t' Ht. rewrite existsb_app. destruct (L6 t' Ht) as [H|[H|[H1 H2]]]; auto. rewrite H2. auto.
    + (* get *)
      cbn in Hh. destruct m; injection Hh as <- <-; apply (live_frame _ c); try done. intros t. cbn. by rewrite pending_graph.
    + (* get registers *)
      cbn in Hh. injection Hh as <- <-. apply (live_frame _ c); try done; unfold k_graph_step; by destruct (k_sending c !! g).
    + (* cancel *)
      cbn in Hh. injection Hh as <- <-. destruct IH as [L1 L2 L3 L4 L5 L6].
      assert (Hf : k_flight (k_cancel k c) = k_flight c ∧ k_tasks (k_cancel k c) = k_tasks c ∧ k_futures (k_cancel k c) = k_futures c).
      { unfold k_cancel. destruct (k_state c !! k) as [[]|]; done. }
      destruct Hf as (F1 & F2 & F3). split; rewrite ?F1, ?F2, ?F3; try done.
      * intros t n. rewrite steps_later, accepted_later by done. cbn. rewrite orb_false_r. apply L1.
      * intros t. rewrite submitted_later, accepted_later by done. cbn. rewrite !orb_false_r. apply L2.
      * intros t. rewrite waits_later by done. apply L3.
      * intros t Ht. rewrite steps_later by done. exact (L5 t Ht).
      * intros t Ht. rewrite cancels_later by done. unfold k_cancel. destruct (decide (k = FTask t)) as [->|Hne].
        -- cbn [cancels]. rewrite (bool_decide_eq_true_2 (FTask t = FTask t)) by done. rewrite orb_true_r.
           destruct (L6 t Ht) as [H|[H|[H1 H2]]]; [rewrite H; cbn; rewrite lookup_insert; auto|rewrite H; auto|rewrite H1; auto].
        -- assert (Hsame : k_state (match k_state c !! k with Some FPending => k_with_state (k_graphs c) (<[k := FCancelled]> (k_state c)) c | _ => c end) !! FTask t = k_state c !! FTask t).
           { destruct (k_state c !! k) as [[]|]; try done. cbn. by rewrite lookup_insert_ne. }
           rewrite Hsame. destruct (L6 t Ht) as [H|[H|[H1 H2]]]; auto. rewrite H2. auto.
    + (* a message *)
      pose proof (no_crash _ _ _ _ _ _ Hup Hh Hc) as Hr. destruct m; try discriminate Hr; cbn [k_receive] in Hr.
      * (* echo *)
        unfold k_echo in Hr. destruct (k_tasks c !! id) as [k|] eqn:Ek.
        2:{ injection Hr as <- <-. destruct status; try (by apply (live_frame _ c)). destruct IH as [L1 L2 L3 L4 L5 L6].
            assert (Hno : submitted id h = true → accepted id h = true).
            { intros Hs. destruct (accepted id h) eqn:Ea; [done|]. destruct (proj2 (L2 id)) as [x Hx]; [done|]. congruence. }
            assert (Hac : ∀ t, accepted t (h ++ [CIn (KRecv (MTaskEcho id SubmitOK) loads)]) = accepted t h).
            { intros t. rewrite accepted_later by done. cbn. destruct (String.eqb id t) eqn:E; [|by rewrite orb_false_r]. apply String.eqb_eq in E as <-. cbn.
              destruct (submitted id h); [rewrite Hno by done; done|by rewrite orb_false_r]. }
            split; try done.
            - intros t n. rewrite steps_later, Hac by done. exact (L1 t n).
            - intros t. rewrite submitted_later, Hac by done. cbn. rewrite orb_false_r. apply L2.
            - intros t. rewrite waits_later by done. apply L3.
            - intros t Ht. rewrite steps_later by done. exact (L5 t Ht).
            - intros t Ht. rewrite existsb_app. destruct (L6 t Ht) as [H|[H|[H1 H2]]]; auto. rewrite H2. auto. }
        destruct status; try discriminate Hr; try (injection Hr as <- <-; by apply (live_frame _ c)).
        -- cbn zeta in Hr. set (c0 := k_with _ _ _ _ c) in Hr. destruct (existsb _ _) eqn:Efut; [|done]. apply in_futures in Efut.
           assert (Hgen : k_flight c' = k_flight c ∧ k_tasks c' = delete id (k_tasks c) ∧ k_futures c' = k_futures c ∧ out = [] ∧ (k_state c' = k_state c ∨ k_state c' = <[FTask id := FRunning]> (k_state c))).
           { destruct (k_state c0 !! FTask id) as [[]|]; try discriminate Hr; injection Hr as <- <-; cbn; split_and!; auto. }
           destruct Hgen as (F1 & F2 & F3 & -> & F4). change (k_futures c0) with (k_futures c) in Efut. destruct IH as [L1 L2 L3 L4 L5 L6]. split; rewrite ?F1, ?F2, ?F3; try done.
           ++ intros t n. rewrite steps_later, accepted_later by done. cbn. intros Hs Hlt. destruct (L1 _ _ Hs Hlt) as [H1 H2]. split; [done|].
              rewrite H2. cbn. destruct (String.eqb id t) eqn:E; [|done]. apply String.eqb_eq in E as <-. destruct (L5 _ Efut) as (n' & Hs' & Hle). rewrite Hs in Hs'. injection Hs' as ->. lia.
           ++ intros t. rewrite submitted_later, accepted_later by done. cbn. rewrite orb_false_r. destruct (String.eqb id t) eqn:E.
              ** apply String.eqb_eq in E as <-. rewrite lookup_delete. cbn. split; [by intros []|]. intros [Hs Ha]. rewrite Hs, orb_true_r in Ha. done.
              ** apply String.eqb_neq in E. rewrite lookup_delete_ne by done. cbn. rewrite orb_false_r. apply L2.
           ++ intros t. rewrite waits_later by done. apply L3.
           ++ intros t Ht. rewrite steps_later by done. exact (L5 t Ht).
           ++ intros t Ht. rewrite existsb_app. destruct (decide (t = id)) as [->|Hne].
              ** destruct F4 as [->| ->]; [|rewrite lookup_insert; auto]. destruct (L6 id Ht) as [H|[H|[H1 H2]]]; auto. rewrite H2. auto.
              ** assert (Hs : k_state c' !! FTask t = k_state c !! FTask t) by (destruct F4 as [->| ->]; [done|rewrite lookup_insert_ne; [done|congruence]]).
                 rewrite Hs. destruct (L6 t Ht) as [H|[H|[H1 H2]]]; auto. rewrite H2. auto.
        -- destruct (k_check k c) as [out1 [e1|]]; [done|]. injection Hr as <- <-. by apply (live_frame _ c).
      * (* result *)
        unfold k_result in Hr. destruct (existsb _ _) eqn:Efut.
        -- apply in_futures in Efut. cbn zeta in Hr. set (c0 := k_with _ _ _ _ c) in Hr.
           assert (Hgen : k_flight c' = k_flight c ∧ k_tasks c' = k_tasks c ∧ k_futures c' = pop_key id (k_futures c) ∧ ∀ k, k ≠ FTask id → k_state c' !! k = k_state c !! k).
           { assert (Hset : ∀ v, f_set (FTask id) v c0 = (c', out, None) → k_flight c' = k_flight c ∧ k_tasks c' = k_tasks c ∧ k_futures c' = pop_key id (k_futures c) ∧ ∀ k, k ≠ FTask id → k_state c' !! k = k_state c !! k).
             { intros v Hv. destruct (f_set_ok _ _ _ _ _ _ h Hv (a_once _ _ Hb)) as (_ & (s & -> & Hs) & _). cbn. split_and!; auto. }
             destruct status; try (injection Hr as <- <-; done); destruct loads; try done; by eapply Hset. }
           destruct Hgen as (F1 & F2 & F3 & F4). destruct IH as [L1 L2 L3 L4 L5 L6]. split; rewrite ?F1, ?F2, ?F3; try done.
           ++ intros t n. rewrite steps_later, accepted_later by done. cbn. rewrite orb_false_r. apply L1.
           ++ intros t. rewrite submitted_later, accepted_later by done. cbn. rewrite !orb_false_r. apply L2.
           ++ intros t. rewrite waits_later by done. cbn. rewrite in_pop_key, L3. destruct (String.eqb id t) eqn:E; [apply String.eqb_eq in E as <-; naive_solver|]. apply String.eqb_neq in E. naive_solver.
           ++ by apply nodup_pop_key.
           ++ intros t [_ Ht]%in_pop_key. rewrite steps_later by done. exact (L5 t Ht).
           ++ intros t [Hne Ht]%in_pop_key. rewrite existsb_app, F4 by congruence. destruct (L6 t Ht) as [H|[H|[H1 H2]]]; auto. rewrite H2. auto.
        -- injection Hr as <- <-. destruct IH as [L1 L2 L3 L4 L5 L6]. split; try done.
           ++ intros t n. rewrite steps_later, accepted_later by done. cbn. rewrite orb_false_r. apply L1.
           ++ intros t. rewrite submitted_later, accepted_later by done. cbn. rewrite !orb_false_r. apply L2.
           ++ intros t. rewrite waits_later by done. cbn. destruct (String.eqb id t) eqn:E; [|apply L3]. apply String.eqb_eq in E as <-. split; [|done]. intros Ht. apply in_futures in Ht. congruence.
           ++ intros t Ht. rewrite steps_later by done. exact (L5 t Ht).
           ++ intros t Ht. rewrite existsb_app. destruct (L6 t Ht) as [H|[H|[H1 H2]]]; auto. rewrite H2. auto.
      * (* graph result *)
        unfold k_graph_result in Hr. destruct (List.find _ _) as [[g n]|]; [|injection Hr as <- <-; by apply (live_frame _ c)]. cbn zeta in Hr. set (c0 := k_with_state _ _ c) in Hr.
        assert (Hset : ∀ (v : bytes → fvalue), k_enumerate n results (f_set_all (imap (λ i p, (FGraph id i, v p)) (take n results)) c0) = (c', out, None) → live c' (h ++ CIn (KRecv (MGraphTaskResult id status results) loads) :: out)).
        { intros v Hv. clear Hr. destruct (f_set_all _ c0) as [[c1 out1] e1] eqn:E1. assert (c1 = c' ∧ out1 = out) as [-> ->] by (destruct e1; cbn in Hv; by injection Hv).
          destruct (f_set_all_ok _ _ _ _ _ h E1 (a_once _ _ Hb)) as (_ & (s & -> & Hs) & _). apply (live_frame _ c); try done. intros t. cbn. apply Hs.
          intros (kv & Hk & Hkv)%elem_of_list_fmap. destruct kv as [k2 v2]. apply elem_of_lookup_imap in Hkv as (i & p & [= -> ->] & _). done. }
        destruct status; try (injection Hr as <- <-; by apply (live_frame _ c)).
        -- destruct loads; [|done]. by apply (Hset Value).
        -- destruct results as [|p ps]; [done|]. destruct loads; [|done]. by apply (Hset (λ _, Error p)).
      * (* function response *)
        unfold k_function_response in Hr. destruct status; try discriminate Hr;
          (destruct (k_buffer c !! id) as [ks|]; injection Hr as <- <-; by apply (live_frame _ c)).
Qed.
Lemma live_run es c h : k_run es = (c, h) → new_ids h → base c h ∧ (connected h = true → live c h).
Proof. apply (k_ind (λ c h, connected h = true → live c h)); [intros _; apply live_init|]. intros. by eapply live_step. Qed.

(** ** Tasks owed to the scheduler *)

Definition named (t : bytes) (k : task) : bool := String.eqb (task_id k) t.
Definition buf (c : client) (f : bytes) : list task := default [] (k_buffer c !! f).

Lemma asked_submitted t h : submitted t h = false → asked_again t h = 0%nat.
Proof.
  induction h as [|x h IH] using rev_ind; [done|]. intros Hs. unfold submitted in Hs. rewrite existsb_app in Hs. apply orb_false_iff in Hs as [Hs _].
  specialize (IH Hs). unfold asked_again in *. rewrite moments_app, IH. cbn [moments_from]. unfold submitted at 1. rewrite Hs, andb_false_r. done.
Qed.
Lemma known_unique k k' h : new_ids h → known k h → known k' h → task_id k = task_id k' → k = k'.
Proof. intros Hn (n1 & c1 & H1) (n2 & c2 & H2) Ht. by destruct (submitted_as_unique _ _ _ _ _ _ _ Hn H1 H2 Ht). Qed.
Lemma named_sends t ks : occurrences (sends t) ((λ k, COut (MTask k)) <$> ks) = occurrences (named t) ks.
Proof. induction ks as [|k ks IH]; [done|]. rewrite fmap_cons, !occ_cons, IH. done. Qed.
Lemma no_sends e out t : (∀ x, x ∈ out → fits e x) → (∀ st f name content loads, e = KRecv (MFunctionResponse st f name content) loads → False) → occurrences (sends t) out = 0%nat.
Proof.
  intros Hf He. apply occ_none. intros x Hx. specialize (Hf x Hx). destruct x as [|[]| |]; try done. destruct Hf as (st & name & content & loads & -> & _).
  by destruct (He _ _ _ _ _ eq_refl).
Qed.
Lemma owed_later t h e out : Forall output out → owed t (h ++ CIn e :: out) =
  ((if match step_of t (steps t h) (CIn e) with Some n => (2 <=? n)%nat | None => false end then 1 else 0) +
   (asked_again t h + if refuses t (CIn e) && submitted t h && negb (accepted t h) then 1 else 0))%nat.
Proof. intros Ho. unfold owed. by rewrite buffered_later, asked_later by done. Qed.

Lemma owed_same t h e out : Forall output out → (∀ n, step_of t n (CIn e) = n) → refuses t (CIn e) = false → owed t (h ++ CIn e :: out) = owed t h.
Proof. intros Ho Hs Hr. rewrite owed_later by done. rewrite Hs, Hr. cbn. by rewrite Nat.add_0_r. Qed.
Definition tallied (c : client) (h : list kentry) : Prop :=
  ∀ k, known k h → (occurrences (named (task_id k)) (buf c (task_function k)) + occurrences (sends (task_id k)) h)%nat = owed (task_id k) h.

Lemma known_before k h e out : known k (h ++ CIn e :: out) → Forall output out → match e with KSubmit _ _ _ _ _ => False | _ => True end → known k h.
Proof.
  intros (name & content & args & Hin & Ha) Ho He. exists name, content, args. split; [|done]. apply elem_of_app in Hin as [Hin|Hin]; [done|].
  apply elem_of_cons in Hin as [Hin|Hin]; [by injection Hin as <-|]. eapply Forall_forall in Ho; [|exact Hin]. done.
Qed.
Lemma k_append_buf k c f : buf (k_append k c) f = if decide (f = task_function k) then buf c f ++ [k] else buf c f.
Proof. unfold buf, k_append. cbn. destruct (decide (f = task_function k)) as [->|Hne]; [by rewrite lookup_insert|by rewrite lookup_insert_ne]. Qed.

Lemma tallied_step e c h c' out : base c h → (connected h = true → live c h) → (connected h = true → tallied c h) → new_ids (h ++ CIn e :: out) → k_handle e c = (c', out) →
  connected (h ++ CIn e :: out) = true → tallied c' (h ++ CIn e :: out).
Proof.
  intros Hb IHl IH Hn Hh Hc. destruct (calm_prefix _ _ _ Hc) as [Hch He]. specialize (IH Hch). specialize (IHl Hch).
  pose proof (k_handle_out e c) as Ho. rewrite Hh in Ho. cbn in Ho. pose proof (k_handle_fits _ _ _ _ _ Hb Hh) as Hfit.
  assert (Hup : k_up c = true) by (rewrite (a_up _ _ Hb); done).
  assert (Hnh : new_ids h) by exact (always_inv _ _ _ Hn).
  (* nothing changes *)
  assert (Hquiet : (∀ f, buf c' f = buf c f) → (∀ st f name content loads, e = KRecv (MFunctionResponse st f name content) loads → False) →
    match e with KSubmit _ _ _ _ _ => False | _ => True end →
    (∀ k, known k h → owed (task_id k) (h ++ CIn e :: out) = owed (task_id k) h) → tallied c' (h ++ CIn e :: out)).
  { intros Hbuf Hnf Hns How k Hk. apply known_before in Hk; [|done|done]. rewrite How, Hbuf, occ_later by done. cbn [sends]. rewrite (no_sends _ _ _ Hfit Hnf). rewrite <-(IH k Hk). lia. }
  (* one task is added to its buffer *)
  assert (Happ : ∀ k, known k h → (∀ f, buf c' f = buf (k_append k c) f) → (∀ st f name content loads, e = KRecv (MFunctionResponse st f name content) loads → False) →
    match e with KSubmit _ _ _ _ _ => False | _ => True end →
    (∀ t, owed t (h ++ CIn e :: out) = (owed t h + if String.eqb (task_id k) t then 1 else 0)%nat) → tallied c' (h ++ CIn e :: out)).
  { intros k Hkn Hbuf Hnf Hns How k' Hk'. apply known_before in Hk'; [|done|done]. rewrite How, Hbuf, occ_later, k_append_buf by done. cbn [sends]. rewrite (no_sends _ _ _ Hfit Hnf). rewrite <-(IH k' Hk').
    destruct (String.eqb (task_id k) (task_id k')) eqn:E.
    - apply String.eqb_eq in E. rewrite <-(known_unique k k' h Hnh Hkn Hk' E). rewrite decide_True by done. rewrite occ_app, occ_one. unfold named at 2. rewrite String.eqb_refl. lia.
    - destruct (decide _) as [Hd|Hd]; [|lia]. rewrite occ_app, occ_one. unfold named at 2. rewrite E. lia. }
  assert (Hbk : ∀ k, known k h → ∀ k', k' ∈ buf c (task_function k) → known k' h).
  { intros k _ k' Hin. unfold buf in Hin. destruct (k_buffer c !! task_function k) as [ks|] eqn:Eb; [|by apply elem_of_nil in Hin]. destruct (a_buffer _ _ Hb _ _ Eb) as [_ H]. by apply H. }
  destruct e as [t f name content args|t|m n|g|k|m loads|]; [| | | | | |done].
  - (* submit *)
    pose proof (new_ids_here _ _ _ Hn) as Hnew. cbn in Hnew, Hh. injection Hh as <- <-. intros k Hk.
    rewrite owed_later, occ_later by done. cbn [sends refuses andb step_of]. rewrite occ_nil, !Nat.add_0_r.
    change (buf (k_submit t f name content args c) (task_function k)) with (buf c (task_function k)). destruct (String.eqb t (task_id k)) eqn:E.
    + apply String.eqb_eq in E. rewrite <-E in *. rewrite asked_submitted by done. cbn.
      rewrite (occ_none (named t)), (occ_none (sends t)); [done| |].
      * intros x Hx. destruct x as [|[]| |]; try done. cbn. destruct (a_sent _ _ Hb _ Hx) as (n1 & c1 & Hs). apply submitted_as_submitted in Hs.
        apply String.eqb_neq. intros Heq. congruence.
      * intros x Hx. unfold buf in Hx. destruct (k_buffer c !! task_function k) as [ks|] eqn:Eb; [|by apply elem_of_nil in Hx]. destruct (a_buffer _ _ Hb _ _ Eb) as [_ Hkk].
        destruct (Hkk _ Hx) as (_ & n1 & c1 & Hs). apply submitted_as_submitted in Hs. apply String.eqb_neq. intros Heq. congruence.
    + apply String.eqb_neq in E. apply (IH k).
      { destruct Hk as (n1 & c1 & a1 & Hin & Ha). exists n1, c1, a1. split; [|done]. apply elem_of_app in Hin as [Hin|Hin]; [done|]. apply elem_of_list_singleton in Hin. congruence. }
  - (* a step of submit *)
    cbn in Hh. unfold k_step_submit in Hh. destruct (k_flight c !! t) as [[k st]|] eqn:Ef.
    + destruct (a_flight _ _ Hb _ _ _ Ef) as (Hid & Hnone & Hst & Hkn).
      assert (How : ∀ t', owed t' (h ++ CIn (KStep t) :: out) = (owed t' h + match st with AtAppend => if String.eqb t t' then 1 else 0 | _ => 0 end)%nat).
      { intros t'. rewrite owed_later by done. cbn [refuses andb step_of]. rewrite Nat.add_0_r. unfold owed, buffered. destruct (String.eqb t t') eqn:E; [|destruct st; lia].
        apply String.eqb_eq in E as <-. rewrite Hst. destruct st; cbn; lia. }
      destruct st.
      * apply Hquiet; try done; [|intros k' _; rewrite How; lia]. intros f. destruct (k_check k c) as [out1 [e1|]]; by injection Hh as <- <-.
      * injection Hh as <- <-. apply (Happ k); try done. intros t'. rewrite How, Hid. done.
      * injection Hh as <- <-. apply Hquiet; try done. intros k' _. rewrite How. lia.
    + injection Hh as <- <-. apply Hquiet; try done. intros k' _. rewrite owed_later by done. cbn [refuses andb step_of]. rewrite Nat.add_0_r. unfold owed, buffered.
      destruct (String.eqb t (task_id k')) eqn:E; [|done]. apply String.eqb_eq in E as <-. destruct (steps t h) as [n|] eqn:Es; [|done].
      assert (Hge : (3 <= n)%nat). { destruct (decide (n < 3)%nat) as [Hlt|Hge]; [|lia]. destruct (l_flight _ _ IHl _ _ Es Hlt) as [[x Hx] _]. congruence. }
      cbn. destruct n as [|[|[|n]]]; try lia; done.
  - (* get *)
    cbn in Hh. apply Hquiet; try done; [|intros k' _; by apply owed_same]. intros f. destruct m; by injection Hh as <- <-.
  - cbn in Hh. injection Hh as <- <-. apply Hquiet; try done; [|intros k' _; by apply owed_same]. intros f. unfold k_graph_step. by destruct (k_sending c !! g).
  - cbn in Hh. injection Hh as <- <-. apply Hquiet; try done; [|intros k' _; by apply owed_same]. intros f. unfold k_cancel. by destruct (k_state c !! k) as [[]|].
  - (* a message *)
    pose proof (no_crash _ _ _ _ _ _ Hup Hh Hc) as Hr. destruct m; try discriminate Hr; cbn [k_receive] in Hr.
    + (* echo *)
      unfold k_echo in Hr. destruct (k_tasks c !! id) as [k|] eqn:Ek.
      2:{ injection Hr as <- <-. apply Hquiet; try done. intros k' _. destruct status; try (by apply owed_same). rewrite owed_later by done. cbn. unfold owed, buffered. destruct (String.eqb id (task_id k')) eqn:E; [|by rewrite Nat.add_0_r].
          apply String.eqb_eq in E as <-. destruct (submitted id h) eqn:Es, (accepted id h) eqn:Ea; cbn; try (by rewrite Nat.add_0_r).
          destruct (proj2 (l_tasks _ _ IHl id)) as [x Hx]; [done|]. congruence. }
      destruct status; try discriminate Hr.
      * apply Hquiet; try done; [|intros k' _; by apply owed_same]. intros f. cbn zeta in Hr. destruct (existsb _ _); [|done].
        destruct (k_state _ !! _) as [[]|]; try discriminate Hr; by injection Hr as <- <-.
      * injection Hr as <- <-. apply Hquiet; try done. intros k' _. by apply owed_same.
      * destruct (a_tasks _ _ Hb _ _ Ek) as (name & content & Hid & Hbo & Hsub). destruct (k_check k c) as [out1 [e1|]]; [done|]. injection Hr as <- <-.
        apply (Happ k); try done; [by exists name, content|]. intros t. rewrite owed_later by done. cbn. rewrite Hid. unfold owed, buffered. destruct (String.eqb id t) eqn:E; [|by rewrite !Nat.add_0_r].
        apply String.eqb_eq in E as <-. destruct (proj1 (l_tasks _ _ IHl id)) as [-> ->]; [eauto|]. cbn. lia.
    + (* result *)
      apply Hquiet; try done; [|intros k' _; by apply owed_same]. intros f. unfold k_result in Hr. destruct (existsb _ _); [|by injection Hr as <- <-]. cbn zeta in Hr. set (c0 := k_with _ _ _ _ c) in Hr.
      assert (Hset : ∀ v, f_set (FTask id) v c0 = (c', out, None) → buf c' f = buf c f).
      { intros v Hv. destruct (f_set_ok _ _ _ _ _ _ h Hv (a_once _ _ Hb)) as (_ & (s & -> & Hs) & _). done. }
      destruct status; try (injection Hr as <- <-; done); destruct loads; try done; by eapply Hset.
    + (* graph result *)
      apply Hquiet; try done; [|intros k' _; by apply owed_same]. intros f.
      unfold k_graph_result in Hr. destruct (List.find _ _) as [[g n]|]; [|by injection Hr as <- <-]. cbn zeta in Hr. set (c0 := k_with_state _ _ c) in Hr.
      assert (Hset : ∀ (v : bytes → fvalue), k_enumerate n results (f_set_all (imap (λ i p, (FGraph id i, v p)) (take n results)) c0) = (c', out, None) → buf c' f = buf c f).
      { intros v Hv. clear Hr. destruct (f_set_all _ c0) as [[c1 out1] e1] eqn:E1. assert (c1 = c' ∧ out1 = out) as [-> ->] by (destruct e1; cbn in Hv; by injection Hv).
        destruct (f_set_all_ok _ _ _ _ _ h E1 (a_once _ _ Hb)) as (_ & (s & -> & Hs) & _). done. }
      destruct status; try (injection Hr as <- <-; done).
      * destruct loads; [|done]. by apply (Hset Value).
      * destruct results as [|p ps]; [done|]. destruct loads; [|done]. by apply (Hset (λ _, Error p)).
    + (* function response *)
      assert (Hpos : positive status = true) by (unfold k_function_response in Hr; by destruct status).
      assert (Hx : out = (λ k, COut (MTask k)) <$> buf c id ∧ ∀ f, buf c' f = if decide (f = id) then [] else buf c f).
      { unfold k_function_response in Hr. unfold buf. destruct (k_buffer c !! id) as [ks|] eqn:Eb.
        - destruct status; try done; injection Hr as <- <-; (split; [done|]); intros f; cbn; (destruct (decide (f = id)) as [->|Hne]; [by rewrite lookup_delete|by rewrite lookup_delete_ne]).
        - destruct status; try done; injection Hr as <- <-; (split; [done|]); intros f; (destruct (decide (f = id)) as [->|Hne]; [by rewrite Eb|done]). }
      destruct Hx as [-> Hbuf]. intros k Hk. apply known_before in Hk; [|done|done]. rewrite owed_later, occ_later, named_sends, Hbuf by done.
      cbn [step_of refuses andb sends]. rewrite !Nat.add_0_r. etransitivity; [|exact (IH k Hk)]. destruct (decide (task_function k = id)) as [<-|Hne]; [rewrite occ_nil; lia|].
      rewrite (occ_none (named _) (buf c id)); [lia|]. intros k' Hk'. apply String.eqb_neq. intros Heq. unfold buf in Hk'.
      destruct (k_buffer c !! id) as [ks|] eqn:Eb; [|by apply elem_of_nil in Hk']. destruct (a_buffer _ _ Hb _ _ Eb) as [_ H]. destruct (H _ Hk') as [Hf Hkn].
      apply Hne. by rewrite <-(known_unique k' k h Hnh Hkn Hk Heq).
Qed.
Lemma tallied_run es c h : k_run es = (c, h) → new_ids h → base c h ∧ (connected h = true → live c h) ∧ (connected h = true → tallied c h).
Proof.
  apply (k_ind (λ c h, (connected h = true → live c h) ∧ (connected h = true → tallied c h))).
  - split; intros _; [apply live_init|]. intros k (name & content & args & Hin & _). by apply elem_of_nil in Hin.
  - intros e c1 h1 c' out Hb [H1 H2] Hn Hh. split; [by eapply live_step|by eapply tallied_step].
Qed.

(** ** Graph calls while connected *)

Record glive (c : client) (h : list kentry) : Prop := GLive {
  g_graphs : ∀ g n, (g, n) ∈ k_graphs c ↔ graph_waits g h = Waits n;
  g_nodup : NoDup (k_graphs c).*1;
  g_sending : ∀ g n, k_sending c !! g = Some n ↔ graph_waits g h = Asked n;
  g_state : ∀ g n i, graph_waits g h = Asked n ∨ graph_waits g h = Waits n → (i < n)%nat →
    k_state c !! FGraph g i = Some FPending ∨ (k_state c !! FGraph g i = Some FCancelled ∧ existsb (cancels (FGraph g i)) h = true) }.

Lemma glive_frame e c c' h out : glive c h → Forall output out → k_graphs c' = k_graphs c → k_sending c' = k_sending c →
  (∀ g i, k_state c' !! FGraph g i = k_state c !! FGraph g i) →
  match e with KGraph (MGraphTask _ _ _ _) _ | KGraphStep _ | KRecv (MGraphTaskResult _ _ _) _ => False | _ => True end →
  glive c' (h ++ CIn e :: out).
Proof.
  intros [G1 G2 G3 G4] Ho F1 F2 F3 He.
  assert (Hg : ∀ g, graph_waits g (h ++ CIn e :: out) = graph_waits g h) by (intros g; rewrite graph_later by done; destruct e as [| |[]| | |[]|]; done).
  split; rewrite ?F1, ?F2; try done.
  - intros g n. rewrite Hg. apply G1.
  - intros g n. rewrite Hg. apply G3.
  - intros g n i. rewrite Hg, F3, existsb_app. intros Hw Hi. destruct (G4 g n i Hw Hi) as [H|[H1 H2]]; [auto|]. rewrite H2. auto.
Qed.
Lemma graph_asked g h : existsb (asks_graph g) h = false → graph_waits g h = NoCall.
Proof.
  induction h as [|x h IH] using rev_ind; [done|]. rewrite existsb_app. cbn. rewrite orb_false_r. intros [Hh Hx]%orb_false_iff.
  unfold graph_waits in *. rewrite foldl_app. rewrite (IH Hh). cbn. destruct x as [[]| | |]; try done.
  - cbn in *. destruct m; try done. by rewrite Hx.
  - cbn. by destruct (String.eqb _ _).
  - cbn. destruct m; try done. by destruct (String.eqb _ _).
Qed.
Lemma find_graph g l : NoDup l.*1 → List.find (λ x, String.eqb x.1 g) l = None ∨ ∃ n, List.find (λ x, String.eqb x.1 g) l = Some (g, n) ∧ (g, n) ∈ (l : list (bytes * nat)).
Proof.
  intros _. induction l as [|[g' n'] l IH]; [by left|]. cbn. destruct (String.eqb g' g) eqn:E.
  - apply String.eqb_eq in E as ->. right. exists n'. split; [done|left].
  - destruct IH as [->|(n & -> & Hin)]; [by left|]. right. exists n. split; [done|by right].
Qed.
Lemma find_graph_in g n (l : list (bytes * nat)) : NoDup l.*1 → (g, n) ∈ l → List.find (λ x, String.eqb x.1 g) l = Some (g, n).
Proof.
  intros Hn Hin. destruct (find_graph g l Hn) as [Hf|(n' & Hf & Hin')].
  - exfalso. pose proof (List.find_none _ _ Hf (g, n)) as H. cbn in H. rewrite String.eqb_refl in H. apply elem_of_list_In in Hin. by specialize (H Hin).
  - rewrite Hf. f_equal. f_equal. clear Hf. apply elem_of_list_lookup in Hin as [i Hi]. apply elem_of_list_lookup in Hin' as [j Hj].
    assert (i = j) as ->; [|congruence]. apply (NoDup_lookup l.*1 i j g Hn); by rewrite list_lookup_fmap, ?Hi, ?Hj.
Qed.
Lemma in_pop_graph g x l : x ∈ pop_graph g l ↔ x.1 ≠ g ∧ x ∈ l.
Proof. unfold pop_graph. rewrite !elem_of_list_In, filter_In. rewrite negb_true_iff, String.eqb_neq. tauto. Qed.
Lemma nodup_pop_graph g (l : list (bytes * nat)) : NoDup l.*1 → NoDup (pop_graph g l).*1.
Proof.
  induction l as [|x l IH]; [done|]. rewrite fmap_cons, NoDup_cons. intros [Hx Hl]. unfold pop_graph. cbn [List.filter]. destruct (negb _); [|by apply IH].
  rewrite fmap_cons, NoDup_cons. split; [|by apply IH]. intros Hin. apply Hx. apply elem_of_list_fmap in Hin as (y & Hy & Hin). apply in_pop_graph in Hin as [_ Hin].
  apply elem_of_list_fmap. eauto.
Qed.
Lemma put_last_new g n (l : list (bytes * nat)) : (∀ n, (g, n) ∉ l) → put_last (λ x, String.eqb g x.1) (g, n) l = l ++ [(g, n)].
Proof.
  intros Hn. unfold put_last. rewrite existsb_none; [done|]. intros [g' n'] Hx. cbn. apply String.eqb_neq. intros <-. by apply (Hn n').
Qed.

Lemma glive_init : glive k_init [].
Proof.
  split; try done.
  - intros g n. cbn. split; [intros H; by apply elem_of_nil in H|done].
  - constructor.
  - intros g n i []; done.
Qed.
Ltac gframe c := apply (glive_frame _ c); try done; intros; cbn; by rewrite lookup_insert_ne.
Lemma glive_step e c h c' out : base c h → (connected h = true → glive c h) → new_ids (h ++ CIn e :: out) → k_handle e c = (c', out) →
  connected (h ++ CIn e :: out) = true → glive c' (h ++ CIn e :: out).
Proof.
  intros Hb IH Hn Hh Hc. destruct (calm_prefix _ _ _ Hc) as [Hch He]. specialize (IH Hch).
  pose proof (k_handle_out e c) as Ho. rewrite Hh in Ho. cbn in Ho.
  assert (Hup : k_up c = true) by (rewrite (a_up _ _ Hb); done).
  destruct e as [t f name content args|t|m n|g|k|m loads|]; [| | | | | |done].
  - cbn in Hh. injection Hh as <- <-. gframe c.
  - cbn in Hh. unfold k_step_submit in Hh. destruct (k_flight c !! t) as [[k []]|]; [destruct (k_check k c) as [out1 [e1|]]| | |]; injection Hh as <- <-; gframe c.
  - (* get *)
    pose proof (new_ids_here _ _ _ Hn) as Hnew. destruct m; cbn in Hh; injection Hh as <- <-; try (gframe c). cbn in Hnew.
    destruct IH as [G1 G2 G3 G4]. pose proof (graph_asked _ _ Hnew) as Hno.
    split; cbn; try done.
    + intros g' n'. rewrite G1, graph_later by done. cbn. destruct (String.eqb id g') eqn:E; [|done]. apply String.eqb_eq in E as <-. rewrite Hno. done.
    + intros g' n'. rewrite graph_later by done. cbn. destruct (String.eqb id g') eqn:E.
      * apply String.eqb_eq in E as <-. rewrite lookup_insert. naive_solver.
      * apply String.eqb_neq in E. rewrite lookup_insert_ne by done. apply G3.
    + intros g' n' i. rewrite graph_later, pending_graph, existsb_app by done. cbn [graph_of]. destruct (String.eqb id g') eqn:E.
      * apply String.eqb_eq in E as <-. intros [[= ->]|]; [|done]. intros Hi. rewrite bool_decide_eq_true_2 by done. auto.
      * apply String.eqb_neq in E. intros Hw Hi. rewrite bool_decide_eq_false_2 by (intros [-> _]; done). destruct (G4 _ _ _ Hw Hi) as [H|[H1 H2]]; [auto|]. rewrite H2. auto.
  - (* get registers *)
    cbn in Hh. injection Hh as <- <-. destruct IH as [G1 G2 G3 G4]. unfold k_graph_step. destruct (k_sending c !! g) as [n|] eqn:Es.
    + pose proof (proj1 (G3 g n) Es) as Hw.
      assert (Hnot : ∀ n, (g, n) ∉ k_graphs c) by (intros n' Hin; apply G1 in Hin; congruence).
      split; cbn.
      * intros g' n'. rewrite put_last_new by done. rewrite elem_of_app, elem_of_list_singleton, graph_later by done. cbn. destruct (String.eqb g g') eqn:E.
        -- apply String.eqb_eq in E as <-. rewrite Hw. split; [intros [Hin|[= ->]]; [by destruct (Hnot n')|done]|intros [= ->]; auto].
        -- apply String.eqb_neq in E. rewrite <-G1. naive_solver.
      * rewrite put_last_new by done. rewrite fmap_app. apply NoDup_app. split_and!; [done| |apply NoDup_singleton]. intros x Hx Hx'. apply elem_of_list_singleton in Hx' as ->.
        apply elem_of_list_fmap in Hx as ([g2 n2] & [= ->] & Hin). by destruct (Hnot n2).
      * intros g' n'. rewrite graph_later by done. cbn. destruct (String.eqb g g') eqn:E.
        -- apply String.eqb_eq in E as <-. rewrite lookup_delete, Hw. done.
        -- apply String.eqb_neq in E. rewrite lookup_delete_ne by done. apply G3.
      * intros g' n' i. rewrite graph_later, existsb_app by done. cbn [graph_of]. intros Hw' Hi.
        assert (Hold : graph_waits g' h = Asked n' ∨ graph_waits g' h = Waits n').
        { destruct (String.eqb g g') eqn:E; [|done]. apply String.eqb_eq in E as <-. rewrite Hw in Hw'. destruct Hw' as [|[= ->]]; [done|]. auto. }
        destruct (G4 _ _ _ Hold Hi) as [H|[H1 H2]]; [auto|]. rewrite H2. auto.
    + assert (Hg : ∀ g', graph_waits g' (h ++ [CIn (KGraphStep g)]) = graph_waits g' h).
      { intros g'. rewrite graph_later by done. cbn. destruct (String.eqb g g') eqn:E; [|done]. apply String.eqb_eq in E as <-.
        destruct (graph_waits g h) eqn:Ew; try done. apply G3 in Ew. congruence. }
      split; try done.
      * intros g' n'. rewrite Hg. apply G1.
      * intros g' n'. rewrite Hg. apply G3.
      * intros g' n' i. rewrite Hg, existsb_app. intros Hw Hi. destruct (G4 _ _ _ Hw Hi) as [H|[H1 H2]]; [auto|]. rewrite H2. auto.
  - (* cancel *)
    cbn in Hh. injection Hh as <- <-. destruct IH as [G1 G2 G3 G4].
    assert (Hf : k_graphs (k_cancel k c) = k_graphs c ∧ k_sending (k_cancel k c) = k_sending c).
    { unfold k_cancel. destruct (k_state c !! k) as [[]|]; done. }
    destruct Hf as (F1 & F2). split; rewrite ?F1, ?F2; try done.
    + intros g n. rewrite graph_later by done. apply G1.
    + intros g n. rewrite graph_later by done. apply G3.
    + intros g n i. rewrite graph_later, cancels_later by done. cbn [graph_of]. intros Hw Hi. destruct (decide (k = FGraph g i)) as [->|Hne].
      * cbn [cancels]. rewrite (bool_decide_eq_true_2 (FGraph g i = FGraph g i)) by done. rewrite orb_true_r. unfold k_cancel.
        destruct (G4 _ _ _ Hw Hi) as [H|[H1 H2]]; [rewrite H; cbn; rewrite lookup_insert; auto|rewrite H1; auto].
      * assert (Hsame : k_state (k_cancel k c) !! FGraph g i = k_state c !! FGraph g i).
        { unfold k_cancel. destruct (k_state c !! k) as [[]|]; try done. cbn. by rewrite lookup_insert_ne. }
        rewrite Hsame. destruct (G4 _ _ _ Hw Hi) as [H|[H1 H2]]; [auto|]. rewrite H2. auto.
  - pose proof (no_crash _ _ _ _ _ _ Hup Hh Hc) as Hr. destruct m; try discriminate Hr; cbn [k_receive] in Hr.
    + unfold k_echo in Hr. destruct (k_tasks c !! id) as [k|] eqn:Ek; [|injection Hr as <- <-; gframe c].
      destruct status; try discriminate Hr.
      * cbn zeta in Hr. destruct (existsb _ _); [|done]. destruct (k_state _ !! _) as [[]|]; try discriminate Hr; injection Hr as <- <-; gframe c.
      * injection Hr as <- <-. gframe c.
      * destruct (k_check k c) as [out1 [e1|]]; [done|]. injection Hr as <- <-. gframe c.
    + unfold k_result in Hr. destruct (existsb _ _); [|injection Hr as <- <-; gframe c]. cbn zeta in Hr. set (c0 := k_with _ _ _ _ c) in Hr.
      assert (Hset : ∀ v, f_set (FTask id) v c0 = (c', out, None) → glive c' (h ++ CIn (KRecv (MTaskResult id status duration result) loads) :: out)).
      { intros v Hv. destruct (f_set_ok _ _ _ _ _ _ h Hv (a_once _ _ Hb)) as (_ & (s & -> & Hs) & _). apply (glive_frame _ c); try done. intros g i. cbn. by apply Hs. }
      destruct status; try (injection Hr as <- <-; gframe c); destruct loads; try done; by eapply Hset.
    + (* graph result *)
      destruct IH as [G1 G2 G3 G4]. unfold k_graph_result in Hr. destruct (find_graph id (k_graphs c) G2) as [Hf|(n & Hf & Hin)]; rewrite Hf in Hr.
      * injection Hr as <- <-.
        assert (Hg : ∀ g', graph_waits g' (h ++ [CIn (KRecv (MGraphTaskResult id status results) loads)]) = graph_waits g' h).
        { intros g'. rewrite graph_later by done. cbn. destruct (String.eqb id g') eqn:E; [|done]. apply String.eqb_eq in E as <-.
          destruct (graph_waits id h) eqn:Ew; try done. apply G1 in Ew. pose proof (find_graph_in _ _ _ G2 Ew). congruence. }
        split; try done.
        -- intros g' n'. rewrite Hg. apply G1.
        -- intros g' n'. rewrite Hg. apply G3.
        -- intros g' n' i. rewrite Hg, existsb_app. intros Hw Hi. destruct (G4 _ _ _ Hw Hi) as [H|[H1 H2]]; [auto|]. rewrite H2. auto.
      * cbn zeta in Hr. set (c0 := k_with_state _ _ c) in Hr. pose proof (proj1 (G1 id n) Hin) as Hw.
        assert (Hgen : k_graphs c' = pop_graph id (k_graphs c) ∧ k_sending c' = k_sending c ∧ ∀ g i, g ≠ id → k_state c' !! FGraph g i = k_state c !! FGraph g i).
        { assert (Hset : ∀ (v : bytes → fvalue), k_enumerate n results (f_set_all (imap (λ i p, (FGraph id i, v p)) (take n results)) c0) = (c', out, None) →
            k_graphs c' = pop_graph id (k_graphs c) ∧ k_sending c' = k_sending c ∧ ∀ g i, g ≠ id → k_state c' !! FGraph g i = k_state c !! FGraph g i).
          { intros v Hv. clear Hr. destruct (f_set_all _ c0) as [[c1 out1] e1] eqn:E1. assert (c1 = c' ∧ out1 = out) as [-> ->] by (destruct e1; cbn in Hv; by injection Hv).
            destruct (f_set_all_ok _ _ _ _ _ h E1 (a_once _ _ Hb)) as (_ & (s & -> & Hs) & _). cbn. split_and!; try done. intros g i Hne. apply Hs.
            intros (kv & Hk & Hkv)%elem_of_list_fmap. destruct kv as [k2 v2]. apply elem_of_lookup_imap in Hkv as (j & p & [= -> ->] & _). cbn in Hk. congruence. }
          destruct status; try (injection Hr as <- <-; done).
          - destruct loads; [|done]. by apply (Hset Value).
          - destruct results as [|p ps]; [done|]. destruct loads; [|done]. by apply (Hset (λ _, Error p)). }
        destruct Hgen as (F1 & F2 & F3). split; rewrite ?F1, ?F2.
        -- intros g' n'. rewrite in_pop_graph, graph_later by done. cbn. destruct (String.eqb id g') eqn:E.
           ++ apply String.eqb_eq in E as <-. rewrite Hw. split; [by intros []|done].
           ++ apply String.eqb_neq in E. rewrite <-G1. naive_solver.
        -- by apply nodup_pop_graph.
        -- intros g' n'. rewrite graph_later by done. cbn. destruct (String.eqb id g') eqn:E; [|apply G3]. apply String.eqb_eq in E as <-. rewrite G3, Hw. done.
        -- intros g' n' i. rewrite graph_later, existsb_app by done. cbn [graph_of]. destruct (String.eqb id g') eqn:E.
           ++ apply String.eqb_eq in E as <-. rewrite Hw. by intros [].
           ++ apply String.eqb_neq in E. intros Hw' Hi. rewrite F3 by done. destruct (G4 _ _ _ Hw' Hi) as [H|[H1 H2]]; [auto|]. rewrite H2. auto.
    + unfold k_function_response in Hr. destruct status; try discriminate Hr;
        (destruct (k_buffer c !! id) as [ks|]; injection Hr as <- <-; gframe c).
Qed.
Lemma glive_run es c h : k_run es = (c, h) → new_ids h → base c h ∧ (connected h = true → glive c h).
Proof. apply (k_ind (λ c h, connected h = true → glive c h)); [intros _; apply glive_init|]. intros. by eapply glive_step. Qed.
