(** * What the client does in particular situations *)

From Verif.Model Require Import Base Message Client.
From Verif.Spec Require Import HistorySpec ClientSpec.
From Verif.Proofs Require Import BaseProofs HistoryProofs ClientProofs ClientRuns ClientStates.

Lemma k_run_app es es' : k_run (es ++ es') = foldl k_step (k_run es) es'.
Proof. unfold k_run. by rewrite foldl_app. Qed.
Lemma k_run_one es e c h : k_run es = (c, h) → k_run (es ++ [e]) = ((k_handle e c).1, h ++ CIn e :: (k_handle e c).2).
Proof. intros Hr. rewrite k_run_snoc, Hr. cbn. by destruct (k_handle e c). Qed.
Lemma k_up_run es c h : k_run es = (c, h) → new_ids h → connected h = true → k_up c = true.
Proof. intros Hr Hn Hc. by rewrite (a_up _ _ (run_base _ _ _ Hr Hn)). Qed.

(** ** C53: a result resolves its future *)

Lemma waiting_set es c h t v : k_run es = (c, h) → new_ids h → connected h = true → waits t h = true →
  let c0 := k_with (k_tasks c) (k_bodies c) (pop_key t (k_futures c)) (k_buffer c) c in
  existsb (String.eqb t) (k_futures c) = true ∧
  if cancelled (FTask t) h then f_set (FTask t) v c0 = (c0, [], Some InvalidStateError) else ∃ c', f_set (FTask t) v c0 = (c', [CSet (FTask t) v], None).
Proof.
  intros Hr Hn Hc Hw c0. destruct (settled_run _ _ _ Hr Hn) as [Hb Hl]. destruct (Hl Hc) as (Hl' & _ & HS).
  assert (Hin : t ∈ k_futures c) by (by apply (l_futures _ _ Hl')). split; [by apply in_futures|].
  unfold f_set, c0. cbn [k_state k_with]. rewrite (s_task _ _ HS t Hin). destruct (cancelled (FTask t) h); [done|]. destruct (accepted t h); eauto.
Qed.
Lemma result_now es h t d p : (k_run es).2 = h → new_ids h → connected h = true → waits t h = true → cancelled (FTask t) h = false →
  (k_run (es ++ [KRecv (MTaskResult t Success d p) true])).2 = h ++ [CIn (KRecv (MTaskResult t Success d p) true); CSet (FTask t) (Value p)] ∧
  (k_run (es ++ [KRecv (MTaskResult t Failed d p) true])).2 = h ++ [CIn (KRecv (MTaskResult t Failed d p) true); CSet (FTask t) (Error p)].
Proof.
  intros Hr Hn Hc Hw Hca. destruct (k_run es) as [c h0] eqn:E. cbn in Hr. subst h0.
  rewrite !(k_run_one _ _ _ _ E). cbn. rewrite (k_up_run _ _ _ E Hn Hc). unfold k_result.
  destruct (waiting_set es c h t (Value p) E Hn Hc Hw) as [Hin H1]. destruct (waiting_set es c h t (Error p) E Hn Hc Hw) as [_ H2].
  rewrite Hca in H1, H2. destruct H1 as [c1 H1], H2 as [c2 H2]. rewrite Hin. cbn zeta in *. rewrite H1, H2. done.
Qed.
Lemma result_cancelled es h t st d p : (k_run es).2 = h → new_ids h → connected h = true → waits t h = true → cancelled (FTask t) h = true → st = Success ∨ st = Failed →
  (k_run (es ++ [KRecv (MTaskResult t st d p) true])).2 = h ++ [CIn (KRecv (MTaskResult t st d p) true); CCrash InvalidStateError].
Proof.
  intros Hr Hn Hc Hw Hca Hst. destruct (k_run es) as [c h0] eqn:E. cbn in Hr. subst h0.
  rewrite !(k_run_one _ _ _ _ E). cbn. rewrite (k_up_run _ _ _ E Hn Hc). unfold k_result.
  destruct (waiting_set es c h t (Value p) E Hn Hc Hw) as [Hin H1]. destruct (waiting_set es c h t (Error p) E Hn Hc Hw) as [_ H2].
  rewrite Hca in H1, H2. rewrite Hin. cbn zeta in *. destruct Hst as [-> | ->]; rewrite ?H1, ?H2; done.
Qed.

(** ** C54: what a positive response releases *)

Lemma response_now es h f st name content loads k : (k_run es).2 = h → new_ids h → connected h = true → positive st = true →
  (∃ name content, submitted_as k name content h) → task_function k = f →
  let h' := (k_run (es ++ [KRecv (MFunctionResponse st f name content) loads])).2 in
  occurrences (sends (task_id k)) h' = owed (task_id k) h' ∧ (owed (task_id k) h' = owed (task_id k) h) ∧
  ((occurrences (sends (task_id k)) h < owed (task_id k) h)%nat → COut (MTask k) ∈ h').
Proof.
  intros Hr Hn Hc Hpos Hk Hf h'. destruct (k_run es) as [c h0] eqn:E. cbn in Hr. subst h0.
  destruct (tallied_run _ _ _ E Hn) as (Hb & Hl & Ht). specialize (Hl Hc). specialize (Ht Hc k Hk). rewrite Hf in Ht.
  assert (Hout : (k_handle (KRecv (MFunctionResponse st f name content) loads) c).2 = (λ k, COut (MTask k)) <$> buf c f).
  { cbn. rewrite (k_up_run _ _ _ E Hn Hc). unfold k_function_response, buf. destruct st; try done; (destruct (k_buffer c !! f); done). }
  assert (Ho : Forall output ((λ k, COut (MTask k)) <$> buf c f)) by (apply Forall_fmap, Forall_true; done).
  assert (How : owed (task_id k) h' = owed (task_id k) h) by (unfold h'; rewrite (k_run_one _ _ _ _ E), Hout; cbn [snd]; by apply owed_same).
  assert (Hs : occurrences (sends (task_id k)) h' = (occurrences (sends (task_id k)) h + occurrences (named (task_id k)) (buf c f))%nat).
  { unfold h'. rewrite (k_run_one _ _ _ _ E), Hout. cbn [snd]. rewrite occ_later, named_sends. cbn. lia. }
  split; [lia|]. split; [done|]. intros Hlt.
  assert (Hex : ∃ k', k' ∈ buf c f ∧ task_id k' = task_id k).
  { assert (H0 : occurrences (named (task_id k)) (buf c f) ≠ 0%nat) by lia. clear -H0. revert H0. induction (buf c f) as [|k' ks IH]; [done|].
    rewrite occ_cons. unfold named at 1. destruct (String.eqb (task_id k') (task_id k)) eqn:E.
    - intros _. exists k'. split; [left|]. by apply String.eqb_eq.
    - intros H. destruct IH as (k'' & Hin & He); [exact H|]. exists k''. split; [by right|done]. }
  destruct Hex as (k' & Hin & Heq). unfold h'. rewrite (k_run_one _ _ _ _ E), Hout. cbn [snd]. apply elem_of_app. right. right. apply elem_of_list_fmap. exists k'. split; [|done]. do 2 f_equal.
  symmetry. unfold buf in Hin. destruct (k_buffer c !! f) as [ks|] eqn:Eb; [|by apply elem_of_nil in Hin].
  destruct (a_buffer _ _ Hb _ _ Eb) as [_ H]. destruct (H _ Hin) as [_ Hkn]. by apply (known_unique _ _ h Hn).
Qed.
Lemma sends_owed es h k : (k_run es).2 = h → new_ids h → connected h = true → (∃ name content, submitted_as k name content h) →
  (occurrences (sends (task_id k)) h <= owed (task_id k) h)%nat.
Proof.
  intros Hr Hn Hc Hk. destruct (k_run es) as [c h0] eqn:E. cbn in Hr. subst h0. destruct (tallied_run _ _ _ E Hn) as (Hb & Hl & Ht). specialize (Ht Hc k Hk). lia.
Qed.

(** ** C55: buffered without a request *)

Lemma connected_false_later h l : connected h = false → connected (h ++ l) = false.
Proof. unfold connected. rewrite existsb_app, negb_orb. by intros ->. Qed.

Lemma stuck_step e c h c' out f ks : base c h → new_ids (h ++ CIn e :: out) → k_handle e c = (c', out) → k_buffer c !! f = Some ks → answers_only f (h ++ CIn e :: out) →
  (occurrences (requests f) h <= occurrences (grants f) h)%nat →
  (∃ ks', k_buffer c' !! f = Some ks') ∧ occurrences (requests f) out = 0%nat ∧ grants f (CIn e) = false ∧ (∀ k, task_function k = f → COut (MTask k) ∉ out).
Proof.
  intros Hb Hn Hh Hbuf Ha Heq.
  assert (Hgr : grants f (CIn e) = false).
  { apply always_at in Ha. destruct (grants f (CIn e)); [|done]. specialize (Ha eq_refl). lia. }
  pose proof (k_handle_fits _ _ _ _ _ Hb Hh) as Hfit.
  assert (Hsend : ∀ k, task_function k = f → COut (MTask k) ∉ out).
  { intros k Hk Hin. specialize (Hfit _ Hin) as (st & name & content & loads & -> & Hp). cbn in Hgr. rewrite Hp, Hk, String.eqb_refl in Hgr. done. }
  assert (Hck : ∀ k, occurrences (requests f) (k_check k c).1 = 0%nat).
  { intros k. unfold k_check. destruct (k_buffer c !! task_function k) eqn:Eb; [done|]. destruct (k_bodies c !! task_id k) as [[name content]|]; [|done].
    cbn [fst]. rewrite occ_one. cbn. destruct (String.eqb _ f) eqn:E; [|done]. apply String.eqb_eq in E. congruence. }
  assert (Happ : ∀ k, ∃ ks', k_buffer (k_append k c) !! f = Some ks').
  { intros k. cbn. destruct (decide (f = task_function k)) as [->|Hne]; [rewrite lookup_insert; eauto|rewrite lookup_insert_ne; eauto]. }
  split_and!; try done.
  - destruct e as [t f' name content args|t|m n|g|k|m loads|]; cbn in Hh.
    + injection Hh as <- <-. eauto.
    + unfold k_step_submit in Hh. destruct (k_flight c !! t) as [[k []]|]; [destruct (k_check k c) as [out1 [e1|]]| | |]; injection Hh as <- <-; eauto. apply Happ.
    + destruct m; injection Hh as <- <-; eauto.
    + injection Hh as <- <-. unfold k_graph_step. destruct (k_sending c !! g); eauto.
    + injection Hh as <- <-. unfold k_cancel. destruct (k_state c !! k) as [[]|]; eauto.
    + destruct (k_up c); [|injection Hh as <- <-; eauto]. destruct (k_receive m loads c) as [[c1 out1] e1] eqn:E.
      enough (Hx : ∃ ks', k_buffer c1 !! f = Some ks') by (destruct e1; injection Hh as <- <-; done). clear Hh.
      assert (Hc : ∀ c2 o e2, k_buffer c2 = k_buffer c → (c2, o, e2) = (c1, out1, e1) → ∃ ks', k_buffer c1 !! f = Some ks') by (intros c2 o e2 H [= <- <- <-]; rewrite H; eauto).
      destruct m; try (by eapply (Hc c)); cbn [k_receive] in E.
      * unfold k_echo in E. destruct (k_tasks c !! id) as [k|]; [|by eapply (Hc c)]. destruct status; try (by eapply (Hc c)).
        -- cbn zeta in E. destruct (existsb _ _); [|(eapply Hc; [|exact E]; done)]. destruct (k_state _ !! _) as [[]|]; (eapply Hc; [|exact E]; done).
        -- destruct (k_check k c) as [out2 [e2|]]; [by eapply (Hc c)|]. injection E as <- <- <-. apply Happ.
      * unfold k_result in E. destruct (existsb _ _); [|by eapply (Hc c)]. cbn zeta in E.
        assert (Hset : ∀ v c2, k_buffer c2 = k_buffer c → once (k_state c2) h → f_set (FTask id) v c2 = (c1, out1, e1) → ∃ ks', k_buffer c1 !! f = Some ks').
        { intros v c2 H2 Ho2 Hv. destruct (f_set_ok _ _ _ _ _ _ _ Hv Ho2) as (_ & (s & -> & _) & _). cbn. rewrite H2. eauto. }
        destruct status; try ((eapply Hc; [|exact E]; done)); destruct loads; try ((eapply Hc; [|exact E]; done)); eapply Hset; try exact E; try done; apply Hb.
      * unfold k_graph_result in E. destruct (List.find _ _) as [[g n]|]; [|by eapply (Hc c)]. cbn zeta in E.
        assert (Hset : ∀ (v : bytes → fvalue) c2, k_buffer c2 = k_buffer c → once (k_state c2) h → k_enumerate n results (f_set_all (imap (λ i p, (FGraph id i, v p)) (take n results)) c2) = (c1, out1, e1) → ∃ ks', k_buffer c1 !! f = Some ks').
        { intros v c2 H2 Ho2 Hv. clear E. destruct (f_set_all _ c2) as [[c3 out3] e3] eqn:E3. assert (c3 = c1) as -> by (destruct e3; cbn in Hv; by injection Hv).
          destruct (f_set_all_ok _ _ _ _ _ _ E3 Ho2) as (_ & (s & -> & _) & _). cbn. rewrite H2. eauto. }
        destruct status; try ((eapply Hc; [|exact E]; done)).
        -- destruct loads; [|(eapply Hc; [|exact E]; done)]. eapply (Hset Value); try exact E; try done; apply Hb.
        -- destruct results as [|p ps]; [(eapply Hc; [|exact E]; done)|]. destruct loads; [|(eapply Hc; [|exact E]; done)]. eapply (Hset (λ _, Error p)); try exact E; try done; apply Hb.
      * unfold k_function_response in E. cbn in Hgr. destruct status; try (by eapply (Hc c)); (destruct (k_buffer c !! id) as [ks1|]; [|by eapply (Hc c)]; injection E as <- <- <-; cbn;
          cbn in Hgr; apply String.eqb_neq in Hgr; rewrite lookup_delete_ne by done; eauto).
    + destruct (k_up c); [|injection Hh as <- <-; eauto]. destruct (k_exit c) as [[c1 out1] e1] eqn:E.
      destruct (k_exit_ok _ _ _ _ h E) as (_ & (s & -> & _) & _); [apply Hb|]. destruct e1; cbn in Hh; injection Hh as <- <-; cbn; eauto.
  - destruct e as [t f' name content args|t|m n|g|k|m loads|]; cbn in Hh.
    + by injection Hh as <- <-.
    + unfold k_step_submit in Hh. destruct (k_flight c !! t) as [[k []]|]; [|by injection Hh as <- <-|by injection Hh as <- <-|by injection Hh as <- <-].
      specialize (Hck k). destruct (k_check k c) as [out1 [e1|]]; by injection Hh as <- <-.
    + destruct m; by injection Hh as <- <-.
    + by injection Hh as <- <-.
    + by injection Hh as <- <-.
    + apply occ_none. intros x Hx. destruct x as [|[]| |]; try done.
      destruct (k_up c); [|injection Hh as <- <-; by apply elem_of_nil in Hx]. destruct (k_receive m loads c) as [[c1 out1] e1] eqn:E.
      assert (Hx1 : COut (MFunctionRequest type id name content) ∈ out1).
      { destruct e1; injection Hh as <- <-; [|done]. apply elem_of_app in Hx as [Hx|Hx]; [done|]. by apply elem_of_list_singleton in Hx. }
      clear Hh Hx. assert (Hno : ∀ c1' e1', (c1', [], e1') = (c1, out1, e1) → requests f (COut (MFunctionRequest type id name content)) = false) by (intros ?? [= <- <- <-]; by apply elem_of_nil in Hx1).
      destruct m; try exact (Hno _ _ E); cbn [k_receive] in E.
      * unfold k_echo in E. destruct (k_tasks c !! id0) as [k|] eqn:Ek; [|exact (Hno _ _ E)]. destruct status; try exact (Hno _ _ E).
        -- cbn zeta in E. destruct (existsb _ _); [|exact (Hno _ _ E)]. destruct (k_state _ !! _) as [[]|]; exact (Hno _ _ E).
        -- specialize (Hck k). assert (out1 = (k_check k c).1) as -> by (destruct (k_check k c) as [out2 [e2|]]; by injection E as <- <- <-).
           destruct (requests f (COut (MFunctionRequest type id name content))) eqn:Er; [|done]. pose proof (occ_pos _ _ _ Hx1 Er). lia.
      * exfalso. unfold k_result in E. destruct (existsb _ _); [|injection E as <- <- <-; by apply elem_of_nil in Hx1]. cbn zeta in E.
        destruct status; try (injection E as <- <- <-; by apply elem_of_nil in Hx1); destruct loads; try (injection E as <- <- <-; by apply elem_of_nil in Hx1); by pose proof (f_set_sets _ _ _ _ _ _ E _ Hx1).
      * exfalso. unfold k_graph_result in E. destruct (List.find _ _) as [[g n]|]; [|injection E as <- <- <-; by apply elem_of_nil in Hx1]. cbn zeta in E.
        assert (Hset : ∀ (v : bytes → fvalue) c2, k_enumerate n results (f_set_all (imap (λ i p, (FGraph id0 i, v p)) (take n results)) c2) = (c1, out1, e1) → False).
        { intros v c2 Hv. clear E. destruct (f_set_all _ c2) as [[c3 out3] e3] eqn:E3.
          assert (out3 = out1) as -> by (destruct e3; cbn in Hv; by injection Hv).
          by destruct (f_set_all_sets _ _ _ _ _ E3 _ Hx1) as (? & ? & _ & ?). }
        destruct status; try (injection E as <- <- <-; by apply elem_of_nil in Hx1).
        -- destruct loads; [|injection E as <- <- <-; by apply elem_of_nil in Hx1]. by eapply (Hset Value).
        -- destruct results as [|p ps]; [injection E as <- <- <-; by apply elem_of_nil in Hx1|]. destruct loads; [|injection E as <- <- <-; by apply elem_of_nil in Hx1]. by eapply (Hset (λ _, Error p)).
      * exfalso. unfold k_function_response in E. destruct status; try (injection E as <- <- <-; by apply elem_of_nil in Hx1);
          (destruct (k_buffer c !! id0) as [ks1|]; injection E as <- <- <-; [|by apply elem_of_nil in Hx1]; by apply elem_of_list_fmap in Hx1 as (? & ? & _)).
    + destruct (k_up c); [|by injection Hh as <- <-]. destruct (k_exit c) as [[c1 out1] e1] eqn:E.
      destruct (k_exit_ok _ _ _ _ h E) as (_ & _ & Hg & _); [apply Hb|]. apply occ_none. intros x Hx.
      assert (Hx1 : x ∈ out1 ∨ ∃ e, x = CCrash e).
      { destruct e1; cbn in Hh; injection Hh as <- <-; [|by left]. apply elem_of_app in Hx as [Hx|Hx]; [by left|]. apply elem_of_list_singleton in Hx as ->. eauto. }
      destruct Hx1 as [Hx1|[e ->]]; [|done]. eapply Forall_forall in Hg; [|exact Hx1]. by destruct x as [|[]| |].
Qed.
Lemma stuck_run es es' h h' f : (k_run es).2 = h → (k_run (es ++ es')).2 = h ++ h' → new_ids (h ++ h') → connected h = true → answers_only f (h ++ h') →
  (occurrences (requests f) h <= occurrences (grants f) h)%nat →
  (∃ k, (∃ name content, submitted_as k name content h) ∧ task_function k = f ∧ (occurrences (sends (task_id k)) h < owed (task_id k) h)%nat) →
  ∀ k, task_function k = f → COut (MTask k) ∉ h'.
Proof.
  intros Hr Hr' Hn Hc Ha Hle (k0 & Hk0 & Hf0 & Howed). pose proof (always_inv _ _ _ Hn) as Hnh. destruct (k_run es) as [c h0] eqn:E. cbn in Hr. subst h0.
  destruct (tallied_run _ _ _ E Hnh) as (Hb & _ & Ht). specialize (Ht Hc k0 Hk0). rewrite Hf0 in Ht.
  assert (Hbuf : ∃ ks, k_buffer c !! f = Some ks).
  { unfold buf in Ht. destruct (k_buffer c !! f); [eauto|]. cbn in Ht. lia. }
  clear Ht Hk0 Hf0 Howed k0.
  enough (Hx : (∃ ks, k_buffer (k_run (es ++ es')).1 !! f = Some ks) ∧ (occurrences (requests f) (h ++ h') <= occurrences (grants f) (h ++ h'))%nat ∧ ∀ k, task_function k = f → COut (MTask k) ∉ h') by apply Hx.
  revert h' Hr' Hn Ha. induction es' as [|e es' IH] using rev_ind; intros h' Hr' Hn Ha.
  - rewrite app_nil_r in Hr'. rewrite E in Hr'. cbn in Hr'. rewrite <-(app_nil_r h) in Hr' at 1. apply app_inv_head in Hr' as <-. rewrite !app_nil_r, E. cbn.
    split; [done|]. split; [done|]. intros k _. apply not_elem_of_nil.
  - rewrite app_assoc in Hr' |- *. destruct (k_run (es ++ es')) as [c1 h1] eqn:E1. rewrite (k_run_one _ _ _ _ E1) in Hr' |- *. cbn [fst snd] in *.
    assert (Hpre : ∃ h2, h1 = h ++ h2).
    { clear -E E1. revert c1 h1 E1. induction es' as [|e es' IH] using rev_ind; intros c1 h1 E1.
      - rewrite app_nil_r, E in E1. injection E1 as <- <-. exists []. by rewrite app_nil_r.
      - rewrite app_assoc in E1. destruct (k_run (es ++ es')) as [c2 h2] eqn:E2. destruct (IH _ _ eq_refl) as [h3 ->]. rewrite (k_run_one _ _ _ _ E2) in E1. injection E1 as <- <-.
        rewrite <-app_assoc. eauto. }
    destruct Hpre as [h2 ->]. destruct (k_handle e c1) as [c2 out] eqn:Eh. cbn [fst snd] in *. rewrite <-app_assoc in Hr'. apply app_inv_head in Hr' as <-. rewrite app_assoc in Hn, Ha |- *.
    pose proof (always_inv _ _ _ Hn) as Hn1. destruct (IH h2 eq_refl Hn1 (always_inv _ _ _ Ha)) as ((ks & Hks) & Hle1 & Hno1).
    destruct (stuck_step _ _ _ _ _ f ks (run_base _ _ _ E1 Hn1) Hn Eh Hks Ha Hle1) as (Hks2 & Hreq & Hgr & Hno2).
    split; [done|]. split.
    + rewrite !occ_later, Hgr, Hreq. cbn. lia.
    + intros k Hk [Hin|Hin]%elem_of_app; [by eapply Hno1|]. apply elem_of_cons in Hin as [|Hin]; [done|]. by eapply Hno2.
Qed.

(** ** C54: submits that do not overlap are never forgotten *)

Definition asked (f : bytes) (c : client) (h : list kentry) : Prop :=
  occurrences (requests f) h = (occurrences (grants f) h + match k_buffer c !! f with Some _ => 1 | None => 0 end)%nat.

Lemma f_set_buffer k v c c' out e : f_set k v c = (c', out, e) → k_buffer c' = k_buffer c.
Proof. unfold f_set. intros H. destruct (k_state c !! k) as [[]|]; by injection H as <- <- <-. Qed.
Lemma f_set_all_buffer kvs : ∀ c c' out e, f_set_all kvs c = (c', out, e) → k_buffer c' = k_buffer c.
Proof.
  induction kvs as [|[k v] kvs IH]; intros c c' out e H; cbn in H; [by injection H as <- <- <-|].
  destruct (f_set k v c) as [[c1 out1] [e1|]] eqn:E1; [injection H as <- <- <-; by eapply f_set_buffer|].
  destruct (f_set_all kvs c1) as [[c2 out2] e2] eqn:E2. injection H as <- <- <-. rewrite (IH _ _ _ _ E2). by eapply f_set_buffer.
Qed.
Lemma sets_requests f out : (∀ x, x ∈ out → ∃ k v, x = CSet k v) → occurrences (requests f) out = 0%nat.
Proof. intros H. apply occ_none. intros x Hx. by destruct (H x Hx) as (k & v & ->). Qed.
Lemma check_request k c out f : k_check k c = (out, None) → task_function k = f →
  occurrences (requests f) out = (match k_buffer c !! f with Some _ => 0 | None => 1 end)%nat.
Proof.
  unfold k_check. intros H <-. destruct (k_buffer c !! task_function k); [by injection H as <-|]. destruct (k_bodies c !! task_id k) as [[name content]|]; [|done].
  injection H as <-. rewrite occ_one. cbn. by rewrite String.eqb_refl.
Qed.
Lemma check_other k c f : task_function k ≠ f → occurrences (requests f) (k_check k c).1 = 0%nat.
Proof.
  intros Hne. unfold k_check. destruct (k_buffer c !! task_function k); [done|]. destruct (k_bodies c !! task_id k) as [[name content]|]; [|done].
  cbn [fst]. rewrite occ_one. cbn. by rewrite (proj2 (String.eqb_neq _ _)) by done.
Qed.
Lemma check_append k c out f n g : k_check k c = (out, None) → (n = g + (match k_buffer c !! f with Some _ => 1 | None => 0 end))%nat →
  (n + occurrences (requests f) out = g + (match k_buffer (k_append k c) !! f with Some _ => 1 | None => 0 end))%nat.
Proof.
  intros Hck ->. cbn. destruct (decide (task_function k = f)) as [Heq|Hne].
  - rewrite (check_request _ _ _ _ Hck Heq), <-Heq, lookup_insert. destruct (k_buffer c !! task_function k); lia.
  - pose proof (check_other k c f Hne) as H. rewrite Hck in H. cbn [fst] in H. rewrite lookup_insert_ne by done. lia.
Qed.

Lemma asked_receive m loads c c' out h f : k_receive m loads c = (c', out, None) → answers_only f (h ++ CIn (KRecv m loads) :: out) → asked f c h →
  asked f c' (h ++ CIn (KRecv m loads) :: out).
Proof.
  intros Hr Ha Hk. unfold asked in *. rewrite !occ_later. apply always_at in Ha.
  assert (Hg0 : ∀ f' out', (∀ x, x ∈ out' → ¬ ∃ e, x = CIn e) → occurrences (grants f') out' = 0%nat).
  { intros f' out' H. apply occ_none. intros x Hx. specialize (H x Hx). destruct x; try done. exfalso; eauto. }
  assert (Hsame : ∀ c1 out1 e1, (c1, out1, e1) = (c', out, @None exn) → k_buffer c1 = k_buffer c → grants f (CIn (KRecv m loads)) = false → (∀ x, x ∈ out1 → ∃ k v, x = CSet k v) →
    (occurrences (requests f) h + (if requests f (CIn (KRecv m loads)) then 1 else 0) + occurrences (requests f) out =
     occurrences (grants f) h + (if grants f (CIn (KRecv m loads)) then 1 else 0) + occurrences (grants f) out + match k_buffer c' !! f with Some _ => 1 | None => 0 end)%nat).
  { intros c1 out1 e1 [= <- <- ->] Hb Hg Hs. rewrite Hg, Hb, (sets_requests f out1), (Hg0 f out1); [cbn [requests]; lia| |done]. intros x Hx [e ->]. by destruct (Hs _ Hx) as (? & ? & ?). }
  assert (Hnil : ∀ x : kentry, x ∈ [] → ∃ k v, x = CSet k v) by (intros x Hx; by apply elem_of_nil in Hx).
  destruct m; cbn [k_receive] in Hr; try discriminate Hr.
  - unfold k_echo in Hr. destruct (k_tasks c !! id) as [k|]; [|by eapply Hsame]. destruct status; try discriminate Hr; try (by eapply Hsame).
    + cbn zeta in Hr. destruct (existsb _ _); [|done]. destruct (k_state _ !! _) as [[]|]; try done; (eapply Hsame; [exact Hr|done..]).
    + destruct (k_check k c) as [out1 [e1|]] eqn:Eck; [done|]. injection Hr as <- <-. rewrite (Hg0 f out1).
      2: { intros x Hx [e ->]. by pose proof (k_check_fits k c KExit (CIn e)) as H; rewrite Eck in H; specialize (H Hx). }
      pose proof (check_append k c out1 f _ _ Eck Hk) as H. cbn -[k_append occurrences]. cbn [requests grants]. lia.
  - unfold k_result in Hr. destruct (existsb _ _); [|by eapply Hsame]. cbn zeta in Hr.
    assert (Hset : ∀ v c2, k_buffer c2 = k_buffer c → f_set (FTask id) v c2 = (c', out, None) → k_buffer c' = k_buffer c ∧ ∀ x, x ∈ out → ∃ k v, x = CSet k v).
    { intros v c2 H2 Hv. split; [by rewrite (f_set_buffer _ _ _ _ _ _ Hv)|]. intros x Hx. rewrite (f_set_sets _ _ _ _ _ _ Hv x Hx). eauto. }
    destruct status; try done; try (eapply Hsame; [exact Hr|done..]); destruct loads; try done; (eapply Hset in Hr as [H1 H2]; [|done]; by eapply Hsame).
  - unfold k_graph_result in Hr. destruct (List.find _ _) as [[g n]|]; [|by eapply Hsame]. cbn zeta in Hr.
    assert (Hset : ∀ (v : bytes → fvalue) c2, k_buffer c2 = k_buffer c → k_enumerate n results (f_set_all (imap (λ i p, (FGraph id i, v p)) (take n results)) c2) = (c', out, None) →
      k_buffer c' = k_buffer c ∧ ∀ x, x ∈ out → ∃ k v, x = CSet k v).
    { intros v c2 H2 Hv. destruct (f_set_all _ c2) as [[c3 out3] e3] eqn:E3. assert (c3 = c' ∧ out3 = out) as [-> ->] by (destruct e3; cbn in Hv; by injection Hv).
      split; [by rewrite (f_set_all_buffer _ _ _ _ _ E3)|]. intros x Hx. destruct (f_set_all_sets _ _ _ _ _ E3 x Hx) as (? & ? & _ & ->). eauto. }
    destruct status; try done; try (eapply Hsame; [exact Hr|done..]).
    + destruct loads; [|done]. apply Hset in Hr as [H1 H2]; [|done]. by eapply Hsame.
    + destruct results as [|p ps]; [done|]. destruct loads; [|done]. apply (Hset (λ _, Error p)) in Hr as [H1 H2]; [|done]. by eapply Hsame.
  - unfold k_function_response in Hr. assert (Hp : positive status = true) by (by destruct status).
    assert (Hr' : match k_buffer c !! id with None => (c, [], None) | Some ks => (k_with (k_tasks c) (k_bodies c) (k_futures c) (delete id (k_buffer c)) c, (λ k, COut (MTask k)) <$> ks, None) end = (c', out, @None exn)) by (by destruct status).
    clear Hr. cbn [grants requests] in *. rewrite Hp in *. cbn [andb] in *.
    assert (Ho : occurrences (requests f) out = 0%nat ∧ occurrences (grants f) out = 0%nat).
    { destruct (k_buffer c !! id) as [ks|]; injection Hr' as <- <-; [|done]. split; apply occ_none; intros x Hx; by apply elem_of_list_fmap in Hx as (? & -> & _). }
    destruct Ho as [-> ->]. destruct (String.eqb id f) eqn:Ef.
    + apply String.eqb_eq in Ef as ->. specialize (Ha eq_refl). destruct (k_buffer c !! f) as [ks|] eqn:Eb; [|lia]. injection Hr' as <- <-. cbn. rewrite lookup_delete. lia.
    + apply String.eqb_neq in Ef. assert (k_buffer c' !! f = k_buffer c !! f) as ->; [|lia]. destruct (k_buffer c !! id) as [ks|]; injection Hr' as <- <-; [|done]. cbn. by rewrite lookup_delete_ne.
Qed.

Lemma connected_before h l : connected (h ++ l) = true → connected h = true.
Proof. unfold connected. rewrite existsb_app, negb_orb. by intros [? _]%andb_prop. Qed.
Lemma submit_steps t f name content args c h : let k := Task t f (ArgData <$> args) in let c1 := k_submit t f name content args c in
  ∃ c' out, k_check k c1 = (out, None) ∧ k_buffer c' = k_buffer (k_append k c1) ∧
    foldl k_step (c, h) (events_of (CallSubmit t f name content args)) = (c', h ++ CIn (KSubmit t f name content args) :: CIn (KStep t) :: out ++ [CIn (KStep t); CIn (KStep t)]).
Proof.
  intros k c1. assert (Hck : ∃ out, k_check k c1 = (out, None)).
  { unfold k_check, c1. cbn. rewrite lookup_insert. destruct (k_buffer c !! f); eauto. }
  destruct Hck as [out Hck]. cbn [foldl events_of k_step k_handle]. fold c1.
  assert (H1 : k_step_submit t c1 = (k_with_flight (<[t := (k, AtAppend)]> (k_flight c1)) (k_sending c1) c1, out)).
  { unfold k_step_submit. unfold c1 at 1. cbn [k_flight k_submit k_with_flight]. rewrite lookup_insert. fold k. by rewrite Hck. }
  rewrite H1. cbn [k_step k_handle]. set (c2 := k_with_flight _ _ c1).
  assert (H2 : k_step_submit t c2 = (k_with_flight (<[t := (k, AtRegister)]> (k_flight c2)) (k_sending c2) (k_append k c2), [])).
  { unfold k_step_submit. unfold c2 at 1. cbn [k_flight k_with_flight]. by rewrite lookup_insert. }
  rewrite H2. cbn [k_step k_handle]. set (c3 := k_with_flight _ _ (k_append k c2)). unfold k_step_submit. unfold c3 at 1. cbn [k_flight k_with_flight]. rewrite lookup_insert.
  eexists _, out. split; [done|]. split; [|by rewrite <-!app_assoc]. done.
Qed.
Lemma asked_call a cs c h f : k_run (one_at_a_time cs) = (c, h) → (connected h = true → new_ids h → answers_only f h → asked f c h) →
  ∀ c' h', k_run (one_at_a_time (cs ++ [a])) = (c', h') → connected h' = true → new_ids h' → answers_only f h' → asked f c' h'.
Proof.
  intros Hr IH c' h' Hr' Hc Hn Ha. unfold asked in *. unfold one_at_a_time in Hr'. rewrite fmap_app, concat_app in Hr'. cbn in Hr'. rewrite app_nil_r, k_run_app in Hr'. fold (one_at_a_time cs) in Hr'. rewrite Hr in Hr'.
  destruct a as [t f' name content args|m n|k|m loads|]; cbn [events_of] in Hr'.
  - destruct (submit_steps t f' name content args c h) as (c2 & out1 & Eck & Hbuf & Hf). cbn [events_of] in Hf. rewrite Hf in Hr'. injection Hr' as <- <-. set (k := Task t f' (ArgData <$> args)) in *.
    specialize (IH (connected_before _ _ Hc) (always_inv _ _ _ Hn) (always_inv _ _ _ Ha)).
    rewrite Hbuf, !occ_app, !occ_cons, !occ_app, !occ_cons. cbn [requests grants].
    pose proof (check_append k _ out1 f (occurrences (requests f) h) (occurrences (grants f) h) Eck IH) as H.
    assert (occurrences (grants f) out1 = 0%nat) as ->.
    { apply occ_none. intros x Hx. destruct x as [e| | |]; try done. by pose proof (k_check_fits k (k_submit t f' name content args c) KExit (CIn e)) as H'; rewrite Eck in H'; specialize (H' Hx). }
    change (occurrences (requests f) []) with 0%nat. change (occurrences (grants f) []) with 0%nat. lia.
  - destruct m; cbn in Hr'; try (injection Hr' as <- <-; by apply IH). rewrite foldl_nil in Hr' || cbn in Hr'.
    unfold k_graph_step in Hr'. cbn in Hr'. rewrite lookup_insert in Hr'. injection Hr' as <- <-. rewrite <-!app_assoc in Hc, Ha, Hn |- *. cbn in Hc, Ha, Hn |- *.
    specialize (IH (connected_before _ _ Hc) (always_inv _ _ _ Hn) (always_inv _ _ _ Ha)). rewrite !occ_app, !occ_cons. cbn. change (occurrences (requests f) []) with 0%nat. change (occurrences (grants f) []) with 0%nat. lia.
  - cbn in Hr'. injection Hr' as <- <-. specialize (IH (connected_before _ _ Hc) (always_inv _ _ _ Hn) (always_inv _ _ _ Ha)). rewrite !occ_app, !occ_cons. cbn.
    assert (k_buffer (k_cancel k c) = k_buffer c) as -> by (unfold k_cancel; by destruct (k_state c !! k) as [[]|]). change (occurrences (requests f) []) with 0%nat. change (occurrences (grants f) []) with 0%nat. lia.
  - cbn [foldl k_step k_handle] in Hr'. destruct (k_up c) eqn:Eup.
    + destruct (k_receive m loads c) as [[c1 out1] e1] eqn:Er. assert (e1 = None) as ->.
      { destruct e1; [|done]. cbn in Hr'. injection Hr' as <- <-. unfold connected in Hc. rewrite existsb_app in Hc. cbn in Hc. rewrite existsb_app in Hc. cbn in Hc. by rewrite !orb_true_r in Hc. }
      cbn in Hr'. injection Hr' as <- <-. eapply asked_receive; [done..|]. apply IH; [by eapply connected_before|by eapply always_inv|by eapply always_inv].
    + injection Hr' as <- <-. pose proof (k_up_run _ _ _ Hr (always_inv _ _ _ Hn) (connected_before _ _ Hc)). congruence.
  - exfalso. cbn in Hr'. unfold connected in Hc. destruct (k_up c); [destruct (k_settle (k_exit c))|]; injection Hr' as <- <-; rewrite existsb_app in Hc; cbn in Hc; by rewrite orb_true_r in Hc.
Qed.
Lemma asked_run cs f : ∀ c h, k_run (one_at_a_time cs) = (c, h) → connected h = true → new_ids h → answers_only f h → asked f c h.
Proof.
  induction cs as [|a cs IH] using rev_ind; intros c h Hr Hc Hn Ha.
  - injection Hr as <- <-. done.
  - destruct (k_run (one_at_a_time cs)) as [c1 h1] eqn:E. eapply asked_call; [exact E| |done..]. intros. by apply IH.
Qed.
Lemma requested_run cs h f : (k_run (one_at_a_time cs)).2 = h → connected h = true → new_ids h → answers_only f h →
  (occurrences (grants f) h <= occurrences (requests f) h <= S (occurrences (grants f) h))%nat ∧
  ∀ k, (∃ name content, submitted_as k name content h) → task_function k = f → (occurrences (sends (task_id k)) h < owed (task_id k) h)%nat →
    occurrences (requests f) h = S (occurrences (grants f) h).
Proof.
  intros Hr Hc Hn Ha. destruct (k_run (one_at_a_time cs)) as [c h0] eqn:E. cbn in Hr. subst h0. pose proof (asked_run _ _ _ _ E Hc Hn Ha) as Hk. unfold asked in Hk. split.
  - destruct (k_buffer c !! f); lia.
  - intros k Hkn Hf Hlt. destruct (tallied_run _ _ _ E Hn) as (_ & _ & Ht). specialize (Ht Hc k Hkn). rewrite Hf in Ht. unfold buf in Ht. destruct (k_buffer c !! f); [lia|]. cbn in Ht. lia.
Qed.

(** ** Continuations *)

Lemma k_run_split es es' c h : k_run es = (c, h) → ∃ h', (k_run (es ++ es')).2 = h ++ h'.
Proof.
  intros E. induction es' as [|e es' IH] using rev_ind.
  - rewrite app_nil_r, E. exists []. by rewrite app_nil_r.
  - destruct IH as [h1 IH]. rewrite app_assoc. destruct (k_run (es ++ es')) as [c2 h2] eqn:E2. cbn in IH. subst h2. rewrite (k_run_one _ _ _ _ E2). cbn. rewrite <-app_assoc. eauto.
Qed.
(** Induction over the continuations of a run. *)
Lemma k_continue (P : list kentry → Prop) (Q : list kentry → Prop) es h :
  (k_run es).2 = h → P h →
  (∀ e c h' c' out, base c h' → (connected h' = true → live c h' ∧ glive c h' ∧ settled c h') → P h' → new_ids (h' ++ CIn e :: out) → k_handle e c = (c', out) → P (h' ++ CIn e :: out) ∧ Q (CIn e :: out)) →
  Q [] → (∀ l1 l2, Q l1 → Q l2 → Q (l1 ++ l2)) →
  ∀ es' h', (k_run (es ++ es')).2 = h ++ h' → new_ids (h ++ h') → P (h ++ h') ∧ Q h'.
Proof.
  intros Hr HP Hstep Q0 Qapp es' h'. destruct (k_run es) as [c h0] eqn:E. cbn in Hr. subst h0.
  revert h'. induction es' as [|e es' IH] using rev_ind; intros h' Hr' Hn.
  - rewrite app_nil_r in Hr'. rewrite E in Hr'. cbn in Hr'. rewrite <-(app_nil_r h) in Hr' at 1. apply app_inv_head in Hr' as <-. by rewrite app_nil_r.
  - rewrite app_assoc in Hr'. destruct (k_run_split es es' c h E) as [h2 Hh2]. destruct (k_run (es ++ es')) as [c1 h1] eqn:E1. cbn in Hh2. subst h1.
    rewrite (k_run_one _ _ _ _ E1) in Hr'. cbn [fst snd] in Hr'. rewrite <-app_assoc in Hr'. apply app_inv_head in Hr' as <-. rewrite app_assoc in Hn |- *.
    pose proof (always_inv _ _ _ Hn) as Hn1. destruct (IH h2 eq_refl Hn1) as [HP1 HQ1]. destruct (settled_run _ _ _ E1 Hn1) as [Hb Hl].
    destruct (Hstep e c1 (h ++ h2) (k_handle e c1).1 (k_handle e c1).2 Hb Hl HP1 Hn) as [H1 H2]; [by destruct (k_handle e c1)|]. auto.
Qed.

Lemma fits_set e k v : fits e (CSet k v) → e = KExit ∨ ∃ m, e = KRecv m true.
Proof. destruct k as [t|[g i]], v; cbn; [intros [d ->]|intros [d ->]|intros ->|intros (ps & -> & _)|intros (ps & -> & _)|intros ->]; eauto. Qed.
(** Once the connector thread has ended no future is ever resolved. *)
Lemma dead_run es es' h h' : (k_run es).2 = h → (k_run (es ++ es')).2 = h ++ h' → new_ids (h ++ h') → connected h = false → ∀ k v, CSet k v ∉ h'.
Proof.
  intros Hr Hr' Hn Hc. refine (proj2 (k_continue (λ h, connected h = false) (λ l, ∀ k v, CSet k v ∉ l) es h Hr Hc _ _ _ es' h' Hr' Hn)).
  - intros e c h1 c' out Hb _ Hc1 Hn1 Hh. split; [by apply connected_false_later|]. intros k v [|Hin]%elem_of_cons; [done|].
    pose proof (k_handle_fits _ _ _ _ _ Hb Hh _ Hin) as Hf. assert (Hup : k_up c = false) by (by rewrite (a_up _ _ Hb)).
    apply fits_set in Hf as [->|[m ->]]; cbn in Hh; rewrite Hup in Hh; injection Hh as <- <-; by apply elem_of_nil in Hin.
  - intros k v. apply not_elem_of_nil.
  - intros l1 l2 H1 H2 k v [H|H]%elem_of_app; [by eapply H1|by eapply H2].
Qed.

(** What a step can resolve. *)
Lemma sets_now e c h c' out k v : base c h → (connected h = true → live c h ∧ glive c h ∧ settled c h) → k_handle e c = (c', out) → CSet k v ∈ out →
  connected h = true ∧ match k with inl t => waits t h = true | inr (g, i) => ∃ n, graph_waits g h = Waits n end.
Proof.
  intros Hb Hl Hh Hin. pose proof (k_handle_fits _ _ _ _ _ Hb Hh _ Hin) as Hf.
  destruct (k_up c) eqn:Hup.
  2:{ exfalso. apply fits_set in Hf as [->|[m ->]]; cbn in Hh; rewrite Hup in Hh; injection Hh as <- <-; by apply elem_of_nil in Hin. }
  assert (Hc : connected h = true) by (by rewrite <-(a_up _ _ Hb)). split; [done|]. destruct (Hl Hc) as (HL & HG & _).
  destruct (fits_set _ _ _ Hf) as [->|[m ->]]; revgoals.
  - (* a message *)
    cbn in Hh. rewrite Hup in Hh. destruct (k_receive m true c) as [[c1 out1] e1] eqn:Hr.
    assert (Hin1 : CSet k v ∈ out1).
    { destruct e1; cbn in Hh; injection Hh as <- <-; [|done]. apply elem_of_app in Hin as [Hin|Hin]; [done|]. by apply elem_of_list_singleton in Hin. }
    destruct k as [t|[g i]]; cbn [k_receive] in Hr.
    + assert (∃ st d p, m = MTaskResult t st d p) as (st & d & p & ->).
      { destruct v; cbn in Hf; [destruct Hf as [d [= ->]]; eauto|destruct Hf as [d [= ->]]; eauto|done]. }
      cbn in Hr. unfold k_result in Hr. destruct (existsb _ _) eqn:Ef; [|injection Hr as <- <- <-; by apply elem_of_nil in Hin1]. apply in_futures in Ef. by apply (l_futures _ _ HL).
    + assert (∃ st ps, m = MGraphTaskResult g st ps) as (st & ps & ->).
      { destruct v; cbn in Hf; [destruct Hf as (ps & [= ->] & _); eauto|destruct Hf as (ps & [= ->] & _); eauto|done]. }
      cbn in Hr. unfold k_graph_result in Hr. destruct (find_graph g (k_graphs c) (g_nodup _ _ HG)) as [Hfi|(n & Hfi & Hi)]; rewrite Hfi in Hr; [injection Hr as <- <- <-; by apply elem_of_nil in Hin1|].
      exists n. by apply (g_graphs _ _ HG).
  - (* disconnecting *)
    cbn in Hh. rewrite Hup in Hh. destruct (k_exit c) as [[c1 out1] e1] eqn:Hr.
    assert (Hin1 : CSet k v ∈ out1).
    { destruct e1; cbn in Hh; injection Hh as <- <-; [|done]. apply elem_of_app in Hin as [Hin|Hin]; [done|]. by apply elem_of_list_singleton in Hin. }
    clear -Hr Hin1 HL HG Hb. unfold k_exit in Hr.
    assert (HT : ∀ ts c c1 out e, k_exit_tasks ts c = (c1, out, e) → CSet k v ∈ out → ∃ t, t ∈ ts ∧ k = FTask t).
    { clear. induction ts as [|t ts IH]; intros c c1 out e Hr Hin; cbn in Hr; [injection Hr as <- <- <-; by apply elem_of_nil in Hin|].
      destruct (f_set (FTask t) Disconnected c) as [[c2 out2] e2] eqn:E2. pose proof (f_set_sets _ _ _ _ _ _ E2) as Hs. destruct e2.
      - injection Hr as <- <- <-. apply elem_of_cons in Hin as [|Hin]; [done|]. specialize (Hs _ Hin) as [= -> ->]. exists t. split; [left|done].
      - destruct (k_exit_tasks ts c2) as [[c3 out3] e3] eqn:E3. injection Hr as <- <- <-. apply elem_of_cons in Hin as [|Hin]; [done|]. apply elem_of_app in Hin as [Hin|Hin].
        + specialize (Hs _ Hin) as [= -> ->]. exists t. split; [left|done].
        + destruct (IH _ _ _ _ E3 Hin) as (t' & ? & ->). exists t'. split; [by right|done]. }
    assert (HGr : ∀ gs c c1 out e, k_exit_graphs gs c = (c1, out, e) → CSet k v ∈ out → ∃ g n i, (g, n) ∈ gs ∧ k = FGraph g i).
    { clear. induction gs as [|[g n] gs IH]; intros c c1 out e Hr Hin; cbn in Hr; [injection Hr as <- <- <-; by apply elem_of_nil in Hin|].
      destruct (f_set_all _ c) as [[c2 out2] e2] eqn:E2. pose proof (f_set_all_sets _ _ _ _ _ E2) as Hs.
      assert (Hhere : CSet k v ∈ out2 → ∃ i, k = FGraph g i).
      { intros Hi. destruct (Hs _ Hi) as (k' & v' & Hkv & [= -> ->]). apply elem_of_list_fmap in Hkv as (i & [= -> ->] & _). eauto. }
      destruct e2.
      - injection Hr as <- <- <-. apply elem_of_cons in Hin as [|Hin]; [done|]. destruct (Hhere Hin) as [i ->]. exists g, n, i. split; [left|done].
      - destruct (k_exit_graphs gs c2) as [[c3 out3] e3] eqn:E3. injection Hr as <- <- <-. apply elem_of_cons in Hin as [|Hin]; [done|]. apply elem_of_app in Hin as [Hin|Hin].
        + destruct (Hhere Hin) as [i ->]. exists g, n, i. split; [left|done].
        + destruct (IH _ _ _ _ E3 Hin) as (g' & n' & i & ? & ->). exists g', n', i. split; [by right|done]. }
    destruct (k_exit_tasks (k_futures c) c) as [[c2 out2] e2] eqn:E2.
    assert (Ht : CSet k v ∈ out2 → match k with inl t => waits t h = true | inr (g, i) => ∃ n, graph_waits g h = Waits n end).
    { intros Hi. destruct (HT _ _ _ _ _ E2 Hi) as (t & Hti & ->). by apply (l_futures _ _ HL). }
    destruct e2; [injection Hr as <- <- <-; by apply Ht|]. destruct (k_exit_tasks_ok _ _ _ _ _ h E2 (a_once _ _ Hb)) as (_ & (s & -> & _) & _). cbn in Hr.
    destruct (k_exit_graphs (k_graphs c) _) as [[c3 out3] e3] eqn:E3. injection Hr as <- <- <-. apply elem_of_app in Hin1 as [Hin1|Hin1]; [by apply Ht|].
    destruct (HGr _ _ _ _ _ E3 Hin1) as (g & n & i & Hgi & ->). exists n. by apply (g_graphs _ _ HG).
Qed.

(** A future whose task has ended is never resolved later. *)
Lemma over_run es es' h h' t : (k_run es).2 = h → (k_run (es ++ es')).2 = h ++ h' → new_ids (h ++ h') → returned t h = true → waits t h = false → ∀ v, CSet (FTask t) v ∉ h'.
Proof.
  intros Hr Hr' Hn Hret Hw.
  refine (proj2 (k_continue (λ h, (∃ n, steps t h = Some n ∧ (3 <= n)%nat) ∧ waits t h = false) (λ l, ∀ v, CSet (FTask t) v ∉ l) es h Hr _ _ _ _ es' h' Hr' Hn)).
  - split; [|done]. unfold returned in Hret. destruct (steps t h) as [n|]; [|done]. exists n. split; [done|]. by apply Nat.leb_le.
  - intros e c h1 c' out Hb Hl [(n & Hs & Hle) Hw1] Hn1 Hh. pose proof (k_handle_out e c) as Ho. rewrite Hh in Ho. cbn in Ho. split; [split|].
    + rewrite steps_later by done. destruct e; cbn; rewrite ?Hs; eauto.
      * destruct (String.eqb t0 t) eqn:E; [|eauto]. exfalso. apply String.eqb_eq in E as ->. apply new_ids_here in Hn1. cbn in Hn1. apply steps_submitted in Hn1. congruence.
      * destruct (String.eqb t0 t); cbn; eauto.
    + rewrite waits_later by done. rewrite Hw1. destruct e as [| | | | |[]|]; cbn; try done; [|by destruct (String.eqb _ _)].
      rewrite Hs. rewrite bool_decide_eq_false_2; [by rewrite andb_false_r|]. intros [= ->]. lia.
    + intros v [|Hin]%elem_of_cons; [done|]. destruct (sets_now _ _ _ _ _ _ _ Hb Hl Hh Hin) as [_ Hx]. cbn in Hx. congruence.
  - intros v. apply not_elem_of_nil.
  - intros l1 l2 H1 H2 v [H|H]%elem_of_app; [by eapply H1|by eapply H2].
Qed.
Lemma graph_over_run es es' h h' g : (k_run es).2 = h → (k_run (es ++ es')).2 = h ++ h' → new_ids (h ++ h') → graph_waits g h = Over → ∀ i v, CSet (FGraph g i) v ∉ h'.
Proof.
  intros Hr Hr' Hn Hw.
  refine (proj2 (k_continue (λ h, graph_waits g h = Over) (λ l, ∀ i v, CSet (FGraph g i) v ∉ l) es h Hr Hw _ _ _ es' h' Hr' Hn)).
  - intros e c h1 c' out Hb Hl Hw1 Hn1 Hh. pose proof (k_handle_out e c) as Ho. rewrite Hh in Ho. cbn in Ho. split.
    + rewrite graph_later, Hw1 by done. destruct e as [| |[]| | |[]|]; cbn; try done; [|by destruct (String.eqb _ _)..].
      destruct (String.eqb _ _) eqn:E; [|done]. exfalso. apply String.eqb_eq in E as ->. apply new_ids_here in Hn1. cbn in Hn1. apply graph_asked in Hn1. congruence.
    + intros i v [|Hin]%elem_of_cons; [done|]. destruct (sets_now _ _ _ _ _ _ _ Hb Hl Hh Hin) as [_ [n Hx]]. congruence.
  - intros i v. apply not_elem_of_nil.
  - intros l1 l2 H1 H2 i v [H|H]%elem_of_app; [by eapply H1|by eapply H2].
Qed.

(** ** C60: graph results *)

Lemma f_set_all_pending kvs : ∀ c, NoDup kvs.*1 → (∀ k v, (k, v) ∈ kvs → k_state c !! k = Some FPending) → ∃ c', f_set_all kvs c = (c', (λ kv, CSet kv.1 kv.2) <$> kvs, None).
Proof.
  induction kvs as [|[k v] kvs IH]; intros c Hd Hs; [by exists c|]. rewrite fmap_cons, NoDup_cons in Hd. destruct Hd as [Hk Hd]. cbn.
  unfold f_set. rewrite (Hs k v) by left. destruct (IH (k_with_state (k_graphs c) (<[k:=FFinished]> (k_state c)) c)) as [c' Hc']; [done| |rewrite Hc'; eauto].
  intros k' v' Hin. cbn. rewrite lookup_insert_ne; [apply (Hs k' v'); by right|]. intros ->. apply Hk. apply elem_of_list_fmap. by exists (k', v').
Qed.
Lemma imap_keys (g : bytes) (v : bytes → fvalue) ps (n : nat) : NoDup (imap (λ i p, (FGraph g (n + i)%nat, v p)) ps).*1 ∧ ∀ k, k ∈ (imap (λ i p, (FGraph g (n + i)%nat, v p)) ps).*1 → ∃ i, (n <= i < n + length ps)%nat ∧ k = FGraph g i.
Proof.
  revert n. induction ps as [|p ps IH]; intros n; cbn; [split; [constructor|]; intros k Hk; by apply elem_of_nil in Hk|].
  assert (He : imap ((λ i p, (FGraph g (n + i)%nat, v p)) ∘ S) ps = imap (λ i p, (FGraph g (S n + i)%nat, v p)) ps).
  { apply imap_ext. intros i x _. cbn. by rewrite Nat.add_succ_r. }
  unfold compose in *. rewrite He. destruct (IH (S n)) as [H1 H2]. split.
  - rewrite NoDup_cons. split; [|done]. intros Hin. apply H2 in Hin as (i & Hi & [= Hx]). lia.
  - intros k [->|Hin]%elem_of_cons; [exists (n + 0)%nat; split; [lia|done]|]. destruct (H2 k Hin) as (i & Hi & ->). exists i. split; [lia|done].
Qed.
Lemma set_graph c h g (n : nat) (v : bytes → fvalue) ps graphs : (glive c h) → settled c h → graph_waits g h = Waits n → (length ps <= n)%nat → (∀ i, (i < length ps)%nat → cancelled (FGraph g i) h = false) →
  ∃ c', k_enumerate n ps (f_set_all (imap (λ i p, (FGraph g i, v p)) (take n ps)) (k_with_state graphs (k_state c) c)) = (c', imap (λ i p, CSet (FGraph g i) (v p)) ps, None).
Proof.
  intros HG HS Hw Hlen Hc. rewrite take_ge by done. destruct (imap_keys g v ps 0) as [Hd Hk]. cbn in Hd, Hk.
  destruct (f_set_all_pending (imap (λ i p, (FGraph g i, v p)) ps) (k_with_state graphs (k_state c) c)) as [c' Hc']; [done| |].
  - intros k x Hin. destruct (Hk k) as (i & Hi & ->); [apply elem_of_list_fmap; by exists (k, x)|]. cbn. rewrite (s_graph _ _ HS g n i); [|auto|lia]. by rewrite Hc by lia.
  - rewrite Hc'. cbn [k_enumerate]. rewrite (proj2 (Nat.ltb_ge _ _)) by done. exists c'. do 2 f_equal. rewrite fmap_imap. done.
Qed.
Lemma graph_result_now es h g n ps : (k_run es).2 = h → new_ids h → connected h = true → graph_waits g h = Waits n → (length ps <= n)%nat →
  (∀ i, (i < length ps)%nat → cancelled (FGraph g i) h = false) →
  (k_run (es ++ [KRecv (MGraphTaskResult g Success ps) true])).2 = h ++ CIn (KRecv (MGraphTaskResult g Success ps) true) :: imap (λ i p, CSet (FGraph g i) (Value p)) ps.
Proof.
  intros Hr Hn Hc Hw Hlen Hca. destruct (k_run es) as [c h0] eqn:E. cbn in Hr. subst h0. rewrite !(k_run_one _ _ _ _ E). destruct (settled_run _ _ _ E Hn) as [Hb Hl]. destruct (Hl Hc) as (HL & HG & HS).
  cbn. rewrite (k_up_run _ _ _ E Hn Hc). unfold k_graph_result. rewrite (find_graph_in g n) by (first [exact (g_nodup _ _ HG)|by apply (g_graphs _ _ HG)]).
  cbn zeta. destruct (set_graph c h g n Value ps (pop_graph g (k_graphs c)) HG HS Hw Hlen Hca) as [c' H]. rewrite H. done.
Qed.
Lemma graph_failed_now es h g n p : (k_run es).2 = h → new_ids h → connected h = true → graph_waits g h = Waits n → (1 <= n)%nat →
  cancelled (FGraph g 0%nat) h = false →
  (k_run (es ++ [KRecv (MGraphTaskResult g Failed [p]) true])).2 = h ++ [CIn (KRecv (MGraphTaskResult g Failed [p]) true); CSet (FGraph g 0%nat) (Error p)].
Proof.
  intros Hr Hn Hc Hw Hlen Hca. destruct (k_run es) as [c h0] eqn:E. cbn in Hr. subst h0. rewrite !(k_run_one _ _ _ _ E). destruct (settled_run _ _ _ E Hn) as [Hb Hl]. destruct (Hl Hc) as (HL & HG & HS).
  cbn. rewrite (k_up_run _ _ _ E Hn Hc). unfold k_graph_result. rewrite (find_graph_in g n) by (first [exact (g_nodup _ _ HG)|by apply (g_graphs _ _ HG)]).
  cbn zeta. destruct (set_graph c h g n (λ _, Error p) [p] (pop_graph g (k_graphs c)) HG HS Hw) as [c' H]; [done| |].
  - intros i Hi. cbn in Hi. by assert (i = 0%nat) as -> by lia.
  - cbn in H. rewrite H. done.
Qed.
Lemma graph_other_now es h g st ps loads : (k_run es).2 = h → new_ids h → connected h = true → st ≠ Success → st ≠ Failed →
  (k_run (es ++ [KRecv (MGraphTaskResult g st ps) loads])).2 = h ++ [CIn (KRecv (MGraphTaskResult g st ps) loads)].
Proof.
  intros Hr Hn Hc Hs Hf. destruct (k_run es) as [c h0] eqn:E. cbn in Hr. subst h0. rewrite !(k_run_one _ _ _ _ E). cbn. rewrite (k_up_run _ _ _ E Hn Hc). unfold k_graph_result.
  destruct (List.find _ _) as [[]|]; [|done]. by destruct st.
Qed.
Lemma graph_ends h g n st ps loads out : graph_waits g h = Waits n → Forall output out → graph_waits g (h ++ CIn (KRecv (MGraphTaskResult g st ps) loads) :: out) = Over.
Proof. intros Hw Ho. rewrite graph_later, Hw by done. cbn. by rewrite String.eqb_refl. Qed.

(** ** C61: disconnecting *)

Lemma occ_concat_none {A} (p : kentry → bool) (f : A → list kentry) l : (∀ y, y ∈ l → occurrences p (f y) = 0%nat) → occurrences p (concat (f <$> l)) = 0%nat.
Proof.
  induction l as [|y l IH]; intros H; [done|]. rewrite fmap_cons; cbn [concat]; rewrite occ_app, H by left. rewrite IH; [done|]. intros z Hz. apply H. by right.
Qed.
Lemma occ_concat_one {A} (p : kentry → bool) (f : A → list kentry) l x : NoDup l → x ∈ l → (∀ y, y ∈ l → y ≠ x → occurrences p (f y) = 0%nat) →
  occurrences p (concat (f <$> l)) = occurrences p (f x).
Proof.
  induction l as [|y l IH]; intros Hd Hx H; [by apply elem_of_nil in Hx|]. apply NoDup_cons in Hd as [Hy Hd]. rewrite fmap_cons; cbn [concat]; rewrite occ_app. apply elem_of_cons in Hx as [->|Hx].
  - rewrite occ_concat_none; [lia|]. intros z Hz. apply H; [by right|]. by intros ->.
  - rewrite (H y); [|left|by intros ->]. rewrite IH; [done|done|done|]. intros z Hz. apply H. by right.
Qed.
Definition open_state (s : option fstate) : Prop := s = Some FPending ∨ s = Some FRunning.
Lemma f_set_open k v c : open_state (k_state c !! k) → f_set k v c = (k_with_state (k_graphs c) (<[k := FFinished]> (k_state c)) c, [CSet k v], None).
Proof. intros [H|H]; unfold f_set; by rewrite H. Qed.
Lemma k_exit_tasks_open ts : ∀ c, NoDup ts → (∀ t, t ∈ ts → open_state (k_state c !! FTask t)) → ∃ c', k_exit_tasks ts c = (c', concat (exit_task <$> ts), None) ∧
  k_graphs c' = k_graphs c ∧ ∀ g i, k_state c' !! FGraph g i = k_state c !! FGraph g i.
Proof.
  induction ts as [|t ts IH]; intros c Hd Hs; [by exists c|]. apply NoDup_cons in Hd as [Ht Hd]. cbn [k_exit_tasks].
  rewrite f_set_open by (apply Hs; left). destruct (IH (k_with_state (k_graphs c) (<[FTask t:=FFinished]> (k_state c)) c)) as (c' & Hc' & Hg & Hst); [done| |].
  - intros t' Ht'. cbn. rewrite lookup_insert_ne; [apply Hs; by right|]. by intros [= ->].
  - rewrite Hc'. exists c'. split_and!; [done|done|]. intros g i. rewrite Hst. cbn. by rewrite lookup_insert_ne.
Qed.
Lemma k_exit_graphs_open gs : ∀ c, NoDup gs.*1 → (∀ g n i, (g, n) ∈ gs → (i < n)%nat → k_state c !! FGraph g i = Some FPending) → ∃ c', k_exit_graphs gs c = (c', concat (exit_graph <$> gs), None).
Proof.
  induction gs as [|[g n] gs IH]; intros c Hd Hs; [by exists c|]. rewrite fmap_cons in Hd. apply NoDup_cons in Hd as [Hg Hd]. cbn [k_exit_graphs].
  assert (Hkeys : ∀ k v, (k, v) ∈ (λ i, (FGraph g i, Disconnected)) <$> seq 0 n → ∃ i, (i < n)%nat ∧ k = FGraph g i).
  { intros k v (i & [= -> ->] & Hi)%elem_of_list_fmap. apply elem_of_seq in Hi. exists i. split; [lia|done]. }
  destruct (f_set_all_pending ((λ i, (FGraph g i, Disconnected)) <$> seq 0 n) c) as [c1 H1].
  - rewrite <-list_fmap_compose. apply NoDup_fmap_2; [|apply NoDup_seq]. by intros i j [= ->].
  - intros k v Hin. destruct (Hkeys _ _ Hin) as (i & Hi & ->). apply (Hs g n i); [left|done].
  - rewrite H1. assert (Hst : ∀ g' i, g' ≠ g → k_state c1 !! FGraph g' i = k_state c !! FGraph g' i).
    { clear -H1 Hkeys. revert c H1. generalize dependent ((λ i, (FGraph g i, Disconnected)) <$> seq 0 n). intros kvs Hk c H1 g' i Hne. revert c H1.
      assert (Hx : ∀ c out, f_set_all kvs c = (c1, out, None) → k_state c1 !! FGraph g' i = k_state c !! FGraph g' i); [|intros c H1; by eapply Hx].
      induction kvs as [|[k v] kvs IH]; intros c out H1; cbn in H1; [by injection H1 as ->|].
      unfold f_set in H1. destruct (Hk k v) as (j & _ & ->); [left|].
      destruct (k_state c !! FGraph g j) as [[]|]; try discriminate H1;
        (destruct (f_set_all kvs _) as [[c2 out2] e2] eqn:E2; injection H1 as -> <- ->; rewrite (IH (λ k v Hi, Hk k v (elem_of_list_further _ _ _ Hi)) _ _ E2); cbn; rewrite lookup_insert_ne; [done|congruence]). }
    destruct (IH c1) as [c2 H2]; [done| |].
    + intros g' n' i Hin Hi. rewrite Hst; [apply (Hs g' n' i); [by right|done]|]. intros ->. apply Hg. apply elem_of_list_fmap. by exists (g, n').
    + rewrite H2. exists c2. do 2 f_equal. cbn. unfold exit_graph at 2. cbn. by rewrite <-list_fmap_compose.
Qed.
Lemma exit_now es h : (k_run es).2 = h → new_ids h → connected h = true →
  (∀ t, waits t h = true → cancelled (FTask t) h = false) → (∀ g n i, graph_waits g h = Waits n → (i < n)%nat → cancelled (FGraph g i) h = false) →
  ∃ out, (k_run (es ++ [KExit])).2 = h ++ CIn KExit :: out ∧ (∀ e, CCrash e ∉ out) ∧
    (∀ t, occurrences (sets (FTask t)) out = (if waits t h then 1 else 0)%nat ∧ occurrences (drops t) out = (if waits t h then 1 else 0)%nat) ∧
    (∀ g, occurrences (drops_graph g) out = (match graph_waits g h with Waits _ => 1 | _ => 0 end)%nat ∧
      ∀ i, occurrences (sets (FGraph g i)) out = (match graph_waits g h with Waits n => if (i <? n)%nat then 1 else 0 | _ => 0 end)%nat).
Proof.
  intros Hr Hn Hc Ht Hg. destruct (k_run es) as [c h0] eqn:E. cbn in Hr. subst h0. destruct (settled_run _ _ _ E Hn) as [Hb Hl]. destruct (Hl Hc) as (HL & HG & HS).
  rewrite (k_run_one _ _ _ _ E). cbn [k_handle fst snd]. rewrite (k_up_run _ _ _ E Hn Hc). unfold k_exit.
  destruct (k_exit_tasks_open (k_futures c) c) as (c1 & H1 & Hgr & Hst); [apply HL| |].
  { intros t Hin. rewrite (s_task _ _ HS t Hin). rewrite Ht by (by apply (l_futures _ _ HL)). destruct (accepted t h); [by right|by left]. }
  rewrite H1, Hgr. destruct (k_exit_graphs_open (k_graphs c) c1) as [c2 H2]; [apply HG| |].
  { intros g n i Hin Hi. pose proof (proj1 (g_graphs _ _ HG g n) Hin) as Hw. rewrite Hst, (s_graph _ _ HS g n i) by auto. by rewrite (Hg g n i). }
  rewrite H2. cbn [k_settle fst snd]. eexists. split; [done|].
  assert (HF : ∀ t, waits t h = bool_decide (t ∈ k_futures c)).
  { intros t. case_bool_decide as Hin; [by apply (l_futures _ _ HL)|]. destruct (waits t h) eqn:Ew; [|done]. by apply (l_futures _ _ HL) in Ew. }
  assert (Htask : ∀ p t, (∀ x, x ∈ concat (exit_graph <$> k_graphs c) → p x = false) → (∀ t', t' ≠ t → occurrences p (exit_task t') = 0%nat) →
    occurrences p (concat (exit_task <$> k_futures c) ++ concat (exit_graph <$> k_graphs c)) = if waits t h then occurrences p (exit_task t) else 0%nat).
  { intros p t Hp1 Hp2. rewrite occ_app, (occ_none _ _ Hp1), HF, Nat.add_0_r. case_bool_decide as Hin; [apply occ_concat_one; [apply HL|done|auto]|]. apply occ_concat_none. intros y Hy. apply Hp2. by intros ->. }
  assert (Hgraph : ∀ p g, (∀ x, x ∈ concat (exit_task <$> k_futures c) → p x = false) → (∀ g' n, g' ≠ g → occurrences p (exit_graph (g', n)) = 0%nat) →
    occurrences p (concat (exit_task <$> k_futures c) ++ concat (exit_graph <$> k_graphs c)) = match graph_waits g h with Waits n => occurrences p (exit_graph (g, n)) | _ => 0%nat end).
  { intros p g Hp1 Hp2. rewrite occ_app, (occ_none _ _ Hp1), Nat.add_0_l.
    assert (Hother : (∀ n, (g, n) ∉ k_graphs c) → occurrences p (concat (exit_graph <$> k_graphs c)) = 0%nat).
    { intros Hno. apply occ_concat_none. intros [g' n'] Hy. apply Hp2. intros ->. by apply (Hno n'). }
    assert (Hno : (∀ n, graph_waits g h ≠ Waits n) → ∀ n, (g, n) ∉ k_graphs c) by (intros Hx n Hin; apply (g_graphs _ _ HG) in Hin; by apply (Hx n)).
    destruct (graph_waits g h) eqn:Ew; try (apply Hother, Hno; done). apply occ_concat_one.
    - eapply NoDup_fmap_1. apply HG.
    - by apply (g_graphs _ _ HG).
    - intros [g' n'] Hin Hne. apply Hp2. intros ->. apply Hne. apply (g_graphs _ _ HG) in Hin. congruence. }
  assert (Hxt : ∀ x, x ∈ concat (exit_task <$> k_futures c) → ∃ t, x = COut (MTaskCancel t) ∨ x = CSet (FTask t) Disconnected).
  { intros x Hx. apply elem_of_list_In, in_concat in Hx as (l & Hin & Hx). apply elem_of_list_In in Hx, Hin. apply elem_of_list_fmap in Hin as (t & -> & _). exists t. unfold exit_task in Hx.
    apply elem_of_cons in Hx as [->|Hx]; [by left|]. apply elem_of_list_singleton in Hx as ->. by right. }
  assert (Hxg : ∀ x, x ∈ concat (exit_graph <$> k_graphs c) → ∃ g, x = COut (MGraphTaskCancel g) ∨ ∃ i, x = CSet (FGraph g i) Disconnected).
  { intros x Hx. apply elem_of_list_In, in_concat in Hx as (l & Hin & Hx). apply elem_of_list_In in Hx, Hin. apply elem_of_list_fmap in Hin as ([g n] & -> & _). exists g. unfold exit_graph in Hx.
    apply elem_of_cons in Hx as [->|Hx]; [by left|]. apply elem_of_list_fmap in Hx as (i & -> & _). right. eauto. }
  split_and!.
  - intros e [Hx|Hx]%elem_of_app; [by destruct (Hxt _ Hx) as (? & [?|?])|by destruct (Hxg _ Hx) as (? & [?|[? ?]])].
  - intros t. split; rewrite (Htask _ t).
    + destruct (waits t h); [|done]. unfold exit_task. rewrite !occ_cons. cbn [sets drops]. rewrite bool_decide_eq_true_2 by done. done.
    + intros x Hx. destruct (Hxg _ Hx) as (? & [->|[? ->]]); [done|]. cbn. by rewrite bool_decide_eq_false_2.
    + intros t' Hne. unfold exit_task. rewrite !occ_cons. cbn [sets drops]. rewrite bool_decide_eq_false_2; [done|]. congruence.
    + destruct (waits t h); [|done]. unfold exit_task. rewrite !occ_cons. cbn [sets drops]. by rewrite String.eqb_refl.
    + intros x Hx. by destruct (Hxg _ Hx) as (? & [->|[? ->]]).
    + intros t' Hne. unfold exit_task. rewrite !occ_cons. cbn [sets drops]. by rewrite (proj2 (String.eqb_neq _ _)).
  - intros g. split; [rewrite (Hgraph _ g)|intros i; rewrite (Hgraph _ g)].
    + destruct (graph_waits g h); try done. unfold exit_graph. rewrite occ_cons. cbn [fst drops_graph]. rewrite String.eqb_refl, occ_none; [done|]. intros x (i & -> & _)%elem_of_list_fmap. done.
    + intros x Hx. by destruct (Hxt _ Hx) as (? & [->| ->]).
    + intros g' n Hne. unfold exit_graph. rewrite occ_cons. cbn [fst drops_graph]. rewrite (proj2 (String.eqb_neq _ _)) by done. rewrite occ_none; [done|]. intros x (i & -> & _)%elem_of_list_fmap. done.
    + destruct (graph_waits g h) as [| |n|]; try done. unfold exit_graph. rewrite occ_cons. cbn [fst snd sets].
      transitivity (occurrences (sets (FGraph g i)) (concat ((λ j, [CSet (FGraph g j) Disconnected]) <$> seq 0 n))).
      { assert (Hco : ∀ l, (λ j, CSet (FGraph g j) Disconnected) <$> l = concat ((λ j, [CSet (FGraph g j) Disconnected]) <$> l)) by (induction l as [|j l IH]; [done|]; cbn; by rewrite <-IH). by rewrite Hco. }
      destruct (i <? n)%nat eqn:Ei.
      * apply Nat.ltb_lt in Ei. rewrite (occ_concat_one _ _ _ i); [|apply NoDup_seq|apply elem_of_seq; lia|].
        -- rewrite occ_one. cbn [sets]. by rewrite bool_decide_eq_true_2.
        -- intros j _ Hne. rewrite occ_one. cbn [sets]. rewrite bool_decide_eq_false_2; [done|]. congruence.
      * apply Nat.ltb_ge in Ei. apply occ_concat_none. intros j Hj. apply elem_of_seq in Hj. rewrite occ_one. cbn [sets]. rewrite bool_decide_eq_false_2; [done|]. intros [= ->]. lia.
    + intros x Hx. destruct (Hxt _ Hx) as (? & [->| ->]); [done|]. cbn. by rewrite bool_decide_eq_false_2.
    + intros g' n Hne. unfold exit_graph. rewrite occ_cons. cbn [fst snd sets]. rewrite occ_none; [done|]. intros x (j & -> & _)%elem_of_list_fmap. cbn. rewrite bool_decide_eq_false_2; [done|]. congruence.
Qed.

(** A cancelled future stops the exit. *)
Lemma f_set_keeps k v c c' out e k' : f_set k v c = (c', out, e) → k_state c !! k' = Some FCancelled → k_state c' !! k' = Some FCancelled ∧ (k = k' → e = Some InvalidStateError) ∧ (e = None ∨ e = Some InvalidStateError) ∧ k_graphs c' = k_graphs c.
Proof.
  unfold f_set. intros Hs Hk. destruct (decide (k = k')) as [->|Hne]; [rewrite Hk in Hs; injection Hs as <- <- <-; auto|].
  destruct (k_state c !! k) as [[]|]; injection Hs as <- <- <-; cbn; rewrite ?lookup_insert_ne by done; split_and!; auto; by intros ?.
Qed.
Lemma f_set_all_keeps kvs : ∀ c c' out e k', f_set_all kvs c = (c', out, e) → k_state c !! k' = Some FCancelled →
  k_state c' !! k' = Some FCancelled ∧ (k' ∈ kvs.*1 → e = Some InvalidStateError) ∧ (e = None ∨ e = Some InvalidStateError) ∧ k_graphs c' = k_graphs c.
Proof.
  induction kvs as [|[k v] kvs IH]; intros c c' out e k' H Hk; cbn in H; [injection H as <- <- <-; split_and!; auto; intros Hx; by apply elem_of_nil in Hx|].
  destruct (f_set k v c) as [[c1 out1] e1] eqn:E1. destruct (f_set_keeps _ _ _ _ _ _ k' E1 Hk) as (H1 & H2 & H3 & H4). destruct e1 as [e1|].
  - injection H as <- <- <-. destruct H3 as [|[= ->]]; [done|]. auto.
  - destruct (f_set_all kvs c1) as [[c2 out2] e2] eqn:E2. injection H as <- <- <-. destruct (IH _ _ _ _ _ E2 H1) as (K1 & K2 & K3 & K4). split_and!; [done| |done|congruence].
    rewrite fmap_cons. intros [->|Hin]%elem_of_cons; [by specialize (H2 eq_refl)|auto].
Qed.
Lemma k_exit_tasks_keeps ts : ∀ c c' out e k', k_exit_tasks ts c = (c', out, e) → k_state c !! k' = Some FCancelled →
  k_state c' !! k' = Some FCancelled ∧ ((∃ t, t ∈ ts ∧ k' = FTask t) → e = Some InvalidStateError) ∧ (e = None ∨ e = Some InvalidStateError) ∧ k_graphs c' = k_graphs c.
Proof.
  induction ts as [|t ts IH]; intros c c' out e k' H Hk; cbn in H; [injection H as <- <- <-; split_and!; auto; intros (t & Hx & _); by apply elem_of_nil in Hx|].
  destruct (f_set (FTask t) Disconnected c) as [[c1 out1] e1] eqn:E1. destruct (f_set_keeps _ _ _ _ _ _ k' E1 Hk) as (H1 & H2 & H3 & H4). destruct e1 as [e1|].
  - injection H as <- <- <-. destruct H3 as [|[= ->]]; [done|]. auto.
  - destruct (k_exit_tasks ts c1) as [[c2 out2] e2] eqn:E2. injection H as <- <- <-. destruct (IH _ _ _ _ _ E2 H1) as (K1 & K2 & K3 & K4). split_and!; [done| |done|congruence].
    intros (t' & [->|Hin]%elem_of_cons & ->); [by specialize (H2 eq_refl)|eauto].
Qed.
Lemma k_exit_graphs_keeps gs : ∀ c c' out e k', k_exit_graphs gs c = (c', out, e) → k_state c !! k' = Some FCancelled →
  ((∃ g n i, (g, n) ∈ gs ∧ (i < n)%nat ∧ k' = FGraph g i) → e = Some InvalidStateError) ∧ (e = None ∨ e = Some InvalidStateError).
Proof.
  induction gs as [|[g n] gs IH]; intros c c' out e k' H Hk; cbn in H; [injection H as <- <- <-; split_and!; auto; intros (? & ? & ? & Hx & _); by apply elem_of_nil in Hx|].
  destruct (f_set_all _ c) as [[c1 out1] e1] eqn:E1. destruct (f_set_all_keeps _ _ _ _ _ k' E1 Hk) as (H1 & H2 & H3 & H4). destruct e1 as [e1|].
  - injection H as <- <- <-. destruct H3 as [|[= ->]]; [done|]. auto.
  - destruct (k_exit_graphs gs c1) as [[c2 out2] e2] eqn:E2. injection H as <- <- <-. destruct (IH _ _ _ _ _ E2 H1) as (K2 & K3). split_and!; [|done].
    intros (g' & n' & i & [[= -> ->]|Hin]%elem_of_cons & Hi & ->); [|eauto 10]. discriminate H2. rewrite <-list_fmap_compose. apply elem_of_list_fmap. exists i. split; [done|]. apply elem_of_seq. lia.
Qed.
Lemma exit_crash es h k : (k_run es).2 = h → new_ids h → connected h = true → cancelled k h = true →
  match k with inl t => waits t h = true | inr (g, i) => ∃ n, graph_waits g h = Waits n ∧ (i < n)%nat end →
  CCrash InvalidStateError ∈ (k_run (es ++ [KExit])).2.
Proof.
  intros Hr Hn Hc Hca Hw. destruct (k_run es) as [c h0] eqn:E. cbn in Hr. subst h0. destruct (settled_run _ _ _ E Hn) as [Hb Hl]. destruct (Hl Hc) as (HL & HG & HS).
  rewrite (k_run_one _ _ _ _ E). cbn [k_handle fst snd]. rewrite (k_up_run _ _ _ E Hn Hc).
  assert (Hk : k_state c !! k = Some FCancelled).
  { destruct k as [t|[g i]].
    - rewrite (s_task _ _ HS t) by (by apply (l_futures _ _ HL)). by rewrite Hca.
    - destruct Hw as (n & Hw & Hi). rewrite (s_graph _ _ HS g n i) by auto. by rewrite Hca. }
  assert (He : ∃ c' out, k_exit c = (c', out, Some InvalidStateError)).
  { unfold k_exit. destruct (k_exit_tasks (k_futures c) c) as [[c1 out1] e1] eqn:E1. destruct (k_exit_tasks_keeps _ _ _ _ _ _ E1 Hk) as (H1 & H2 & H3 & H4).
    destruct e1 as [e1|]; [destruct H3 as [|[= ->]]; [done|eauto]|]. destruct (k_exit_graphs (k_graphs c1) c1) as [[c2 out2] e2] eqn:E2. rewrite H4 in E2.
    destruct (k_exit_graphs_keeps _ _ _ _ _ _ E2 H1) as [K1 K2]. rewrite K1; [eauto|]. destruct k as [t|[g i]].
    - exfalso. discriminate H2. exists t. split; [by apply (l_futures _ _ HL)|done].
    - destruct Hw as (n & Hw & Hi). exists g, n, i. split_and!; [by apply (g_graphs _ _ HG)|done|done]. }
  destruct He as (c' & out & ->). cbn. apply elem_of_app. right. right. apply elem_of_app. right. left.
Qed.

(** ** Echoes that end the client *)

Lemma no_worker_now es h t loads : (k_run es).2 = h → new_ids h → connected h = true → submitted t h = true → accepted t h = false →
  (k_run (es ++ [KRecv (MTaskEcho t NoWorker) loads])).2 = h ++ [CIn (KRecv (MTaskEcho t NoWorker) loads); CCrash NotImplementedError].
Proof.
  intros Hr Hn Hc Hs Ha. destruct (k_run es) as [c h0] eqn:E. cbn in Hr. subst h0. destruct (live_run _ _ _ E Hn) as [Hb Hl]. specialize (Hl Hc).
  rewrite (k_run_one _ _ _ _ E). cbn. rewrite (k_up_run _ _ _ E Hn Hc). unfold k_echo. destruct (proj2 (l_tasks _ _ Hl t)) as [k ->]; done.
Qed.
Lemma early_echo_now es h t loads n : (k_run es).2 = h → new_ids h → connected h = true → steps t h = Some n → (n < 3)%nat →
  (k_run (es ++ [KRecv (MTaskEcho t SubmitOK) loads])).2 = h ++ [CIn (KRecv (MTaskEcho t SubmitOK) loads); CCrash KeyError].
Proof.
  intros Hr Hn Hc Hs Hlt. destruct (k_run es) as [c h0] eqn:E. cbn in Hr. subst h0. destruct (live_run _ _ _ E Hn) as [Hb Hl]. specialize (Hl Hc).
  rewrite (k_run_one _ _ _ _ E). cbn. rewrite (k_up_run _ _ _ E Hn Hc). unfold k_echo. destruct (l_flight _ _ Hl t n Hs Hlt) as [_ Ha].
  destruct (proj2 (l_tasks _ _ Hl t)) as [k ->]; [split; [by eapply steps_known|done]|]. cbn. destruct (existsb _ _) eqn:Ef; [|done].
  apply in_futures in Ef. destruct (l_steps _ _ Hl t Ef) as (n' & Hs' & Hle). rewrite Hs in Hs'. injection Hs' as ->. lia.
Qed.
(** ... and one that does not. *)
Lemma echo_now es h t loads : (k_run es).2 = h → new_ids h → connected h = true → waits t h = true →
  (k_run (es ++ [KRecv (MTaskEcho t SubmitOK) loads])).2 = h ++ [CIn (KRecv (MTaskEcho t SubmitOK) loads)].
Proof.
  intros Hr Hn Hc Hw. destruct (k_run es) as [c h0] eqn:E. cbn in Hr. subst h0. destruct (settled_run _ _ _ E Hn) as [Hb Hl]. destruct (Hl Hc) as (Hl' & _ & HS).
  assert (Hin : t ∈ k_futures c) by (by apply (l_futures _ _ Hl')).
  rewrite (k_run_one _ _ _ _ E). cbn. rewrite (k_up_run _ _ _ E Hn Hc). unfold k_echo. destruct (k_tasks c !! t) as [k|] eqn:Ek; [|done].
  destruct (proj1 (l_tasks _ _ Hl' t) (mk_is_Some _ _ Ek)) as [_ Ha]. cbn [k_futures k_with k_state]. rewrite (proj2 (in_futures _ _) Hin).
  rewrite (s_task _ _ HS t Hin), Ha. by destruct (cancelled (FTask t) h).
Qed.
Lemma ended_now es h t st d p loads : (k_run es).2 = h → new_ids h → connected h = true → returned t h = true → st ≠ Success → st ≠ Failed →
  let es1 := es ++ [KRecv (MTaskResult t st d p) loads] in
  let h1 := h ++ [CIn (KRecv (MTaskResult t st d p) loads)] in
  (k_run es1).2 = h1 ∧
  ∀ es' h', (k_run (es1 ++ es')).2 = h1 ++ h' → new_ids (h1 ++ h') → ∀ v, CSet (FTask t) v ∉ h'.
Proof.
  intros Hr Hn Hc Hret Hs Hf es1 h1.
  assert (H1 : (k_run es1).2 = h1).
  { unfold es1, h1. destruct (k_run es) as [c h0] eqn:E. cbn in Hr. subst h0. rewrite !(k_run_one _ _ _ _ E). cbn. rewrite (k_up_run _ _ _ E Hn Hc). unfold k_result.
    destruct (existsb _ _); [|done]. by destruct st. }
  split; [exact H1|]. intros es' h' Hr' Hn'. apply (over_run es1 es' h1 h' t H1 Hr' Hn').
  - unfold returned, h1 in *. rewrite steps_later by done. exact Hret.
  - unfold h1. rewrite waits_later by done. cbn. by rewrite String.eqb_refl.
Qed.
