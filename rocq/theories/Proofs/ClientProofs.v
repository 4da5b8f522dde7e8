(** * Invariants of the client *)

From Verif.Model Require Import Base Message Client.
From Verif.Spec Require Import HistorySpec ClientSpec.
From Verif.Proofs Require Import BaseProofs HistoryProofs.

(** ** Outputs do not matter for what has happened *)

Definition output (e : kentry) : Prop := match e with CIn _ => False | _ => True end.

Lemma moments_from_app {E} (p : list E → E → bool) b h1 h2 :
  moments_from p b (h1 ++ h2) = (moments_from p b h1 + moments_from p (b ++ h1) h2)%nat.
Proof.
  revert b. induction h1 as [|e h1 IH]; intros b; cbn; [by rewrite app_nil_r|].
  rewrite IH, <-app_assoc. cbn. lia.
Qed.
Lemma moments_app {E} (p : list E → E → bool) h1 h2 : moments p (h1 ++ h2) = (moments p h1 + moments_from p h1 h2)%nat.
Proof. apply moments_from_app. Qed.
Lemma moments_outs (p : list kentry → kentry → bool) b out : (∀ b e, output e → p b e = false) → Forall output out → moments_from p b out = 0%nat.
Proof. intros Hp Ho. revert b. induction Ho as [|e out He _ IH]; intros b; cbn; [done|]. by rewrite Hp, IH. Qed.

Lemma existsb_snoc {A} (p : A → bool) l x out : existsb p (l ++ x :: out) = existsb p l || p x || existsb p out.
Proof. by rewrite existsb_app; cbn; rewrite orb_assoc. Qed.
Lemma existsb_none {A} (p : A → bool) l : (∀ x, x ∈ l → p x = false) → existsb p l = false.
Proof. intros H. apply not_true_iff_false. intros (x & Hx & Hp)%existsb_exists. apply elem_of_list_In in Hx. by rewrite (H x Hx) in Hp. Qed.
Lemma existsb_outs (p : kentry → bool) out : (∀ e, output e → p e = false) → Forall output out → existsb p out = false.
Proof. intros Hp Ho. apply existsb_none. intros x Hx. apply Hp. by eapply Forall_forall in Ho. Qed.

Lemma fold_outs {A} (f : A → kentry → A) out : (∀ n e, output e → f n e = n) → Forall output out → ∀ n, foldl f n out = n.
Proof. intros Hf Ho. induction Ho as [|x out' Hx _ IH]; intros n; [done|]. cbn. by rewrite Hf, IH. Qed.
Lemma waits_outs t out : Forall output out → ∀ b w, waits_from t b w out = w.
Proof. intros Ho. induction Ho as [|x out' Hx _ IH]; intros b w; [done|]. cbn [waits_from]. rewrite IH. by destruct x. Qed.

Section later.
Context (h : list kentry) (e : kevent) (out : list kentry) (Ho : Forall output out).
Notation h' := (h ++ CIn e :: out).

Lemma steps_later t : steps t h' = step_of t (steps t h) (CIn e).
Proof. unfold steps. rewrite foldl_app. cbn [foldl]. apply fold_outs; [by intros ? []|done]. Qed.
Lemma cause_later : cause h' = Some e.
Proof.
  unfold cause. rewrite foldl_app. cbn [foldl cause_of]. apply fold_outs; [by intros ? []|done].
Qed.
Lemma graph_later g : graph_waits g h' = graph_of g (graph_waits g h) (CIn e).
Proof.
  unfold graph_waits. rewrite foldl_app. cbn [foldl]. apply fold_outs; [by intros ? []|done].
Qed.
Lemma submitted_later t : submitted t h' = submitted t h || submits t (CIn e).
Proof. unfold submitted. rewrite existsb_snoc, (existsb_outs _ out), orb_false_r; [done| |done]. by intros []. Qed.
Lemma asks_later g : existsb (asks_graph g) h' = existsb (asks_graph g) h || asks_graph g (CIn e).
Proof. rewrite existsb_snoc, (existsb_outs _ out), orb_false_r; [done| |done]. by intros []. Qed.
Lemma cancels_later k : existsb (cancels k) h' = existsb (cancels k) h || cancels k (CIn e).
Proof. rewrite existsb_snoc, (existsb_outs _ out), orb_false_r; [done| |done]. by intros []. Qed.
Lemma accepted_later t : accepted t h' = accepted t h || (accepts t (CIn e) && submitted t h).
Proof.
  unfold accepted. rewrite moments_app. cbn [moments_from]. rewrite moments_outs; [|by intros ? []|done].
  destruct (accepts t (CIn e) && submitted t h); destruct (moments _ h); cbn; done.
Qed.
Lemma asked_later t : asked_again t h' = (asked_again t h + if refuses t (CIn e) && submitted t h && negb (accepted t h) then 1 else 0)%nat.
Proof.
  unfold asked_again. rewrite moments_app. cbn [moments_from]. rewrite moments_outs; [|by intros ? []|done].
  destruct (refuses t (CIn e) && submitted t h && negb (accepted t h)); lia.
Qed.
Lemma buffered_later t : buffered t h' = match step_of t (steps t h) (CIn e) with Some n => (2 <=? n)%nat | None => false end.
Proof. unfold buffered. by rewrite steps_later. Qed.
Lemma waits_from_app t b w h1 h2 : waits_from t b w (h1 ++ h2) = waits_from t (b ++ h1) (waits_from t b w h1) h2.
Proof.
  revert b w. induction h1 as [|x h1 IH]; intros b w; cbn [app waits_from]; [by rewrite app_nil_r|].
  by rewrite IH, <-app_assoc.
Qed.
Lemma waits_later t : waits t h' = wait_of t h (waits t h) (CIn e).
Proof.
  unfold waits. rewrite waits_from_app. cbn [waits_from app]. by apply waits_outs.
Qed.
Lemma connected_later : connected h' = connected h && negb (match e with KExit => true | _ => false end) && connected out.
Proof.
  unfold connected. rewrite existsb_app. cbn [existsb]. rewrite !negb_orb, andb_assoc. by destruct e.
Qed.
Lemma occ_later p : occurrences p h' = (occurrences p h + (if p (CIn e) then 1 else 0) + occurrences p out)%nat.
Proof. rewrite occ_app, occ_cons. lia. Qed.
End later.

(** ** Submissions *)

Lemma new_ids_later h e out : new_ids h → Forall output out →
  match e with
  | KSubmit t _ _ _ _ => submitted t h = false
  | KGraph (MGraphTask g _ _ _) _ => existsb (asks_graph g) h = false
  | _ => True
  end → new_ids (h ++ CIn e :: out).
Proof.
  intros Hn Ho He. unfold new_ids in *. rewrite cons_middle, app_assoc. apply always_app; [by apply always_snoc|].
  intros b x a ->. apply Forall_app in Ho as [_ Ho]. apply Forall_cons in Ho as [Hx _]. by destruct x.
Qed.
Lemma new_ids_here h e out : new_ids (h ++ CIn e :: out) →
  match e with
  | KSubmit t _ _ _ _ => submitted t h = false
  | KGraph (MGraphTask g _ _ _) _ => existsb (asks_graph g) h = false
  | _ => True
  end.
Proof. intros Hn. apply always_at in Hn. exact Hn. Qed.

Lemma submitted_in t h : submitted t h = true ↔ ∃ f name content args, CIn (KSubmit t f name content args) ∈ h.
Proof.
  unfold submitted. rewrite existsb_exists. split.
  - intros (x & Hx & Hs). apply elem_of_list_In in Hx. destruct x as [[]| | |]; try done. apply String.eqb_eq in Hs as ->. eauto.
  - intros (f & name & content & args & Hx). eexists. split; [apply elem_of_list_In, Hx|]. cbn. apply String.eqb_refl.
Qed.
Lemma submitted_as_app k name content h l : submitted_as k name content h → submitted_as k name content (h ++ l).
Proof. intros (args & Hin & Ha). exists args. split; [apply elem_of_app; by left|done]. Qed.
Lemma submitted_as_submitted k name content h : submitted_as k name content h → submitted (task_id k) h = true.
Proof. intros (args & Hin & _). apply submitted_in. eauto. Qed.

Lemma submission_unique h t f name content args f' name' content' args' : new_ids h →
  CIn (KSubmit t f name content args) ∈ h → CIn (KSubmit t f' name' content' args') ∈ h →
  f = f' ∧ name = name' ∧ content = content' ∧ args = args'.
Proof.
  intros Hn H1 H2. apply elem_of_list_split in H1 as (b & a & ->). rewrite elem_of_app, elem_of_cons in H2.
  destruct H2 as [H2|[H2|H2]].
  - assert (Hs : submitted t b = false) by exact (always_at _ _ _ _ Hn).
    rewrite (proj2 (submitted_in t b)) in Hs; [done|eauto].
  - by injection H2 as -> -> -> ->.
  - apply elem_of_list_split in H2 as (b' & a' & ->).
    rewrite app_comm_cons, app_assoc in Hn.
    assert (Hs : submitted t (b ++ CIn (KSubmit t f name content args) :: b') = false) by exact (always_at _ _ _ _ Hn).
    rewrite (proj2 (submitted_in t _)) in Hs; [done|]. do 4 eexists. rewrite elem_of_app, elem_of_cons. eauto.
Qed.
Lemma submitted_as_unique h k k' name content name' content' : new_ids h → submitted_as k name content h → submitted_as k' name' content' h →
  task_id k = task_id k' → k = k' ∧ name = name' ∧ content = content'.
Proof.
  intros Hn (args & Hi & Ha) (args' & Hi' & Ha') Ht. rewrite <-Ht in Hi'.
  destruct (submission_unique _ _ _ _ _ _ _ _ _ _ Hn Hi Hi') as (Hf & -> & -> & ->).
  split; [|done]. destruct k, k'; cbn in *. congruence.
Qed.
Lemma steps_submitted t h : submitted t h = false → steps t h = None.
Proof.
  unfold steps, submitted. induction h as [|e h IH] using rev_ind; [done|].
  rewrite existsb_app, foldl_app. cbn. rewrite orb_false_r. intros [Hh He]%orb_false_iff. rewrite (IH Hh).
  destruct e as [[]| | |]; cbn in *; try done; [by rewrite He|by destruct (String.eqb _ _)].
Qed.

(** ** Resolving futures *)

Definition once (st : gmap fkey fstate) (h : list kentry) : Prop :=
  ∀ k, occurrences (sets k) h = if bool_decide (st !! k = Some FFinished) then 1%nat else 0%nat.

(** [c'] differs from [c] only in the states of the futures [ks]. *)
Definition resolves (ks : fkey → Prop) (c c' : client) : Prop :=
  ∃ st, c' = k_with_state (k_graphs c) st c ∧ ∀ k, ¬ ks k → st !! k = k_state c !! k.
Lemma resolves_refl ks c : resolves ks c c.
Proof. exists (k_state c). split; [by destruct c|done]. Qed.
Lemma resolves_trans ks c1 c2 c3 : resolves ks c1 c2 → resolves ks c2 c3 → resolves ks c1 c3.
Proof. intros (s1 & -> & K1) (s2 & -> & K2). exists s2. split; [done|]. intros k Hk. by rewrite K2, <-K1. Qed.
Lemma resolves_weaken (ks ks' : fkey → Prop) c c' : (∀ k, ks k → ks' k) → resolves ks c c' → resolves ks' c c'.
Proof. intros Hk (s & -> & K). exists s. split; [done|]. intros k Hn. apply K. auto. Qed.

Lemma once_outs st h out : (∀ k e, e ∈ out → sets k e = false) → once st h → once st (h ++ out).
Proof. intros Hs Ho k. rewrite occ_app, (occ_none _ out), Nat.add_0_r; auto. Qed.

Lemma f_set_ok k v c c' out e h : f_set k v c = (c', out, e) → once (k_state c) h →
  once (k_state c') (h ++ out) ∧ resolves (λ k', k' = k) c c' ∧ Forall output out ∧
  (e = None → out = [CSet k v] ∧ k_state c' !! k = Some FFinished) ∧ (e ≠ None → out = [] ∧ c' = c).
Proof.
  unfold f_set. intros Hs Ho.
  assert (Hbad : (c, [], Some InvalidStateError) = (c', out, e) → once (k_state c') (h ++ out) ∧ resolves (λ k', k' = k) c c' ∧ Forall output out ∧
    (e = None → out = [CSet k v] ∧ k_state c' !! k = Some FFinished) ∧ (e ≠ None → out = [] ∧ c' = c)).
  { intros [= <- <- <-]. rewrite app_nil_r. split_and!; try done. apply resolves_refl. }
  assert (Hok : k_state c !! k ≠ Some FFinished → (k_with_state (k_graphs c) (<[k := FFinished]> (k_state c)) c, [CSet k v], None) = (c', out, e) → once (k_state c') (h ++ out) ∧ resolves (λ k', k' = k) c c' ∧ Forall output out ∧
    (e = None → out = [CSet k v] ∧ k_state c' !! k = Some FFinished) ∧ (e ≠ None → out = [] ∧ c' = c)).
  { intros Hk [= <- <- <-]. split_and!; [|eexists; split; [done|]|by repeat constructor|intros _; cbn; by rewrite lookup_insert|done].
    - intros k'. rewrite occ_app, occ_one, Ho. unfold sets. cbn [k_with_state k_state]. destruct (decide (k = k')) as [->|Hne].
      + rewrite lookup_insert, (bool_decide_eq_false_2 (_ = Some FFinished)), !bool_decide_eq_true_2; done.
      + rewrite lookup_insert_ne by done. rewrite (bool_decide_eq_false_2 (k = k')) by done. lia.
    - intros k' Hk'. cbn. rewrite lookup_insert_ne; done. }
  destruct (k_state c !! k) as [[]|] eqn:E; auto.
Qed.
Lemma f_set_all_ok kvs c c' out e h : f_set_all kvs c = (c', out, e) → once (k_state c) h →
  once (k_state c') (h ++ out) ∧ resolves (λ k, k ∈ kvs.*1) c c' ∧ Forall output out ∧
  ∃ n, out = (λ kv, CSet kv.1 kv.2) <$> take n kvs ∧ (e = None → (length kvs <= n)%nat).
Proof.
  revert c out h. induction kvs as [|[k v] kvs IH]; intros c out h Hs Ho; cbn in Hs.
  - injection Hs as <- <- <-. rewrite app_nil_r. split_and!; try done; [apply resolves_refl|]. exists 0%nat. auto.
  - destruct (f_set k v c) as [[c1 out1] e1] eqn:E1. destruct (f_set_ok _ _ _ _ _ _ _ E1 Ho) as (Ho1 & Hr1 & Hf1 & Hg1 & Hb1).
    destruct e1 as [e1|].
    + injection Hs as <- <- <-. split_and!; try done; [eapply resolves_weaken; [|exact Hr1]; intros k' ->; cbn; left|].
      destruct (Hb1 ltac:(done)) as [-> _]. exists 0%nat. done.
    + destruct (f_set_all kvs c1) as [[c2 out2] e2] eqn:E2. injection Hs as <- <- <-.
      destruct (IH _ _ _ E2 Ho1) as (Ho2 & Hr2 & Hf2 & n & Hn & Hn').
      destruct (Hg1 eq_refl) as [-> Hfin]. rewrite <-app_assoc in Ho2. split_and!; [done| |by apply Forall_app|].
      * eapply resolves_trans; (eapply resolves_weaken; [|eassumption]); cbn; intros k' Hk'; set_solver.
      * exists (S n). cbn. rewrite Hn. split; [done|]. intros Hx. apply le_n_S. auto.
Qed.
Definition exit_task (t : bytes) : list kentry := [COut (MTaskCancel t); CSet (FTask t) Disconnected].
Definition exit_graph (gn : bytes * nat) : list kentry := COut (MGraphTaskCancel gn.1) :: ((λ i, CSet (FGraph gn.1 i) Disconnected) <$> seq 0 gn.2).
Definition gone (e : kentry) : Prop := match e with CSet _ v => v = Disconnected | COut (MTaskCancel _) | COut (MGraphTaskCancel _) => True | _ => False end.

Lemma once_cons st h x out : (∀ k, sets k x = false) → once st (h ++ out) → once st (h ++ x :: out).
Proof. intros Hs Ho k. specialize (Ho k). rewrite occ_app in *. rewrite occ_cons, Hs. lia. Qed.
Lemma k_exit_tasks_ok ts c c' out e h : k_exit_tasks ts c = (c', out, e) → once (k_state c) h →
  once (k_state c') (h ++ out) ∧ resolves (λ k, ∃ t, t ∈ ts ∧ k = FTask t) c c' ∧ Forall gone out ∧
  (e = None → out = concat (exit_task <$> ts)).
Proof.
  revert c out h. induction ts as [|t ts IH]; intros c out h Hs Ho; cbn in Hs.
  - injection Hs as <- <- <-. rewrite app_nil_r. split_and!; try done. apply resolves_refl.
  - destruct (f_set (FTask t) Disconnected c) as [[c1 out1] e1] eqn:E1.
    destruct (f_set_ok _ _ _ _ _ _ (h ++ [COut (MTaskCancel t)]) E1) as (Ho1 & Hr1 & Hf1 & Hg1 & Hb1).
    { apply once_outs; [|done]. intros k x Hx. apply elem_of_list_singleton in Hx as ->. done. }
    destruct e1 as [e1|].
    + injection Hs as <- <- <-. destruct (Hb1 ltac:(done)) as [-> _]. rewrite <-app_assoc in Ho1.
      split_and!; [done|eapply resolves_weaken; [|exact Hr1]; intros k' ->; exists t; split; [left|done]|by repeat constructor|done].
    + destruct (k_exit_tasks ts c1) as [[c2 out2] e2] eqn:E2. injection Hs as <- <- <-.
      destruct (IH _ _ _ E2 Ho1) as (Ho2 & Hr2 & Hf2 & Hn).
      destruct (Hg1 eq_refl) as [-> Hfin]. rewrite <-!app_assoc in Ho2. split_and!; [done| |by repeat constructor|].
      * eapply resolves_trans; (eapply resolves_weaken; [|eassumption]); cbn.
        -- intros k' ->. exists t. split; [left|done].
        -- intros k' (t' & Ht & ->). exists t'. split; [by right|done].
      * intros Hx. cbn. by rewrite Hn.
Qed.
Lemma k_exit_graphs_ok gs c c' out e h : k_exit_graphs gs c = (c', out, e) → once (k_state c) h →
  once (k_state c') (h ++ out) ∧ resolves (λ k, ∃ g i, k = FGraph g i) c c' ∧ Forall gone out ∧
  (e = None → out = concat (exit_graph <$> gs)).
Proof.
  revert c out h. induction gs as [|[g n] gs IH]; intros c out h Hs Ho; cbn in Hs.
  - injection Hs as <- <- <-. rewrite app_nil_r. split_and!; try done. apply resolves_refl.
  - destruct (f_set_all _ c) as [[c1 out1] e1] eqn:E1.
    destruct (f_set_all_ok _ _ _ _ _ (h ++ [COut (MGraphTaskCancel g)]) E1) as (Ho1 & Hr1 & Hf1 & m & Hm & Hm').
    { apply once_outs; [|done]. intros k x Hx. apply elem_of_list_singleton in Hx as ->. done. }
    assert (Hr : resolves (λ k, ∃ g i, k = FGraph g i) c c1).
    { eapply resolves_weaken; [|exact Hr1]. cbn. intros k Hk. rewrite <-list_fmap_compose in Hk. apply elem_of_list_fmap in Hk as (i & -> & _). cbn. eauto. }
    assert (Hgone : Forall gone out1).
    { rewrite Hm. apply Forall_fmap. apply Forall_take. apply Forall_fmap. apply Forall_true. intros i. done. }
    destruct e1 as [e1|].
    + injection Hs as <- <- <-. rewrite <-app_assoc in Ho1. split_and!; [done|done|by constructor|done].
    + destruct (k_exit_graphs gs c1) as [[c2 out2] e2] eqn:E2. injection Hs as <- <- <-.
      destruct (IH _ _ _ E2 Ho1) as (Ho2 & Hr2 & Hf2 & Hn).
      rewrite <-!app_assoc in Ho2. split_and!; [done| |constructor; [done|by apply Forall_app]|].
      * by eapply resolves_trans.
      * intros Hx. cbn. rewrite Hn by done. do 2 f_equal. rewrite Hm, take_ge by auto. rewrite <-list_fmap_compose. done.
Qed.
Lemma k_exit_ok c c' out e h : k_exit c = (c', out, e) → once (k_state c) h →
  once (k_state c') (h ++ out) ∧ resolves (λ _, True) c c' ∧ Forall gone out ∧
  (e = None → out = concat (exit_task <$> k_futures c) ++ concat (exit_graph <$> k_graphs c)).
Proof.
  unfold k_exit. intros Hs Ho. destruct (k_exit_tasks _ c) as [[c1 out1] e1] eqn:E1.
  destruct (k_exit_tasks_ok _ _ _ _ _ _ E1 Ho) as (Ho1 & Hr1 & Hf1 & Hn1).
  assert (Hr : resolves (λ _, True) c c1) by (eapply resolves_weaken; [|exact Hr1]; done).
  destruct e1 as [e1|].
  - injection Hs as <- <- <-. done.
  - destruct (k_exit_graphs _ c1) as [[c2 out2] e2] eqn:E2. injection Hs as <- <- <-.
    destruct (k_exit_graphs_ok _ _ _ _ _ _ E2 Ho1) as (Ho2 & Hr2 & Hf2 & Hn2). rewrite <-app_assoc in Ho2.
    split_and!; [done| |by apply Forall_app|].
    + eapply resolves_trans; [exact Hr|]. eapply resolves_weaken; [|exact Hr2]. done.
    + intros He. rewrite (Hn1 eq_refl), (Hn2 He). f_equal. f_equal. f_equal. by destruct Hr as (? & -> & _).
Qed.

(** ** What one message does *)

Definition calm (e : kentry) : Prop := match e with COut _ | CSet _ _ => True | _ => False end.
Lemma calm_output out : Forall calm out → Forall output out.
Proof. intros H. eapply Forall_impl; [exact H|]. by intros []. Qed.
Lemma calm_connected out : Forall calm out → connected out = true.
Proof. intros H. unfold connected. rewrite existsb_none; [done|]. intros x Hx. eapply Forall_forall in H; [|exact Hx]. by destruct x. Qed.
Lemma f_set_out k v c : Forall calm (f_set k v c).1.2.
Proof. unfold f_set. destruct (k_state c !! k) as [[]|]; by repeat constructor. Qed.
Lemma f_set_all_out kvs c : Forall calm (f_set_all kvs c).1.2.
Proof.
  revert c. induction kvs as [|[k v] kvs IH]; intros c; cbn; [constructor|].
  pose proof (f_set_out k v c) as Hs. destruct (f_set k v c) as [[c1 out1] [e1|]]; cbn in *; [done|].
  specialize (IH c1). destruct (f_set_all kvs c1) as [[c2 out2] e2]. cbn in *. by apply Forall_app.
Qed.
Lemma k_check_out k c : Forall calm (k_check k c).1.
Proof. unfold k_check. destruct (k_buffer c !! _); [constructor|]. destruct (k_bodies c !! _) as [[]|]; by repeat constructor. Qed.
Lemma k_receive_out m loads c : Forall calm (k_receive m loads c).1.2.
Proof.
  destruct m; cbn; try by constructor.
  - unfold k_echo. destruct (k_tasks c !! id) as [k|]; [|constructor]. destruct status; try by constructor.
    + cbn zeta. destruct (existsb _ _); [|constructor]. destruct (k_state _ !! _) as [[]|]; by constructor.
    + pose proof (k_check_out k c) as Hc. destruct (k_check k c) as [out [e|]]; done.
  - unfold k_result. destruct (existsb _ _); [|constructor]. cbn zeta. destruct status; try constructor; destruct loads; try constructor; apply f_set_out.
  - unfold k_graph_result. destruct (List.find _ _) as [[g n]|]; [|constructor]. cbn zeta.
    assert (Hf : ∀ (r : kres) ps, Forall calm r.1.2 → Forall calm (k_enumerate n ps r).1.2) by (intros [[? ?] [?|]]; done).
    destruct status; try constructor.
    + destruct loads; [|constructor]. apply Hf. apply f_set_all_out.
    + destruct results; [constructor|]. destruct loads; [|constructor]. apply Hf. apply f_set_all_out.
  - unfold k_function_response. destruct status; try constructor; (destruct (k_buffer c !! _) as [ks|]; [|constructor]); apply Forall_fmap, Forall_true; done.
Qed.
Lemma gone_output out : Forall gone out → Forall output out.
Proof. intros H. eapply Forall_impl; [exact H|]. by intros []. Qed.
Lemma k_exit_tasks_out ts c : Forall calm (k_exit_tasks ts c).1.2.
Proof.
  revert c. induction ts as [|t ts IH]; intros c; cbn; [constructor|].
  pose proof (f_set_out (FTask t) Disconnected c) as Hs. destruct (f_set _ _ c) as [[c1 out1] [e1|]]; cbn in *; [by constructor|].
  specialize (IH c1). destruct (k_exit_tasks ts c1) as [[c2 out2] e2]. cbn in *. constructor; [done|]. by apply Forall_app.
Qed.
Lemma k_exit_graphs_out gs c : Forall calm (k_exit_graphs gs c).1.2.
Proof.
  revert c. induction gs as [|[g n] gs IH]; intros c; cbn; [constructor|].
  pose proof (f_set_all_out ((λ i, (FGraph g i, Disconnected)) <$> seq 0 n) c) as Hs. destruct (f_set_all _ c) as [[c1 out1] [e1|]]; cbn in *; [by constructor|].
  specialize (IH c1). destruct (k_exit_graphs gs c1) as [[c2 out2] e2]. cbn in *. constructor; [done|]. by apply Forall_app.
Qed.
Lemma k_exit_out c : Forall calm (k_exit c).1.2.
Proof.
  unfold k_exit. pose proof (k_exit_tasks_out (k_futures c) c) as H1. destruct (k_exit_tasks _ c) as [[c1 out1] [e1|]]; cbn in *; [done|].
  pose proof (k_exit_graphs_out (k_graphs c1) c1) as H2. destruct (k_exit_graphs _ c1) as [[c2 out2] e2]; cbn in *. by apply Forall_app.
Qed.
Lemma k_settle_out r : Forall output r.1.2 → Forall output (k_settle r).2.
Proof. destruct r as [[c out] [e|]]; cbn; [|done]. intros H. apply Forall_app. split; [done|by repeat constructor]. Qed.
Lemma k_handle_out e c : Forall output (k_handle e c).2.
Proof.
  destruct e; cbn; try by constructor.
  - unfold k_step_submit. destruct (k_flight c !! t) as [[k []]|]; try constructor.
    pose proof (calm_output _ (k_check_out k c)) as Hc. destruct (k_check k c) as [out [e|]]; done.
  - destruct m; by repeat constructor.
  - destruct (k_up c); [|constructor]. apply k_settle_out, calm_output, k_receive_out.
  - destruct (k_up c); [|constructor]. pose proof (k_settle_out _ (calm_output _ (k_exit_out c))) as H. destruct (k_settle _); done.
Qed.

(** ** Facts that survive everything *)

Definition stage_no (st : stage) : nat := match st with AtCheck => 0 | AtAppend => 1 | AtRegister => 2 end.
Notation known k h := (∃ name content, submitted_as k name content h).

Record base (c : client) (h : list kentry) : Prop := Base {
  a_up : k_up c = connected h;
  a_once : once (k_state c) h;
  a_flight : ∀ t k st, k_flight c !! t = Some (k, st) → task_id k = t ∧ k_state c !! FTask t = None ∧ steps t h = Some (stage_no st) ∧ known k h;
  a_fresh : ∀ t, submitted t h = false → k_state c !! FTask t = None;
  a_gfresh : ∀ g, existsb (asks_graph g) h = false → ∀ i, k_state c !! FGraph g i = None;
  a_buffer : ∀ f ks, k_buffer c !! f = Some ks → ks ≠ [] ∧ ∀ k, k ∈ ks → task_function k = f ∧ known k h;
  a_tasks : ∀ t k, k_tasks c !! t = Some k → ∃ name content, task_id k = t ∧ k_bodies c !! t = Some (name, content) ∧ submitted_as k name content h;
  a_bodies : ∀ t name content, k_bodies c !! t = Some (name, content) → ∃ f args, CIn (KSubmit t f name content args) ∈ h;
  a_sent : ∀ k, COut (MTask k) ∈ h → known k h }.

Lemma known_app k h l : known k h → known k (h ++ l).
Proof. intros (name & content & H). exists name, content. by apply submitted_as_app. Qed.

(** What a message can do to the tables, whatever it is. *)
Record tame (c c' : client) (out : list kentry) : Prop := Tame {
  t_flight : k_flight c' = k_flight c;
  t_sending : k_sending c' = k_sending c;
  t_tasks : ∀ t k, k_tasks c' !! t = Some k → k_tasks c !! t = Some k ∧ k_bodies c' !! t = k_bodies c !! t;
  t_bodies : ∀ t b, k_bodies c' !! t = Some b → k_bodies c !! t = Some b;
  t_none : ∀ k, k_state c !! k = None → k_state c' !! k = None;
  t_buffer : ∀ f ks, k_buffer c' !! f = Some ks → k_buffer c !! f = Some ks ∨ (∃ k, task_function k = f ∧ (∃ t, k_tasks c !! t = Some k) ∧ ks = default [] (k_buffer c !! f) ++ [k]);
  t_sent : ∀ k, COut (MTask k) ∈ out → ∃ ks, k_buffer c !! task_function k = Some ks ∧ k ∈ ks }.

Lemma tame_refl c out : (∀ k, COut (MTask k) ∉ out) → tame c c out.
Proof. intros Ho. split; auto. intros k Hk. by destruct (Ho k). Qed.
Lemma tame_resolves ks c c' out : (∀ k, k_state c !! k = None → k_state c' !! k = None) → resolves ks c c' → (∀ k, COut (MTask k) ∉ out) → tame c c' out.
Proof. intros Hn (st & -> & Hs) Ho. split; auto. intros k Hk. by destruct (Ho k). Qed.
Lemma f_set_none k v c c' out e : f_set k v c = (c', out, e) → ∀ k', k_state c !! k' = None → k_state c' !! k' = None.
Proof. unfold f_set. intros Hs k' Hk'. destruct (k_state c !! k) as [[]|] eqn:E; injection Hs as <- <- <-; cbn; try done; rewrite lookup_insert_ne; congruence. Qed.
Lemma f_set_all_none kvs c c' out e : f_set_all kvs c = (c', out, e) → ∀ k', k_state c !! k' = None → k_state c' !! k' = None.
Proof.
  revert c out. induction kvs as [|[k v] kvs IH]; intros c out Hs k' Hk'; cbn in Hs; [by injection Hs as <- <- <-|].
  destruct (f_set k v c) as [[c1 out1] [e1|]] eqn:E1; [injection Hs as <- <- <-; by eapply f_set_none|].
  destruct (f_set_all kvs c1) as [[c2 out2] e2] eqn:E2. injection Hs as <- <- <-. eapply IH; [exact E2|]. by eapply f_set_none.
Qed.
Lemma k_exit_none c c' out e : k_exit c = (c', out, e) → ∀ k', k_state c !! k' = None → k_state c' !! k' = None.
Proof.
  assert (Ht : ∀ ts c c' out e, k_exit_tasks ts c = (c', out, e) → ∀ k', k_state c !! k' = None → k_state c' !! k' = None).
  { induction ts as [|t ts IH]; intros c1 c1' out1 e1 Hs k' Hk'; cbn in Hs; [by injection Hs as <- <- <-|].
    destruct (f_set _ _ c1) as [[c2 out2] [e2|]] eqn:E2; [injection Hs as <- <- <-; by eapply f_set_none|].
    destruct (k_exit_tasks ts c2) as [[c3 out3] e3] eqn:E3. injection Hs as <- <- <-. eapply IH; [exact E3|]. by eapply f_set_none. }
  assert (Hg : ∀ gs c c' out e, k_exit_graphs gs c = (c', out, e) → ∀ k', k_state c !! k' = None → k_state c' !! k' = None).
  { induction gs as [|[g n] gs IH]; intros c1 c1' out1 e1 Hs k' Hk'; cbn in Hs; [by injection Hs as <- <- <-|].
    destruct (f_set_all _ c1) as [[c2 out2] [e2|]] eqn:E2; [injection Hs as <- <- <-; by eapply f_set_all_none|].
    destruct (k_exit_graphs gs c2) as [[c3 out3] e3] eqn:E3. injection Hs as <- <- <-. eapply IH; [exact E3|]. by eapply f_set_all_none. }
  unfold k_exit. intros Hs k' Hk'. destruct (k_exit_tasks _ c) as [[c1 out1] [e1|]] eqn:E1; [injection Hs as <- <- <-; by eapply Ht|].
  destruct (k_exit_graphs _ c1) as [[c2 out2] e2] eqn:E2. injection Hs as <- <- <-. eapply Hg; [exact E2|]. by eapply Ht.
Qed.

Lemma in_futures t l : existsb (String.eqb t) l = true ↔ t ∈ l.
Proof.
  rewrite existsb_exists. split.
  - intros (x & Hx & ->%String.eqb_eq). by apply elem_of_list_In.
  - intros Hx. exists t. split; [by apply elem_of_list_In|apply String.eqb_refl].
Qed.

Lemma f_set_sets k v c c' out e : f_set k v c = (c', out, e) → ∀ x, x ∈ out → x = CSet k v.
Proof. unfold f_set. intros Hs x Hx. destruct (k_state c !! k) as [[]|]; injection Hs as <- <- <-; try (by apply elem_of_nil in Hx); by apply elem_of_list_singleton in Hx. Qed.

Lemma k_receive_ok m loads c c' out e h : k_receive m loads c = (c', out, e) → once (k_state c) h → (∀ t k, k_tasks c !! t = Some k → task_id k = t ∧ ∃ b, k_bodies c !! t = Some b) →
  (∀ f ks, k_buffer c !! f = Some ks → ∀ k, k ∈ ks → task_function k = f) →
  tame c c' out ∧ once (k_state c') (h ++ out) ∧ k_up c' = k_up c.
Proof.
  intros Hs Ho Hb Hbuf.
  assert (Hsame : ∀ e', (c, [], e') = (c', out, e) → tame c c' out ∧ once (k_state c') (h ++ out) ∧ k_up c' = k_up c).
  { intros e' [= <- <- <-]. rewrite app_nil_r. split; [|done]. apply tame_refl. intros k. apply not_elem_of_nil. }
  destruct m; try exact (Hsame _ Hs); cbn [k_receive] in Hs.
  - unfold k_echo in Hs. destruct (k_tasks c !! id) as [k|] eqn:Ek; [|exact (Hsame _ Hs)].
    destruct status; try exact (Hsame _ Hs).
    + cbn zeta in Hs. set (c0 := k_with _ _ _ _ c) in Hs.
      assert (H0 : tame c c0 []).
      { split; try done; cbn.
        - intros t k' Ht. apply lookup_delete_Some in Ht as [Hne Ht]. by rewrite lookup_delete_ne.
        - intros t b Ht. by apply lookup_delete_Some in Ht as [_ Ht].
        - intros f ks Hf. auto.
        - intros k' Hk'. by apply elem_of_nil in Hk'. }
      assert (Hc0 : ∀ e', (c0, [], e') = (c', out, e) → tame c c' out ∧ once (k_state c') (h ++ out) ∧ k_up c' = k_up c).
      { intros e' [= <- <- <-]. rewrite app_nil_r. done. }
      destruct (existsb _ _); [|exact (Hc0 _ Hs)]. destruct (k_state c0 !! FTask id) as [[]|] eqn:Es; try exact (Hc0 _ Hs).
      injection Hs as <- <- <-. rewrite app_nil_r. split; [|split; [|done]].
      * split; try done; cbn; try apply H0. intros k' Hk'. rewrite lookup_insert_ne; [done|]. intros <-. change (k_state c !! FTask id = Some FPending) in Es. congruence.
      * intros k'. rewrite Ho. cbn. change (k_state c !! FTask id = Some FPending) in Es. destruct (decide (k' = FTask id)) as [->|Hne]; [|by rewrite lookup_insert_ne].
        rewrite lookup_insert, Es. done.
    + unfold k_check in Hs. destruct (Hb _ _ Ek) as (Hid & b & Eb). destruct (k_buffer c !! task_function k) as [ks|] eqn:Ebuf.
      * injection Hs as <- <- <-. rewrite app_nil_r. split; [|done]. split; try done; cbn.
        -- intros f ks' Hf. apply lookup_insert_Some in Hf as [[<- <-]|[Hne Hf]]; [|by left]. right. exists k. split; [done|]. split; [eauto|done].
        -- intros k' Hk'. by apply elem_of_nil in Hk'.
      * rewrite Hid in Hs. rewrite Eb in Hs. destruct b as [name content]. injection Hs as <- <- <-. split; [|split; [|done]].
        -- split; try done; cbn.
           ++ intros f ks' Hf. apply lookup_insert_Some in Hf as [[<- <-]|[Hne Hf]]; [|by left]. right. exists k. split; [done|]. split; [eauto|done].
           ++ intros k' Hk'. apply elem_of_list_singleton in Hk'. done.
        -- apply once_outs; [|done]. intros k' x Hx. apply elem_of_list_singleton in Hx as ->. done.
  - unfold k_result in Hs. destruct (existsb _ _); [|exact (Hsame _ Hs)]. cbn zeta in Hs. set (c0 := k_with _ _ _ _ c) in Hs.
    assert (H0 : ∀ out, (∀ k, COut (MTask k) ∉ out) → tame c c0 out).
    { intros out' Ho'. split; try done; cbn; auto. intros k' Hk'. by destruct (Ho' k'). }
    assert (Hc0 : ∀ e', (c0, [], e') = (c', out, e) → tame c c' out ∧ once (k_state c') (h ++ out) ∧ k_up c' = k_up c).
    { intros e' [= <- <- <-]. rewrite app_nil_r. split; [|done]. apply H0. intros k. apply not_elem_of_nil. }
    assert (Hset : ∀ v, f_set (FTask id) v c0 = (c', out, e) → tame c c' out ∧ once (k_state c') (h ++ out) ∧ k_up c' = k_up c).
    { intros v Hv. destruct (f_set_ok _ _ _ _ _ _ _ Hv Ho) as (Ho1 & (st & -> & Hr') & Hf & _). split; [|split; [done|done]].
      assert (Hno : ∀ k, COut (MTask k) ∉ out) by (intros k Hk; by specialize (f_set_sets _ _ _ _ _ _ Hv _ Hk)).
      destruct (H0 _ Hno). split; auto; cbn. intros k Hk. eapply (f_set_none _ _ _ _ _ _ Hv). exact Hk. }
    destruct status; try exact (Hc0 _ Hs); destruct loads; try exact (Hc0 _ Hs); exact (Hset _ Hs).
  - unfold k_graph_result in Hs. destruct (List.find _ _) as [[g n]|]; [|exact (Hsame _ Hs)]. cbn zeta in Hs. set (c0 := k_with_state _ _ c) in Hs.
    assert (H0 : ∀ out, (∀ k, COut (MTask k) ∉ out) → tame c c0 out).
    { intros out' Ho'. split; try done; cbn; auto. intros k' Hk'. by destruct (Ho' k'). }
    assert (Hc0 : ∀ e', (c0, [], e') = (c', out, e) → tame c c' out ∧ once (k_state c') (h ++ out) ∧ k_up c' = k_up c).
    { intros e' [= <- <- <-]. rewrite app_nil_r. split; [|done]. apply H0. intros k. apply not_elem_of_nil. }
    assert (Hset : ∀ (v : bytes → fvalue), k_enumerate n results (f_set_all (imap (λ i p, (FGraph id i, v p)) (take n results)) c0) = (c', out, e)
       → tame c c' out ∧ once (k_state c') (h ++ out) ∧ k_up c' = k_up c).
    { intros v Hv. clear Hs. destruct (f_set_all _ c0) as [[c1 out1] e1] eqn:E1. destruct (f_set_all_ok _ _ _ _ _ _ E1 Ho) as (Ho1 & Hres & Hf & m & Hm & _).
      assert (c1 = c' ∧ out1 = out) as [<- <-] by (destruct e1; cbn in Hv; by injection Hv).
      destruct Hres as (st & -> & Hr'). split; [|split; [done|done]].
      assert (Hno : ∀ k, COut (MTask k) ∉ out1) by (intros k Hk; rewrite Hm in Hk; apply elem_of_list_fmap in Hk as (? & ? & _); done).
      destruct (H0 _ Hno). split; auto; cbn. intros k Hk. eapply (f_set_all_none _ _ _ _ _ E1). exact Hk. }
    destruct status; try exact (Hc0 _ Hs).
    + destruct loads; [|exact (Hc0 _ Hs)]. exact (Hset Value Hs).
    + destruct results as [|p ps]; [exact (Hc0 _ Hs)|]. destruct loads; [|exact (Hc0 _ Hs)]. exact (Hset (λ _, Error p) Hs).
  - unfold k_function_response in Hs.
    assert (Hpop : match k_buffer c !! id with None => (c, [], None) | Some ks => (k_with (k_tasks c) (k_bodies c) (k_futures c) (delete id (k_buffer c)) c, (λ k, COut (MTask k)) <$> ks, None) end = (c', out, e)
      → tame c c' out ∧ once (k_state c') (h ++ out) ∧ k_up c' = k_up c).
    { destruct (k_buffer c !! id) as [ks|] eqn:Ebuf; intros Hs'; [|exact (Hsame _ Hs')]. injection Hs' as <- <- <-. split; [|split; [|done]].
      - split; try done; cbn; auto.
        + intros f ks' Hf. apply lookup_delete_Some in Hf as [_ Hf]. by left.
        + intros k Hk. apply elem_of_list_fmap in Hk as (k' & Hk & Hin). injection Hk as <-. exists ks. rewrite (Hbuf _ _ Ebuf _ Hin). done.
      - apply once_outs; [|done]. intros k x Hx. apply elem_of_list_fmap in Hx as (? & -> & _). done. }
    destruct status; try exact (Hsame _ Hs); exact (Hpop Hs).
Qed.

Lemma known_later k h e out : known k h → known k (h ++ CIn e :: out).
Proof. apply known_app. Qed.
Lemma once_in st h e : once st h → once st (h ++ [CIn e]).
Proof. apply once_outs. intros k x Hx. by apply elem_of_list_singleton in Hx as ->. Qed.

(** A message, or the end, handled while connected. *)
Lemma base_tame e c c' out h : base c h → tame c c' out → once (k_state c') ((h ++ [CIn e]) ++ out) → k_up c' = connected (h ++ CIn e :: out) → Forall output out →
  (∀ t, step_of t (steps t h) (CIn e) = steps t h) → base c' (h ++ CIn e :: out).
Proof.
  intros [Hup Hon Hfl Hfr Hgf Hbu Hta Hbd Hse] [Tf Ts Tt Tbd Tn Tb Tse] Ho Hu Hout Hstep. split.
  - done.
  - by rewrite <-app_assoc in Ho.
  - intros t k st Hk. rewrite Tf in Hk. destruct (Hfl _ _ _ Hk) as (Hid & Hnone & Hst & Hkn). split_and!; [done|auto| |by apply known_later].
    rewrite steps_later, Hstep by done. done.
  - intros t Hs. rewrite submitted_later in Hs by done. apply orb_false_iff in Hs as [Hs _]. auto.
  - intros g Hg i. rewrite asks_later in Hg by done. apply orb_false_iff in Hg as [Hg _]. auto.
  - intros f ks Hf. destruct (Tb _ _ Hf) as [Hb|(k & Hkf & (t & Hkt) & ->)].
    + destruct (Hbu _ _ Hb) as [Hne Hk]. split; [done|]. intros k Hin. destruct (Hk k Hin) as [? Hkn]. split; [done|by apply known_later].
    + split; [by destruct (default [] _)|]. intros k' Hin. apply elem_of_app in Hin as [Hin|Hin].
      * destruct (k_buffer c !! f) as [ks|] eqn:Eb; [|by apply elem_of_nil in Hin]. destruct (Hbu _ _ Eb) as [_ Hk]. destruct (Hk _ Hin). split; [done|by apply known_later].
      * apply elem_of_list_singleton in Hin as ->. destruct (Hta _ _ Hkt) as (name & content & _ & _ & Hkn). split; [done|]. apply known_later. eauto.
  - intros t k Hk. destruct (Tt _ _ Hk) as [Hk' Hb]. destruct (Hta _ _ Hk') as (name & content & Hid & Hbo & Hsub). exists name, content. rewrite Hb. split_and!; auto. by apply submitted_as_app.
  - intros t name content Hbo. destruct (Hbd _ _ _ (Tbd _ _ Hbo)) as (f & args & Hin). exists f, args. apply elem_of_app. by left.
  - intros k Hk. apply elem_of_app in Hk as [Hk|Hk]; [by apply known_later, Hse|]. apply elem_of_cons in Hk as [|Hk]; [done|].
    destruct (Tse _ Hk) as (ks & Hks & Hin). destruct (Hbu _ _ Hks) as [_ Hkn]. destruct (Hkn _ Hin) as [_ Hkk]. by apply known_later.
Qed.

Lemma steps_quiet e : match e with KSubmit _ _ _ _ _ | KStep _ => False | _ => True end → ∀ t n, step_of t n (CIn e) = n.
Proof. by destruct e. Qed.

Lemma connected_snoc h e : connected (h ++ [e]) = connected h && negb (match e with CCrash _ | CIn KExit => true | _ => false end).
Proof. unfold connected. rewrite existsb_app. cbn. rewrite negb_orb, orb_false_r. done. Qed.

Lemma a_tasks_bodies c h : base c h → ∀ t k, k_tasks c !! t = Some k → task_id k = t ∧ ∃ b, k_bodies c !! t = Some b.
Proof. intros Hb t k Hk. destruct (a_tasks _ _ Hb _ _ Hk) as (name & content & ? & ? & _). eauto. Qed.
Lemma a_buffer_function c h : base c h → ∀ f ks, k_buffer c !! f = Some ks → ∀ k, k ∈ ks → task_function k = f.
Proof. intros Hb f ks Hf k Hk. destruct (a_buffer _ _ Hb _ _ Hf) as [_ H]. by apply H. Qed.

Lemma base_recv m loads c h c' out : base c h → k_handle (KRecv m loads) c = (c', out) → base c' (h ++ CIn (KRecv m loads) :: out).
Proof.
  intros Hb Hh. cbn in Hh. pose proof (a_up _ _ Hb) as Hup. destruct (k_up c) eqn:Eu.
  - destruct (k_receive m loads c) as [[c1 out1] e1] eqn:E. pose proof (k_receive_out m loads c) as Ho. rewrite E in Ho. cbn in Ho.
    destruct (k_receive_ok _ _ _ _ _ _ (h ++ [CIn (KRecv m loads)]) E) as (Ht & Honce & Hup1); [by apply once_in, Hb|by eapply a_tasks_bodies|by eapply a_buffer_function|].
    destruct e1 as [e1|]; injection Hh as <- <-.
    + apply (base_tame (KRecv m loads) c (k_down c1) (out1 ++ [CCrash e1]) h); try done.
      * destruct Ht. split; try done. intros k [Hk|Hk%elem_of_list_singleton]%elem_of_app; [auto|done].
      * rewrite app_assoc. apply once_outs; [|done]. intros k x Hx. by apply elem_of_list_singleton in Hx as ->.
      * rewrite app_comm_cons, app_assoc, connected_snoc. cbn. by rewrite andb_false_r.
      * apply Forall_app. split; [by apply calm_output|by repeat constructor].
    + apply (base_tame (KRecv m loads) c c1 out1 h); try done.
      * rewrite connected_later by (by apply calm_output). rewrite <-Hup, calm_connected by done. by rewrite Hup1.
      * by apply calm_output.
  - injection Hh as <- <-. apply (base_tame (KRecv m loads) c c [] h); try done.
    + apply tame_refl. intros k. apply not_elem_of_nil.
    + rewrite app_nil_r. by apply once_in, Hb.
    + rewrite connected_later by done. rewrite <-Hup, Eu. done.
Qed.
Lemma base_exit c h c' out : base c h → k_handle KExit c = (c', out) → base c' (h ++ CIn KExit :: out).
Proof.
  intros Hb Hh. cbn in Hh. pose proof (a_up _ _ Hb) as Hup. destruct (k_up c) eqn:Eu.
  - destruct (k_exit c) as [[c1 out1] e1] eqn:E. pose proof (k_exit_out c) as Ho. rewrite E in Ho. cbn in Ho.
    destruct (k_exit_ok _ _ _ _ (h ++ [CIn KExit]) E) as (Honce & Hr & Hg & _); [by apply once_in, Hb|].
    assert (Ht : ∀ out2, out2 = [] ∨ (∃ e, out2 = [CCrash e]) → tame c (k_down c1) (out1 ++ out2)).
    { intros out2 H2. pose proof (k_exit_none _ _ _ _ E) as Hn. destruct Hr as (st & -> & Hr). split; try done; auto.
      intros k [Hk|Hk]%elem_of_app; [eapply Forall_forall in Hg; [|exact Hk]; done|].
      destruct H2 as [->|[x ->]]; [by apply elem_of_nil in Hk|by apply elem_of_list_singleton in Hk]. }
    destruct e1 as [e1|]; cbn in Hh; injection Hh as <- <-.
    + apply (base_tame KExit c (k_down (k_down c1)) (out1 ++ [CCrash e1]) h); try done.
      * apply Ht. eauto.
      * rewrite app_assoc. apply once_outs; [|done]. intros k x Hx. by apply elem_of_list_singleton in Hx as ->.
      * rewrite app_comm_cons, app_assoc, connected_snoc. cbn. by rewrite andb_false_r.
      * apply Forall_app. split; [by apply calm_output|by repeat constructor].
    + apply (base_tame KExit c (k_down c1) out1 h); try done.
      * rewrite <-(app_nil_r out1). apply Ht. auto.
      * rewrite connected_later by (by apply calm_output). by rewrite andb_false_r.
      * by apply calm_output.
  - injection Hh as <- <-. apply (base_tame KExit c c [] h); try done.
    + apply tame_refl. intros k. apply not_elem_of_nil.
    + rewrite app_nil_r. by apply once_in, Hb.
    + rewrite connected_later by done. rewrite <-Hup, Eu. done.
Qed.

Lemma base_cancel k c h c' out : base c h → k_handle (KCancel k) c = (c', out) → base c' (h ++ CIn (KCancel k) :: out).
Proof.
  intros Hb Hh. cbn in Hh. injection Hh as <- <-.
  assert (H : tame c (k_cancel k c) [] ∧ once (k_state (k_cancel k c)) h ∧ k_up (k_cancel k c) = k_up c).
  { unfold k_cancel. destruct (k_state c !! k) as [[]|] eqn:Es; try (split; [apply tame_refl; intros ?; apply not_elem_of_nil|split; [apply Hb|done]]).
    split; [|split; [|done]].
    - apply (tame_resolves (λ k', k' = k)); [| |intros ?; apply not_elem_of_nil].
      + intros k' Hk'. cbn. rewrite lookup_insert_ne; congruence.
      + eexists. split; [done|]. intros k' Hk'. cbn. by rewrite lookup_insert_ne.
    - intros k'. rewrite (a_once _ _ Hb k'). cbn. destruct (decide (k = k')) as [->|Hne]; [by rewrite lookup_insert, Es|by rewrite lookup_insert_ne]. }
  destruct H as (Ht & Ho & Hu). apply (base_tame (KCancel k) c (k_cancel k c) [] h); try done.
  - rewrite app_nil_r. by apply once_in.
  - rewrite connected_later by done. rewrite Hu, (a_up _ _ Hb). cbn. by rewrite !andb_true_r.
Qed.
Lemma base_graph_step g c h c' out : base c h → k_handle (KGraphStep g) c = (c', out) → base c' (h ++ CIn (KGraphStep g) :: out).
Proof.
  intros Hb Hh. cbn in Hh. injection Hh as <- <-.
  assert (Hs : connected (h ++ [CIn (KGraphStep g)]) = k_up c).
  { rewrite connected_later by done. rewrite (a_up _ _ Hb). cbn. by rewrite !andb_true_r. }
  assert (Hc : k_graph_step g c = c ∨ ∃ fl gs, k_graph_step g c = k_with_flight (k_flight c) fl (k_with_state gs (k_state c) c)).
  { unfold k_graph_step. destruct (k_sending c !! g); eauto. }
  destruct Hb as [Hup Hon Hfl Hfr Hgf Hbu Hta Hbd Hse].
  assert (Hx : k_up (k_graph_step g c) = k_up c ∧ k_state (k_graph_step g c) = k_state c ∧ k_flight (k_graph_step g c) = k_flight c ∧ k_buffer (k_graph_step g c) = k_buffer c ∧ k_tasks (k_graph_step g c) = k_tasks c ∧ k_bodies (k_graph_step g c) = k_bodies c).
  { destruct Hc as [->|(fl & gs & ->)]; done. }
  destruct Hx as (X1 & X2 & X3 & X4 & X5 & X6). split; rewrite ?X1, ?X2, ?X3, ?X4, ?X5, ?X6.
  - by rewrite Hs.
  - by apply once_in.
  - intros t k st Hk. destruct (Hfl _ _ _ Hk) as (Hid & Hnone & Hst & Hkn). split_and!; [done|done| |by apply known_later].
    rewrite steps_later by done. done.
  - intros t Ht. rewrite submitted_later in Ht by done. apply orb_false_iff in Ht as [Ht _]. auto.
  - intros g' Hg i. rewrite asks_later in Hg by done. apply orb_false_iff in Hg as [Hg _]. auto.
  - intros f ks Hf. destruct (Hbu _ _ Hf) as [Hne Hk]. split; [done|]. intros k Hin. destruct (Hk k Hin) as [? Hkn]. split; [done|by apply known_later].
  - intros t k Hk. destruct (Hta _ _ Hk) as (name & content & Hid & Hbo & Hsub). exists name, content. split_and!; auto. by apply submitted_as_app.
  - intros t1 name1 content1 Hbo1. destruct (Hbd _ _ _ Hbo1) as (f1 & args1 & Hin1). exists f1, args1. apply elem_of_app. by left.
  - intros k Hk. apply elem_of_app in Hk as [Hk|Hk]; [by apply known_later, Hse|]. by apply elem_of_list_singleton in Hk.
Qed.
Lemma pending_graph (g : bytes) (n : nat) (st : gmap fkey fstate) (k : fkey) : foldr (λ i st, <[FGraph g i := FPending]> st) st (seq 0 n) !! k =
  match k with inr (g', i) => if bool_decide (g' = g ∧ (i < n)%nat) then Some FPending else st !! k | inl _ => st !! k end.
Proof.
  assert (H : ∀ l, foldr (λ i st, <[FGraph g i := FPending]> st) st l !! k = match k with inr (g', i) => if bool_decide (g' = g ∧ i ∈ l) then Some FPending else st !! k | inl _ => st !! k end).
  { induction l as [|j l IH]; cbn.
    - destruct k as [t|[g' i]]; [done|]. rewrite bool_decide_eq_false_2; [done|]. intros [_ H]. by apply elem_of_nil in H.
    - destruct (decide (k = FGraph g j)) as [->|Hne].
      + rewrite lookup_insert, bool_decide_eq_true_2; [done|]. split; [done|left].
      + rewrite lookup_insert_ne by congruence. rewrite IH. destruct k as [t|[g' i]]; [done|].
        destruct (decide (g' = g ∧ i ∈ l)) as [Hy|Hn].
        * rewrite !bool_decide_eq_true_2; [done|split; [apply Hy|right; apply Hy]|done].
        * rewrite !bool_decide_eq_false_2; [done| |done]. intros [-> Hi]. apply elem_of_cons in Hi as [->|Hi]; [done|]. by apply Hn. }
  rewrite H. destruct k as [t|[g' i]]; [done|]. erewrite bool_decide_ext; [done|]. rewrite elem_of_seq. split; intros [? ?]; split; auto; lia.
Qed.
Lemma base_graph m n c h c' out : base c h → new_ids (h ++ CIn (KGraph m n) :: out) → k_handle (KGraph m n) c = (c', out) → base c' (h ++ CIn (KGraph m n) :: out).
Proof.
  intros Hb Hn Hh. apply new_ids_here in Hn. cbn in Hh.
  assert (Hs : ∀ out, Forall calm out → connected (h ++ CIn (KGraph m n) :: out) = k_up c).
  { intros o Ho. rewrite connected_later by (by apply calm_output). rewrite (a_up _ _ Hb), (calm_connected o) by done. cbn. by rewrite !andb_true_r. }
  assert (Hsame : (c, []) = (c', out) → base c' (h ++ CIn (KGraph m n) :: out)).
  { intros [= <- <-]. apply (base_tame (KGraph m n) c c [] h); try done.
    - apply tame_refl. intros k. apply not_elem_of_nil.
    - rewrite app_nil_r. by apply once_in, Hb.
    - symmetry. by apply Hs. }
  destruct m; try exact (Hsame Hh). cbn in Hh, Hn. injection Hh as <- <-. destruct Hb as [Hup Hon Hfl Hfr Hgf Hbu Hta Hbd Hse]. split; cbn.
  - rewrite Hs; [done|by repeat constructor].
  - intros k. rewrite occ_later. cbn [sets]. rewrite occ_one. cbn [sets]. rewrite Hon, pending_graph. destruct k as [t|[g i]]; [lia|].
    destruct (bool_decide (g = id ∧ (i < n)%nat)) eqn:E; [|lia]. apply bool_decide_eq_true in E as [-> _]. rewrite (Hgf _ Hn i). done.
  - intros t k st Hk. destruct (Hfl _ _ _ Hk) as (Hid & Hnone & Hst & Hkn). split_and!; [done| | |by apply known_later].
    + by rewrite pending_graph.
    + by rewrite steps_later by (by repeat constructor).
  - intros t Ht. rewrite submitted_later in Ht by (by repeat constructor). apply orb_false_iff in Ht as [Ht _]. rewrite pending_graph. auto.
  - intros g' Hg i. rewrite asks_later in Hg by (by repeat constructor). apply orb_false_iff in Hg as [Hg Hne]. cbn in Hne. apply String.eqb_neq in Hne.
    rewrite pending_graph, bool_decide_eq_false_2; [auto|]. by intros [-> _].
  - intros f ks Hf. destruct (Hbu _ _ Hf) as [Hne Hk]. split; [done|]. intros k Hin. destruct (Hk k Hin) as [? Hkn]. split; [done|by apply known_later].
  - intros t k Hk. destruct (Hta _ _ Hk) as (name & content & Hid & Hbo & Hsub). exists name, content. split_and!; auto. by apply submitted_as_app.
  - intros t1 name1 content1 Hbo1. destruct (Hbd _ _ _ Hbo1) as (f1 & args1 & Hin1). exists f1, args1. apply elem_of_app. by left.
  - intros k Hk. apply elem_of_app in Hk as [Hk|Hk]; [by apply known_later, Hse|]. apply elem_of_cons in Hk as [Hk|Hk]; [done|]. by apply elem_of_list_singleton in Hk.
Qed.
Lemma connected_user c h e out : base c h → Forall calm out → match e with KExit => False | _ => True end → k_up c = connected (h ++ CIn e :: out).
Proof.
  intros Hb Ho He. rewrite connected_later by (by apply calm_output). rewrite (a_up _ _ Hb), (calm_connected out) by done.
  destruct e; try done; cbn; by rewrite !andb_true_r.
Qed.

Lemma base_submit t f name content args c h c' out : base c h → new_ids (h ++ CIn (KSubmit t f name content args) :: out) →
  k_handle (KSubmit t f name content args) c = (c', out) → base c' (h ++ CIn (KSubmit t f name content args) :: out).
Proof.
  intros Hb Hn Hh. apply new_ids_here in Hn. cbn in Hn. pose proof (connected_user c h (KSubmit t f name content args) [] Hb) as Hu.
  cbn in Hh. injection Hh as <- <-. destruct Hb as [Hup Hon Hfl Hfr Hgf Hbu Hta Hbd Hse].
  assert (Hnew : submitted_as (Task t f (ArgData <$> args)) name content (h ++ [CIn (KSubmit t f name content args)])).
  { exists args. split; [|done]. apply elem_of_app. right. left. }
  split; cbn.
  - by rewrite Hu.
  - by apply once_in.
  - intros t' k st Hk. apply lookup_insert_Some in Hk as [[<- [= <- <-]]|[Hne Hk]].
    + split_and!; [done|auto| |eauto]. rewrite steps_later by done. cbn. by rewrite String.eqb_refl.
    + destruct (Hfl _ _ _ Hk) as (Hid & Hnone & Hst & Hkn). split_and!; [done|done| |by apply known_later].
      rewrite steps_later by done. cbn. apply String.eqb_neq in Hne. by rewrite Hne.
  - intros t' Ht. rewrite submitted_later in Ht by done. apply orb_false_iff in Ht as [Ht _]. auto.
  - intros g' Hg i. rewrite asks_later in Hg by done. apply orb_false_iff in Hg as [Hg _]. auto.
  - intros f' ks Hf. destruct (Hbu _ _ Hf) as [Hne Hk]. split; [done|]. intros k Hin. destruct (Hk k Hin) as [? Hkn]. split; [done|by apply known_later].
  - intros t' k Hk. apply lookup_insert_Some in Hk as [[<- <-]|[Hne Hk]].
    + exists name, content. rewrite lookup_insert. done.
    + destruct (Hta _ _ Hk) as (name' & content' & Hid & Hbo & Hsub). exists name', content'. rewrite lookup_insert_ne by done. split_and!; auto. by apply submitted_as_app.
  - intros t1 name1 content1 Hbo1. apply lookup_insert_Some in Hbo1 as [[<- [= <- <-]]|[_ Hbo1]]; [exists f, args; apply elem_of_app; right; left|]. destruct (Hbd _ _ _ Hbo1) as (f1 & args1 & Hin1). exists f1, args1. apply elem_of_app. by left.
  - intros k Hk. apply elem_of_app in Hk as [Hk|Hk]; [by apply known_later, Hse|]. by apply elem_of_list_singleton in Hk.
Qed.

Lemma base_kstep t c h c' out : base c h → k_handle (KStep t) c = (c', out) → base c' (h ++ CIn (KStep t) :: out).
Proof.
  intros Hb Hh. cbn in Hh.
  assert (Hu : ∀ out, Forall calm out → k_up c = connected (h ++ CIn (KStep t) :: out)) by (intros; by apply connected_user).
  destruct (k_flight c !! t) as [[k st]|] eqn:Ef; unfold k_step_submit in Hh; rewrite Ef in Hh.
  2:{ injection Hh as <- <-. destruct Hb as [Hup Hon Hfl Hfr Hgf Hbu Hta Hbd Hse]. split.
      - by apply Hu.
      - by apply once_in.
      - intros t' k st Hk. destruct (Hfl _ _ _ Hk) as (Hid & Hnone & Hst & Hkn). split_and!; [done|done| |by apply known_later].
        rewrite steps_later by done. cbn. destruct (String.eqb t t') eqn:E; [|done]. apply String.eqb_eq in E as ->. congruence.
      - intros t' Ht. rewrite submitted_later in Ht by done. apply orb_false_iff in Ht as [Ht _]. auto.
      - intros g' Hg i. rewrite asks_later in Hg by done. apply orb_false_iff in Hg as [Hg _]. auto.
      - intros f' ks Hf. destruct (Hbu _ _ Hf) as [Hne Hk]. split; [done|]. intros k Hin. destruct (Hk k Hin) as [? Hkn]. split; [done|by apply known_later].
      - intros t' k Hk. destruct (Hta _ _ Hk) as (name' & content' & Hid & Hbo & Hsub). exists name', content'. split_and!; auto. by apply submitted_as_app.
      - intros t1 name1 content1 Hbo1. destruct (Hbd _ _ _ Hbo1) as (f1 & args1 & Hin1). exists f1, args1. apply elem_of_app. by left.
      - intros k Hk. apply elem_of_app in Hk as [Hk|Hk]; [by apply known_later, Hse|]. by apply elem_of_list_singleton in Hk. }
  destruct (a_flight _ _ Hb _ _ _ Ef) as (Hid & Hnone & Hst & Hkn).
  (* the parts common to the three steps *)
  assert (Hgen : ∀ c' out, Forall calm out → (∀ k, COut (MTask k) ∉ out) → (∀ k v, CSet k v ∉ out) → k_up c' = k_up c → k_tasks c' = k_tasks c → k_bodies c' = k_bodies c →
    (k_flight c' = delete t (k_flight c) ∨ (∃ st', stage_no st' = S (stage_no st) ∧ k_flight c' = <[t := (k, st')]> (k_flight c) ∧ k_state c' = k_state c)) →
    (k_state c' = k_state c ∨ k_state c' = <[FTask t := FPending]> (k_state c)) →
    (k_buffer c' = k_buffer c ∨ k_buffer c' = <[task_function k := default [] (k_buffer c !! task_function k) ++ [k]]> (k_buffer c)) →
    base c' (h ++ CIn (KStep t) :: out)).
  { clear Hh c' out. intros c' out Hcalm Hnt Hns C1 C2 C3 C4 C5 C6. pose proof (calm_output _ Hcalm) as Hout.
    destruct Hb as [Hup Hon Hfl Hfr Hgf Hbu Hta Hbd Hse].
    assert (Hcl : ∀ k, occurrences (sets k) out = 0%nat).
    { intros k'. apply occ_none. intros x Hx. destruct x; try done. by destruct (Hns k0 v). }
    assert (Hsubt : submitted t h = true) by (destruct (submitted t h) eqn:E; [done|]; apply steps_submitted in E; congruence).
    split.
    - rewrite C1. by apply Hu.
    - intros k'. rewrite occ_later. cbn [sets]. rewrite Hcl, Hon. destruct C5 as [->| ->]; [lia|].
      destruct (decide (k' = FTask t)) as [->|Hne]; [rewrite Hnone, lookup_insert; done|rewrite lookup_insert_ne by done; lia].
    - intros t' k' st' Hk'. rewrite steps_later by done. cbn [step_of].
      destruct (decide (t' = t)) as [->|Hne].
      + rewrite String.eqb_refl. destruct C4 as [C4|(st2 & Hst2 & C4 & C4')]; rewrite C4 in Hk'.
        * by rewrite lookup_delete in Hk'.
        * rewrite lookup_insert in Hk'. injection Hk' as <- <-. rewrite C4', Hst, Hst2. split_and!; auto. by apply known_later.
      + assert (Hold : k_flight c !! t' = Some (k', st')) by (destruct C4 as [C4|(st2 & Hst2 & C4 & C4')]; rewrite C4 in Hk'; [by rewrite lookup_delete_ne in Hk'|by rewrite lookup_insert_ne in Hk']).
        destruct (Hfl _ _ _ Hold) as (Hid' & Hnone' & Hst' & Hkn'). destruct (String.eqb t t') eqn:E; [apply String.eqb_eq in E; congruence|].
        split_and!; auto; [|by apply known_later]. destruct C5 as [->| ->]; [done|]. rewrite lookup_insert_ne; [done|]. by intros [= ->].
    - intros t' Ht. rewrite submitted_later in Ht by done. apply orb_false_iff in Ht as [Ht _]. destruct C5 as [->| ->]; [auto|]. rewrite lookup_insert_ne; [auto|]. intros [= ->]. congruence.
    - intros g' Hg i. rewrite asks_later in Hg by done. apply orb_false_iff in Hg as [Hg _]. destruct C5 as [->| ->]; [auto|]. rewrite lookup_insert_ne by done. auto.
    - intros f' ks Hf.
      assert (Hold : ∀ ks, k_buffer c !! f' = Some ks → ks ≠ [] ∧ ∀ k, k ∈ ks → task_function k = f' ∧ known k (h ++ CIn (KStep t) :: out)).
      { intros ks' Hf'. destruct (Hbu _ _ Hf') as [Hne Hk]. split; [done|]. intros k' Hin. destruct (Hk k' Hin) as [? Hkn']. split; [done|by apply known_later]. }
      destruct C6 as [C6|C6]; rewrite C6 in Hf; [auto|]. apply lookup_insert_Some in Hf as [[<- <-]|[Hne Hf]]; [|auto].
      split; [by destruct (default [] _)|]. intros k' Hin. apply elem_of_app in Hin as [Hin|Hin].
      + destruct (k_buffer c !! task_function k) as [ks|] eqn:Eb; [|by apply elem_of_nil in Hin]. by apply (Hold ks).
      + apply elem_of_list_singleton in Hin as ->. split; [done|]. by apply known_later.
    - intros t' k' Hk'. rewrite C2 in Hk'. rewrite C3. destruct (Hta _ _ Hk') as (name' & content' & Hid' & Hbo & Hsub). exists name', content'. split_and!; auto. by apply submitted_as_app.
    - intros t1 name1 content1 Hbo1. rewrite C3 in Hbo1. destruct (Hbd _ _ _ Hbo1) as (f1 & args1 & Hin1). exists f1, args1. apply elem_of_app. by left.
    - intros k' Hk'. apply elem_of_app in Hk' as [Hk'|Hk']; [by apply known_later, Hse|]. apply elem_of_cons in Hk' as [|Hk']; [done|]. by destruct (Hnt k'). }
  destruct st.
  - pose proof (k_check_out k c) as Hco. 
    assert (Hcs : (∀ k', COut (MTask k') ∉ (k_check k c).1) ∧ (∀ k' v, CSet k' v ∉ (k_check k c).1)).
    { unfold k_check. destruct (k_buffer c !! _); [split; intros; apply not_elem_of_nil|]. destruct (k_bodies c !! _) as [[]|]; [|split; intros; apply not_elem_of_nil].
      split; intros; by intros ?%elem_of_list_singleton. }
    destruct Hcs as [Hc1 Hc2]. destruct (k_check k c) as [out1 [e1|]]; injection Hh as <- <-; apply Hgen; auto; cbn; eauto.
    right. by exists AtAppend.
  - injection Hh as <- <-. apply Hgen; auto; cbn; auto; try (intros; apply not_elem_of_nil). right. by exists AtRegister.
  - injection Hh as <- <-. apply Hgen; auto; cbn; auto; try (intros; apply not_elem_of_nil).
Qed.

Lemma base_init : base k_init [].
Proof. split; try done. intros k Hk. by apply elem_of_nil in Hk. Qed.
Lemma base_step e c h c' out : base c h → new_ids (h ++ CIn e :: out) → k_handle e c = (c', out) → base c' (h ++ CIn e :: out).
Proof.
  intros Hb Hn Hh. destruct e.
  - by eapply base_submit.
  - by eapply base_kstep.
  - by eapply base_graph.
  - by eapply base_graph_step.
  - by eapply base_cancel.
  - by eapply base_recv.
  - by eapply base_exit.
Qed.

(** Induction over runs. *)
Lemma k_run_snoc es e : k_run (es ++ [e]) = k_step (k_run es) e.
Proof. unfold k_run. by rewrite foldl_app. Qed.
Lemma k_ind (P : client → list kentry → Prop) : P k_init [] →
  (∀ e c h c' out, base c h → P c h → new_ids (h ++ CIn e :: out) → k_handle e c = (c', out) → P c' (h ++ CIn e :: out)) →
  ∀ es c h, k_run es = (c, h) → new_ids h → base c h ∧ P c h.
Proof.
  intros H0 HS. induction es as [|e es IH] using rev_ind; intros c h Hr Hn.
  - injection Hr as <- <-. split; [apply base_init|done].
  - rewrite k_run_snoc in Hr. destruct (k_run es) as [c1 h1]. cbn in Hr. destruct (k_handle e c1) as [c2 out] eqn:E. injection Hr as <- <-.
    destruct (IH _ _ eq_refl (always_inv _ _ _ Hn)) as [Hb HP]. split; [by eapply base_step|by eapply HS].
Qed.
