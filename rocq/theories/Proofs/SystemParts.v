(** Where the messages of each part of the system come from. *)

From Verif.Model Require Import Base Message Client Worker Processor.

(** ** The client *)

Definition of_submit (h : list kentry) (k : task) : Prop :=
  ∃ t f name content args, CIn (KSubmit t f name content args) ∈ h ∧ k = Task t f (ArgData <$> args).
(** [k] and its function were submitted together. *)
Definition body_of (h : list kentry) (k : task) (b : bytes * bytes) : Prop :=
  ∃ args, CIn (KSubmit (task_id k) (task_function k) b.1 b.2 args) ∈ h ∧ task_args k = ArgData <$> args.
Definition client_out (h : list kentry) (e : kentry) : Prop :=
  match e with
  | COut (MTask k) => of_submit h k
  | COut (MFunctionRequest ty f name content) => ty = FnAdd ∧ ∃ t args, CIn (KSubmit t f name content args) ∈ h
  | COut (MGraphTask g fs ts ns) => ∃ n, CIn (KGraph (MGraphTask g fs ts ns) n) ∈ h
  | COut (MTaskCancel _) | COut (MGraphTaskCancel _) => True
  | COut _ => False
  | CSet (inl t) (Value p) => (∃ d, CIn (KRecv (MTaskResult t Success d p) true) ∈ h) ∧ ∃ k, of_submit h k ∧ task_id k = t
  | CSet (inl t) (Error p) => (∃ d, CIn (KRecv (MTaskResult t Failed d p) true) ∈ h) ∧ ∃ k, of_submit h k ∧ task_id k = t
  | CSet (inr (g, i)) (Value p) => ∃ ps, CIn (KRecv (MGraphTaskResult g Success ps) true) ∈ h ∧ ps !! i = Some p
  | CSet (inr (g, i)) (Error p) => ∃ ps, CIn (KRecv (MGraphTaskResult g Failed (p :: ps)) true) ∈ h
  | _ => True
  end.
Definition client_new (h : list kentry) (e : kentry) : Prop := match e with CIn _ => False | _ => client_out h e end.
Lemma client_new_out h e : client_new h e → client_out h e. Proof. destruct e; cbn; [done|auto..]. Qed.
Record cinv (c : client) (h : list kentry) : Prop := {
  ci_tasks t k : k_tasks c !! t = Some k → task_id k = t ∧ of_submit h k;
  ci_flight t k st : k_flight c !! t = Some (k, st) → task_id k = t ∧ of_submit h k;
  ci_body t k b : k_tasks c !! t = Some k → k_bodies c !! t = Some b → body_of h k b;
  ci_body' t k st b : k_flight c !! t = Some (k, st) → k_bodies c !! t = Some b → body_of h k b;
  ci_buffer f ks k : k_buffer c !! f = Some ks → k ∈ ks → of_submit h k;
  ci_state t st : k_state c !! inl t = Some st → ∃ k, of_submit h k ∧ task_id k = t;
  ci_out e : e ∈ h → client_out h e }.

Lemma of_submit_app h l k : of_submit h k → of_submit (h ++ l) k.
Proof. intros (t & f & n & ct & args & H & E). exists t, f, n, ct, args. split; [set_solver|exact E]. Qed.
Lemma body_of_app h l k b : body_of h k b → body_of (h ++ l) k b.
Proof. intros (args & H & E). exists args. split; [set_solver|exact E]. Qed.
Lemma client_out_app h l e : client_out h e → client_out (h ++ l) e.
Proof.
  destruct e as [|m|k v|]; cbn; auto.
  - destruct m; auto; [apply of_submit_app|..].
    + intros [n H]. exists n. set_solver.
    + intros (-> & t & args & H). split; [reflexivity|]. exists t, args. set_solver.
  - destruct k as [t|[g i]]; destruct v; auto.
    + intros [[d H] (k & Hk & E)]. split; [exists d; set_solver|]. exists k. split; [by apply of_submit_app|exact E].
    + intros [[d H] (k & Hk & E)]. split; [exists d; set_solver|]. exists k. split; [by apply of_submit_app|exact E].
    + intros (ps & H & E). exists ps. split; [set_solver|exact E].
    + intros (ps & H). exists ps. set_solver.
Qed.
(** New entries. *)
Lemma cinv_app c h l : cinv c h → (∀ e, e ∈ l → client_out (h ++ l) e) → cinv c (h ++ l).
Proof.
  intros [] Hl. split; eauto using of_submit_app, body_of_app.
  - intros t k H. split; [|apply of_submit_app]; eapply ci_tasks0; eauto.
  - intros t k st H. split; [|apply of_submit_app]; eapply ci_flight0; eauto.
  - intros t st H. destruct (ci_state0 t st H) as (k & Hk & E). exists k. split; [by apply of_submit_app|exact E].
  - intros e [H|H]%elem_of_app; [apply client_out_app|]; auto.
Qed.

(** The handlers keep the invariant, and what they do is all right. *)
Lemma f_set_good k v c h c' out e : cinv c h → client_out h (CSet k v) → f_set k v c = (c', out, e) → cinv c' h ∧ ∀ x, x ∈ out → client_new h x.
Proof.
  intros Hc Hv. unfold f_set.
  assert (H0 : ∀ st, k_state c !! k = Some st → cinv (k_with_state (k_graphs c) (<[k:=FFinished]> (k_state c)) c) h).
  { intros st Hst. destruct Hc. split; auto; cbn. intros t st'. rewrite lookup_insert_Some. intros [[-> _]|[_ H]]; eauto. }
  destruct (k_state c !! k) as [[]|] eqn:E; intros [= <- <- <-]; (split; [eauto|]; intros x Hx; try set_solver);
    apply elem_of_list_singleton in Hx as ->; exact Hv.
Qed.
Lemma f_set_all_good kvs c h c' out e : cinv c h → (∀ k v, (k, v) ∈ kvs → client_out h (CSet k v)) → f_set_all kvs c = (c', out, e) →
  cinv c' h ∧ ∀ x, x ∈ out → client_new h x.
Proof.
  revert c c' out e; induction kvs as [|[k v] kvs IH]; intros c c' out e Hc Hv; cbn [f_set_all].
  - intros [= <- <- <-]. split; [exact Hc|set_solver].
  - destruct (f_set k v c) as [[c1 o1] e1] eqn:E1. destruct (f_set_good _ _ _ _ _ _ _ Hc (Hv k v ltac:(set_solver)) E1) as [H1 H2].
    destruct e1; [intros [= <- <- <-]; auto|].
    destruct (f_set_all kvs c1) as [[c2 o2] e2] eqn:E2. destruct (IH c1 c2 o2 e2 H1) as [H3 H4]; [intros; apply Hv; set_solver|exact E2|].
    intros [= <- <- <-]. split; [exact H3|]. intros x [Hx|Hx]%elem_of_app; auto.
Qed.
Lemma k_check_good k c h out e : cinv c h → (∀ b, k_bodies c !! task_id k = Some b → body_of h k b) → k_check k c = (out, e) → ∀ x, x ∈ out → client_new h x.
Proof.
  intros Hc Hb. unfold k_check. destruct (k_buffer c !! task_function k); [intros [= <- <-]; set_solver|].
  destruct (k_bodies c !! task_id k) as [[name content]|] eqn:E; [|intros [= <- <-]; set_solver].
  intros [= <- <-] x ->%elem_of_list_singleton. cbn. split; [reflexivity|]. destruct (Hb _ eq_refl) as (args & H & _). eauto.
Qed.
Lemma k_append_good k c h : of_submit h k → cinv c h → cinv (k_append k c) h.
Proof.
  intros Hk []. split; auto; cbn. intros f ks x. rewrite lookup_insert_Some. intros [[<- <-]|[_ H]] Hx; [|eauto].
  apply elem_of_app in Hx as [Hx|Hx]; [|set_solver]. destruct (k_buffer c !! task_function k) eqn:E; [eauto|cbn in Hx; set_solver].
Qed.
Lemma k_receive_good m loads c h c' out e : cinv c h → CIn (KRecv m loads) ∈ h → k_receive m loads c = (c', out, e) →
  cinv c' h ∧ ∀ x, x ∈ out → client_new h x.
Proof.
  intros Hc Hm. destruct m; cbn [k_receive]; try (intros [= <- <- <-]; split; [exact Hc|set_solver]).
  - (* echo *) unfold k_echo. destruct (k_tasks c !! _) as [k|] eqn:Ek; [|intros [= <- <- <-]; split; [exact Hc|set_solver]].
    destruct (ci_tasks _ _ Hc _ _ Ek) as [Eid Hk].
    match goal with |- context [match ?st with SubmitOK => _ | _ => _ end] => destruct st end; try (intros [= <- <- <-]; split; [exact Hc|set_solver]).
    + assert (Hd : ∀ t, cinv (k_with (delete t (k_tasks c)) (delete t (k_bodies c)) (k_futures c) (k_buffer c) c) h).
      { intros t. destruct Hc. split; auto; cbn.
        - intros t' k' [_ H]%lookup_delete_Some. eauto.
        - intros t' k' b [_ H]%lookup_delete_Some [_ Hb]%lookup_delete_Some. eauto.
        - intros t' k' st b H [_ Hb]%lookup_delete_Some. eauto. }
      cbn [k_state k_with k_futures]. destruct (existsb _ _); [|intros [= <- <- <-]; split; [apply Hd|set_solver]].
      destruct (k_state c !! _) as [[]|] eqn:Es; intros [= <- <- <-]; (split; [|set_solver]); try apply Hd.
      destruct (Hd id). split; auto; cbn. intros t' st'. rewrite lookup_insert_Some. intros [[[= <-] _]|[_ H]]; [|eauto]. eapply (ci_state _ _ Hc); eauto.
    + destruct (k_check k c) as [o [x|]] eqn:Ec; intros [= <- <- <-]; (split; [|eapply k_check_good; [exact Hc| |exact Ec]]);
        try (intros b Hb; rewrite Eid in Hb; eapply ci_body; eauto); [exact Hc|apply k_append_good; auto].
  - (* task result *) unfold k_result. destruct (existsb _ _); [|intros [= <- <- <-]; split; [exact Hc|set_solver]].
    assert (Hp : ∀ l, cinv (k_with (k_tasks c) (k_bodies c) l (k_buffer c) c) h) by (intros l; destruct Hc; split; auto).
    destruct status; try (intros [= <- <- <-]; split; [apply Hp|set_solver]).
    + destruct loads; [|intros [= <- <- <-]; split; [apply Hp|set_solver]]. intros Hf.
      pose proof Hf as Hf'. unfold f_set in Hf'. cbn [k_state k_with] in Hf'.
      destruct (k_state c !! inl id) as [st|] eqn:Es; [|injection Hf' as <- <- <-; split; [apply Hp|set_solver]].
      eapply f_set_good; [apply Hp| |exact Hf]. cbn. split; [eauto|]. eapply ci_state; eauto.
    + destruct loads; [|intros [= <- <- <-]; split; [apply Hp|set_solver]]. intros Hf.
      pose proof Hf as Hf'. unfold f_set in Hf'. cbn [k_state k_with] in Hf'.
      destruct (k_state c !! inl id) as [st|] eqn:Es; [|injection Hf' as <- <- <-; split; [apply Hp|set_solver]].
      eapply f_set_good; [apply Hp| |exact Hf]. cbn. split; [eauto|]. eapply ci_state; eauto.
  - (* graph result *) unfold k_graph_result. destruct (List.find _ _) as [[g n]|] eqn:Ef; [|intros [= <- <- <-]; split; [exact Hc|set_solver]].
    assert (Hp : ∀ l, cinv (k_with_state l (k_state c) c) h) by (intros l; destruct Hc; split; auto).
    assert (Hs : ∀ (v : bytes → fvalue), (∀ i p, results !! i = Some p → client_out h (CSet (FGraph id i) (v p))) → ∀ c' out e,
       k_enumerate n results (f_set_all (imap (λ i p, (FGraph id i, v p)) (take n results)) (k_with_state (pop_graph id (k_graphs c)) (k_state c) c)) = (c', out, e) →
       cinv c' h ∧ ∀ x, x ∈ out → client_new h x).
    { intros v Hv c1 o1 e1. destruct (f_set_all _ _) as [[c2 o2] e2] eqn:E2. intros He.
      assert (c1 = c2 ∧ o1 = o2) as [-> ->] by (destruct e2; cbn in He; injection He; auto).
      eapply f_set_all_good; [apply Hp| |exact E2]. intros k v' Hk. apply elem_of_lookup_imap in Hk as (i & p & [= -> ->] & Hi).
      apply Hv. apply lookup_take_Some in Hi as [Hi _]. exact Hi. }
    destruct status; try (intros [= <- <- <-]; split; [apply Hp|set_solver]).
    + destruct loads; [|intros [= <- <- <-]; split; [apply Hp|set_solver]].
      apply Hs. intros i p Hi. cbn. eauto.
    + destruct results as [|p ps]; [intros [= <- <- <-]; split; [apply Hp|set_solver]|].
      destruct loads; [|intros [= <- <- <-]; split; [apply Hp|set_solver]].
      apply (Hs (λ _, Error p)). intros i q Hi. cbn. exists ps. exact Hm.
  - (* function response *) unfold k_function_response.
    destruct status; try (intros [= <- <- <-]; split; [exact Hc|set_solver]);
      (destruct (k_buffer c !! id) as [ks|] eqn:Eb; [|intros [= <- <- <-]; split; [exact Hc|set_solver]]);
      intros [= <- <- <-]; (split; [destruct Hc; split; auto; cbn; intros f' ks' k [_ H]%lookup_delete_Some; eauto|]);
      intros x (k & -> & Hk)%elem_of_list_fmap; cbn; eapply (ci_buffer _ _ Hc); eauto.
Qed.
Lemma k_exit_tasks_good ts c h c' out e : cinv c h → k_exit_tasks ts c = (c', out, e) → cinv c' h ∧ ∀ x, x ∈ out → client_new h x.
Proof.
  revert c c' out e; induction ts as [|t ts IH]; intros c c' out e Hc; cbn [k_exit_tasks].
  - intros [= <- <- <-]. split; [exact Hc|set_solver].
  - destruct (f_set _ _ c) as [[c1 o1] [x|]] eqn:E1; (destruct (f_set_good (inl t) Disconnected _ h _ _ _ Hc I E1) as [H1 H2]).
    + intros [= <- <- <-]. split; [exact H1|]. intros y [->|Hy]%elem_of_cons; [exact I|auto].
    + destruct (k_exit_tasks ts c1) as [[c2 o2] e2] eqn:E2. intros [= <- <- <-]. destruct (IH _ _ _ _ H1 E2) as [H3 H4]. split; [exact H3|].
      intros y [->|[Hy|Hy]%elem_of_app]%elem_of_cons; [exact I|auto|auto].
Qed.
Lemma k_exit_graphs_good gs c h c' out e : cinv c h → k_exit_graphs gs c = (c', out, e) → cinv c' h ∧ ∀ x, x ∈ out → client_new h x.
Proof.
  revert c c' out e; induction gs as [|[g n] gs IH]; intros c c' out e Hc; cbn [k_exit_graphs].
  - intros [= <- <- <-]. split; [exact Hc|set_solver].
  - assert (H0 : ∀ k v, (k, v) ∈ ((λ i, (FGraph g i, Disconnected)) <$> seq 0 n) → client_out h (CSet k v)).
    { intros k v (i & Ei & _)%elem_of_list_fmap. injection Ei as -> ->. exact I. }
    destruct (f_set_all _ c) as [[c1 o1] [x|]] eqn:E1; destruct (f_set_all_good _ _ _ _ _ _ Hc H0 E1) as [H1 H2].
    + intros [= <- <- <-]. split; [exact H1|]. intros y [->|Hy]%elem_of_cons; [exact I|auto].
    + destruct (k_exit_graphs gs c1) as [[c2 o2] e2] eqn:E2. intros [= <- <- <-]. destruct (IH _ _ _ _ H1 E2) as [H3 H4]. split; [exact H3|].
      intros y [->|[Hy|Hy]%elem_of_app]%elem_of_cons; [exact I|auto|auto].
Qed.
Lemma k_exit_good c h c' out e : cinv c h → k_exit c = (c', out, e) → cinv c' h ∧ ∀ x, x ∈ out → client_new h x.
Proof.
  intros Hc. unfold k_exit. destruct (k_exit_tasks _ c) as [[c1 o1] [x|]] eqn:E1; destruct (k_exit_tasks_good _ _ _ _ _ _ Hc E1) as [H1 H2].
  - intros [= <- <- <-]. auto.
  - destruct (k_exit_graphs _ c1) as [[c2 o2] e2] eqn:E2. intros [= <- <- <-]. destruct (k_exit_graphs_good _ _ _ _ _ _ H1 E2) as [H3 H4].
    split; [exact H3|]. intros y [Hy|Hy]%elem_of_app; auto.
Qed.
Lemma k_settle_good r h c' out : cinv r.1.1 h ∧ (∀ x, x ∈ r.1.2 → client_new h x) → k_settle r = (c', out) → cinv c' h ∧ ∀ x, x ∈ out → client_new h x.
Proof.
  destruct r as [[c o] [x|]]; cbn; intros [Hc Ho] [= <- <-]; [|auto].
  split; [destruct Hc; split; auto|]. intros y [Hy|Hy]%elem_of_app; [auto|]. apply elem_of_list_singleton in Hy as ->. exact I.
Qed.
Lemma k_handle_good e c h c' out : cinv c h → CIn e ∈ h → k_handle e c = (c', out) → cinv c' h ∧ ∀ x, x ∈ out → client_new h x.
Proof.
  intros Hc He. destruct e as [t f name content args|t|m n|g|k|m loads|]; cbn [k_handle].
  - intros [= <- <-]. split; [|set_solver]. pose proof Hc as []. split; auto; unfold k_submit; cbn.
    + intros t' k. rewrite lookup_insert_Some. intros [[<- <-]|[_ H]]; [|eauto]. split; [reflexivity|]. do 5 eexists. eauto.
    + intros t' k st. rewrite lookup_insert_Some. intros [[<- [= <- <-]]|[_ H]]; [|eauto]. split; [reflexivity|]. do 5 eexists. eauto.
    + intros t' k b. rewrite !lookup_insert_Some. intros [[Ht <-]|[Hn H]] [[Ht' <-]|[Hn' Hb]]; try done; [subst; exists args; eauto|eauto].
    + intros t' k st b. rewrite !lookup_insert_Some. intros [[Ht [= <- <-]]|[Hn H]] [[Ht' <-]|[Hn' Hb]]; try done; [subst; exists args; eauto|eauto].
  - unfold k_step_submit. destruct (k_flight c !! t) as [[k st]|] eqn:Ef; [|intros [= <- <-]; split; [exact Hc|set_solver]].
    destruct (ci_flight _ _ Hc _ _ _ Ef) as [Eid Hk]. destruct st.
    + destruct (k_check k c) as [o [x|]] eqn:Ec; intros [= <- <-]; (split; [|eapply k_check_good; [exact Hc| |exact Ec]; intros b Hb; rewrite Eid in Hb; eapply ci_body'; eauto]);
        pose proof Hc as []; split; auto; cbn.
      * intros t' k' st' [_ H]%lookup_delete_Some. eauto.
      * intros t' k' st' b [_ H]%lookup_delete_Some Hb. eauto.
      * intros t' k' st'. rewrite lookup_insert_Some. intros [[<- [= <- <-]]|[_ H]]; eauto.
      * intros t' k' st' b. rewrite lookup_insert_Some. intros [[<- [= <- <-]]|[_ H]] Hb; eauto.
    + intros [= <- <-]. split; [|set_solver]. pose proof (k_append_good k c h Hk Hc) as []. split; auto; cbn in *.
      * intros t' k' st'. rewrite lookup_insert_Some. intros [[<- [= <- <-]]|[_ H]]; eauto.
      * intros t' k' st' b. rewrite lookup_insert_Some. intros [[<- [= <- <-]]|[_ H]] Hb; eauto.
    + intros [= <- <-]. split; [|set_solver]. pose proof Hc as []. split; auto; cbn.
      * intros t' k' st' [_ H]%lookup_delete_Some. eauto.
      * intros t' k' st' b [_ H]%lookup_delete_Some Hb. eauto.
      * intros t' st'. rewrite lookup_insert_Some. intros [[[= <-] _]|[_ H]]; [exists k; split; [exact Hk|exact Eid]|eauto].
  - unfold k_graph. destruct m; try (intros [= <- <-]; split; [exact Hc|set_solver]).
    intros [= <- <-]. split; [|intros x ->%elem_of_list_singleton; cbn; eauto].
    pose proof Hc as []. split; auto; cbn. intros t' st' H.
    assert (H' : k_state c !! inl t' = Some st').
    { revert H. generalize (seq 0 n). intros l. induction l as [|i l IH]; cbn; [auto|]. rewrite lookup_insert_ne by done. auto. }
    eauto.
  - intros [= <- <-]. split; [|set_solver]. unfold k_graph_step. destruct (k_sending c !! g); [|exact Hc]. destruct Hc; split; auto.
  - intros [= <- <-]. split; [|set_solver]. unfold k_cancel. destruct (k_state c !! k) as [[]|] eqn:E; try exact Hc.
    pose proof Hc as []. split; auto; cbn. intros t' st'. rewrite lookup_insert_Some. intros [[-> _]|[_ H]]; eauto.
  - destruct (k_up c); [|intros [= <- <-]; split; [exact Hc|set_solver]].
    apply k_settle_good. destruct (k_receive m loads c) as [[c1 o1] e1] eqn:E1. exact (k_receive_good _ _ _ _ _ _ _ Hc He E1).
  - destruct (k_up c); [|intros [= <- <-]; split; [exact Hc|set_solver]].
    destruct (k_settle (k_exit c)) as [c1 o1] eqn:E1. intros [= <- <-].
    assert (H : cinv c1 h ∧ ∀ x, x ∈ o1 → client_new h x).
    { eapply k_settle_good; [|exact E1]. destruct (k_exit c) as [[c2 o2] e2] eqn:E2. exact (k_exit_good _ _ _ _ _ Hc E2). }
    destruct H as [[] H]. split; [split; auto|exact H].
Qed.
Lemma cinv_step c h e : cinv c h → cinv (k_step (c, h) e).1 (k_step (c, h) e).2.
Proof.
  intros Hc. unfold k_step. destruct (k_handle e c) as [c' out] eqn:E. cbn.
  assert (H1 : cinv c (h ++ [CIn e])) by (apply cinv_app; [exact Hc|]; intros x ->%elem_of_list_singleton; exact I).
  destruct (k_handle_good e c (h ++ [CIn e]) c' out H1 ltac:(set_solver) E) as [H2 H3].
  replace (h ++ CIn e :: out) with ((h ++ [CIn e]) ++ out) by (rewrite <- app_assoc; reflexivity).
  apply cinv_app; [exact H2|]. intros x Hx. apply client_out_app. auto using client_new_out.
Qed.
Lemma k_step_new x e : cinv x.1 x.2 → ∃ l, (k_step x e).2 = x.2 ++ CIn e :: l ∧ ∀ e', CIn e' ∉ l.
Proof.
  destruct x as [c h]; cbn [fst snd]. intros Hc. unfold k_step. destruct (k_handle e c) as [c' out] eqn:E. exists out. split; [reflexivity|].
  assert (H1 : cinv c (h ++ [CIn e])) by (apply cinv_app; [exact Hc|]; intros x ->%elem_of_list_singleton; exact I).
  destruct (k_handle_good e c (h ++ [CIn e]) c' out H1 ltac:(set_solver) E) as [_ H3]. intros e' He'. exact (H3 _ He').
Qed.
Lemma cinv_init : cinv k_init [].
Proof. split; cbn; intros; try set_solver. Qed.

(** ** The processor *)

Definition pc_task_in (h : list pentry) (k : task) : Prop := PIn (MTask k) ∈ h.
Definition pc_function_in (h : list pentry) (f content : bytes) : Prop := ∃ st name, PIn (MFunctionResponse st f name content) ∈ h.
Definition proc_out (h : list pentry) (e : pentry) : Prop :=
  match e with
  | POut (MTaskResult t st d p) =>
      (t = "" ∧ st = Success ∧ p = "") ∨
      (∃ k, pc_task_in h k ∧ t = task_id k ∧
         ((st = Success ∧ ∃ content, pc_function_in h (task_function k) content ∧ PCalled content (arg_data <$> task_args k) (Returned p) ∈ h) ∨ st = Failed))
  | POut (MFunctionRequest ty f name content) => ty = FnRequest
  | POut _ => False
  | PCalled content args o => ∃ k, pc_task_in h k ∧ pc_function_in h (task_function k) content ∧ args = arg_data <$> task_args k
  | _ => True
  end.
Record pinv (p : processor) (h : list pentry) : Prop := {
  pi_functions f content : c_functions p !! f = Some content → pc_function_in h f content;
  pi_task k : c_task p = Some k → pc_task_in h k;
  pi_main k : c_main p = Found k → pc_task_in h k;
  pi_call k f : c_main p = Calling k f → pc_task_in h k ∧ ∀ content, f = Some content → pc_function_in h (task_function k) content;
  pi_out e : e ∈ h → proc_out h e }.
Lemma pc_function_in_app h l f c : pc_function_in h f c → pc_function_in (h ++ l) f c.
Proof. intros (st & n & H). exists st, n. set_solver. Qed.
Lemma pc_task_in_app h l k : pc_task_in h k → pc_task_in (h ++ l) k.
Proof. unfold pc_task_in. set_solver. Qed.
Lemma proc_out_app h l e : proc_out h e → proc_out (h ++ l) e.
Proof.
  destruct e as [|m|c args o|]; cbn; auto.
  - destruct m; auto. intros [H|(k & Hk & E & H)]; [auto|]. right. exists k. split; [by apply pc_task_in_app|]. split; [exact E|].
    destruct H as [(-> & c & Hc & Hcall)|H]; [left|auto]. split; [reflexivity|]. exists c. split; [by apply pc_function_in_app|set_solver].
  - intros (k & Hk & Hf & E). exists k. split; [by apply pc_task_in_app|]. split; [by apply pc_function_in_app|exact E].
Qed.
Lemma pinv_app p h l : pinv p h → (∀ e, e ∈ l → proc_out (h ++ l) e) → pinv p (h ++ l).
Proof.
  intros [] Hl. split; eauto using pc_function_in_app, pc_task_in_app.
  - intros k f H. destruct (pi_call0 k f H) as [H1 H2]. split; [by apply pc_task_in_app|]. intros; apply pc_function_in_app; auto.
  - intros e [H|H]%elem_of_app; [apply proc_out_app|]; auto.
Qed.
Lemma pinv_step p h r : pinv p h → pinv (p_step (p, h) r).1 (p_step (p, h) r).2.
Proof.
  intros Hp. destruct r as [now e]. unfold p_step. cbn [pr_now pr_event].
  assert (Hget : ∀ f p' o, pc_get now f p = (p', o) → c_functions p' = c_functions p ∧ c_task p' = c_task p ∧ c_main p' = c_main p ∧ o = c_functions p !! f).
  { intros f p' o. unfold pc_get. destruct (c_functions p !! f); intros [= <- <-]; auto. }
  destruct (c_main p) as [|k|k f|] eqn:Em; [| | |exact Hp];
    (destruct e as [m loads| |o d| |];
      [ |
       |
       | | cbn; unfold p_delete; destruct (c_doomed p); [exact Hp|];
           destruct Hp; split; auto; cbn; [intros f' c [_ H]%lookup_delete_Some; eauto] ]);
    try (cbn; exact Hp);
    try (cbn; unfold p_scan; destruct (c_doomed p); [destruct Hp; split; auto; cbn; intros; congruence|exact Hp]);
    try (cbn; unfold p_run; rewrite Em; cbn; rewrite app_nil_r; exact Hp).
  - (* message *)
    assert (H1 : pinv p (h ++ [PIn m])) by (apply pinv_app; [exact Hp|]; intros x ->%elem_of_list_singleton; exact I).
    assert (Hin : PIn m ∈ h ++ [PIn m]) by set_solver.
    destruct (p_receive now m loads p) as [p' out] eqn:Er. cbn.
    assert (H2 : pinv p' (h ++ [PIn m]) ∧ ∀ x, x ∈ out → proc_out (h ++ [PIn m]) x).
    { destruct m; cbn in Er; try (injection Er as <- <-; split; [exact H1|set_solver]).
      - destruct (pc_get now (task_function t) p) as [q o] eqn:Eg. destruct (Hget _ _ _ Eg) as (E1 & E2 & E3 & E4).
        destruct o as [c|]; injection Er as <- <-.
        + split; [|set_solver]. destruct H1; split; cbn; rewrite ?E1, ?E2; auto; try congruence. intros k [= <-]. exact Hin.
        + split; [|intros x ->%elem_of_list_singleton; reflexivity].
          destruct H1; split; cbn; rewrite ?E1, ?E2, ?E3; auto; try congruence. intros k [= <-]. exact Hin.
      - destruct type; injection Er as <- <-; (split; [|set_solver]); try exact H1.
        destruct H1; split; cbn; auto. intros f' c [_ H]%lookup_delete_Some; eauto.
      - destruct loads; cbn in Er.
        + assert (Hfs : ∀ f c, <[id:=content]> (c_functions p) !! f = Some c → pc_function_in (h ++ [PIn (MFunctionResponse status id name content)]) f c).
          { intros f c. rewrite lookup_insert_Some. intros [[<- <-]|[_ H]]; [do 2 eexists; exact Hin|eapply (pi_functions _ _ H1); eauto]. }
          destruct (c_task p) as [k|] eqn:Et; injection Er as <- <-.
          * split; [|set_solver]. destruct H1; split; cbn; auto; try congruence. intros k' [= <-]. auto.
          * split; [|intros x ->%elem_of_list_singleton; exact I]. destruct H1; split; cbn; auto; congruence.
        + injection Er as <- <-. split; [|intros x ->%elem_of_list_singleton; exact I]. destruct H1; split; cbn; auto; congruence. }
    destruct H2 as [H2 H3]. replace (h ++ PIn m :: out) with ((h ++ [PIn m]) ++ out) by (rewrite <- app_assoc; reflexivity).
    apply pinv_app; [exact H2|]. intros x Hx. apply proc_out_app; auto.
  - (* look *)
    destruct (pc_get now (task_function k) p) as [q o] eqn:Eg. destruct (Hget _ _ _ Eg) as (E1 & E2 & E3 & E4). cbn.
    destruct Hp. split; cbn; rewrite ?E1, ?E2; auto; try congruence.
    intros k' f' [= <- <-]. split; [auto|]. intros c Hc. apply pi_functions0. congruence.
  - (* run *)
    destruct (pi_call _ _ Hp _ _ Em) as [Hk Hf]. unfold p_run. rewrite Em.
    assert (Hw : pinv (pc_main Waiting p) h) by (destruct Hp; split; cbn; auto; congruence).
    assert (Hs : pinv (pc_main Stopped p) h) by (destruct Hp; split; cbn; auto; congruence).
    destruct f as [c|], o as [v|v|]; cbn; try (rewrite app_nil_r; exact Hp); (apply pinv_app; [assumption|]); intros x Hx;
      repeat (apply elem_of_cons in Hx as [->|Hx]); try (by apply elem_of_nil in Hx); try exact I; cbn.
    + exists k. split; [by apply pc_task_in_app|]. split; [apply pc_function_in_app; auto|reflexivity].
    + right. exists k. split; [by apply pc_task_in_app|]. split; [reflexivity|]. left. split; [reflexivity|]. exists c.
      split; [apply pc_function_in_app; auto|set_solver].
    + exists k. split; [by apply pc_task_in_app|]. split; [apply pc_function_in_app; auto|reflexivity].
    + right. exists k. split; [by apply pc_task_in_app|]. auto.
    + exists k. split; [by apply pc_task_in_app|]. split; [apply pc_function_in_app; auto|reflexivity].
    + right. exists k. split; [by apply pc_task_in_app|]. auto.
Qed.
(** A new processor, also after others. *)
Lemma pinv_init retention h : (∀ e, e ∈ h → proc_out h e) → pinv (p_init retention).1 (h ++ (p_init retention).2).
Proof.
  intros Hh. cbn. split; cbn; try done. intros e [H|H]%elem_of_app; [by apply proc_out_app, Hh|].
  apply elem_of_list_singleton in H as ->. cbn. auto.
Qed.

(** ** The agent *)

Definition got (h : list wentry) (m : message) : Prop := ∃ now, WIn now (WExt m) ∈ h.
Definition got_inside (h : list wentry) (m : message) : Prop := ∃ now, WIn now (WProc m) ∈ h.
Definition agent_out (h : list wentry) (e : wentry) : Prop :=
  match e with
  | WHand (MTask k) => got h (MTask k)
  | WHand (MFunctionResponse st f name content) => st ≠ FnNotExists ∧ got h (MFunctionResponse st f name content)
  | WHand (MFunctionRequest ty _ _ _) => ty = FnDelete
  | WHand _ => False
  | WOut (MTaskResult t st d p) =>
      (st = Canceled ∨ st = NotFound) ∨
      (got_inside h (MTaskResult t st d p) ∧ ∃ k, got h (MTask k) ∧ task_id k = t)
  | WOut (MFunctionRequest ty _ _ _) => ty = FnRequest
  | WOut (MHeartbeat _) | WOut (MBalanceResponse _) | WOut (MDisconnectRequest _) => True
  | WOut _ => False
  | _ => True
  end.
Definition agent_new (h : list wentry) (e : wentry) : Prop := match e with WIn _ _ => False | _ => agent_out h e end.
Lemma agent_new_out h e : agent_new h e → agent_out h e. Proof. destruct e; cbn; [done|auto..]. Qed.
Record winv (a : agent) (h : list wentry) : Prop := {
  wi_tasks t k : a_tasks a !! t = Some k → got h (MTask k);
  wi_lock k : a_loop a = LLock k → got h (MTask k);
  wi_init k : a_loop a = LInit k → got h (MTask k);
  wi_task k : a_task a = Some k → got h (MTask k);
  wi_out e : e ∈ h → agent_out h e }.
Lemma got_app h l m : got h m → got (h ++ l) m.
Proof. intros [now H]. exists now. set_solver. Qed.
Lemma got_inside_app h l m : got_inside h m → got_inside (h ++ l) m.
Proof. intros [now H]. exists now. set_solver. Qed.
Lemma agent_out_app h l e : agent_out h e → agent_out (h ++ l) e.
Proof.
  destruct e as [|m|m| |]; cbn; auto; destruct m; auto.
  - intros [H|[H (k & Hk & E)]]; [auto|]. right. split; [by apply got_inside_app|]. exists k. split; [by apply got_app|exact E].
  - apply got_app.
  - intros [H1 H2]. split; [exact H1|by apply got_app].
Qed.
Lemma winv_app a h l : winv a h → (∀ e, e ∈ l → agent_out (h ++ l) e) → winv a (h ++ l).
Proof. intros [] Hl. split; eauto using got_app. intros e [H|H]%elem_of_app; [apply agent_out_app|]; auto. Qed.

Lemma wt_take_good n a h a' ts e : winv a h → wt_take n a = (a', ts, e) → winv a' h.
Proof.
  revert a a' ts e; induction n as [|n IH]; intros a a' ts e Ha; cbn [wt_take]; [by intros [= <- <- <-]|].
  destruct (a_ids a) as [|t ids]; [by intros [= <- <- <-]|].
  destruct (a_tasks a !! t) as [k|] eqn:E; [|intros [= <- <- <-]; destruct Ha; split; auto].
  destruct (wt_take n _) as [[a1 ts1] e1] eqn:E1. intros [= <- <- <-]. eapply IH; [|exact E1].
  destruct Ha; split; auto; cbn. intros t' k' [_ H]%lookup_delete_Some. eauto.
Qed.
Ltac winv_same := match goal with H : winv _ _ |- _ => destruct H; split; auto; cbn; try congruence end.
Lemma w_handle_good now e a h a' out x : winv a h → WIn now e ∈ h → w_handle now e a = (a', out, x) → winv a' h ∧ ∀ o, o ∈ out → agent_new h o.
Proof.
  intros Ha He. destruct e as [m|m| |ac ar wc wr|]; cbn [w_handle].
  - destruct m; try (intros [= <- <- <-]; split; [exact Ha|set_solver]).
    + unfold wt_new. cbn [a_ids with_queue].
      assert (H : ∀ ids, winv (with_queue (<[task_id t:=t]> (a_tasks a)) ids a) h).
      { intros ids. winv_same. intros t' k. rewrite lookup_insert_Some. intros [[_ <-]|[_ H]]; [exists now; exact He|eauto]. }
      destruct (bool_decide _); intros [= <- <- <-]; (split; [apply H|set_solver]).
    + unfold wt_cancel. destruct (a_tasks a !! id) as [k|] eqn:E.
      * assert (H : ∀ ids, winv (with_queue (delete id (a_tasks a)) ids a) h).
        { intros ids. winv_same. intros t' k' [_ H]%lookup_delete_Some. eauto. }
        cbn [a_ids with_queue]. destruct (bool_decide _); intros [= <- <- <-]; (split; [apply H|]); intros o Ho; [|set_solver].
        apply elem_of_list_singleton in Ho as ->. cbn. auto.
      * unfold wp_cancel. destruct (a_init a); cbn.
        2: { intros [= <- <- <-]. split; [exact Ha|]. intros o ->%elem_of_list_singleton. cbn. auto. }
        destruct (a_task a) as [k|] eqn:Ek; [|intros [= <- <- <-]; split; [exact Ha|set_solver]].
        assert (H : winv (with_holder false None false a) h) by winv_same.
        destruct (String.eqb (task_id k) id); cbn.
        2: { intros [= <- <- <-]. split; [exact Ha|]. intros o ->%elem_of_list_singleton. cbn. auto. }
        destruct (a_lock a); intros [= <- <- <-]; (split; [exact H|]); intros o Ho;
          repeat (apply elem_of_cons in Ho as [->|Ho]); try (by apply elem_of_nil in Ho); cbn; auto.
    + unfold wt_balance. destruct (wt_take _ a) as [[a1 ts] e1] eqn:E1. pose proof (wt_take_good _ _ _ _ _ _ Ha E1) as H1.
      destruct e1; intros [= <- <- <-]; (split; [exact H1|]); intros o Ho; [set_solver|]. apply elem_of_list_singleton in Ho as ->. exact I.
    + unfold wh_echo. destruct (a_sent a =? 0); intros [= <- <- <-]; (split; [|set_solver]); [exact Ha|winv_same].
    + unfold wp_function_request. destruct type; intros [= <- <- <-]; (split; [exact Ha|]); intros o Ho; try set_solver.
    + unfold wp_function_response. destruct (a_init a); cbn; [|intros [= <- <- <-]; split; [exact Ha|set_solver]].
      destruct (a_task a) as [k|] eqn:Ek; [|intros [= <- <- <-]; split; [exact Ha|set_solver]].
      destruct (String.eqb _ _); cbn; [|intros [= <- <- <-]; split; [exact Ha|set_solver]].
      destruct status; intros [= <- <- <-]; (split; [exact Ha|]); intros o Ho; try set_solver;
        apply elem_of_list_singleton in Ho as ->; cbn; (split; [done|]); exists now; exact He.
  - destruct m; try (intros [= <- <- <-]; split; [exact Ha|set_solver]).
    + unfold wp_result. destruct (a_init a); cbn.
      * destruct (a_task a) as [k|] eqn:Ek; [|intros [= <- <- <-]; split; [exact Ha|set_solver]].
        destruct (String.eqb_spec (task_id k) id) as [Eid|]; cbn; [|intros [= <- <- <-]; split; [exact Ha|set_solver]].
        assert (H : winv (with_holder true None false a) h) by winv_same.
        destruct (a_lock a); intros [= <- <- <-]; (split; [exact H|]); intros o ->%elem_of_list_singleton; cbn; right;
          (split; [exists now; exact He|]); exists k; (split; [exact (wi_task _ _ Ha _ Ek)|exact Eid]).
      * destruct (String.eqb id ""); cbn; [|intros [= <- <- <-]; split; [exact Ha|set_solver]].
        intros [= <- <- <-]. split; [winv_same|]. destruct (a_task a) as [k|] eqn:Ek; [|set_solver].
        intros o ->%elem_of_list_singleton. cbn. exact (wi_task _ _ Ha _ Ek).
    + unfold wp_internal_request. destruct (a_init a); cbn; [|intros [= <- <- <-]; split; [exact Ha|set_solver]].
      destruct (a_task a) as [k|] eqn:Ek; [|intros [= <- <- <-]; split; [exact Ha|set_solver]].
      destruct (String.eqb _ _); cbn; [|intros [= <- <- <-]; split; [exact Ha|set_solver]].
      destruct type; intros [= <- <- <-]; (split; [exact Ha|]); intros o Ho; try set_solver.
  - unfold wt_loop. destruct (a_loop a) as [|k|k] eqn:El.
    + destruct (a_ids a) as [|t ids]; [intros [= <- <- <-]; split; [exact Ha|set_solver]|].
      destruct (a_tasks a !! t) as [k|] eqn:Et; intros [= <- <- <-]; (split; [|set_solver]); winv_same.
      * intros t' k' [_ H]%lookup_delete_Some. eauto.
      * intros k' [= <-]. eauto.
    + destruct (a_lock a); intros [= <- <- <-]; (split; [|set_solver]); [exact Ha|]. winv_same. intros k' [= <-]. eauto.
    + destruct (a_init a); cbn; [|intros [= <- <- <-]; split; [exact Ha|set_solver]].
      destruct (a_task a) as [k'|] eqn:Ek; intros [= <- <- <-].
      * split; [exact Ha|set_solver].
      * split; [winv_same; intros k' [= <-]; eauto|]. intros o ->%elem_of_list_singleton. cbn. eapply wi_init; eauto.
  - unfold wh_routine. destruct (a_sent a =? 0); cbn; intros [= <- <- <-].
    + split; [winv_same|]. intros o ->%elem_of_list_singleton. exact I.
    + split; [exact Ha|set_solver].
  - unfold wo_routine. destruct (_ <? _); intros [= <- <- <-]; (split; [exact Ha|set_solver]).
Qed.
Lemma winv_step a h r : winv a h → winv (w_step (a, h) r).1 (w_step (a, h) r).2.
Proof.
  intros Ha. destruct r as [now e]. unfold w_step. cbn [wr_now wr_event]. destruct (a_dead a); [exact Ha|].
  assert (H1 : winv a (h ++ [WIn now e])) by (apply winv_app; [exact Ha|]; intros x ->%elem_of_list_singleton; exact I).
  destruct (w_handle now e a) as [[a' out] x] eqn:E.
  destruct (w_handle_good now e a (h ++ [WIn now e]) a' out x H1 ltac:(set_solver) E) as [H2 H3].
  destruct x as [x|]; cbn.
  - replace (h ++ WIn now e :: out ++ w_end x a') with ((h ++ [WIn now e]) ++ out ++ w_end x a') by (rewrite <- app_assoc; reflexivity).
    apply winv_app; [winv_same|]. intros o [Ho|Ho]%elem_of_app; [apply agent_out_app; auto using agent_new_out|].
    unfold w_end in Ho. apply elem_of_app in Ho as [Ho|Ho].
    + destruct x; try (by apply elem_of_nil in Ho). apply elem_of_list_singleton in Ho as ->. exact I.
    + apply elem_of_list_singleton in Ho as ->. exact I.
  - replace (h ++ WIn now e :: out) with ((h ++ [WIn now e]) ++ out) by (rewrite <- app_assoc; reflexivity).
    apply winv_app; [exact H2|]. intros o Ho. apply agent_out_app; auto using agent_new_out.
Qed.
Lemma winv_init i death now : winv (w_init i death now).1 (w_init i death now).2.
Proof. split; cbn; try done. intros e ->%elem_of_list_singleton. exact I. Qed.
Lemma w_step_new a h now e : winv a h → w_step (a, h) (WRound now e) = (a, h) ∨
  ∃ a' l, w_step (a, h) (WRound now e) = (a', h ++ WIn now e :: l) ∧ ∀ n' e', WIn n' e' ∉ l.
Proof.
  intros Ha. unfold w_step. cbn [wr_now wr_event]. destruct (a_dead a); [left; reflexivity|right].
  assert (H1 : winv a (h ++ [WIn now e])) by (apply winv_app; [exact Ha|]; intros x ->%elem_of_list_singleton; exact I).
  destruct (w_handle now e a) as [[a' out] x] eqn:E.
  destruct (w_handle_good now e a (h ++ [WIn now e]) a' out x H1 ltac:(set_solver) E) as [_ H3].
  destruct x as [x|]; do 2 eexists; (split; [reflexivity|]); intros n' e' He'; [|exact (H3 _ He')].
  apply elem_of_app in He' as [He'|He']; [exact (H3 _ He')|]. unfold w_end in He'. destruct x; set_solver.
Qed.
Lemma p_step_new p h now e : ∃ p' l, p_step (p, h) (PRound now e) = (p', h ++ l) ∧ ∀ m, PIn m ∈ l → ∃ loads, e = PMsg m loads.
Proof.
  unfold p_step. cbn [pr_now pr_event].
  assert (H0 : ∀ p' : processor, ∃ (p1 : processor) l, (p', h) = (p1, h ++ l) ∧ ∀ m, PIn m ∈ l → ∃ loads, e = PMsg m loads).
  { intros p'. exists p', []. rewrite app_nil_r. split; [reflexivity|set_solver]. }
  destruct (c_main p) as [|k|k f|] eqn:Em; [..|apply H0]; destruct e as [m loads| |o d| |]; try apply H0;
    try (destruct (pc_get _ _ _); apply H0).
  - destruct (p_receive now m loads p) as [p' out] eqn:Er. do 2 eexists. split; [reflexivity|].
    intros m' [[= ->]|H]%elem_of_cons; [eauto|]. exfalso.
    destruct m; cbn in Er; try (injection Er as <- <-; set_solver).
    + destruct (pc_get _ _ _) as [q [c|]]; injection Er as <- <-; set_solver.
    + destruct type; injection Er as <- <-; set_solver.
    + destruct loads; cbn in Er; [destruct (c_task p)|]; injection Er as <- <-; set_solver.
  - unfold p_run. rewrite Em. do 2 eexists. split; [reflexivity|set_solver].
  - unfold p_run. rewrite Em. do 2 eexists. split; [reflexivity|set_solver].
  - unfold p_run. rewrite Em. destruct f as [c|], o as [v|v|]; do 2 eexists; (split; [reflexivity|]); set_solver.
Qed.
