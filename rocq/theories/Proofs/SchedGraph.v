(** Graphs: dependencies, values, answers (C40-C42), and graphs that hang (C45). *)

From Verif.Model Require Import Base OneToManyDict Allocator Message Sorter Scheduler.
From Verif.Spec Require Import DictSpec SchedulerSpec.
From Verif.Proofs Require Import BaseProofs SchedWp SchedCount SchedContent SchedGlobal SchedStep.

(** C40 *)
Lemma node_ready_lemma c rs before w k after :
  s_log (run c rs) = before ++ LSend w (MTask k) :: after →
  (¬ ∃ cl, received cl (MTask k) before) →
  ∃ cl g fs ts ns n, received cl (MGraphTask g fs ts ns) before ∧ accepted cl (task_id k) before ∧ n ∈ ns ∧
    task_id k = task_id n ∧ task_function k = task_function n ∧
    Forall2 (λ a' a, match a with
      | ArgData d => a' = ArgData d
      | ArgTask x => ∃ r w d, a' = ArgData r ∧ received w (MTaskResult x Success d r) before
      end) (task_args k) (task_args n) ∧ NoDup (references (task_args n)).
Proof.
  intros E Hn. destruct (Inv3_run c rs) as [H _]. destruct (H _ _ _ E) as (cl & [Hs|(g & fs & ts & ns & n & Hr & Hin & H1 & H2 & H3 & H4)] & Ha).
  - destruct Hn. eauto.
  - exists cl, g, fs, ts, ns, n. repeat (split; [assumption|]). split; [|exact H4]. eapply Forall2_impl; [exact H3|].
    intros a' [d|x]; cbn; [auto|]. intros (r & -> & w' & d & Hx). eauto 10.
Qed.

(** C41 *)
Lemma always_prefix (P : history → entry → Prop) h l : always P (h ++ l) → always P h.
Proof. intros H b e a ->. apply (H b e (a ++ l)). rewrite <- app_assoc. reflexivity. Qed.
Lemma received_prefix c m h l : received c m h → received c m (h ++ l).
Proof. intros [now H]. exists now. apply elem_of_app. auto. Qed.
Lemma unshared_prefix ns h l : unshared ns (h ++ l) → unshared ns h.
Proof.
  intros H n Hn. destruct (H n Hn) as [H1 H2]. split; [intros c k Hr; eapply H1, received_prefix, Hr|].
  intros c g fs ts ns' n' Hr. eapply H2, received_prefix, Hr.
Qed.
Lemma success_value apply ns : closed ns → ∀ h, always relayed_ok h → always (honest apply) h → unshared ns h →
  ∀ n r, n ∈ ns → success h (task_id n) r → value apply ns (task_id n) r.
Proof.
  intros Hcl h. remember (length h) as len eqn:El. revert h El. induction (lt_wf len) as [len _ IH]. intros h -> Hrel Hhon Hun n r Hn (src & d & now & Hin).
  apply elem_of_list_split in Hin as (before & after & E). destruct (Hhon _ _ _ E) as (w & k & vs & Hk & Hid & Hargs & ->).
  apply elem_of_list_split in Hk as (b1 & b2 & Eb). subst before h. rewrite <- app_assoc in *. cbn [app] in *.
  destruct (Hrel _ _ _ eq_refl) as (cl & [Hs|(g & fs & ts & ns' & n' & Hr & Hin' & H1 & H2 & H3 & _)] & _).
  { exfalso. apply (proj1 (unshared_prefix _ _ _ Hun n Hn) _ _ Hs). exact Hid. }
  assert (n' = n) as ->. { eapply (proj2 (unshared_prefix _ _ _ Hun n Hn)); [exact Hr|exact Hin'|congruence]. }
  rewrite H2. constructor; [exact Hn|]. rewrite Hargs in H3.
  assert (Hrec : ∀ n r, n ∈ ns → success b1 (task_id n) r → value apply ns (task_id n) r).
  { intros m r Hm Hsm. eapply (IH (length b1)); [rewrite app_length; cbn; lia|reflexivity|..|exact Hm|exact Hsm].
    - eapply always_prefix, Hrel. - eapply always_prefix, Hhon. - eapply unshared_prefix, Hun. }
  assert (Hargcl : ∀ x, ArgTask x ∈ task_args n → ∃ n', n' ∈ ns ∧ task_id n' = x) by (intros x; apply Hcl; exact Hn).
  clear -H3 Hrec Hargcl. revert vs H3. induction (task_args n) as [|a args IH]; intros [|v vs] H3; try (inversion H3; fail); [constructor|].
  cbn [fmap list_fmap] in H3. apply Forall2_cons in H3 as [Ha Hl].
  assert (values apply ns args vs) as Hvs. { apply IH; [|exact Hl]. intros x Hx. apply Hargcl. right. exact Hx. }
  destruct a as [d|x]; cbn in Ha.
  - injection Ha as ->. constructor. exact Hvs.
  - destruct Ha as (r & [= ->] & Hs). destruct (Hargcl x) as (n' & Hn' & <-); [left|]. constructor; [|exact Hvs]. eapply Hrec; eassumption.
Qed.

Lemma graph_value_lemma c rs apply cl g rs' : let h := s_log (run c rs) in
  always (honest apply) h → (∀ cl g fs ts ns, received cl (MGraphTask g fs ts ns) h → closed ns ∧ unshared ns h ∧ ∀ t, t ∈ ts → ∃ n, n ∈ ns ∧ task_id n = t) →
  LSend cl (MGraphTaskResult g Success rs') ∈ h →
  ∃ fs ts ns, received cl (MGraphTask g fs ts ns) h ∧ Forall2 (value apply ns) ts rs'.
Proof.
  intros h Hh Hg Hin. destruct (Inv3_run c rs) as [H _]. apply elem_of_list_split in Hin as (b & a & E).
  destruct (H _ _ _ E) as (fs & ts & ns & Hr & Hs). exists fs, ts, ns.
  assert (Hr' : received cl (MGraphTask g fs ts ns) h) by (rewrite E; apply received_prefix; exact Hr).
  split; [exact Hr'|]. destruct (Hg _ _ _ _ _ Hr') as (Hcl & Hun & Hts).
  assert (Hv : ∀ t r, t ∈ ts → success b t r → value apply ns t r).
  { intros t r Ht Hsu. destruct (Hts t Ht) as (n & Hn & <-). apply (success_value apply ns Hcl h H Hh Hun n r Hn).
    rewrite E. apply success_app. exact Hsu. }
  clear -Hs Hv. induction Hs as [|t r ts rs' H _ IH]; constructor; [apply Hv; [left|exact H]|].
  apply IH. intros t' r' Ht'. apply Hv. right. exact Ht'.
Qed.

(** With distinct ids a node has at most one value. *)
Scheme value_ind2 := Minimality for value Sort Prop with values_ind2 := Minimality for values Sort Prop.
Lemma ids_inj (ns : list task) : NoDup (task_id <$> ns) → ∀ n n', n ∈ ns → n' ∈ ns → task_id n = task_id n' → n = n'.
Proof.
  induction ns as [|m ns IH]; cbn; intros Hd n n' Hn Hn' E; [set_solver|]. apply NoDup_cons in Hd as [Hm Hd].
  apply elem_of_cons in Hn as [->|Hn]; apply elem_of_cons in Hn' as [->|Hn']; auto.
  - exfalso. apply Hm. rewrite E. apply elem_of_list_fmap_1. exact Hn'.
  - exfalso. apply Hm. rewrite <- E. apply elem_of_list_fmap_1. exact Hn.
Qed.
Lemma value_unique apply ns : NoDup (task_id <$> ns) → ∀ t v v', value apply ns t v → value apply ns t v' → v = v'.
Proof.
  intros Hd t v v' H. revert v'.
  apply (value_ind2 apply ns (λ t v, ∀ v', value apply ns t v' → v = v') (λ args vs, ∀ vs', values apply ns args vs' → vs = vs')) with (s := t); [..|exact H].
  - intros n vs Hn _ IH v' Hv. inversion Hv as [n' vs' Hn' Hvs' En]; subst.
    assert (n' = n) as -> by (apply (ids_inj ns Hd n' n); assumption).
    f_equal. apply IH. exact Hvs'.
  - intros vs' Hv. inversion Hv. reflexivity.
  - intros d args vs _ IH vs' Hv. inversion Hv; subst. f_equal. auto.
  - intros x v0 args vs _ IH1 _ IH2 vs' Hv. inversion Hv; subst. f_equal; auto.
Qed.

(** ** Graphs that hang (C45) *)
Section hung.
Context (g t : bytes) (n0 : nat).
Definition no_answer (s : sched) : Prop := occurrences (is_graph_result g) (s_log s) = n0.
Record hung (s : sched) : Prop := {
  h_log : no_answer s;
  h_task : s_tasks s !! t = None;
  h_t2g x : s_t2g s !! x = Some g → x = t;
  h_graphs g' i x n : s_graphs s !! g' = Some i → g' ≠ g → g_nodes i !! x = Some n → task_id (ni_task n) ≠ t;
  h_queue c gt : (c, gt) ∈ s_gqueue s → gt_id gt ≠ g ∧ ∀ n, n ∈ gt_graph gt → task_id n ≠ t }.
Notation crashH := (λ (_ : exn) s', no_answer s').
Definition unrelated (e : entry) : Prop := is_graph_result g e = false.
Lemma quiet_unrelated e : quiet e → unrelated e.
Proof. destruct e as [| ? [] | | | | |]; cbn; try done. Qed.
Lemma no_answer_app s l : Forall unrelated l → occurrences (is_graph_result g) (s_log s ++ l) = occurrences (is_graph_result g) (s_log s).
Proof.
  rewrite occurrences_app. induction l as [|e l IH]; intros Hl; [cbn; lia|]. apply Forall_cons in Hl as [He Hl].
  unfold occurrences in *. cbn. rewrite He. apply IH, Hl.
Qed.
Lemma hung_fm s s' : fm_same s s' → hung s → hung s'.
Proof.
  intros [[E1 _ _ _ E5 E6 _ E8 E9 E10 (l & El & Ql)] [F1 F2 F3]] [H1 H2 H3 H4 H5].
  split; rewrite ?E5, ?F1, ?F2, ?F3; auto. unfold no_answer. rewrite El, no_answer_app; [exact H1|].
  eapply Forall_impl; [exact Ql|]. apply quiet_unrelated.
Qed.
Lemma no_answer_core s s' : same_core s s' → no_answer s → no_answer s'.
Proof.
  intros [E1 _ _ _ _ _ _ _ _ _ (l & El & Ql)] H. unfold no_answer. rewrite El, no_answer_app; [exact H|].
  eapply Forall_impl; [exact Ql|]. apply quiet_unrelated.
Qed.
Definition keepsH {A} (m : M A) : Prop := ∀ s, hung s → wp m (λ _ s', hung s') crashH s.
Lemma keepsH_frame {A} (m : M A) : (∀ s, wp m (λ _ s', fm_same s s') (λ _ s', fm_same s s') s) → keepsH m.
Proof.
  intros Hm s H. eapply wp_mono; [apply Hm| |]; cbv beta.
  - intros a s' Hs. eapply hung_fm; eauto.
  - intros e s' [Hs _]. eapply no_answer_core; [exact Hs|apply H].
Qed.
Lemma H_use x f : keepsH (fm_use x f). Proof. apply keepsH_frame. intros. apply fm_use_same, fm_same_refl. Qed.
Lemma H_fdone x : keepsH (fm_done x). Proof. apply keepsH_frame. intros. apply fm_done_same, fm_same_refl. Qed.
Lemma H_on_function a b c d e : keepsH (fm_on_function a b c d e).
Proof. apply keepsH_frame. intros. apply fm_on_function_same, fm_same_refl. Qed.
Lemma H_fm_routine : keepsH fm_routine. Proof. apply keepsH_frame. intros. apply fm_routine_same, fm_same_refl. Qed.
Lemma H_monitor x st : keepsH (tm_monitor x st). Proof. apply keepsH_frame. intros. apply tm_monitor_same, fm_same_refl. Qed.
Lemma H_wcancel x : keepsH (wm_cancel x). Proof. apply keepsH_frame. intros. apply wm_cancel_same, fm_same_refl. Qed.
Lemma H_status : keepsH st_routine. Proof. apply keepsH_frame. intros. apply st_routine_same, fm_same_refl. Qed.

Section fields.
Context (s : sched).
Lemma H_running f : hung s → hung (set_running f s). Proof. intros []; split; auto. Qed.
Lemma H_codes f : hung s → hung (set_codes f s). Proof. intros []; split; auto. Qed.
Lemma H_clients f : hung s → hung (set_clients f s). Proof. intros []; split; auto. Qed.
Lemma H_advice f : hung s → hung (set_last_advice f s). Proof. intros []; split; auto. Qed.
Lemma H_same_count f : hung s → hung (set_same f s). Proof. intros []; split; auto. Qed.
Lemma H_now f : hung s → hung (set_now f s). Proof. intros []; split; auto. Qed.
Lemma H_n1 f : hung s → hung (set_nsuccess f s). Proof. intros []; split; auto. Qed.
Lemma H_n2 f : hung s → hung (set_nfailed f s). Proof. intros []; split; auto. Qed.
Lemma H_n3 f : hung s → hung (set_ncanceled f s). Proof. intros []; split; auto. Qed.
Lemma H_n4 f : hung s → hung (set_nnotfound f s). Proof. intros []; split; auto. Qed.
Lemma H_alloc f : hung s → hung (set_alloc f s). Proof. intros []; split; auto. Qed.
Lemma H_alive f : hung s → hung (set_alive f s). Proof. intros []; split; auto. Qed.
Lemma H_unassigned f : hung s → hung (set_unassigned f s). Proof. intros []; split; auto. Qed.
Lemma H_limbo f : hung s → hung (set_limbo f s). Proof. intros []; split; auto. Qed.
Lemma H_t2g_delete x : hung s → hung (set_t2g (delete x) s).
Proof. intros []; split; auto. ss. intros y [_ H]%lookup_delete_Some. auto. Qed.
Lemma H_unstore x : hung s → hung (set_tasks (delete x) s).
Proof. intros []; split; auto. ss. apply lookup_delete_None. auto. Qed.
Lemma H_emit e : unrelated e → hung s → hung (set_log (λ l, l ++ [e]) s).
Proof. intros He []; split; auto. unfold no_answer in *. ss. rewrite no_answer_app by auto. assumption. Qed.
Lemma H_graph_delete x : hung s → hung (set_graphs (delete x) s).
Proof. intros []; split; auto. ss. intros g' i y n [_ H]%lookup_delete_Some. eauto. Qed.
Lemma H_gstore x i : (x ≠ g → ∀ y n, g_nodes i !! y = Some n → task_id (ni_task n) ≠ t) → hung s → hung (set_graphs (<[x := i]>) s).
Proof. intros Hi []; split; auto. ss. intros g' i' y n. rewrite lookup_insert_Some. intros [[<- <-]|[_ Hx]]; eauto. Qed.
End fields.
Hint Resolve H_running H_codes H_clients H_advice H_same_count H_now H_n1 H_n2 H_n3 H_n4
  H_alloc H_alive H_unassigned H_limbo H_t2g_delete H_unstore H_emit H_graph_delete h_log : hu.
Hint Extern 1 (unrelated _) => exact eq_refl : hu.

Lemma H_put x : keepsH (tm_put x). Proof. intros s H. unfold tm_put. wsteps; eauto with hu. Qed.
Lemma H_has_available : keepsH wm_has_available. Proof. intros s H. unfold wm_has_available. wsteps; eauto with hu. Qed.
Lemma H_cm_new c x : keepsH (cm_new c x). Proof. intros s H. unfold cm_new. wsteps; eauto with hu. Qed.
Lemma H_cm_done x : keepsH (cm_done x). Proof. intros s H. unfold cm_done. wsteps; eauto with hu. Qed.
Lemma H_tm_new c k s : task_id k ≠ t → hung s → wp (tm_new c k) (λ _ s', hung s') crashH s.
Proof.
  intros Hk H. unfold tm_new, fm_has_function. wstep. wstep. destruct (negb _); [wsteps; eauto with hu|].
  wstep. wuse H_has_available as s1 H1; [exact H|]. wsteps; [eauto with hu|].
  wuse H_use as s2 H2; [eauto with hu|]. wstep. wuse H_cm_new as s3 H3; [exact H2|]. wsteps.
  wuse H_put as s4 H4; [|apply H_monitor; exact H4].
  destruct H3 as [A1 A2 A3 A4 A5]; split; auto; ss. rewrite lookup_insert_ne; auto.
Qed.
Lemma H_reroute x : keepsH (tm_reroute x).
Proof. intros s H. unfold tm_reroute. wsteps; eauto with hu. wuse H_put as s1 H1; [eauto with hu|]. apply H_monitor. exact H1. Qed.
Lemma H_count st : keepsH (tm_count st). Proof. intros s H. unfold tm_count. wsteps; eauto with hu. Qed.
(** Forgetting [t] is impossible: it is not there. *)
Lemma H_forget r s : hung s → wp (tm_forget r) (λ _ s', hung s' ∧ r_id r ≠ t) crashH s.
Proof.
  intros H. unfold tm_forget. wstep. wuse H_count as s1 H1; [exact H|]. wstep. wstep. wstep.
  apply (wp_mono _ (λ _ s', hung s') _ crashH); [case_match; wsteps; eauto with hu| |auto].
  intros u s2 H2. wstep. wuse H_monitor as s3 H3; [exact H2|]. wsteps; [|eauto with hu].
  assert (r_id r ≠ t) as Hne. { intros E. rewrite E, (h_task _ H3) in Hok. discriminate. }
  wuse H_fdone as s4 H4; [eauto with hu|]. eapply wp_mono; [apply H_cm_done; exact H4|cbv beta; auto|auto].
Qed.

Lemma H_clean_nodes cancel ids : (∀ x, keepsH (cancel x)) → ∀ nodes, keepsH (gm_clean_nodes cancel ids nodes).
Proof.
  intros Hc. induction ids as [|x ids IH]; intros nodes s H; cbn [gm_clean_nodes]; [wsteps; exact H|].
  destruct (nodes !! x) as [n|] eqn:En; [|apply IH; auto]. wstep.
  apply (wp_mono _ (λ _ s', hung s') _ crashH).
  - destruct (ni_state n); [apply H_fdone; exact H|apply Hc; exact H|wsteps; exact H..].
  - intros u s1 H1. wsteps. apply IH. eauto with hu.
  - auto.
Qed.
Lemma H_clean cancel x : (∀ x, keepsH (cancel x)) → keepsH (gm_clean cancel x).
Proof.
  intros Hc s H. unfold gm_clean, gm_graph. wstep. wuse H_cm_done as s1 H1; [exact H|]. wsteps; [|eauto with hu].
  wuse (H_clean_nodes cancel l' Hc) as s2 H2; [eauto with hu|]. wsteps. exact H2.
Qed.
Lemma H_mark x r : x ≠ g → keepsH (gm_mark x r).
Proof.
  intros Hx s H. unfold gm_mark, gm_graph, gm_store. wstep. wsteps; eauto with hu.
  all: destruct (s_graphs s !! x) as [i|] eqn:Eg; [|discriminate]; injection Hok as <-.
  all: apply H_gstore; [|exact H]; intros _ y n; cbn; rewrite lookup_insert_Some; intros [[<- <-]|[_ Hy]]; [|eapply h_graphs; eauto].
  all: destruct (g_nodes i !! r_id r) as [n|] eqn:En; [|discriminate]; injection Hok0 as <-; cbn; eapply h_graphs; eauto.
Qed.
Lemma H_task_result x y a : x ≠ g → keepsH (gm_task_result x y a).
Proof.
  intros Hx s H. unfold gm_task_result, gm_graph, gm_store. wsteps; eauto with hu.
  all: destruct (s_graphs s !! x) as [i|] eqn:Eg; [|discriminate]; injection Hok as <-.
  all: assert (Hd : ∀ d, hung (set_graphs (<[x := set_deps d i]>) s)) by
    (intros d; apply H_gstore; [|exact H]; cbn; intros _ z n Hz; eapply h_graphs; eauto).
  all: eauto with hu.
  apply H_gstore; [|eauto with hu]. cbn. intros _ z n [_ Hz]%lookup_delete_Some. eapply h_graphs; eauto.
Qed.
Lemma H_arguments x y args : x ≠ g → keepsH (gm_arguments x y args).
Proof.
  intros Hx. induction args as [|[d|a] args IH]; intros s H; cbn [gm_arguments].
  - wsteps. exact H.
  - wstep. wuse IH as s1 H1; [exact H|]. wsteps. exact H1.
  - wstep. wuse H_task_result as s1 H1; [exact Hx|exact H|]. wstep. wuse IH as s2 H2; [exact H1|]. wsteps. exact H2.
Qed.
Lemma H_start x y : x ≠ g → keepsH (gm_start x y).
Proof.
  intros Hx s H. unfold gm_start, gm_graph, gm_store. wsteps; eauto with hu.
  destruct (s_graphs s !! x) as [i|] eqn:Eg; [|discriminate]. injection Hok as <-.
  destruct (g_nodes i !! y) as [n|] eqn:En; [|discriminate]. injection Hok0 as <-.
  pose proof (h_graphs _ H _ _ _ _ Eg Hx En) as Hn.
  wuse H_arguments as s1 H1; [exact Hx|exact H|]. wsteps; [|eauto with hu].
  destruct (s_graphs s1 !! x) as [i1|] eqn:Eg1; [|discriminate]. injection Hok as <-.
  apply H_tm_new; [exact Hn|]. apply H_gstore; [|exact H1]. cbn. intros _ z m. rewrite lookup_insert_Some.
  intros [[<- <-]|[_ Hz]]; [exact Hn|]. eapply h_graphs; eauto.
Qed.
Lemma H_check cancel x : (∀ x, keepsH (cancel x)) → x ≠ g → keepsH (gm_check cancel x).
Proof.
  intros Hc Hx s H. unfold gm_check, gm_graph. wsteps; eauto with hu.
  all: destruct (s_graphs s !! x) as [i|] eqn:Eg; [|discriminate]; injection Hok as <-.
  - wuse (H_clean cancel x Hc) as s1 H1; [exact H|]. wsteps. apply H_emit; [|exact H1].
    unfold unrelated. cbn. apply String.eqb_neq. exact Hx.
  - unfold gm_store. wsteps. apply (wp_foreach _ (λ _ s', hung s')).
    + apply H_gstore; [|exact H]. cbn. intros _ y n Hy. eapply h_graphs; eauto.
    + intros y l1 s1 H1. apply H_start; [exact Hx|exact H1].
Qed.
Lemma H_gm_done cancel r : (∀ x, keepsH (cancel x)) → r_id r ≠ t → keepsH (gm_done cancel r).
Proof.
  intros Hc Hr s H. unfold gm_done. wstep. wstep. destruct (s_t2g s !! r_id r) as [x|] eqn:Et; [|wsteps; exact H].
  assert (x ≠ g) as Hx. { intros ->. apply Hr. eapply h_t2g; eauto. }
  wstep. wuse H_mark as s1 H1; [exact Hx|exact H|].
  assert (Hu : ∀ st p c, unrelated (LSend c (MGraphTaskResult x st p))).
  { intros. unfold unrelated. cbn. apply String.eqb_neq. exact Hx. }
  destruct (r_status r); wstep.
  all: first [wuse (H_clean cancel x Hc) as s2 H2; [exact H1|] | wuse H_check as s2 H2; [exact Hc|exact Hx|exact H1|]]; wsteps; eauto with hu.
Qed.
Lemma H_done_fuel n r : keepsH (tm_done_fuel n r).
Proof.
  revert r; induction n as [|n IH]; intros r s H; cbn [tm_done_fuel]; [wsteps; eauto with hu|].
  wstep. wuse H_forget as s1 [H1 Hr]; [exact H|]. wstep.
  wuse H_gm_done as s2 H2; [|exact Hr|exact H1|].
  - intros x s3 H3. unfold tm_cancel. wsteps; eauto with hu.
    + apply IH. exact H3.
    + wuse H_wcancel as s4 H4; [exact H3|]. apply H_monitor. exact H4.
  - wsteps; [exact H2|]. eauto with hu.
Qed.
Lemma H_done r : keepsH (tm_done r).
Proof. intros s H. unfold tm_done. wstep. wstep. apply H_done_fuel; assumption. Qed.
Lemma H_cancel_any x : keepsH (tm_cancel_any x).
Proof.
  intros s H. unfold tm_cancel_any, tm_cancel. wsteps; eauto with hu.
  - apply H_done. exact H.
  - wuse H_wcancel as s3 H3; [exact H|]. apply H_monitor. exact H3.
Qed.
Lemma H_nodes x targets ts nodes deps gr s : x ≠ g → (∀ k, k ∈ ts → task_id k ≠ t) →
  (∀ y n, nodes !! y = Some n → task_id (ni_task n) ≠ t) → hung s →
  wp (gm_nodes x targets ts nodes deps gr) (λ p s', hung s' ∧ ∀ y n, p.1.1 !! y = Some n → task_id (ni_task n) ≠ t) crashH s.
Proof.
  intros Hx. revert nodes deps gr s; induction ts as [|k ts IH]; intros nodes deps gr s Hts Hn H; cbn [gm_nodes].
  { wsteps. split; [exact H|exact Hn]. }
  wstep. wuse H_use as s1 H1; [exact H|]. wsteps. apply IH.
  - set_solver.
  - intros y n. rewrite lookup_insert_Some. intros [[<- <-]|[_ Hy]]; [cbn; apply Hts; left|eauto].
  - apply H_emit; [reflexivity|]. apply H_codes. destruct H1 as [A1 A2 A3 A4 A5]; split; auto; ss.
    intros y. rewrite lookup_insert_Some. intros [[<- E]|[_ Hy]]; [congruence|auto].
Qed.
Lemma H_add client gt s : gt_id gt ≠ g → (∀ n, n ∈ gt_graph gt → task_id n ≠ t) → hung s →
  wp (gm_add client gt) (λ _ s', hung s') crashH s.
Proof.
  intros Hx Hn H. unfold gm_add. wstep. apply (wp_mono _ (λ _ s', hung s') _ crashH); [| |auto].
  { apply (wp_foreach _ (λ _ s', hung s')); [exact H|]. intros [f [n c]] l s1 H1. apply H_on_function. exact H1. }
  clear s H. intros u s H. wstep. wuse H_cm_new as s1 H1; [exact H|]. wstep.
  eapply wp_mono; [apply H_nodes; [exact Hx|exact Hn| |exact H1]| |auto].
  { intros y n. rewrite lookup_empty. discriminate. }
  cbv beta. intros [[nodes deps] gr] s2 [H2 Ht]. cbn in Ht. wsteps; [|eauto with hu]. unfold gm_store. wsteps.
  apply H_check; [apply H_cancel_any|exact Hx|]. apply H_gstore; [|exact H2]. intros _. exact Ht.
Qed.
Lemma H_gm_routine : keepsH gm_routine.
Proof.
  intros s H. unfold gm_routine. wstep. wstep. destruct (s_gqueue s) as [|[client gt] q] eqn:Hm; [wsteps; eauto with hu|].
  wstep. wstep. destruct (h_queue _ H client gt) as [H1 H2]; [rewrite Hm; left|]. apply H_add; [exact H1|exact H2|].
  destruct H as [A1 A2 A3 A4 A5]; split; auto; ss. intros c gt' Hx. apply (A5 c). rewrite Hm. right. exact Hx.
Qed.
Lemma H_match k : keepsH (tm_match k).
Proof.
  intros s H. unfold tm_match. wsteps; eauto with hu.
  - apply H_monitor, H_running, H_emit; [reflexivity|]. eauto with hu.
  - apply H_put. eauto with hu.
Qed.
Lemma H_tm_routine : keepsH tm_routine.
Proof.
  intros s H. unfold tm_routine. wstep. wstep. destruct (s_limbo s) as [k|] eqn:El.
  - apply H_match. exact H.
  - wstep. wstep. destruct (s_unassigned s) as [|x q]; [wsteps; exact H|]. wsteps; [|eauto with hu].
    apply H_match. eauto with hu.
Qed.
Lemma H_wm_done r : keepsH (wm_done r).
Proof. intros s H. unfold wm_done. wsteps; eauto with hu. apply H_done. eauto with hu. Qed.
Lemma H_take_back ids : keepsH (wm_take_back ids).
Proof.
  induction ids as [|x ids IH]; intros s H; cbn [wm_take_back]; wsteps; eauto with hu.
Qed.
Lemma H_balance_response ids : keepsH (wm_balance_response ids).
Proof.
  intros s H. unfold wm_balance_response. wstep. wuse H_take_back as s1 H1; [exact H|].
  apply (wp_foreach _ (λ _ s', hung s')); [exact H1|]. intros x l s2 H2. apply H_reroute. exact H2.
Qed.
Lemma H_heartbeat w h : keepsH (wm_heartbeat w h).
Proof. intros s H. unfold wm_heartbeat. wsteps; eauto 8 with hu. Qed.
Lemma H_drop w : keepsH (wm_drop w).
Proof.
  intros s H. unfold wm_drop. wsteps; eauto with hu.
  apply (wp_mono _ (λ _ s', hung s') _ crashH); [|intros u s1 H1; wsteps; exact H1|auto].
  apply (wp_foreach _ (λ _ s', hung s')); [eauto 8 with hu|]. intros x l s2 H2. apply H_reroute. exact H2.
Qed.
Lemma H_disconnect src w : keepsH (wm_disconnect src w).
Proof. intros s H. unfold wm_disconnect. wstep. wuse H_drop as s1 H1; [exact H|]. wsteps; eauto with hu. Qed.
Lemma H_balance : keepsH wm_balance.
Proof.
  intros s H. unfold wm_balance. wsteps; eauto with hu.
  apply (wp_foreach _ (λ _ s', hung s')); [eauto with hu|]. intros p l s2 H2. wsteps. eauto with hu.
Qed.
Lemma H_wm_clean : keepsH wm_clean.
Proof.
  intros s H. unfold wm_clean. wsteps.
  apply (wp_foreach _ (λ _ s', hung s')); [eauto with hu|]. intros p l s2 H2. wstep. wuse H_drop as s3 H3; [exact H2|]. wsteps. exact H3.
Qed.
Lemma H_wm_routine : keepsH wm_routine.
Proof. intros s H. unfold wm_routine. wstep. wuse H_balance as s1 H1; [exact H|]. apply H_wm_clean. exact H1. Qed.

(** A round that does not use the ids again. *)
Definition elsewhere (e : event) : Prop :=
  match e with
  | ERecv _ (MTask k) => task_id k ≠ t
  | ERecv _ (MGraphTask g' _ _ ns) => g' ≠ g ∧ ∀ n, n ∈ ns → task_id n ≠ t
  | _ => True
  end.
Lemma H_handle e : elsewhere e → keepsH (handle e).
Proof.
  intros He s H. destruct e as [src m| | | | |]; cbn [handle].
  - destruct m; cbn [on_receive]; cbn in He; try (wsteps; exact H).
    + apply H_tm_new; [exact He|exact H].
    + apply H_cancel_any. exact H.
    + apply H_wm_done. exact H.
    + wsteps. destruct H as [A1 A2 A3 A4 A5]; split; auto; ss. intros c gt.
      rewrite elem_of_app, elem_of_list_singleton. intros [Hx|[= -> ->]]; eauto.
    + wstep. wuse (H_clean tm_cancel_any id H_cancel_any) as s1 H1; [exact H|]. wsteps. exact H1.
    + apply H_balance_response, H.
    + apply H_heartbeat, H.
    + apply H_on_function, H.
    + apply H_disconnect, H.
  - apply H_gm_routine, H.
  - apply H_tm_routine, H.
  - apply H_fm_routine, H.
  - apply H_wm_routine, H.
  - apply H_status, H.
Qed.
Lemma hung_step s r : elsewhere (rd_event r) → (s_dead s = None → hung s) → no_answer s →
  no_answer (step s r) ∧ (s_dead (step s r) = None → hung (step s r)).
Proof.
  intros He H Ha. destruct (s_dead s) eqn:Ed; [rewrite (step_dead _ _ _ Ed); split; [exact Ha|congruence]|]. specialize (H eq_refl).
  apply (step_wp s r (λ s', no_answer s' ∧ (s_dead s' = None → hung s'))); [exact Ed|].
  eapply wp_mono; [apply (H_handle _ He)| |]; cbv beta.
  - apply H_emit; [reflexivity|]. apply H_now, H_codes, H.
  - intros u s' H'. split; [apply H'|auto].
  - intros e s' H'. split; [|ss; discriminate]. unfold no_answer in *. ss. rewrite no_answer_app; [exact H'|]. repeat constructor.
Qed.
Lemma hung_run s rs : Forall (λ r, elsewhere (rd_event r)) rs → hung s → no_answer (run_from s rs).
Proof.
  intros Hrs H. assert (∀ s, (s_dead s = None → hung s) → no_answer s → no_answer (run_from s rs)) as Hgo; [|apply Hgo; [auto|apply H]].
  clear s H. induction Hrs as [|r rs He _ IH]; intros s H Ha; [exact Ha|]. cbn. destruct (hung_step s r He H Ha) as [H1 H2]. apply IH; assumption.
Qed.
End hung.
