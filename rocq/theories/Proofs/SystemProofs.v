(** The whole system: every message was sent, and every value was computed. *)

From Verif.Model Require Import Base Message Client Worker Processor Scheduler System.
From Verif.Spec Require Import SchedulerSpec SystemSpec.
From Verif.Proofs Require Import HistoryProofs SchedWp SchedCount SchedContent SchedStep SchedTalk SystemParts.

(** ** Causality *)

Definition was_sent (y : system) (from : bytes) (m : message) : Prop :=
  (∃ x, y_clients y !! from = Some x ∧ COut m ∈ x.2) ∨ (∃ x, y_workers y !! from = Some x ∧ WOut m ∈ n_history x).
Lemma sent_by_spec y from m : sent_by y from m = true → was_sent y from m.
Proof.
  unfold sent_by, was_sent. intros [H|H]%orb_prop.
  - destruct (y_clients y !! from) as [x|]; [|discriminate]. apply bool_decide_eq_true in H. eauto.
  - destruct (y_workers y !! from) as [x|]; [|discriminate]. apply bool_decide_eq_true in H. eauto.
Qed.
Notation the_log y := (s_log (y_sched y)).

Record cok (y : system) (c : bytes) (x : client * list kentry) : Prop := {
  co_inv : cinv x.1 x.2;
  co_in m b : CIn (KRecv m b) ∈ x.2 → LSend c m ∈ the_log y }.
Record wok (y : system) (w : bytes) (x : worker) : Prop := {
  wo_agent : winv (n_agent x) (n_history x);
  wo_processor : pinv (n_processor x) (n_calls x);
  wo_got m : got (n_history x) m → LSend w m ∈ the_log y;
  wo_inside m : got_inside (n_history x) m → POut m ∈ n_calls x;
  wo_hand m : PIn m ∈ n_calls x → WHand m ∈ n_history x }.
Record ok (cfg : config) (y : system) : Prop := {
  ok_run : ∃ rs, y_sched y = run cfg rs;
  ok_sent from m : received from m (the_log y) → was_sent y from m;
  ok_apart i x x' : y_clients y !! i = Some x → y_workers y !! i = Some x' → False;
  ok_client c x : y_clients y !! c = Some x → cok y c x;
  ok_worker w x : y_workers y !! w = Some x → wok y w x }.

(** [y'] is a later state than [y]. *)
Record later (y y' : system) : Prop := {
  lt_log e : e ∈ the_log y → e ∈ the_log y';
  lt_client c x : y_clients y !! c = Some x → ∃ x', y_clients y' !! c = Some x' ∧ ∀ e, e ∈ x.2 → e ∈ x'.2;
  lt_worker w x : y_workers y !! w = Some x →
    ∃ x', y_workers y' !! w = Some x' ∧ (∀ e, e ∈ n_history x → e ∈ n_history x') ∧ (∀ e, e ∈ n_calls x → e ∈ n_calls x') }.
Lemma later_refl y : later y y.
Proof. split; eauto 10. Qed.
Lemma was_sent_later y y' from m : later y y' → was_sent y from m → was_sent y' from m.
Proof.
  intros Hl [(x & Hx & H)|(x & Hx & H)].
  - destruct (lt_client _ _ Hl _ _ Hx) as (x' & Hx' & Hs). left. eauto.
  - destruct (lt_worker _ _ Hl _ _ Hx) as (x' & Hx' & Hs & _). right. eauto.
Qed.
Lemma cok_later y y' c x : later y y' → cok y c x → cok y' c x.
Proof. intros Hl []. split; auto. intros m b H. eapply lt_log; eauto. Qed.
Lemma wok_later y y' w x : later y y' → wok y w x → wok y' w x.
Proof. intros Hl []. split; auto. intros m H. eapply lt_log; eauto. Qed.

Lemma later_client y c x x' : y_clients y !! c = Some x → (∀ e, e ∈ x.2 → e ∈ x'.2) → later y (set_client c x' y).
Proof.
  intros Hx Hs. split; cbn; eauto 10. intros c' z Hz. destruct (decide (c' = c)) as [->|Hne].
  - rewrite lookup_insert. exists x'. split; [reflexivity|]. assert (z = x) as -> by congruence. exact Hs.
  - rewrite lookup_insert_ne by done. eauto.
Qed.
Lemma later_new_client y c x' : y_clients y !! c = None → later y (set_client c x' y).
Proof.
  intros Hx. split; cbn; eauto 10. intros c' z Hz. destruct (decide (c' = c)) as [->|Hne]; [congruence|].
  rewrite lookup_insert_ne by done. eauto.
Qed.
Lemma later_worker y w x x' : y_workers y !! w = Some x → (∀ e, e ∈ n_history x → e ∈ n_history x') → (∀ e, e ∈ n_calls x → e ∈ n_calls x') →
  later y (set_worker w x' y).
Proof.
  intros Hx H1 H2. split; cbn; eauto 10. intros c' z Hz. destruct (decide (c' = w)) as [->|Hne].
  - rewrite lookup_insert. exists x'. split; [reflexivity|]. assert (z = x) as -> by congruence. auto.
  - rewrite lookup_insert_ne by done. eauto.
Qed.
Lemma later_new_worker y w x' : y_workers y !! w = None → later y (set_worker w x' y).
Proof.
  intros Hx. split; cbn; eauto 10. intros c' z Hz. destruct (decide (c' = w)) as [->|Hne]; [congruence|].
  rewrite lookup_insert_ne by done. eauto 10.
Qed.
Lemma later_sched y s : (∀ e, e ∈ the_log y → e ∈ s_log s) → later y (set_sched s y).
Proof. intros H. split; cbn; eauto 10. Qed.

Lemma ok_set_client cfg y c x : ok cfg y → later y (set_client c x y) → y_workers y !! c = None → cok (set_client c x y) c x → ok cfg (set_client c x y).
Proof.
  intros Hok Hl Hw Hx. split; cbn.
  - exact (ok_run _ _ Hok).
  - intros from m H. eapply was_sent_later; [exact Hl|]. apply (ok_sent _ _ Hok). exact H.
  - intros i z z'. rewrite lookup_insert_Some. intros [[<- <-]|[_ H]] H'; [congruence|]. eapply ok_apart; eauto.
  - intros c' z. rewrite lookup_insert_Some. intros [[<- <-]|[_ H]]; [exact Hx|]. eapply cok_later; [exact Hl|]. eapply ok_client; eauto.
  - intros w z H. eapply wok_later; [exact Hl|]. eapply ok_worker; eauto.
Qed.
Lemma ok_set_worker cfg y w x : ok cfg y → later y (set_worker w x y) → y_clients y !! w = None → wok (set_worker w x y) w x → ok cfg (set_worker w x y).
Proof.
  intros Hok Hl Hw Hx. split; cbn.
  - exact (ok_run _ _ Hok).
  - intros from m H. eapply was_sent_later; [exact Hl|]. apply (ok_sent _ _ Hok). exact H.
  - intros i z z' H. rewrite lookup_insert_Some. intros [[<- <-]|[_ H']]; [congruence|]. eapply ok_apart; eauto.
  - intros c z H. eapply cok_later; [exact Hl|]. eapply ok_client; eauto.
  - intros w' z. rewrite lookup_insert_Some. intros [[<- <-]|[_ H]]; [exact Hx|]. eapply wok_later; [exact Hl|]. eapply ok_worker; eauto.
Qed.
Lemma ok_unused cfg y i : ok cfg y → unused y i = true → y_clients y !! i = None ∧ y_workers y !! i = None.
Proof. intros _. unfold unused. destruct (y_clients y !! i), (y_workers y !! i); cbn; auto; discriminate. Qed.

Lemma client_step_ok cfg y c x e : ok cfg y → y_clients y !! c = Some x →
  match e with KRecv m _ => LSend c m ∈ the_log y | _ => True end →
  later y (set_client c (k_step x e) y) ∧ ok cfg (set_client c (k_step x e) y).
Proof.
  intros Hok Hx He. destruct (ok_client _ _ Hok _ _ Hx) as [H1 H2].
  destruct (k_step_new x e H1) as (l & El & Hl).
  assert (Hlt : later y (set_client c (k_step x e) y)) by (apply (later_client y c x); [exact Hx|]; rewrite El; set_solver).
  split; [exact Hlt|]. apply ok_set_client; [exact Hok|exact Hlt| |].
  - destruct (y_workers y !! c) eqn:Ew; [|reflexivity]. destruct (ok_apart _ _ Hok _ _ _ Hx Ew).
  - split; [destruct x; apply cinv_step; exact H1|]. intros m b. rewrite El. intros [H|[H|H]%elem_of_cons]%elem_of_app.
    + exact (H2 _ _ H).
    + injection H as <-. exact He.
    + destruct (Hl _ H).
Qed.
Lemma sched_step_ok cfg y r : ok cfg y → match rd_event r with ERecv from m => was_sent y from m | _ => True end →
  later y (set_sched (step (y_sched y) r) y) ∧ ok cfg (set_sched (step (y_sched y) r) y).
Proof.
  intros Hok Hr. pose proof (ok_run _ _ Hok) as [rs Hrs].
  assert (Hlog : ∀ e, e ∈ the_log y → e ∈ s_log (step (y_sched y) r)).
  { destruct (step_log (y_sched y) r) as (l & -> & _). set_solver. }
  assert (Hlt : later y (set_sched (step (y_sched y) r) y)) by (apply later_sched; exact Hlog).
  split; [exact Hlt|]. split; cbn.
  - exists (rs ++ [r]). rewrite run_snoc, Hrs. reflexivity.
  - intros from m [now H]. eapply was_sent_later; [exact Hlt|].
    destruct (s_dead (y_sched y)) eqn:Hd; [rewrite (step_dead _ _ _ Hd) in H; apply (ok_sent _ _ Hok); exists now; exact H|].
    destruct (round_path (λ _ _ _, True) (λ _, True) True True (y_sched y) r Hd (all_ok _ _)) as (s1 & Hp & Hs).
    assert (Hin : LIn now (ERecv from m) ∈ s_log s1) by (destruct Hs as [<-|[e E]]; [exact H|rewrite E in H; cbn in H; set_solver]).
    assert (Hin2 : LIn now (ERecv from m) ∈ the_log y ++ [LIn (rd_now r) (rd_event r)]).
    { clear -Hp Hin. remember (set_log _ _) as s0 eqn:E0.
      assert (E : the_log y ++ [LIn (rd_now r) (rd_event r)] = s_log s0) by (subst s0; reflexivity). rewrite E. clear E E0.
      induction Hp as [s|s2 s3 s4 H _ IH]; [exact Hin|]. specialize (IH Hin). destruct H; try exact IH.
      cbn in IH. apply elem_of_app in IH as [IH|IH%elem_of_list_singleton]; [exact IH|]. subst e. done. }
    apply elem_of_app in Hin2 as [Hin2|Hin2%elem_of_list_singleton]; [apply (ok_sent _ _ Hok); exists now; exact Hin2|].
    injection Hin2 as _ E. rewrite <- E in Hr. exact Hr.
  - exact (ok_apart _ _ Hok).
  - intros c x H. eapply cok_later; [exact Hlt|]. eapply ok_client; eauto.
  - intros w x H. eapply wok_later; [exact Hlt|]. eapply ok_worker; eauto.
Qed.
Lemma agent_step_ok cfg y w x now e : ok cfg y → y_workers y !! w = Some x →
  match e with WExt m => LSend w m ∈ the_log y | WProc m => POut m ∈ n_calls x | _ => True end →
  later y (set_worker w (agent_step now e x) y) ∧ ok cfg (set_worker w (agent_step now e x) y).
Proof.
  intros Hok Hx He. destruct (ok_worker _ _ Hok _ _ Hx) as [H1 H2 H3 H4 H5].
  set (x' := agent_step now e x).
  assert (H : winv (n_agent x') (n_history x') ∧ pinv (n_processor x') (n_calls x') ∧
     (∃ l, n_calls x' = n_calls x ++ l ∧ ∀ m, PIn m ∉ l) ∧
     (n_history x' = n_history x ∨ ∃ l, n_history x' = n_history x ++ WIn now e :: l ∧ ∀ n' e', WIn n' e' ∉ l)).
  { subst x'. unfold agent_step. pose proof (winv_step _ _ (WRound now e) H1) as Hw.
    pose proof (w_step_new (n_agent x) (n_history x) now e H1) as Hn.
    destruct (w_step (n_agent x, n_history x) (WRound now e)) as [a h] eqn:Es. cbn in Hw.
    assert (Hh : h = n_history x ∨ ∃ l, h = n_history x ++ WIn now e :: l ∧ ∀ n' e', WIn n' e' ∉ l).
    { destruct Hn as [[= -> ->]|(a' & l & [= -> ->] & Hl)]; eauto. }
    case_bool_decide; cbn; (split; [exact Hw|]); (split; [|split; [|exact Hh]]).
    - apply (pinv_init (n_retention x) (n_calls x)). exact (pi_out _ _ H2).
    - eexists. split; [reflexivity|]. set_solver.
    - exact H2.
    - exists []. rewrite app_nil_r. split; [reflexivity|set_solver]. }
  destruct H as (Hw & Hp & (lc & Elc & Hlc) & Hh).
  assert (Hs : ∀ z, z ∈ n_history x → z ∈ n_history x') by (destruct Hh as [->|(l & -> & _)]; set_solver).
  assert (Hin : ∀ n' e', WIn n' e' ∈ n_history x' → WIn n' e' ∈ n_history x ∨ e' = e).
  { intros n' e'. destruct Hh as [->|(l & -> & Hl)]; [auto|]. intros [H|[H|H]%elem_of_cons]%elem_of_app; [auto|injection H; auto|destruct (Hl _ _ H)]. }
  assert (Hlt : later y (set_worker w x' y)) by (apply (later_worker y w x); [exact Hx|exact Hs|]; rewrite Elc; set_solver).
  split; [exact Hlt|]. apply ok_set_worker; [exact Hok|exact Hlt| |].
  - destruct (y_clients y !! w) eqn:Ew; [|reflexivity]. destruct (ok_apart _ _ Hok _ _ _ Ew Hx).
  - split; [exact Hw|exact Hp|..]; cbn.
    + intros m [n' H]. apply Hin in H as [H|<-]; [apply H3; exists n'; exact H|exact He].
    + intros m [n' H]. rewrite Elc. apply elem_of_app. left. apply Hin in H as [H|<-]; [apply H4; exists n'; exact H|exact He].
    + intros m H. apply Hs, H5. rewrite Elc in H. apply elem_of_app in H as [H|H]; [exact H|destruct (Hlc _ H)].
Qed.
Lemma processor_step_ok cfg y w x now e : ok cfg y → y_workers y !! w = Some x →
  match e with PMsg m _ => WHand m ∈ n_history x | _ => True end →
  later y (set_worker w (processor_step now e x) y) ∧ ok cfg (set_worker w (processor_step now e x) y).
Proof.
  intros Hok Hx He. destruct (ok_worker _ _ Hok _ _ Hx) as [H1 H2 H3 H4 H5].
  set (x' := processor_step now e x).
  assert (H : n_agent x' = n_agent x ∧ n_history x' = n_history x ∧ pinv (n_processor x') (n_calls x') ∧
     ∃ l, n_calls x' = n_calls x ++ l ∧ ∀ m, PIn m ∈ l → ∃ loads, e = PMsg m loads).
  { subst x'. unfold processor_step. pose proof (pinv_step _ _ (PRound now e) H2) as Hp.
    destruct (p_step_new (n_processor x) (n_calls x) now e) as (p' & l & E & Hl). rewrite E in *. cbn in *. eauto 10. }
  destruct H as (Ea & Eh & Hp & l & El & Hl).
  assert (Hlt : later y (set_worker w x' y)) by (apply (later_worker y w x); [exact Hx|rewrite Eh; auto|rewrite El; set_solver]).
  split; [exact Hlt|]. apply ok_set_worker; [exact Hok|exact Hlt| |].
  - destruct (y_clients y !! w) eqn:Ew; [|reflexivity]. destruct (ok_apart _ _ Hok _ _ _ Ew Hx).
  - split; rewrite ?Ea, ?Eh; cbn; auto.
    + intros m H. rewrite El. apply elem_of_app. auto.
    + intros m. rewrite El. intros [H|H]%elem_of_app; [auto|]. destruct (Hl _ H) as [b ->]. exact He.
Qed.
Lemma act_ok cfg y a : ok cfg y → later y (act y a) ∧ ok cfg (act y a).
Proof.
  intros Hok. assert (H0 : later y y ∧ ok cfg y) by (split; [apply later_refl|exact Hok]).
  destruct a as [c|w death now retention|c e|c m loads|now codes e|from m now codes|w now e|w m now|w m now|w now e|w m loads now]; cbn [act].
  - destruct (unused y c) eqn:Eu; [|exact H0]. destruct (ok_unused _ _ _ Hok Eu) as [E1 E2].
    assert (Hlt : later y (set_client c (k_init, []) y)) by (apply later_new_client; exact E1).
    split; [exact Hlt|]. apply ok_set_client; auto. split; [apply cinv_init|]. cbn. set_solver.
  - destruct (unused y w) eqn:Eu; [|exact H0]. destruct (ok_unused _ _ _ Hok Eu) as [E1 E2]. cbn.
    set (x := Node _ _ _ _ _). assert (Hlt : later y (set_worker w x y)) by (apply later_new_worker; exact E2).
    split; [exact Hlt|]. apply ok_set_worker; auto. split.
    + apply (winv_init w death now).
    + apply (pinv_init retention []). set_solver.
    + intros m [n H]. cbn in H. set_solver.
    + intros m [n H]. cbn in H. set_solver.
    + intros m H. cbn in H. set_solver.
  - destruct (y_clients y !! c) as [x|] eqn:Ex; [|exact H0].
    destruct e; try exact H0; apply client_step_ok; auto.
  - destruct (y_clients y !! c) as [x|] eqn:Ex; [|exact H0]. case_bool_decide; [|exact H0]. apply client_step_ok; auto.
  - destruct e; try exact H0; (apply sched_step_ok; [exact Hok|exact I]).
  - destruct (sent_by y from m) eqn:Es; [|exact H0]. apply sched_step_ok; [exact Hok|]. apply sent_by_spec, Es.
  - destruct (y_workers y !! w) as [x|] eqn:Ex; [|exact H0]. destruct e; try exact H0; apply agent_step_ok; auto.
  - destruct (y_workers y !! w) as [x|] eqn:Ex; [|exact H0]. case_bool_decide; [|exact H0]. apply agent_step_ok; auto.
  - destruct (y_workers y !! w) as [x|] eqn:Ex; [|exact H0]. case_bool_decide; [|exact H0]. apply agent_step_ok; auto.
  - destruct (y_workers y !! w) as [x|] eqn:Ex; [|exact H0]. destruct e; try exact H0; apply processor_step_ok; auto.
  - destruct (y_workers y !! w) as [x|] eqn:Ex; [|exact H0]. case_bool_decide; [|exact H0]. apply processor_step_ok; auto.
Qed.
Lemma boot_ok cfg : ok cfg (boot cfg).
Proof.
  split; cbn; try (intros *; rewrite lookup_empty; discriminate).
  - exists []. reflexivity.
  - intros from m [now H]. by apply elem_of_nil in H.
Qed.
Lemma execute_snoc cfg acts a : execute cfg (acts ++ [a]) = act (execute cfg acts) a.
Proof. unfold execute. rewrite foldl_app. reflexivity. Qed.
Lemma execute_ok cfg acts : ok cfg (execute cfg acts).
Proof.
  induction acts as [|a acts IH] using rev_ind; [apply boot_ok|]. rewrite execute_snoc. apply act_ok, IH.
Qed.

(** ** Values are computed *)

Lemma history_later y y' c e : later y y' → e ∈ history_of y c → e ∈ history_of y' c.
Proof.
  intros Hl. unfold history_of. destruct (y_clients y !! c) as [x|] eqn:Ex; [|intros H; by apply elem_of_nil in H].
  destruct (lt_client _ _ Hl _ _ Ex) as (x' & -> & Hs). auto.
Qed.
Lemma wanted_later y y' n : later y y' → wanted y n → wanted y' n.
Proof.
  intros Hl [(c & t & f & name & content & args & H & E)|(c & g & fs & ts & ns & [i H] & Hn)].
  - left. exists c, t, f, name, content, args. split; [eapply history_later; eauto|exact E].
  - right. exists c, g, fs, ts, ns. split; [exists i; eapply history_later; eauto|exact Hn].
Qed.
Lemma provides_later y y' f content : later y y' → provides y f content → provides y' f content.
Proof.
  intros Hl [(c & t & name & args & H)|(c & g & fs & ts & ns & name & [i H] & Hn)].
  - left. exists c, t, name, args. eapply history_later; eauto.
  - right. exists c, g, fs, ts, ns, name. split; [exists i; eapply history_later; eauto|exact Hn].
Qed.
Lemma ran_later y y' content args o : later y y' → ran y content args o → ran y' content args o.
Proof. intros Hl (w & x & Hx & H). destruct (lt_worker _ _ Hl _ _ Hx) as (x' & Hx' & _ & Hs). exists w, x'. auto. Qed.
Scheme computed_mut := Induction for computed Sort Prop with arguments_mut := Induction for arguments Sort Prop.
Lemma computed_later y y' t v : later y y' → computed y t v → computed y' t v.
Proof.
  intros Hl. apply (computed_mut y (λ t v _, computed y' t v) (λ args vs _, arguments y' args vs)).
  - intros n content vs v' Hw Hp _ Ha Hr. econstructor; eauto using wanted_later, provides_later, ran_later.
  - constructor.
  - intros. constructor. assumption.
  - intros. constructor; assumption.
Qed.
Lemma arguments_later y y' args vs : later y y' → arguments y args vs → arguments y' args vs.
Proof. intros Hl. induction 1; constructor; eauto using computed_later. Qed.
Lemma arguments_data_only y vs vs' : arguments y (ArgData <$> vs) vs' → vs' = vs.
Proof. revert vs'; induction vs as [|v vs IH]; intros vs'; inversion 1; subst; [reflexivity|]. f_equal. auto. Qed.
Lemma arguments_data_refl y vs : arguments y (ArgData <$> vs) vs.
Proof. induction vs; constructor; auto. Qed.

(** [k], as sent to a worker, is what a user asked for, with computed arguments. *)
Definition due (y : system) (k : task) : Prop :=
  ∃ n vs, wanted y n ∧ task_id k = task_id n ∧ task_function k = task_function n ∧
    task_args k = ArgData <$> vs ∧ arguments y (task_args n) vs.
Definition dues (y : system) : Prop := ∀ w k, LSend w (MTask k) ∈ the_log y → due y k.
Lemma due_later y y' k : later y y' → due y k → due y' k.
Proof. intros Hl (n & vs & H1 & E1 & E2 & E3 & H2). exists n, vs. eauto 10 using wanted_later, arguments_later. Qed.

(** Functions: only what users provided reaches processors. *)
Lemma from_worker cfg y w x m : ok cfg y → y_workers y !! w = Some x → received w m (the_log y) → WOut m ∈ n_history x.
Proof.
  intros Hok Hx H. destruct (ok_sent _ _ Hok _ _ H) as [(z & Hz & _)|(z & Hz & Hm)]; [destruct (ok_apart _ _ Hok _ _ _ Hz Hx)|]. congruence.
Qed.
Lemma sent_by_client cfg y c x m : ok cfg y → y_clients y !! c = Some x → COut m ∈ x.2 → client_out x.2 (COut m).
Proof. intros Hok Hx Hm. exact (ci_out _ _ (co_inv _ _ _ (ok_client _ _ Hok _ _ Hx)) _ Hm). Qed.
Lemma sent_by_worker cfg y w x m : ok cfg y → y_workers y !! w = Some x → WOut m ∈ n_history x → agent_out (n_history x) (WOut m).
Proof. intros Hok Hx Hm. exact (wi_out _ _ (wo_agent _ _ _ (ok_worker _ _ Hok _ _ Hx)) _ Hm). Qed.
Lemma history_at y c x e : y_clients y !! c = Some x → e ∈ x.2 → e ∈ history_of y c.
Proof. intros Hx He. unfold history_of. rewrite Hx. exact He. Qed.
Lemma graph_asked cfg y c g fs ts ns : ok cfg y → received c (MGraphTask g fs ts ns) (the_log y) → asks y c g fs ts ns.
Proof.
  intros Hok H. destruct (ok_sent _ _ Hok _ _ H) as [(x & Hx & Hm)|(x & Hx & Hm)].
  - destruct (sent_by_client _ _ _ _ _ Hok Hx Hm) as [n Hn]. exists n. eapply history_at; eauto.
  - destruct (sent_by_worker _ _ _ _ _ Hok Hx Hm).
Qed.
Lemma task_asked cfg y c k : ok cfg y → received c (MTask k) (the_log y) →
  ∃ t f name content args, submits y c t f name content args ∧ k = Task t f (ArgData <$> args).
Proof.
  intros Hok H. destruct (ok_sent _ _ Hok _ _ H) as [(x & Hx & Hm)|(x & Hx & Hm)].
  - destruct (sent_by_client _ _ _ _ _ Hok Hx Hm) as (t & f & name & content & args & Hi & E).
    exists t, f, name, content, args. split; [eapply history_at; eauto|exact E].
  - destruct (sent_by_worker _ _ _ _ _ Hok Hx Hm).
Qed.
Lemma function_provided cfg y w x f content : ok cfg y → y_workers y !! w = Some x → pc_function_in (n_calls x) f content → provides y f content.
Proof.
  intros Hok Hx (st & name & H). pose proof (ok_worker _ _ Hok _ _ Hx) as Hw.
  apply (wo_hand _ _ _ Hw) in H. apply (wi_out _ _ (wo_agent _ _ _ Hw)) in H as [Hst H]. apply (wo_got _ _ _ Hw) in H.
  destruct (ok_run _ _ Hok) as [rs Hrs]. rewrite Hrs in H. apply function_told_lemma in H. rewrite <- Hrs in H.
  destruct H as [?|[H|[(ty & f' & n' & c' & Hty & H)|(g & fs & ts & ns & H)]]]; [done|..].
  - destruct H as [[c H]|(c & g & fs & ts & ns & H & Hin)].
    + left. destruct (ok_sent _ _ Hok _ _ H) as [(z & Hz & Hm)|(z & Hz & Hm)].
      * destruct (sent_by_client _ _ _ _ _ Hok Hz Hm) as (_ & t & args & Hi). exists c, t, name, args. eapply history_at; eauto.
      * discriminate (sent_by_worker _ _ _ _ _ Hok Hz Hm).
    + right. exists c, g, fs, ts, ns, name. split; [eapply graph_asked; eauto|exact Hin].
  - apply (from_worker _ _ _ _ _ Hok Hx) in H. destruct Hty. exact (sent_by_worker _ _ _ _ _ Hok Hx H).
  - apply (from_worker _ _ _ _ _ Hok Hx) in H. destruct (sent_by_worker _ _ _ _ _ Hok Hx H).
Qed.
Lemma task_due cfg y w x k : ok cfg y → dues y → y_workers y !! w = Some x → pc_task_in (n_calls x) k → due y k.
Proof.
  intros Hok Hd Hx H. pose proof (ok_worker _ _ Hok _ _ Hx) as Hw.
  apply (wo_hand _ _ _ Hw) in H. apply (wi_out _ _ (wo_agent _ _ _ Hw)) in H. apply (wo_got _ _ _ Hw) in H. eapply Hd, H.
Qed.
Lemma arg_data_all (vs : list bytes) : arg_data <$> (ArgData <$> vs) = vs.
Proof. induction vs; cbn; f_equal; auto. Qed.
(** A processor's results. *)
Lemma processor_computed cfg y w x t d p : ok cfg y → dues y → y_workers y !! w = Some x →
  POut (MTaskResult t Success d p) ∈ n_calls x → t ≠ "" → computed y t p.
Proof.
  intros Hok Hd Hx H Ht. pose proof (ok_worker _ _ Hok _ _ Hx) as Hw.
  apply (pi_out _ _ (wo_processor _ _ _ Hw)) in H as [(? & _)|(k & Hk & -> & [(_ & content & Hf & Hc)|?])]; [done| |discriminate].
  destruct (task_due _ _ _ _ _ Hok Hd Hx Hk) as (n & vs & H1 & E1 & E2 & E3 & H2). rewrite E1.
  apply (computed_run y n content vs); [exact H1| |exact H2|].
  - rewrite <- E2. eapply function_provided; eauto.
  - exists w, x. split; [exact Hx|]. rewrite E3, arg_data_all in Hc. exact Hc.
Qed.
Lemma worker_computed cfg y w x t d p : ok cfg y → (∀ n, wanted y n → task_id n ≠ "") → dues y → y_workers y !! w = Some x →
  WOut (MTaskResult t Success d p) ∈ n_history x → computed y t p.
Proof.
  intros Hok Hne Hd Hx H. pose proof (ok_worker _ _ Hok _ _ Hx) as Hw.
  apply (wi_out _ _ (wo_agent _ _ _ Hw)) in H as [[?|?]|(H & k & Hk & E)]; try discriminate.
  apply (wo_inside _ _ _ Hw) in H. eapply processor_computed; eauto.
  apply (wo_got _ _ _ Hw) in Hk. destruct (Hd _ _ Hk) as (n & vs & H1 & E1 & _). rewrite <- E, E1. auto.
Qed.
Lemma success_computed cfg y t r : ok cfg y → (∀ n, wanted y n → task_id n ≠ "") → dues y → success (the_log y) t r → computed y t r.
Proof.
  intros Hok Hne Hd (src & d & H). destruct (ok_sent _ _ Hok _ _ H) as [(x & Hx & Hm)|(x & Hx & Hm)].
  - destruct (sent_by_client _ _ _ _ _ Hok Hx Hm).
  - eapply worker_computed; eauto.
Qed.

(** Tasks sent after a step of the scheduler rest on what was there before. *)
Lemma dues_sched cfg y r : ok cfg y → (∀ n, wanted y n → task_id n ≠ "") → dues y → match rd_event r with ERecv from m => was_sent y from m | _ => True end →
  dues (set_sched (step (y_sched y) r) y).
Proof.
  intros Hok Hne Hd Hr w k Hk. destruct (sched_step_ok _ _ _ Hok Hr) as [Hlt Hok'].
  set (y' := set_sched _ y) in *. 
  destruct (ok_run _ _ Hok') as [rs Hrs]. destruct (Inv3_run cfg rs) as [Hrel _]. unfold relays in Hrel. rewrite <- Hrs in Hrel.
  apply elem_of_list_split in Hk as (before & after & El).
  pose proof (Hrel before _ after El) as (c & Hs & _).
  assert (Hin : ∀ from m, received from m before → received from m (the_log y')).
  { intros from m [now H]. exists now. rewrite El. set_solver. }
  destruct Hs as [H|(g & fs & ts & ns & n & H & Hn & E1 & E2 & E3 & _)].
  - apply Hin in H. destruct (task_asked _ _ _ _ Hok' H) as (t & f & name & content & args & Hsub & ->).
    exists (Task t f (ArgData <$> args)), args. split; [left; exists c, t, f, name, content, args; auto|].
    do 3 (split; [reflexivity|]). apply arguments_data_refl.
  - apply Hin in H. pose proof (graph_asked _ _ _ _ _ _ _ Hok' H) as Ha.
    assert (Hargs : ∃ vs, task_args k = ArgData <$> vs ∧ arguments y' (task_args n) vs).
    { clear -E3 Hin Hok Hok' Hne Hd Hlt Hr. induction E3 as [|a' a l' l Ha Hl (vs & -> & IH)]; [exists []; split; [reflexivity|constructor]|].
      destruct a as [z|x]; cbn in Ha.
      - subst a'. exists (z :: vs). split; [reflexivity|]. constructor. exact IH.
      - destruct Ha as (v & -> & src & d & Hs). exists (v :: vs). split; [reflexivity|]. constructor; [|exact IH].
        apply Hin in Hs. destruct (ok_sent _ _ Hok' _ _ Hs) as [(z & Hz & Hm)|(z & Hz & Hm)].
        + destruct (sent_by_client _ _ _ _ _ Hok' Hz Hm).
        + eapply computed_later; [exact Hlt|]. eapply worker_computed; eauto. }
    destruct Hargs as (vs & Ev & Hv). exists n, vs. split; [right; exists c, g, fs, ts, ns; auto|]. auto.
Qed.
Lemma dues_same y y' : later y y' → y_sched y' = y_sched y → dues y → dues y'.
Proof. intros Hl E Hd w k Hk. rewrite E in Hk. eapply due_later; eauto. Qed.
Lemma execute_dues cfg acts : (∀ n, wanted (execute cfg acts) n → task_id n ≠ "") → dues (execute cfg acts).
Proof.
  induction acts as [|a acts IH] using rev_ind; intros Hne; [intros w k Hk; by apply elem_of_nil in Hk|].
  rewrite execute_snoc in *. set (y := execute cfg acts) in *. pose proof (execute_ok cfg acts) as Hok. fold y in Hok.
  destruct (act_ok cfg y a Hok) as [Hlt _].
  assert (Hne' : ∀ n, wanted y n → task_id n ≠ "") by (intros n Hn; eapply Hne, wanted_later; eauto).
  specialize (IH Hne').
  assert (Hcase : y_sched (act y a) = y_sched y ∨ ∃ r, act y a = set_sched (step (y_sched y) r) y ∧ match rd_event r with ERecv from m => was_sent y from m | _ => True end).
  { destruct a as [c|w death now retention|c e|c m loads|now codes e|from m now codes|w now e|w m now|w m now|w now e|w m loads now]; cbn [act].
    - left. destruct (unused y c); reflexivity.
    - left. destruct (unused y w); reflexivity.
    - left. destruct (y_clients y !! c); [destruct e|]; reflexivity.
    - left. destruct (y_clients y !! c); [case_bool_decide|]; reflexivity.
    - destruct e; try (right; eexists; split; [reflexivity|exact I]). left; reflexivity.
    - destruct (sent_by y from m) eqn:Es; [|left; reflexivity]. right. eexists. split; [reflexivity|]. apply sent_by_spec, Es.
    - left. destruct (y_workers y !! w); [destruct e|]; reflexivity.
    - left. destruct (y_workers y !! w); [case_bool_decide|]; reflexivity.
    - left. destruct (y_workers y !! w); [case_bool_decide|]; reflexivity.
    - left. destruct (y_workers y !! w); [destruct e|]; reflexivity.
    - left. destruct (y_workers y !! w); [case_bool_decide|]; reflexivity. }
  destruct Hcase as [E|(r & -> & Hr)].
  - eapply dues_same; eauto.
  - eapply dues_sched; eauto.
Qed.

(** ** What users see *)

Section users.
Context (cfg : config) (acts : list action).
Notation y := (execute cfg acts).
Context (Hne : ∀ n, wanted y n → task_id n ≠ "").

Lemma client_at c e : e ∈ history_of y c → ∃ x, y_clients y !! c = Some x ∧ e ∈ x.2.
Proof. unfold history_of. destruct (y_clients y !! c) as [x|]; [eauto|]. intros H. by apply elem_of_nil in H. Qed.
Lemma sent_to_client c m x b : y_clients y !! c = Some x → CIn (KRecv m b) ∈ x.2 → LSend c m ∈ the_log y.
Proof. intros Hx. apply (co_in _ _ _ (ok_client _ _ (execute_ok cfg acts) _ _ Hx)). Qed.
Lemma relayed c m : LSend c m ∈ the_log y → ∃ before after, the_log y = before ++ LSend c m :: after ∧ relayed_ok before (LSend c m).
Proof.
  intros H. destruct (ok_run _ _ (execute_ok cfg acts)) as [rs Hrs]. destruct (Inv3_run cfg rs) as [Hrel _]. unfold relays in Hrel. rewrite <- Hrs in Hrel.
  apply elem_of_list_split in H as (before & after & El). exists before, after. split; [exact El|]. exact (Hrel before _ after El).
Qed.
(** A result relayed to a client comes from a worker. *)
Lemma relayed_result c t st d p : LSend c (MTaskResult t st d p) ∈ the_log y → st = Success ∨ st = Failed →
  ∃ w, received w (MTaskResult t st d p) (the_log y).
Proof.
  clear Hne.
  intros H Hst. destruct (relayed _ _ H) as (before & after & El & Hr). cbn in Hr. destruct Hr as [(w & Hl)|[E _]].
  - apply last_input_in in Hl as [now Hl]. exists w, now. rewrite El. set_solver.
  - cbn in E. injection E as E _ _. destruct Hst; congruence.
Qed.
Lemma submit_value c t p : CSet (FTask t) (Value p) ∈ history_of y c →
  ∃ f name content args, submits y c t f name content args ∧ computed y t p.
Proof.
  intros H. destruct (client_at _ _ H) as (x & Hx & Hin). pose proof (ok_client _ _ (execute_ok cfg acts) _ _ Hx) as Hc.
  destruct (ci_out _ _ (co_inv _ _ _ Hc) _ Hin) as [[d Hr] (k & (t' & f & name & content & args & Hs & Ek) & Et)].
  exists f, name, content, args. subst k. cbn in Et. subst t'. split; [eapply history_at; eauto|].
  apply (co_in _ _ _ Hc) in Hr. destruct (relayed_result _ _ _ _ _ Hr ltac:(auto)) as [w Hw].
  eapply success_computed; [apply execute_ok|exact Hne|apply execute_dues, Hne|]. exists w, d. exact Hw.
Qed.
Lemma graph_value c g i p : CSet (FGraph g i) (Value p) ∈ history_of y c →
  ∃ fs ts ns t, asks y c g fs ts ns ∧ ts !! i = Some t ∧ computed y t p.
Proof.
  intros H. destruct (client_at _ _ H) as (x & Hx & Hin). pose proof (ok_client _ _ (execute_ok cfg acts) _ _ Hx) as Hc.
  destruct (ci_out _ _ (co_inv _ _ _ Hc) _ Hin) as (ps & Hr & Hi).
  apply (co_in _ _ _ Hc) in Hr. destruct (relayed _ _ Hr) as (before & after & El & fs & ts & ns & Hg & Hs).
  destruct (Forall2_lookup_r _ _ _ _ _ Hs Hi) as (t & Ht & (w & d & Hsu)).
  exists fs, ts, ns, t. split; [|split; [exact Ht|]].
  - eapply graph_asked; [apply execute_ok|]. rewrite El. apply received_app. exact Hg.
  - eapply success_computed; [apply execute_ok|exact Hne|apply execute_dues, Hne|]. exists w, d. rewrite El. apply received_app. exact Hsu.
Qed.
(** An exception set on a future was reported by a worker's processor. *)
Lemma submit_error c t p : CSet (FTask t) (Error p) ∈ history_of y c →
  (∃ f name content args, submits y c t f name content args) ∧
  ∃ w x d, y_workers y !! w = Some x ∧ POut (MTaskResult t Failed d p) ∈ n_calls x.
Proof.
  clear Hne.
  intros H. destruct (client_at _ _ H) as (x & Hx & Hin). pose proof (ok_client _ _ (execute_ok cfg acts) _ _ Hx) as Hc.
  destruct (ci_out _ _ (co_inv _ _ _ Hc) _ Hin) as [[d Hr] (k & (t' & f & name & content & args & Hs & Ek) & Et)].
  split; [exists f, name, content, args; subst k; cbn in Et; subst t'; eapply history_at; eauto|].
  apply (co_in _ _ _ Hc) in Hr. destruct (relayed_result _ _ _ _ _ Hr (or_intror eq_refl)) as [w Hw].
  destruct (ok_sent _ _ (execute_ok cfg acts) _ _ Hw) as [(z & Hz & Hm)|(z & Hz & Hm)].
  - destruct (sent_by_client _ _ _ _ _ (execute_ok cfg acts) Hz Hm).
  - exists w, z, d. split; [exact Hz|]. destruct (sent_by_worker _ _ _ _ _ (execute_ok cfg acts) Hz Hm) as [[?|?]|[Hi _]]; try discriminate.
    apply (wo_inside _ _ _ (ok_worker _ _ (execute_ok cfg acts) _ _ Hz)). exact Hi.
Qed.
Lemma graph_error c g i p : CSet (FGraph g i) (Error p) ∈ history_of y c →
  ∃ fs ts ns n, asks y c g fs ts ns ∧ ∃ fs' ts' ns' c', asks y c' g fs' ts' ns' ∧ n ∈ ns' ∧
  ∃ w x d, y_workers y !! w = Some x ∧ POut (MTaskResult (task_id n) Failed d p) ∈ n_calls x.
Proof.
  clear Hne.
  intros H. destruct (client_at _ _ H) as (x & Hx & Hin). pose proof (ok_client _ _ (execute_ok cfg acts) _ _ Hx) as Hc.
  destruct (ci_out _ _ (co_inv _ _ _ Hc) _ Hin) as (ps & Hr).
  apply (co_in _ _ _ Hc) in Hr. destruct (relayed _ _ Hr) as (before & after & El & (fs & ts & ns & Hg) & t & d & p' & Ep & Hn & Hs).
  injection Ep as -> ->. destruct Hn as (c' & fs' & ts' & ns' & n & Hg' & Hn & <-).
  exists fs, ts, ns, n. split; [eapply graph_asked; [apply execute_ok|]; rewrite El; apply received_app; exact Hg|].
  exists fs', ts', ns', c'. split; [eapply graph_asked; [apply execute_ok|]; rewrite El; apply received_app; exact Hg'|]. split; [exact Hn|].
  destruct Hs as [(w & Hl)|[E _]]; [|discriminate].
  assert (Hw : received w (MTaskResult (task_id n) Failed d p') (the_log y)).
  { apply last_input_in in Hl as [now Hl]. exists now. rewrite El. set_solver. }
  destruct (ok_sent _ _ (execute_ok cfg acts) _ _ Hw) as [(z & Hz & Hm)|(z & Hz & Hm)].
  - destruct (sent_by_client _ _ _ _ _ (execute_ok cfg acts) Hz Hm).
  - exists w, z, d. split; [exact Hz|]. destruct (sent_by_worker _ _ _ _ _ (execute_ok cfg acts) Hz Hm) as [[?|?]|[Hi _]]; try discriminate.
    apply (wo_inside _ _ _ (ok_worker _ _ (execute_ok cfg acts) _ _ Hz)). exact Hi.
Qed.
(** Workers call only what users asked for. *)
Lemma called_wanted content args o : ran y content args o →
  ∃ n, wanted y n ∧ provides y (task_function n) content ∧ arguments y (task_args n) args.
Proof.
  intros (w & x & Hx & H). pose proof (execute_ok cfg acts) as Hok. pose proof (ok_worker _ _ Hok _ _ Hx) as Hw.
  destruct (pi_out _ _ (wo_processor _ _ _ Hw) _ H) as (k & Hk & Hf & ->).
  destruct (task_due _ _ _ _ _ Hok (execute_dues _ _ Hne) Hx Hk) as (n & vs & H1 & E1 & E2 & E3 & H2).
  exists n. split; [exact H1|]. split; [rewrite <- E2; eapply function_provided; eauto|]. rewrite E3, arg_data_all. exact H2.
Qed.
End users.

Lemma submit_computed y c t f name content args p : identified y → submits y c t f name content args → computed y t p → ran y content args (Returned p).
Proof.
  intros Hid Hs. inversion 1 as [n content' vs v Hw Hp Ha Hr Et Ev]; subst.
  assert (E : n = Task (task_id n) f (ArgData <$> args)).
  { apply (id_task _ Hid); [exact Hw| |reflexivity]. left. exists c, (task_id n), f, name, content, args. auto. }
  rewrite E in Hp, Ha. cbn in Hp, Ha. apply arguments_data_only in Ha as ->.
  rewrite (id_function _ Hid f content content'); [exact Hr| |exact Hp]. left. exists c, (task_id n), name, args. exact Hs.
Qed.

(** With functions that depend only on their arguments, values are determined. *)
Lemma computed_unique y (apply : bytes → list bytes → bytes) : identified y → (∀ content args v, ran y content args (Returned v) → v = apply content args) →
  ∀ t v, computed y t v → ∀ v', computed y t v' → v = v'.
Proof.
  intros Hid Hpure t v H. revert t v H.
  apply (computed_mut y (λ t v _, ∀ v', computed y t v' → v = v') (λ args vs _, ∀ vs', arguments y args vs' → vs = vs')).
  - intros n content vs v Hw Hp _ IH Hr v'. inversion 1 as [n' content' vs' v1 Hw' Hp' Ha' Hr' Et Ev]; subst.
    assert (n' = n) as -> by (apply (id_task _ Hid); auto).
    rewrite (id_function _ Hid _ _ _ Hp' Hp) in Hr'. rewrite <- (IH _ Ha') in Hr'.
    rewrite (Hpure _ _ _ Hr), (Hpure _ _ _ Hr'). reflexivity.
  - intros vs'. inversion 1. reflexivity.
  - intros d args vs _ IH vs'. inversion 1; subst. f_equal. auto.
  - intros x v args vs _ IH1 _ IH2 vs'. inversion 1; subst. f_equal; auto.
Qed.
