(** The worker's agent: invariants behind C46-C49, C52. *)

From Verif.Model Require Import Base Message Worker.
From Verif.Spec Require Import WorkerSpec.
From Verif.Proofs Require Import HistoryProofs.

Ltac aa := cbn [a_identity a_death a_tasks a_ids a_loop a_init a_task a_lock a_sent a_latency a_seen a_dead
                with_queue with_loop with_holder with_beat with_dead negb fst snd] in *.

Definition loop_tasks (l : task_loop) : list task := match l with LGet => [] | LLock k | LInit k => [k] end.

(** ** What holds in every state *)
Record ainv (a : agent) (h : list wentry) : Prop := {
  i_dead : a_dead a = None;
  i_dom t : is_Some (a_tasks a !! t) ↔ t ∈ a_ids a;
  i_nodup : NoDup (a_ids a);
  i_id t k : a_tasks a !! t = Some k → task_id k = t;
  i_task : a_task a = busy h;
  i_up : a_init a = up h;
  i_held k : a_task a = Some k → a_init a = true ∧ a_lock a = true ∧ ∀ k', a_loop a ≠ LInit k';
  i_loop k : a_loop a = LInit k → a_lock a = true ∧ a_task a = None;
  i_lock : a_lock a = true → is_Some (a_task a) ∨ ∃ k, a_loop a = LInit k }.

Lemma busy_input h now e l : busy (h ++ WIn now e :: l) =
  (foldl busy_step (busy h, match e with WProc _ => true | _ => false end) l).1.
Proof. unfold busy. rewrite foldl_app. cbn [foldl busy_step]. destruct e; reflexivity. Qed.
Lemma busy_snoc_input h now e : busy (h ++ [WIn now e]) = busy h.
Proof. apply busy_input. Qed.
Lemma up_app h l : up (h ++ l) = foldl up_step (up h) l. Proof. apply foldl_app. Qed.
Lemma waiting_app h l : waiting (h ++ l) = foldl waiting_step (waiting h) l. Proof. apply foldl_app. Qed.
Lemma last_event_snoc h now e : last_event (h ++ [WIn now e]) = Some e.
Proof. unfold last_event. rewrite foldl_app. reflexivity. Qed.
Lemma last_event_app h l : last_event (h ++ l) = foldl (λ o e, match e with WIn _ ev => Some ev | _ => o end) (last_event h) l.
Proof. apply foldl_app. Qed.

Lemma remove_first_elem x l y : NoDup l → y ∈ remove_first x l ↔ y ∈ l ∧ y ≠ x.
Proof.
  induction 1 as [|z l Hz Hl IH]; cbn; [set_solver|]. destruct (String.eqb x z) eqn:E.
  - apply String.eqb_eq in E as ->. set_solver.
  - apply String.eqb_neq in E. set_solver.
Qed.
Lemma remove_first_nodup x l : NoDup l → NoDup (remove_first x l).
Proof.
  induction 1 as [|z l Hz Hl IH]; cbn; [constructor|]. destruct (String.eqb x z); [exact Hl|].
  constructor; [|exact IH]. rewrite remove_first_elem by exact Hl. tauto.
Qed.
Lemma remove_first_filter x l : NoDup l → remove_first x l = filter (λ y, y ≠ x) l.
Proof.
  induction 1 as [|z l Hz Hl IH]; cbn [remove_first]; [reflexivity|]. destruct (String.eqb x z) eqn:E.
  - apply String.eqb_eq in E as ->. rewrite filter_cons_False by tauto. symmetry.
    clear IH Hl. induction l as [|y l IH]; [reflexivity|]. rewrite filter_cons_True by set_solver. f_equal. apply IH. set_solver.
  - apply String.eqb_neq in E. rewrite filter_cons_True by congruence. f_equal. exact IH.
Qed.

(** Taking the oldest [n] queued tasks. *)
Lemma take_ok n : ∀ a h, ainv a h → (n <= length (a_ids a))%nat →
  ∃ q, wt_take n a = (with_queue q (drop n (a_ids a)) a, take n (a_ids a), None) ∧
    (∀ t, q !! t = if bool_decide (t ∈ take n (a_ids a)) then None else a_tasks a !! t).
Proof.
  intros a h Ha. destruct Ha as [_ Hdom Hnd _ _ _ _ _ _]. revert a Hdom Hnd. induction n as [|n IH]; intros a Hdom Hnd Hn; cbn [wt_take].
  - exists (a_tasks a). split; [destruct a; reflexivity|]. intros t. reflexivity.
  - destruct (a_ids a) as [|t ids] eqn:E; [cbn in Hn; lia|]. apply NoDup_cons in Hnd as [Ht Hnd].
    destruct (proj2 (Hdom t) ltac:(left)) as [k Hk]. rewrite Hk.
    destruct (IH (with_queue (delete t (a_tasks a)) ids a)) as (q & Eq & Hq); aa.
    + intros x. rewrite lookup_delete_is_Some, Hdom. set_solver.
    + exact Hnd.
    + cbn in Hn. lia.
    + exists q. rewrite Eq. split; [destruct a; reflexivity|]. intros x. rewrite Hq.
      cbn [take]. destruct (decide (x = t)) as [->|Hne].
      * rewrite lookup_delete. rewrite (bool_decide_eq_true_2 (t ∈ t :: _)) by left. case_bool_decide; reflexivity.
      * rewrite lookup_delete_ne by congruence. erewrite bool_decide_ext; [reflexivity|]. set_solver.
Qed.
Lemma take_too_many n : ∀ a h, ainv a h → (length (a_ids a) < n)%nat → ∃ a' ts, wt_take n a = (a', ts, Some QueueEmpty).
Proof.
  intros a h Ha. destruct Ha as [_ Hdom Hnd _ _ _ _ _ _]. revert a Hdom Hnd. induction n as [|n IH]; intros a Hdom Hnd Hn; [lia|]. cbn [wt_take].
  destruct (a_ids a) as [|t ids] eqn:E; [eauto|]. apply NoDup_cons in Hnd as [Ht Hnd].
  destruct (proj2 (Hdom t) ltac:(left)) as [k Hk]. rewrite Hk.
  destruct (IH (with_queue (delete t (a_tasks a)) ids a)) as (a' & ts & Eq); aa.
  - intros x. rewrite lookup_delete_is_Some, Hdom. set_solver.
  - exact Hnd.
  - cbn in Hn. lia.
  - rewrite Eq. eauto.
Qed.

(** ** One step, described completely *)
Inductive did (now : Z) (a : agent) (h : list wentry) : wevent → agent → list wentry → option exn → Prop :=
| did_task k : task_id k ∉ a_ids a →
    did now a h (WExt (MTask k)) (with_queue (<[task_id k := k]> (a_tasks a)) (a_ids a ++ [task_id k]) a) [] None
| did_duplicate k : task_id k ∈ a_ids a →
    did now a h (WExt (MTask k)) (with_queue (<[task_id k := k]> (a_tasks a)) (a_ids a) a) [] (Some KeyError)
| did_cancel_queued t : t ∈ a_ids a →
    did now a h (WExt (MTaskCancel t)) (with_queue (delete t (a_tasks a)) (remove_first t (a_ids a)) a) [WOut (MTaskResult t Canceled 0 "")] None
| did_cancel_running k : task_id k ∉ a_ids a → a_init a = true → a_task a = Some k →
    did now a h (WExt (MTaskCancel (task_id k))) (with_holder false None false a) [WStart; WOut (MTaskResult (task_id k) Canceled 0 "")] None
| did_cancel_other t : t ∉ a_ids a → (a_init a = false ∨ ∃ k, a_task a = Some k ∧ task_id k ≠ t) →
    did now a h (WExt (MTaskCancel t)) a [WOut (MTaskResult t NotFound 0 "")] None
| did_cancel_crash t : t ∉ a_ids a → a_init a = true → a_task a = None →
    did now a h (WExt (MTaskCancel t)) a [] (Some AttributeError)
| did_balance n q : 0 <= n →
    (∀ t, q !! t = if bool_decide (t ∈ take (Z.to_nat n) (a_ids a)) then None else a_tasks a !! t) →
    did now a h (WExt (MBalanceRequest n)) (with_queue q (drop (Z.to_nat n) (a_ids a)) a) [WOut (MBalanceResponse (take (Z.to_nat n) (a_ids a)))] None
| did_balance_crash n a' : n < 0 → did now a h (WExt (MBalanceRequest n)) a' [] (Some QueueEmpty)
| did_delete f n c : did now a h (WExt (MFunctionRequest FnDelete f n c)) a [WHand (MFunctionRequest FnDelete f "" "")] None
| did_fr_crash ty f n c : ty ≠ FnDelete → did now a h (WExt (MFunctionRequest ty f n c)) a [] (Some TypeError)
| did_function k st n c : a_init a = true → a_task a = Some k → st ≠ FnNotExists →
    did now a h (WExt (MFunctionResponse st (task_function k) n c)) a [WHand (MFunctionResponse st (task_function k) n c)] None
| did_function_ignored st f n c : (a_init a = false ∨ ∃ k, a_task a = Some k ∧ (task_function k ≠ f ∨ st = FnNotExists)) →
    did now a h (WExt (MFunctionResponse st f n c)) a [] None
| did_function_crash st f n c : a_init a = true → a_task a = None →
    did now a h (WExt (MFunctionResponse st f n c)) a [] (Some AttributeError)
| did_echo : a_sent a ≠ 0 → did now a h (WExt MHeartbeatEcho) (with_beat 0 ((now - a_sent a) / 2 / 1000) now a) [] None
| did_echo_ignored : a_sent a = 0 → did now a h (WExt MHeartbeatEcho) a [] None
| did_unknown m : match m with MTask _ | MTaskCancel _ | MBalanceRequest _ | MFunctionRequest _ _ _ _ | MFunctionResponse _ _ _ _ | MHeartbeatEcho => False | _ => True end → did now a h (WExt m) a [] (Some TypeError)
| did_up st d p : a_init a = false → did now a h (WProc (MTaskResult "" st d p)) (with_holder true None (a_lock a) a) [] None
| did_result k st d p : a_init a = true → a_task a = Some k →
    did now a h (WProc (MTaskResult (task_id k) st d p)) (with_holder true None false a) [WOut (MTaskResult (task_id k) st d p)] None
| did_result_ignored t st d p : (a_init a = false → t ≠ "") → (a_init a = true → ∀ k, a_task a = Some k → task_id k ≠ t) →
    did now a h (WProc (MTaskResult t st d p)) a [] None
| did_request k n c : a_init a = true → a_task a = Some k →
    did now a h (WProc (MFunctionRequest FnRequest (task_function k) n c)) a [WOut (MFunctionRequest FnRequest (task_function k) n c)] None
| did_request_ignored ty f n c : (a_init a = true → ∀ k, a_task a = Some k → task_function k ≠ f) →
    did now a h (WProc (MFunctionRequest ty f n c)) a [] None
| did_request_crash ty f n c : ty ≠ FnRequest → did now a h (WProc (MFunctionRequest ty f n c)) a [] (Some AssertionError)
| did_punknown m : match m with MTaskResult _ _ _ _ | MFunctionRequest _ _ _ _ => False | _ => True end → did now a h (WProc m) a [] (Some TypeError)
| did_loop_none : (a_loop a = LGet ∧ a_ids a = [] ∨ (∃ k, a_loop a = LLock k ∧ a_lock a = true) ∨ ∃ k, a_loop a = LInit k ∧ a_init a = false) →
    did now a h WLoop a [] None
| did_loop_get t ids k : a_loop a = LGet → a_ids a = t :: ids → a_tasks a !! t = Some k →
    did now a h WLoop (with_loop (LLock k) (with_queue (delete t (a_tasks a)) ids a)) [] None
| did_loop_lock k : a_loop a = LLock k → a_lock a = false →
    did now a h WLoop (with_loop (LInit k) (with_holder (a_init a) (a_task a) true a)) [] None
| did_loop_hand k : a_loop a = LInit k → a_init a = true → a_task a = None →
    did now a h WLoop (with_loop LGet (with_holder true (Some k) true a)) [WHand (MTask k)] None
| did_beat ac ar wc wr hb : a_sent a = 0 →
    hb = Heartbeat ac ar wc wr (Z.of_nat (length (a_ids a))) (a_latency a) (a_init a)
        (match a_task a with Some k => negb (String.eqb (task_id k) "") | None => false end) (a_lock a) →
    did now a h (WHeartbeat ac ar wc wr) (with_beat now (a_latency a) (a_seen a) a) [WOut (MHeartbeat hb)] None
| did_no_beat ac ar wc wr : a_sent a ≠ 0 → did now a h (WHeartbeat ac ar wc wr) a [] None
| did_timeout_ok : now - a_seen a < a_death a → did now a h WTimeout a [] None
| did_timeout : a_death a <= now - a_seen a → did now a h WTimeout a [] (Some TimeoutError).

Lemma step_did now a h e : ainv a h →
  ∃ a' out x, w_handle now e a = (a', out, x) ∧ did now a h e a' out x.
Proof.
  intros Ha. pose proof Ha as [_ Hdom Hnd Hid Htask Hup Hheld Hloop Hlock].
  assert (Hlk : ∀ k, a_task a = Some k → a_lock a = true) by (intros k Hk; apply (Hheld k Hk)).
  destruct e as [m|m| |ac ar wc wr|]; cbn [w_handle].
  - destruct m; try (eexists _, _, _; split; [reflexivity|apply did_unknown; exact I]).
    + unfold wt_new; aa. case_bool_decide; eexists _, _, _; (split; [reflexivity|]). apply (did_duplicate now a h t). assumption. apply (did_task now a h t); assumption.
    + unfold wt_cancel. destruct (a_tasks a !! id) as [k|] eqn:Ek.
      * assert (id ∈ a_ids a) by (apply Hdom; eauto). aa. rewrite bool_decide_eq_true_2 by assumption.
        eexists _, _, _. split; [reflexivity|]. apply (did_cancel_queued now a h id). assumption.
      * assert (Hni : id ∉ a_ids a) by (intros H%Hdom; destruct H; congruence). unfold wp_cancel.
        destruct (a_init a) eqn:Ei; cbn [negb].
        2: { eexists _, _, _. split; [reflexivity|]. constructor; auto. }
        destruct (a_task a) as [k|] eqn:Et.
        2: { eexists _, _, _. split; [reflexivity|]. constructor; auto. }
        destruct (String.eqb (task_id k) id) eqn:Eid; cbn [negb].
        -- apply String.eqb_eq in Eid as <-. rewrite (Hlk k eq_refl). eexists _, _, _. split; [reflexivity|]. constructor; auto.
        -- apply String.eqb_neq in Eid. eexists _, _, _. split; [reflexivity|]. constructor; eauto.
    + unfold wt_balance. destruct (Z.min n (Z.of_nat (length (a_ids a))) <? 0) eqn:En.
      * apply Z.ltb_lt in En. destruct (take_too_many (S (length (a_ids a))) a h Ha) as (a' & ts & ->); [lia|].
        eexists _, _, _. split; [reflexivity|]. constructor. lia.
      * apply Z.ltb_ge in En.
        destruct (take_ok (Z.to_nat (Z.min n (Z.of_nat (length (a_ids a))))) a h Ha) as (q & -> & Hq); [lia|].
        assert (take (Z.to_nat (Z.min n (Z.of_nat (length (a_ids a))))) (a_ids a) = take (Z.to_nat n) (a_ids a) ∧
                drop (Z.to_nat (Z.min n (Z.of_nat (length (a_ids a))))) (a_ids a) = drop (Z.to_nat n) (a_ids a)) as [Et Ed].
        { destruct (decide (n <= Z.of_nat (length (a_ids a)))) as [Hle|Hgt].
          - rewrite Z.min_l by lia. auto.
          - rewrite Z.min_r by lia. rewrite Nat2Z.id. rewrite take_ge, drop_ge by lia. rewrite take_ge, drop_ge by lia. auto. }
        rewrite Et, Ed in *. eexists _, _, _. split; [reflexivity|]. constructor; [lia|exact Hq].
    + unfold wh_echo. destruct (a_sent a =? 0) eqn:E.
      * apply Z.eqb_eq in E. eexists _, _, _. split; [reflexivity|]. constructor. exact E.
      * apply Z.eqb_neq in E. eexists _, _, _. split; [reflexivity|]. constructor. exact E.
    + unfold wp_function_request. destruct type; eexists _, _, _; (split; [reflexivity|]); constructor; discriminate.
    + unfold wp_function_response. destruct (a_init a) eqn:Ei; cbn [negb].
      2: { eexists _, _, _. split; [reflexivity|]. constructor; auto. }
      destruct (a_task a) as [k|] eqn:Et.
      2: { eexists _, _, _. split; [reflexivity|]. constructor; auto. }
      destruct (String.eqb (task_function k) id) eqn:Eid; cbn [negb].
      * apply String.eqb_eq in Eid as <-. destruct status; eexists _, _, _; (split; [reflexivity|]); first [apply did_function; solve [auto|discriminate]|idtac].
        apply did_function_ignored. eauto.
      * apply String.eqb_neq in Eid. eexists _, _, _. split; [reflexivity|]. constructor. eauto.
  - destruct m; try (eexists _, _, _; split; [reflexivity|apply did_punknown; exact I]).
    + unfold wp_result. destruct (a_init a) eqn:Ei; cbn [negb].
      * destruct (a_task a) as [k|] eqn:Et.
        2: { eexists _, _, _. split; [reflexivity|]. constructor; congruence. }
        destruct (String.eqb (task_id k) id) eqn:Eid; cbn [negb].
        -- apply String.eqb_eq in Eid as <-. rewrite (Hlk k eq_refl). eexists _, _, _. split; [reflexivity|]. constructor; auto.
        -- apply String.eqb_neq in Eid. eexists _, _, _. split; [reflexivity|]. constructor; congruence.
      * destruct (String.eqb id "") eqn:Eid; cbn [negb].
        -- apply String.eqb_eq in Eid as ->. assert (Et : a_task a = None). { destruct (a_task a) as [k|] eqn:Et; [|reflexivity]. destruct (Hheld k eq_refl). congruence. }
           rewrite Et. eexists _, _, _. split; [reflexivity|]. constructor. exact Ei.
        -- apply String.eqb_neq in Eid. eexists _, _, _. split; [reflexivity|]. constructor; congruence.
    + unfold wp_internal_request. destruct (a_init a) eqn:Ei; cbn [negb].
      2: { eexists _, _, _. split; [reflexivity|]. apply did_request_ignored. congruence. }
      destruct (a_task a) as [k|] eqn:Et.
      2: { eexists _, _, _. split; [reflexivity|]. apply did_request_ignored. congruence. }
      destruct (String.eqb (task_function k) id) eqn:Eid; cbn [negb].
      * apply String.eqb_eq in Eid as <-. destruct type; eexists _, _, _; (split; [reflexivity|]);
          first [apply did_request_crash; discriminate|apply did_request; auto].
      * apply String.eqb_neq in Eid. eexists _, _, _. split; [reflexivity|]. apply did_request_ignored. intros _ k0 Hk0. replace k0 with k by congruence. exact Eid.
  - unfold wt_loop. destruct (a_loop a) as [|k|k] eqn:El.
    + destruct (a_ids a) as [|t ids] eqn:Ei.
      * eexists _, _, _. split; [reflexivity|]. constructor. auto.
      * destruct (proj2 (Hdom t) ltac:(left)) as [k Hk]. rewrite Hk. eexists _, _, _. split; [reflexivity|]. econstructor; eauto.
    + destruct (a_lock a) eqn:Ek; eexists _, _, _; (split; [reflexivity|]).
      * constructor. eauto 10.
      * constructor; auto.
    + destruct (Hloop k eq_refl) as [Hl1 Hl2]. rewrite Hl2. destruct (a_init a) eqn:Ei; cbn [negb]; eexists _, _, _; (split; [reflexivity|]).
      * rewrite Hl1. constructor; auto.
      * constructor. eauto 10.
  - unfold wh_routine. destruct (a_sent a =? 0) eqn:E; cbn [negb].
    + apply Z.eqb_eq in E. eexists _, _, _. split; [reflexivity|]. constructor; auto.
    + apply Z.eqb_neq in E. eexists _, _, _. split; [reflexivity|]. constructor; auto.
  - unfold wo_routine. destruct (now - a_seen a <? a_death a) eqn:E.
    + apply Z.ltb_lt in E. eexists _, _, _. split; [reflexivity|]. constructor; auto.
    + apply Z.ltb_ge in E. eexists _, _, _. split; [reflexivity|]. constructor; auto.
Qed.

Lemma ainv_did now a h e a' out : ainv a h → did now a h e a' out None → ainv a' (h ++ WIn now e :: out).
Proof.
  intros Ha Hd. pose proof Ha as [Hdead Hdom Hnd Hid Htask Hup Hheld Hloop Hlock].
  inversion Hd; subst; split; aa; rewrite ?busy_input, ?up_app; cbn [foldl busy_step up_step fst snd orb]; try assumption; try (rewrite <- ?Htask, <- ?Hup).
  all: try (rewrite orb_false_r; assumption).
  all: try reflexivity.
  all: try congruence.
  - intros t. rewrite lookup_insert_is_Some', Hdom. set_solver.
  - apply NoDup_app. split; [assumption|]. split; [|apply NoDup_singleton]. intros x Hx ->%elem_of_list_singleton. contradiction.
  - intros t k0. rewrite lookup_insert_Some. intros [[<- <-]|[_ H1]]; auto.
  - intros x. rewrite lookup_delete_is_Some, Hdom, remove_first_elem by assumption. set_solver.
  - apply remove_first_nodup. assumption.
  - intros x k [_ H1]%lookup_delete_Some. auto.
  - intros k0 E. destruct (Hheld _ H1) as (_ & _ & Hx). destruct (Hx _ E).
  - intros t. rewrite H0. rewrite <- (take_drop (Z.to_nat n) (a_ids a)) in Hnd. apply NoDup_app in Hnd as (_ & Hnd & _).
    case_bool_decide as Ht; [|rewrite Hdom].
    + split; [intros [? ?]; discriminate|]. intros Hx. destruct (Hnd t Ht Hx).
    + rewrite <- (take_drop (Z.to_nat n) (a_ids a)) at 1. rewrite elem_of_app. tauto.
  - rewrite <- (take_drop (Z.to_nat n) (a_ids a)) in Hnd. apply NoDup_app in Hnd as (_ & _ & Hnd). exact Hnd.
  - intros t k. rewrite H0. case_bool_decide; [discriminate|]. auto.
  - destruct (a_task a) as [k|] eqn:Et; [|reflexivity]. destruct (Hheld k eq_refl). congruence.
  - rewrite orb_true_r. reflexivity.
  - intros k El. split; [apply (Hloop k El)|reflexivity].
  - intros El. destruct (Hlock El) as [[k Hk]|?]; [|auto]. destruct (Hheld k Hk). congruence.
  - match goal with Hi : a_init a = true |- _ => rewrite Hi end. reflexivity.
  - intros k0 E. match goal with Ht : a_task a = Some _ |- _ => destruct (Hheld _ Ht) as (_ & _ & Hx); destruct (Hx _ E) end.
  - match goal with |- a_init ?x = _ => destruct (a_init x) eqn:Ei end; [reflexivity|]. cbn. symmetry. apply String.eqb_neq. auto.
  - intros x. match goal with E : a_ids a = _ |- _ => rewrite E in * end. apply NoDup_cons in Hnd as [? ?]. rewrite lookup_delete_is_Some, Hdom. set_solver.
  - match goal with E : a_ids a = _ |- _ => rewrite E in * end. apply NoDup_cons in Hnd as [? ?]. assumption.
  - intros x k0 [_ Hx]%lookup_delete_Some. auto.
  - intros k0 Hk. destruct (Hheld k0 Hk) as (? & ? & ?). split; [assumption|]. split; [assumption|]. discriminate.
  - intros El. destruct (Hlock El) as [?|[k0 Hk]]; [auto|congruence].
  - intros k0 Hk. destruct (Hheld k0 Hk) as (? & ? & ?). congruence.
  - intros k0 _. split; [reflexivity|]. destruct (a_task a) as [k1|] eqn:Et; [|reflexivity]. destruct (Hheld k1 eq_refl) as (? & ? & ?). congruence.
  - eauto.
  - split; [reflexivity|]. split; [reflexivity|]. discriminate.
  - eauto.
Qed.

(** ** Runs *)
Definition finish (x : option exn) (a' : agent) : agent := match x with None => a' | Some e => with_dead e a' end.
Definition trailer (x : option exn) (a' : agent) : list wentry := match x with None => [] | Some e => w_end e a' end.

Lemma w_step_did now e a h : ainv a h →
  ∃ a' out x, did now a h e a' out x ∧ w_step (a, h) (WRound now e) = (finish x a', h ++ WIn now e :: out ++ trailer x a').
Proof.
  intros Ha. destruct (step_did now a h e Ha) as (a' & out & x & E & Hd). exists a', out, x. split; [exact Hd|].
  unfold w_step. rewrite (i_dead _ _ Ha). cbn [wr_now wr_event]. rewrite E. destruct x; cbn [finish trailer]; [reflexivity|]. rewrite app_nil_r. reflexivity.
Qed.

Lemma ainv_init i d now : ainv (w_init i d now).1 (w_init i d now).2.
Proof.
  split; cbn; try reflexivity; try discriminate; try (intros; discriminate).
  - intros t. rewrite lookup_empty. split; [intros [? ?]; discriminate|]. intros H%elem_of_nil. destruct H.
  - constructor.
Qed.

Lemma run_ind i d start (I : agent → list wentry → Prop) :
  I (w_init i d start).1 (w_init i d start).2 →
  (∀ now a h e a' out x, ainv a h → I a h → did now a h e a' out x → I (finish x a') (h ++ WIn now e :: out ++ trailer x a')) →
  ∀ rs, I (w_run i d start rs).1 (w_run i d start rs).2 ∧
        (a_dead (w_run i d start rs).1 = None → ainv (w_run i d start rs).1 (w_run i d start rs).2).
Proof.
  intros H0 Hs rs. induction rs as [|r rs [IH1 IH2]] using rev_ind.
  - split; [exact H0|]. intros _. apply ainv_init.
  - unfold w_run in *. rewrite foldl_app. cbn [foldl]. set (s := foldl w_step (w_init i d start) rs) in *. clearbody s.
    destruct s as [a h]; cbn [fst snd] in *. destruct (a_dead a) as [x|] eqn:Ed.
    + unfold w_step. rewrite Ed. split; [exact IH1|]. cbn. rewrite Ed. discriminate.
    + specialize (IH2 eq_refl). destruct r as [now e]. destruct (w_step_did now e a h IH2) as (a' & out & x & Hd & ->). cbn [fst snd].
      split; [apply (Hs now a h e a' out x); assumption|]. destruct x as [x|]; cbn [finish trailer].
      * discriminate.
      * intros _. rewrite app_nil_r. eapply ainv_did; eassumption.
Qed.
Lemma run_ainv i d start rs : a_dead (w_run i d start rs).1 = None → ainv (w_run i d start rs).1 (w_run i d start rs).2.
Proof. apply (run_ind i d start (λ _ _, True)); auto. Qed.

(** What each step puts out, entry by entry. *)
Lemma trailer_shape x a' e : e ∈ trailer x a' → (∃ m, e = WOut (MDisconnectRequest m)) ∨ ∃ y, e = WCrash y ∧ x = Some y.
Proof. destruct x as [x|]; cbn [trailer]; [|set_solver]. unfold w_end. destruct x; set_solver. Qed.
Lemma did_crash_out now a h e a' out x : did now a h e a' out (Some x) → out = [].
Proof. inversion 1; reflexivity. Qed.

Lemma always_crash (P : list wentry → wentry → Prop) h now e x a' :
  (∀ b m, P b (WOut (MDisconnectRequest m))) → (∀ b y, P b (WCrash y)) → P h (WIn now e) →
  always P h → always P (h ++ WIn now e :: trailer (Some x) a').
Proof.
  intros H1 H2 H3 H. apply always_app; [exact H|]. intros [|b0 b] y l Eq.
  - injection Eq as <- _. rewrite app_nil_r. exact H3.
  - apply (f_equal tail) in Eq. cbn [tail app] in Eq. assert (Hin : y ∈ trailer (Some x) a') by (rewrite Eq; set_solver).
    apply trailer_shape in Hin as [[? ->]|(? & -> & _)]; auto.
Qed.
Lemma always_two (P : list wentry → wentry → Prop) h x y : P h x → P (h ++ [x]) y → always P h → always P (h ++ [x; y]).
Proof. intros H1 H2 H. change [x; y] with ([x] ++ [y]). rewrite app_assoc. apply always_snoc; [|exact H2]. apply always_snoc; assumption. Qed.
Lemma always_three (P : list wentry → wentry → Prop) h x y z :
  P h x → P (h ++ [x]) y → P (h ++ [x; y]) z → always P h → always P (h ++ [x; y; z]).
Proof. intros H1 H2 H3 H. change [x; y; z] with ([x; y] ++ [z]). rewrite app_assoc. apply always_snoc; [|exact H3]. apply always_two; assumption. Qed.

(** ** C46 *)
Ltac shape h := first [apply (always_two _ h)|apply (always_three _ h)|apply always_snoc].
Lemma crash_shape now a h e a' out x : did now a h e a' out (Some x) → h ++ WIn now e :: out ++ trailer (Some x) a' = h ++ WIn now e :: trailer (Some x) a'.
Proof. intros Hd. rewrite (did_crash_out _ _ _ _ _ _ _ Hd). reflexivity. Qed.

Lemma always_run i d start (P : list wentry → wentry → Prop) :
  (∀ b m, P b (WOut (MDisconnectRequest m))) → (∀ b y, P b (WCrash y)) → P [] WStart →
  (∀ b now e, P b (WIn now e)) →
  (∀ now a h e a' out, ainv a h → did now a h e a' out None → always P h → always P (h ++ WIn now e :: out)) →
  ∀ rs, always P (w_run i d start rs).2.
Proof.
  intros H1 H2 H3 H4 Hs rs. apply (run_ind i d start (λ _ h, always P h)).
  - cbn. change [WStart] with ([] ++ [WStart] : list wentry). apply always_snoc; [apply always_nil|exact H3].
  - intros now a h e a' out [x|] Ha Hh Hd.
    + rewrite (crash_shape _ _ _ _ _ _ _ Hd). apply always_crash; auto.
    + cbn [trailer]. rewrite app_nil_r. eapply Hs; eassumption.
Qed.

Lemma one_at_a_time_run i d start rs : always one_at_a_time (w_run i d start rs).2.
Proof.
  apply always_run; try (intros; exact I).
  intros now a h e a' out Ha Hd Hh. inversion Hd; subst; shape h; try exact Hh; try exact I.
  cbn. rewrite busy_snoc_input, up_app. cbn. rewrite <- (i_task _ _ Ha), <- (i_up _ _ Ha). auto.
Qed.
Lemma genuine_run i d start rs : always genuine (w_run i d start rs).2.
Proof.
  apply always_run; try (intros; exact I).
  intros now a h e a' out Ha Hd Hh. inversion Hd; subst; shape h; try exact Hh; try exact I.
  all: cbn [genuine]; rewrite ?last_event_snoc, ?busy_snoc_input.
  - right. auto.
  - right. change [WIn now (WExt (MTaskCancel (task_id k))); WStart] with ([WIn now (WExt (MTaskCancel (task_id k)))] ++ [WStart]).
    rewrite app_assoc, last_event_app, last_event_snoc. cbn. auto.
  - right. auto.
  - left. split; [reflexivity|]. exists k. rewrite <- (i_task _ _ Ha). auto.
Qed.

(** ** The order of tasks *)
Definition queue_of (q : gmap bytes task) (ids : list bytes) : list task := omap (λ t, q !! t) ids.

Lemma filter_everything {A} (P : A → Prop) `{∀ x, Decision (P x)} (l : list A) : (∀ x, x ∈ l → P x) → filter P l = l.
Proof.
  induction l as [|x l IH]; intros Hl; [reflexivity|]. rewrite filter_cons_True by (apply Hl; left). f_equal. apply IH. intros y Hy. apply Hl. right. exact Hy.
Qed.
Lemma queue_ids (q : gmap bytes task) ids :
  (∀ t k, q !! t = Some k → task_id k = t) → (∀ t, t ∈ ids → is_Some (q !! t)) → task_id <$> queue_of q ids = ids.
Proof.
  intros Hid. induction ids as [|t ids IH]; intros Hs; [reflexivity|]. unfold queue_of in *. cbn.
  destruct (Hs t ltac:(left)) as [k Hk]. rewrite Hk. cbn. rewrite (Hid _ _ Hk). f_equal. apply IH. intros x Hx. apply Hs. right. exact Hx.
Qed.
Lemma queue_filter (q q' : gmap bytes task) (P : bytes → Prop) `{∀ t, Decision (P t)} ids :
  (∀ t k, q !! t = Some k → task_id k = t) → (∀ t, t ∈ ids → is_Some (q !! t)) → (∀ t, t ∈ ids → P t → q' !! t = q !! t) →
  queue_of q' (filter P ids) = filter (λ k, P (task_id k)) (queue_of q ids).
Proof.
  intros Hid. induction ids as [|t ids IH]; intros Hs Hq; [reflexivity|]. unfold queue_of in *.
  destruct (Hs t ltac:(left)) as [k Hk]. cbn [omap list_omap]. rewrite Hk.
  assert (IH' : omap (λ t, q' !! t) (filter P ids) = filter (λ k, P (task_id k)) (omap (λ t, q !! t) ids)).
  { apply IH; intros x Hx; [apply Hs|apply Hq]; right; exact Hx. }
  destruct (decide (P t)) as [Ht|Ht].
  - rewrite filter_cons_True by exact Ht. rewrite filter_cons_True by (rewrite (Hid _ _ Hk); exact Ht).
    cbn [omap list_omap]. rewrite Hq, Hk by (assumption || left). f_equal. exact IH'.
  - rewrite filter_cons_False by exact Ht. rewrite filter_cons_False by (rewrite (Hid _ _ Hk); exact Ht). exact IH'.
Qed.
Lemma queue_ext (q q' : gmap bytes task) ids : (∀ t, t ∈ ids → q' !! t = q !! t) → queue_of q' ids = queue_of q ids.
Proof.
  unfold queue_of. induction ids as [|t ids IH]; intros Hq; [reflexivity|]. cbn. rewrite (Hq t) by left.
  rewrite IH; [reflexivity|]. intros x Hx. apply Hq. right. exact Hx.
Qed.
Lemma drop_filter n (l : list bytes) : NoDup l → drop n l = filter (λ t, t ∉ take n l) l.
Proof.
  intros Hnd. rewrite <- (take_drop n l) in Hnd. apply NoDup_app in Hnd as (_ & Hd & _).
  transitivity (filter (λ t, t ∉ take n l) (take n l ++ drop n l)); [|rewrite take_drop; reflexivity]. rewrite filter_app.
  replace (filter _ (take n l)) with (@nil bytes).
  - symmetry. apply filter_everything. intros x Hx Hx'. exact (Hd x Hx' Hx).
  - symmetry. assert (Hg : ∀ l', (∀ x, x ∈ l' → x ∈ take n l) → filter (λ t, t ∉ take n l) l' = []).
    { clear. induction l' as [|x l' IH]; intros Hl; [reflexivity|]. rewrite filter_cons_False.
      - apply IH. intros y Hy. apply Hl. right. exact Hy.
      - intros Hx. apply Hx, Hl. left. }
    apply Hg. auto.
Qed.

Definition ord (a : agent) (h : list wentry) : Prop :=
  waiting h = loop_tasks (a_loop a) ++ queue_of (a_tasks a) (a_ids a) ∧
  NoDup (task_id <$> (waiting h ++ option_list (busy h))).

Lemma nodup_filter_ids (P : task → Prop) `{∀ x, Decision (P x)} l l2 : NoDup (task_id <$> (l ++ l2)) → NoDup (task_id <$> (filter P l ++ l2)).
Proof.
  rewrite !fmap_app, !NoDup_app. intros (H1 & H2 & H3). split; [|split; [|exact H3]].
  - clear -H1. induction l as [|k l IH]; [constructor|]. cbn in H1. apply NoDup_cons in H1 as [Hk H1].
    destruct (decide (P k)); [rewrite filter_cons_True by assumption|rewrite filter_cons_False by assumption; auto].
    cbn. constructor; [|auto]. intros (y & E & Hy)%elem_of_list_fmap. apply Hk. rewrite E. apply elem_of_list_fmap_1. apply elem_of_list_filter in Hy. apply Hy.
  - intros x (y & -> & Hy)%elem_of_list_fmap. apply H2. apply elem_of_list_fmap_1. apply elem_of_list_filter in Hy. apply Hy.
Qed.

Lemma ord_did now a h e a' out : ainv a h → ord a h → fresh h (WIn now e) → did now a h e a' out None → ord a' (h ++ WIn now e :: out).
Proof.
  intros Ha [Hw Hn] Hf Hd. pose proof Ha as [Hdead Hdom Hnd Hid Htask Hup Hheld Hloop Hlock].
  assert (Hs : ∀ t, t ∈ a_ids a → is_Some (a_tasks a !! t)) by (intros t; apply Hdom).
  pose proof (queue_ids _ _ Hid Hs) as Hq.
  assert (Hnl : ∀ k, k ∈ loop_tasks (a_loop a) → task_id k ∉ a_ids a).
  { intros k Hk Hx. rewrite Hw, !fmap_app, Hq in Hn. apply NoDup_app in Hn as (Hn & _ & _). apply NoDup_app in Hn as (_ & Hn & _).
    apply (Hn (task_id k)); [|exact Hx]. apply elem_of_list_fmap_1. exact Hk. }
  inversion Hd; subst; unfold ord; rewrite ?waiting_app, ?busy_input; cbn [foldl waiting_step busy_step fst snd]; aa; rewrite <- ?Htask in *.
  - (* new task *)
    cbn [fresh] in Hf. destruct Hf as [Hf1 Hf2]. split.
    + rewrite Hw, <- app_assoc. f_equal. unfold queue_of. rewrite omap_app. cbn. rewrite lookup_insert. f_equal.
      symmetry. apply queue_ext. intros t Ht. rewrite lookup_insert_ne; [reflexivity|]. intros <-. contradiction.
    + rewrite fmap_app in Hn |- *. rewrite fmap_app. apply NoDup_app in Hn as (Hn1 & Hn2 & Hn3). cbn.
      apply NoDup_app. split; [|split; [|exact Hn3]].
      * apply NoDup_app. split; [exact Hn1|]. split; [|apply NoDup_singleton]. intros x Hx ->%elem_of_list_singleton. contradiction.
      * intros x [Hx| ->%elem_of_list_singleton]%elem_of_app; [auto|]. destruct (a_task a) as [k'|]; cbn; [|set_solver].
        intros E%elem_of_list_singleton. apply (Hf2 k'); congruence.
  - (* cancel of a queued task *)
    split; [|apply nodup_filter_ids; exact Hn]. rewrite Hw, filter_app. f_equal.
    + apply filter_everything. intros k Hk E. apply (Hnl k Hk). rewrite E. assumption.
    + rewrite remove_first_filter by assumption. symmetry. apply queue_filter; try assumption. intros x _ Hx. apply lookup_delete_ne. congruence.
  - (* cancel of the running task *)
    match goal with Hk : a_task a = Some k |- _ => rewrite Hk in Hn end.
    assert (E : filter (λ k0, task_id k0 ≠ task_id k) (waiting h) = waiting h).
    { apply filter_everything. intros k0 Hk0 E. rewrite fmap_app in Hn. apply NoDup_app in Hn as (_ & Hn & _).
      apply (Hn (task_id k0)); [apply elem_of_list_fmap_1; exact Hk0|]. rewrite E. cbn. left. }
    rewrite E. split; [exact Hw|]. cbn. rewrite app_nil_r. rewrite fmap_app in Hn. apply NoDup_app in Hn. apply Hn.
  - split; assumption.
  - (* balance *)
    split; [|apply nodup_filter_ids; exact Hn]. rewrite Hw, filter_app. f_equal.
    + apply filter_everything. intros k Hk E. apply (Hnl k Hk). rewrite <- (take_drop (Z.to_nat n) (a_ids a)). apply elem_of_app. left. exact E.
    + rewrite drop_filter by assumption. symmetry. apply queue_filter; try assumption. intros x _ Hx. rewrite H0. rewrite bool_decide_eq_false_2 by exact Hx. reflexivity.
  - split; assumption.
  - split; assumption.
  - split; assumption.
  - split; assumption.
  - split; assumption.
  - split; assumption.
  - (* result *)
    match goal with Hk : a_task a = Some k |- _ => rewrite Hk in Hn end.
    assert (E : filter (λ k0, task_id k0 ≠ task_id k) (waiting h) = waiting h).
    { apply filter_everything. intros k0 Hk0 E. rewrite fmap_app in Hn. apply NoDup_app in Hn as (_ & Hn & _).
      apply (Hn (task_id k0)); [apply elem_of_list_fmap_1; exact Hk0|]. rewrite E. cbn. left. }
    rewrite E. assert (E' : match st with Canceled => waiting h | _ => waiting h end = waiting h) by (destruct st; reflexivity).
    rewrite E'. split; [exact Hw|]. cbn. rewrite app_nil_r. rewrite fmap_app in Hn. apply NoDup_app in Hn. apply Hn.
  - split; assumption.
  - split; assumption.
  - split; assumption.
  - split; assumption.
  - split; [|assumption]. rewrite Hw.
    match goal with E1 : a_loop a = LGet, E2 : a_ids a = _, E3 : a_tasks a !! t = Some k |- _ => rewrite E1, E2 in *; unfold queue_of; cbn; rewrite E3 end. f_equal.
    apply NoDup_cons in Hnd as [Hnt _]. symmetry. apply queue_ext. intros x Hx. apply lookup_delete_ne. intros <-. contradiction.
  - match goal with E1 : a_loop a = LLock k |- _ => rewrite E1 in * end. split; assumption.
  - match goal with E1 : a_loop a = LInit k, E2 : a_task a = None |- _ => rewrite E1, E2 in * end. cbn in Hw. rewrite Hw in Hn |- *. cbn.
    split; [reflexivity|]. rewrite app_nil_r in Hn. cbn in Hn. rewrite fmap_app. cbn. rewrite Permutation_app_comm. exact Hn.
  - split; assumption.
  - split; assumption.
  - split; assumption.
Qed.

Lemma ord_run i d start rs : always fresh (w_run i d start rs).2 → a_dead (w_run i d start rs).1 = None →
  ord (w_run i d start rs).1 (w_run i d start rs).2.
Proof.
  apply (run_ind i d start (λ a h, always fresh h → a_dead a = None → ord a h)).
  - intros _ _. split; [reflexivity|constructor].
  - intros now a h e a' out x Ha IH Hd Hf Hx. destruct x; [discriminate|]. cbn [trailer finish] in *. rewrite app_nil_r in *.
    eapply ord_did; [exact Ha| |eapply always_at; exact Hf|exact Hd]. apply IH; [|apply Ha]. eapply always_inv. exact Hf.
Qed.

Lemma oldest_first_run i d start rs : always fresh (w_run i d start rs).2 → always oldest_first (w_run i d start rs).2.
Proof.
  intros Hf. apply (run_ind i d start (λ a h, always fresh h → always oldest_first h ∧ (a_dead a = None → ord a h))); [| |exact Hf].
  - intros _. split; [|split; [reflexivity|constructor]]. cbn. change [WStart] with ([] ++ [WStart] : list wentry). apply always_snoc; [apply always_nil|exact I].
  - intros now a h e a' out x Ha IH Hd Hf'. destruct IH as [IH1 IH2]; [eapply always_inv; exact Hf'|]. specialize (IH2 (i_dead _ _ Ha)).
    destruct x as [x|].
    + rewrite (crash_shape _ _ _ _ _ _ _ Hd). split; [|discriminate]. apply always_crash; try (intros; exact I). exact IH1.
    + cbn [trailer finish] in *. rewrite app_nil_r in *. split.
      * inversion Hd; subst; shape h; try exact IH1; try exact I. cbn. rewrite waiting_app. cbn. destruct IH2 as [-> _].
        match goal with E1 : a_loop a = LInit k |- _ => rewrite E1 end. cbn. eauto.
      * intros _. eapply ord_did; [exact Ha|exact IH2|eapply always_at; exact Hf'|exact Hd].
Qed.

(** ** Counting *)
Notation cnt := (count_occ string_dec).
Lemma cnt_cons x l t : cnt (x :: l) t = ((if String.eqb x t then 1 else 0) + cnt l t)%nat.
Proof. cbn. destruct (string_dec x t) as [->|Hne]; [rewrite String.eqb_refl; reflexivity|]. apply String.eqb_neq in Hne. rewrite Hne. reflexivity. Qed.
Lemma cnt_nil t : cnt [] t = 0%nat. Proof. reflexivity. Qed.
Lemma cnt_app l1 l2 t : cnt (l1 ++ l2) t = (cnt l1 t + cnt l2 t)%nat.
Proof. apply count_occ_app. Qed.
Lemma cnt_remove_first x l t : x ∈ l → cnt l t = ((if String.eqb x t then 1 else 0) + cnt (remove_first x l) t)%nat.
Proof.
  induction l as [|y l IH]; [set_solver|]. intros Hx. cbn [remove_first]. destruct (String.eqb x y) eqn:E.
  - apply String.eqb_eq in E as ->. apply cnt_cons.
  - apply String.eqb_neq in E. rewrite !cnt_cons, IH by set_solver. lia.
Qed.
Lemma cnt_take_drop n l t : cnt l t = (cnt (take n l) t + cnt (drop n l) t)%nat.
Proof. rewrite <- cnt_app, take_drop. reflexivity. Qed.

Definition held (a : agent) : list bytes := a_ids a ++ (task_id <$> loop_tasks (a_loop a)) ++ (task_id <$> option_list (a_task a)).

Lemma plain_inv h l : plain_results (h ++ l) → plain_results h.
Proof. intros H now t st d p Hin. eapply H. apply elem_of_app. left. exact Hin. Qed.

Ltac count := rewrite !total_app; unfold total, held in *; aa;
  cbn [sum_list_with arrivals answers_to give_backs handovers cancels_of cancel_answers];
  rewrite ?cnt_app, ?cnt_cons, ?cnt_nil in *.

Ltac cc := cbn [loop_tasks fmap list_fmap option_list option_rect app] in *; rewrite ?cnt_cons, ?cnt_nil in *.

Lemma held_did now a h e a' out t : ainv a h → plain_results (h ++ WIn now e :: out) → did now a h e a' out None →
  total (arrivals t) h = (total (answers_to t) h + total (give_backs t) h + cnt (held a) t)%nat →
  total (arrivals t) (h ++ WIn now e :: out) =
    (total (answers_to t) (h ++ WIn now e :: out) + total (give_backs t) (h ++ WIn now e :: out) + cnt (held a') t)%nat.
Proof.
  intros Ha Hp Hd IH. inversion Hd; subst; count; try lia.
  - match goal with Hin : ?u ∈ a_ids a |- _ => pose proof (cnt_remove_first u (a_ids a) t Hin) end. lia.
  - match goal with Ht : a_task a = _ |- _ => rewrite Ht in * end. cc. lia.
  - pose proof (cnt_take_drop (Z.to_nat n) (a_ids a) t). lia.
  - match goal with Hi : a_init a = false |- _ => destruct (a_task a) as [k|] eqn:Et; [destruct (i_held _ _ Ha k Et); congruence|] end. cc. lia.
  - assert (Hst : st = Success ∨ st = Failed) by (eapply Hp; apply elem_of_app; right; left).
    match goal with Ht : a_task a = _ |- _ => rewrite Ht in * end. cc. destruct Hst as [->| ->]; lia.
  - match goal with E1 : a_loop a = LGet, E2 : a_ids a = _, E3 : a_tasks a !! _ = Some k |- _ => rewrite E1, E2 in *; rewrite <- (i_id _ _ Ha _ _ E3) in * end. cc. lia.
  - match goal with E1 : a_loop a = LLock k |- _ => rewrite E1 in * end. cc. lia.
  - match goal with E1 : a_loop a = LInit k, E2 : a_task a = None |- _ => rewrite E1, E2 in * end. cc. lia.
Qed.

Lemma held_run i d start rs t : plain_results (w_run i d start rs).2 → a_dead (w_run i d start rs).1 = None →
  total (arrivals t) (w_run i d start rs).2 =
    (total (answers_to t) (w_run i d start rs).2 + total (give_backs t) (w_run i d start rs).2 + cnt (held (w_run i d start rs).1) t)%nat.
Proof.
  apply (run_ind i d start (λ a h, plain_results h → a_dead a = None →
    total (arrivals t) h = (total (answers_to t) h + total (give_backs t) h + cnt (held a) t)%nat)).
  - reflexivity.
  - intros now a h e a' out x Ha IH Hd Hp Hx. destruct x; [discriminate|]. cbn [trailer finish] in *. rewrite app_nil_r in *.
    eapply held_did; try eassumption. apply IH; [|apply Ha]. eapply plain_inv. exact Hp.
Qed.

Lemma crash_total f now a h e a' out x : did now a h e a' out (Some x) →
  (∀ m, f (WOut (MDisconnectRequest m)) = 0%nat) → (∀ y, f (WCrash y) = 0%nat) →
  total f (h ++ WIn now e :: out ++ trailer (Some x) a') = (total f h + f (WIn now e))%nat.
Proof.
  intros Hd H1 H2. rewrite (crash_shape _ _ _ _ _ _ _ Hd). rewrite total_app. unfold total. cbn [sum_list_with trailer].
  unfold w_end. destruct x; cbn [app sum_list_with]; rewrite ?H1, ?H2; lia.
Qed.

(** No more answers and give-backs, and no more handovers and give-backs, than arrivals. *)
Lemma answered_run i d start rs t : plain_results (w_run i d start rs).2 →
  (total (answers_to t) (w_run i d start rs).2 + total (give_backs t) (w_run i d start rs).2 <= total (arrivals t) (w_run i d start rs).2)%nat.
Proof.
  intros Hp.
  apply (run_ind i d start (λ a h, plain_results h →
    (a_dead a = None → total (arrivals t) h = (total (answers_to t) h + total (give_backs t) h + cnt (held a) t)%nat) ∧
    (total (answers_to t) h + total (give_backs t) h <= total (arrivals t) h)%nat)); [| |exact Hp].
  - intros _. split; [reflexivity|]. cbn. lia.
  - intros now a h e a' out x Ha IH Hd Hp'. destruct IH as [IH _]; [eapply plain_inv; exact Hp'|]. specialize (IH (i_dead _ _ Ha)).
    destruct x as [x|].
    + split; [discriminate|]. rewrite !(crash_total _ _ _ _ _ _ _ _ Hd) by reflexivity. cbn [answers_to give_backs]. lia.
    + cbn [trailer finish] in *. rewrite app_nil_r in *.
      pose proof (held_did _ _ _ _ _ _ t Ha Hp' Hd IH). split; [auto|lia].
Qed.

Definition held_back (a : agent) : list bytes := a_ids a ++ (task_id <$> loop_tasks (a_loop a)).
Lemma handed_run i d start rs t :
  (total (handovers t) (w_run i d start rs).2 + total (give_backs t) (w_run i d start rs).2 <= total (arrivals t) (w_run i d start rs).2)%nat.
Proof.
  apply (run_ind i d start (λ a h,
    (total (handovers t) h + total (give_backs t) h + (if a_dead a then 0 else cnt (held_back a) t) <= total (arrivals t) h)%nat ∧
    (total (handovers t) h + total (give_backs t) h <= total (arrivals t) h)%nat)).
  - cbn. lia.
  - intros now a h e a' out x Ha [IH _] Hd. rewrite (i_dead _ _ Ha) in IH.
    destruct x as [x|].
    + cbn [a_dead with_dead finish]. rewrite !(crash_total _ _ _ _ _ _ _ _ Hd) by reflexivity. cbn [handovers give_backs]. lia.
    + cbn [trailer finish] in *. rewrite app_nil_r in *. cut (a_dead a' = None ∧ (total (handovers t) (h ++ WIn now e :: out) + total (give_backs t) (h ++ WIn now e :: out) + cnt (held_back a') t <= total (arrivals t) (h ++ WIn now e :: out))%nat).
      { intros [-> ?]. lia. }
      split; [apply (ainv_did _ _ _ _ _ _ Ha Hd)|]. unfold held_back in *.
      inversion Hd; subst; count; try lia.
      * match goal with Hin : ?u ∈ a_ids a |- _ => pose proof (cnt_remove_first u (a_ids a) t Hin) end. lia.
      * pose proof (cnt_take_drop (Z.to_nat n) (a_ids a) t). lia.
      * match goal with E1 : a_loop a = LGet, E2 : a_ids a = _, E3 : a_tasks a !! _ = Some k |- _ => rewrite E1, E2 in *; rewrite <- (i_id _ _ Ha _ _ E3) in * end. cc. lia.
      * match goal with E1 : a_loop a = LLock k |- _ => rewrite E1 in * end. cc. lia.
      * match goal with E1 : a_loop a = LInit k |- _ => rewrite E1 in IH end. cc. lia.
Qed.

Lemma cancels_run i d start rs t : plain_results (w_run i d start rs).2 → a_dead (w_run i d start rs).1 = None →
  total (cancel_answers t) (w_run i d start rs).2 = total (cancels_of t) (w_run i d start rs).2.
Proof.
  apply (run_ind i d start (λ a h, plain_results h → a_dead a = None → total (cancel_answers t) h = total (cancels_of t) h)).
  - reflexivity.
  - intros now a h e a' out x Ha IH Hd Hp Hx. destruct x; [discriminate|]. cbn [trailer finish] in *. rewrite app_nil_r in *.
    specialize (IH ltac:(eapply plain_inv; exact Hp) (i_dead _ _ Ha)).
    inversion Hd; subst; count; try lia.
    assert (Hst : st = Success ∨ st = Failed) by (eapply Hp; apply elem_of_app; right; left).
    destruct Hst as [->| ->]; lia.
Qed.

(** ** Alive *)
Lemma did_no_crash now a h e a' out x y : did now a h e a' out x → WCrash y ∉ WIn now e :: out.
Proof. inversion 1; set_solver. Qed.
Lemma working_run i d start rs : working (w_run i d start rs).2 ↔ a_dead (w_run i d start rs).1 = None.
Proof.
  apply (run_ind i d start (λ a h, working h ↔ a_dead a = None)).
  - cbn. split; [reflexivity|]. intros _ e. set_solver.
  - intros now a h e a' out x Ha IH Hd. destruct x as [x|].
    + cbn [finish a_dead with_dead]. split; [|discriminate]. intros Hw. exfalso. apply (Hw x). unfold trailer, w_end. destruct x; set_solver.
    + cbn [trailer finish]. rewrite app_nil_r. rewrite (i_dead _ _ (ainv_did _ _ _ _ _ _ Ha Hd)). split; [reflexivity|]. intros _ y Hy.
      apply elem_of_app in Hy as [Hy|Hy]; [|exact (did_no_crash _ _ _ _ _ _ _ _ Hd Hy)].
      destruct IH as [_ IH]. exact (IH (i_dead _ _ Ha) y Hy).
Qed.
Lemma run_app i d start rs rs' : w_run i d start (rs ++ rs') = foldl w_step (w_run i d start rs) rs'.
Proof. apply foldl_app. Qed.
Lemma run_snoc_did i d start rs now e : working (w_run i d start rs).2 →
  let a := (w_run i d start rs).1 in let h := (w_run i d start rs).2 in
  ainv a h ∧ ∃ a' out x, did now a h e a' out x ∧
    w_run i d start (rs ++ [WRound now e]) = (finish x a', h ++ WIn now e :: out ++ trailer x a').
Proof.
  intros Hw a h. apply working_run in Hw. pose proof (run_ainv _ _ _ _ Hw) as Ha. fold a h in Ha. split; [exact Ha|].
  rewrite run_app. cbn [foldl]. replace (w_run i d start rs) with (a, h) by (symmetry; apply surjective_pairing).
  apply w_step_did. exact Ha.
Qed.

(** ** Heartbeats *)
Lemma beats_app start h l : beats start (h ++ l) = foldl beat_step (beats start h) l. Proof. apply foldl_app. Qed.
Lemma beats_1 s s' h : (beats s h).1 = (beats s' h).1.
Proof.
  unfold beats. assert (Hg : ∀ b z z', (foldl beat_step (b, z) h).1 = (foldl beat_step (b, z') h).1).
  { induction h as [|e h IH]; intros b z z'; [reflexivity|]. cbn [foldl]. destruct e as [now [[]| | | |]|[]|[]| |]; cbn [beat_step]; try apply IH.
    cbn [fst]. destruct b; apply IH. }
  apply Hg.
Qed.
Definition binv (start : Z) (a : agent) (h : list wentry) : Prop :=
  (a_sent a ≠ 0 ↔ unechoed h = true) ∧ a_seen a = last_echo start h.
Lemma unechoed_app start h l : unechoed (h ++ l) = (foldl beat_step (beats start h) l).1.
Proof. unfold unechoed. rewrite (beats_1 0 start), beats_app. reflexivity. Qed.
Lemma last_echo_app start h l : last_echo start (h ++ l) = (foldl beat_step (beats start h) l).2.
Proof. unfold last_echo. rewrite beats_app. reflexivity. Qed.

Lemma binv_did start now a h e a' out : binv start a h → now ≠ 0 → did now a h e a' out None → binv start a' (h ++ WIn now e :: out).
Proof.
  unfold binv. intros [H1 H2] Hn Hd. rewrite (unechoed_app start), last_echo_app. unfold last_echo in H2. unfold unechoed in H1. rewrite (beats_1 0 start) in H1.
  destruct (beats start h) as [b z]; cbn [fst snd] in *.
  inversion Hd; subst; cbn [foldl beat_step fst snd]; aa; try (split; [exact H1|reflexivity]); try (split; [assumption|assumption]).
  - destruct b; cbn; [|exfalso; assert (false = true) by (apply H1; assumption); discriminate]. split; [|reflexivity]. split; [intros Hx; destruct Hx; reflexivity|discriminate].
  - destruct b; cbn; [|split; [exact H1|reflexivity]]. destruct (proj2 H1 eq_refl). assumption.
  - split; [|reflexivity]. split; [reflexivity|]. intros _. exact Hn.
Qed.

Lemma beats_run i d start rs : always clock_runs (w_run i d start rs).2 →
  always one_beat (w_run i d start rs).2 ∧ (a_dead (w_run i d start rs).1 = None → binv start (w_run i d start rs).1 (w_run i d start rs).2).
Proof.
  apply (run_ind i d start (λ a h, always clock_runs h → always one_beat h ∧ (a_dead a = None → binv start a h))).
  - intros _. split; [|intros _; split; [split; [intros H; destruct H; reflexivity|discriminate]|reflexivity]].
    cbn. change [WStart] with ([] ++ [WStart] : list wentry). apply always_snoc; [apply always_nil|exact I].
  - intros now a h e a' out x Ha IH Hd Hc. destruct IH as [IH1 IH2]; [eapply always_inv; exact Hc|]. specialize (IH2 (i_dead _ _ Ha)).
    destruct x as [x|].
    + rewrite (crash_shape _ _ _ _ _ _ _ Hd). split; [|discriminate]. apply always_crash; try (intros; exact I). exact IH1.
    + cbn [trailer finish] in *. rewrite app_nil_r in *. pose proof (always_at _ _ _ _ Hc) as Hn. cbn in Hn. split.
      * inversion Hd; subst; shape h; try exact IH1; try exact I. cbn [one_beat].
        rewrite (unechoed_app start). cbn [foldl beat_step]. destruct IH2 as [IH2 _]. unfold unechoed in IH2. rewrite (beats_1 0 start) in IH2.
        destruct (beats start h).1; [|reflexivity]. exfalso. apply IH2; auto.
      * intros _. eapply binv_did; eassumption.
Qed.

Lemma true_beat_run i d start rs : always fresh (w_run i d start rs).2 → always true_beat (w_run i d start rs).2.
Proof.
  intros Hf. apply (run_ind i d start (λ a h, always fresh h → always true_beat h ∧ (a_dead a = None → ord a h))); [| |exact Hf].
  - intros _. split; [|split; [reflexivity|constructor]]. cbn. change [WStart] with ([] ++ [WStart] : list wentry). apply always_snoc; [apply always_nil|exact I].
  - intros now a h e a' out x Ha IH Hd Hf'. destruct IH as [IH1 IH2]; [eapply always_inv; exact Hf'|]. specialize (IH2 (i_dead _ _ Ha)).
    destruct x as [x|].
    + rewrite (crash_shape _ _ _ _ _ _ _ Hd). split; [|discriminate]. apply always_crash; try (intros; exact I). exact IH1.
    + cbn [trailer finish] in *. rewrite app_nil_r in *. split.
      * inversion Hd; subst; shape h; try exact IH1; try exact I. cbn [true_beat hb_initialized hb_has_task hb_agent_cpu hb_agent_rss hb_worker_cpu hb_worker_rss hb_queued].
        rewrite last_event_snoc, busy_snoc_input, up_app, waiting_app. cbn [foldl up_step waiting_step].
        rewrite <- (i_task _ _ Ha), <- (i_up _ _ Ha). repeat (split; [reflexivity|]).
        destruct IH2 as [-> _]. rewrite app_length.
        assert (El : length (queue_of (a_tasks a) (a_ids a)) = length (a_ids a)).
        { pose proof (queue_ids (a_tasks a) (a_ids a) (i_id _ _ Ha)) as Hq. rewrite <- (fmap_length task_id), Hq; [reflexivity|]. intros t; apply (i_dom _ _ Ha). }
        rewrite El. destruct (a_loop a); cbn [loop_tasks length]; [left|right|right]; lia.
      * intros _. eapply ord_did; [exact Ha|exact IH2|eapply always_at; exact Hf'|exact Hd].
Qed.

(** The timeout check. *)
Lemma settings_run i d start rs : a_dead (w_run i d start rs).1 = None → a_death (w_run i d start rs).1 = d ∧ a_identity (w_run i d start rs).1 = i.
Proof.
  apply (run_ind i d start (λ a h, a_dead a = None → a_death a = d ∧ a_identity a = i)).
  - split; reflexivity.
  - intros now a h e a' out x Ha IH Hd Hx. destruct x as [x|]; cbn [finish]; [discriminate|]. specialize (IH (i_dead _ _ Ha)).
    inversion Hd; subst; aa; exact IH.
Qed.
Lemma timeout_run i d start rs now : always clock_runs (w_run i d start rs).2 → working (w_run i d start rs).2 →
  (w_run i d start (rs ++ [WRound now WTimeout])).2 = (w_run i d start rs).2 ++ WIn now WTimeout ::
    (if now - last_echo start (w_run i d start rs).2 <? d then [] else [WOut (MDisconnectRequest i); WCrash TimeoutError]).
Proof.
  intros Hc Hw. destruct (run_snoc_did i d start rs now WTimeout Hw) as (Ha & a' & out & x & Hd & ->). cbn [snd]. f_equal. f_equal.
  apply working_run in Hw. destruct (settings_run _ _ _ _ Hw) as [Hdeath Hi]. destruct (beats_run _ _ _ _ Hc) as [_ Hb]. destruct (Hb Hw) as [_ Hseen].
  inversion Hd as [| | | | | | | | | | | | | | | | | | | | | | | | | | | | |H|H]; subst a' out x; cbn [trailer app]; rewrite Hdeath, Hseen in H.
  - apply Z.ltb_lt in H. rewrite H. reflexivity.
  - apply Z.ltb_ge in H. rewrite H. unfold w_end. cbn [app]. rewrite Hi. reflexivity.
Qed.
Lemma timeout_only i d start rs : ∀ before after, (w_run i d start rs).2 = before ++ WCrash TimeoutError :: after →
  ∃ now, WIn now WTimeout ∈ before.
Proof.
  assert (Hal : always (λ b e, e = WCrash TimeoutError → ∃ now, WIn now WTimeout ∈ b) (w_run i d start rs).2).
  { apply (run_ind i d start (λ _ h, always (λ b e, e = WCrash TimeoutError → ∃ now, WIn now WTimeout ∈ b) h)).
    - cbn. change [WStart] with ([] ++ [WStart] : list wentry). apply always_snoc; [apply always_nil|discriminate].
    - intros now a h e a' out x Ha IH Hd. apply always_app; [exact IH|]. intros b y l Eq ->. exists now.
      destruct b as [|b0 b]; [discriminate|]. injection Eq as <- Eq.
      assert (Hin : WCrash TimeoutError ∈ out ++ trailer x a') by (rewrite Eq; set_solver).
      apply elem_of_app in Hin as [Hin|Hin]; [destruct (did_no_crash _ _ _ _ _ _ _ TimeoutError Hd); set_solver|].
      apply trailer_shape in Hin as [[? [=]]|(y & [= <-] & ->)]. inversion Hd; subst. set_solver. }
  intros before after E. exact (Hal before _ after E eq_refl).
Qed.

(** ** Well-behaved peers *)
Lemma welcome_run i d start rs e : always welcome (w_run i d start rs).2 → WCrash e ∈ (w_run i d start rs).2 → e = TimeoutError.
Proof.
  apply (run_ind i d start (λ a h, always welcome h → (WCrash e ∈ h → e = TimeoutError) ∧ (a_dead a = None → ord a h))).
  - intros _. split; [set_solver|]. split; [reflexivity|constructor].
  - intros now a h ev a' out x Ha IH Hd Hw. destruct IH as [IH1 IH2]; [eapply always_inv; exact Hw|]. specialize (IH2 (i_dead _ _ Ha)).
    pose proof (always_at _ _ _ _ Hw) as He.
    assert (Hfr : fresh h (WIn now ev)). { destruct ev as [[]| | | |]; try exact I. exact He. }
    destruct x as [x|].
    + split; [|discriminate]. intros Hin. apply elem_of_app in Hin as [Hin|Hin]; [auto|].
      rewrite app_comm_cons in Hin. apply elem_of_app in Hin as [Hin|Hin]; [destruct (did_no_crash _ _ _ _ _ _ _ _ Hd Hin)|].
      apply trailer_shape in Hin as [[? [=]]|(y & [= ->] & [= ->])].
      pose proof (i_task _ _ Ha) as Htask. pose proof (i_up _ _ Ha) as Hup.
      inversion Hd; subst; cbn [welcome] in He; rewrite <- ?Htask, <- ?Hup in He; try reflexivity; try contradiction.
      * exfalso. cbn [fresh] in He. destruct He as [He _]. apply He. destruct IH2 as [-> _]. rewrite fmap_app. apply elem_of_app. right.
        rewrite (queue_ids _ _ (i_id _ _ Ha)); [assumption|]. intros t; apply (i_dom _ _ Ha).
      * exfalso. destruct He as [[k Hk]|He]; congruence.
      * exfalso. lia.
      * exfalso. destruct He as [[k Hk]|He]; congruence.
      * exfalso. destruct m; contradiction.
      * exfalso. destruct m; contradiction.
    + cbn [trailer finish] in *. rewrite app_nil_r in *. split; [|intros _; eapply ord_did; eassumption].
      intros Hin. apply elem_of_app in Hin as [Hin|Hin]; [auto|]. destruct (did_no_crash _ _ _ _ _ _ _ _ Hd Hin).
Qed.

(** ** Progress *)
Lemma progress i d start rs k rest n1 n2 n3 :
  working (w_run i d start rs).2 → always fresh (w_run i d start rs).2 →
  up (w_run i d start rs).2 = true → busy (w_run i d start rs).2 = None → waiting (w_run i d start rs).2 = k :: rest →
  ∃ l, (w_run i d start (rs ++ [WRound n1 WLoop; WRound n2 WLoop; WRound n3 WLoop])).2 = (w_run i d start rs).2 ++ l ∧ WHand (MTask k) ∈ l.
Proof.
  intros Hw Hf Hup Hb Hk. apply working_run in Hw. pose proof (run_ainv _ _ _ _ Hw) as Ha. pose proof (ord_run _ _ _ _ Hf Hw) as [Ho _].
  rewrite run_app. destruct (w_run i d start rs) as [a h]; cbn [fst snd] in *.
  destruct Ha as [Hdead Hdom Hnd Hid Htask Hu Hheld Hloop Hlock]. rewrite Hb in Htask. rewrite Hup in Hu. rewrite Hk in Ho.
  destruct a as [ident death q ids l ini tk lock snt lat seen dead]; aa. subst dead tk ini.
  cbn [foldl]. destruct l as [|k'|k'].
  - destruct ids as [|t ids]; [discriminate|]. unfold queue_of in Ho. cbn in Ho. destruct (q !! t) as [k'|] eqn:Eq; [|destruct (proj2 (Hdom t) ltac:(left)); congruence].
    injection Ho as <- _. destruct lock; [destruct Hlock as [[? ?]|[? ?]]; congruence|].
    cbn. rewrite Eq. cbn. eexists. split; [rewrite <- !app_assoc; reflexivity|]. set_solver.
  - injection Ho as <- _. destruct lock; [destruct Hlock as [[? ?]|[? ?]]; congruence|].
    destruct ids as [|t ids]; cbn; [|destruct (proj2 (Hdom t) ltac:(left)) as [k' ->]; cbn]; (eexists; split; [rewrite <- !app_assoc; reflexivity|]; set_solver).
  - injection Ho as <- _. destruct (Hloop k eq_refl) as [-> _].
    destruct ids as [|t ids]; cbn; [|destruct (proj2 (Hdom t) ltac:(left)) as [k' ->]; cbn]; (eexists; split; [rewrite <- !app_assoc; reflexivity|]; set_solver).
Qed.

(** ** Steps *)
Lemma balance_run i d start rs now n : 0 <= n → working (w_run i d start rs).2 →
  let '(a, h) := w_run i d start rs in
  let '(a', h') := w_run i d start (rs ++ [WRound now (WExt (MBalanceRequest n))]) in
  h' = h ++ [WIn now (WExt (MBalanceRequest n)); WOut (MBalanceResponse (take (Z.to_nat n) (a_ids a)))] ∧
  a_ids a' = drop (Z.to_nat n) (a_ids a) ∧ a_loop a' = a_loop a ∧ a_task a' = a_task a.
Proof.
  intros Hn Hw. destruct (run_snoc_did i d start rs now (WExt (MBalanceRequest n)) Hw) as (Ha & a' & out & x & Hd & E). rewrite E.
  destruct (w_run i d start rs) as [a h]; cbn [fst snd] in *.
  inversion Hd; subst; cbn [trailer finish app]; aa; [auto|lia|contradiction].
Qed.
Lemma cancel_run i d start rs now t : working (w_run i d start rs).2 →
  let '(a, h) := w_run i d start rs in
  (w_run i d start (rs ++ [WRound now (WExt (MTaskCancel t))])).2 = h ++ WIn now (WExt (MTaskCancel t)) ::
    (if bool_decide (t ∈ a_ids a) then [WOut (MTaskResult t Canceled 0 "")]
     else if up h then
       match busy h with
       | Some k => if String.eqb (task_id k) t then [WStart; WOut (MTaskResult t Canceled 0 "")] else [WOut (MTaskResult t NotFound 0 "")]
       | None => [WCrash AttributeError]
       end
     else [WOut (MTaskResult t NotFound 0 "")]).
Proof.
  intros Hw. destruct (run_snoc_did i d start rs now (WExt (MTaskCancel t)) Hw) as (Ha & a' & out & x & Hd & E). rewrite E.
  destruct (w_run i d start rs) as [a h]; cbn [fst snd] in *. rewrite <- (i_task _ _ Ha), <- (i_up _ _ Ha). f_equal. f_equal.
  inversion Hd; subst; cbn [trailer finish app].
  - rewrite bool_decide_eq_true_2 by assumption. reflexivity.
  - rewrite bool_decide_eq_false_2 by assumption.
    repeat match goal with Hx : a_init _ = true |- _ => rewrite Hx | Hx : a_task _ = Some _ |- _ => rewrite Hx | Hx : a_task _ = None |- _ => rewrite Hx end. rewrite String.eqb_refl. reflexivity.
  - rewrite bool_decide_eq_false_2 by assumption. match goal with Hx : a_init _ = false ∨ _ |- _ => destruct Hx as [->|(k & Hk & Hne)]; [reflexivity|] end. rewrite Hk. apply String.eqb_neq in Hne. rewrite Hne. destruct (a_init _); reflexivity.
  - rewrite bool_decide_eq_false_2 by assumption.
    repeat match goal with Hx : a_init _ = true |- _ => rewrite Hx | Hx : a_task _ = Some _ |- _ => rewrite Hx | Hx : a_task _ = None |- _ => rewrite Hx end. reflexivity.
  - contradiction.
Qed.

(** ** A worker whose processor says nothing *)
Definition quiet (t : bytes) (e : wevent) : Prop :=
  match e with
  | WProc (MTaskResult t' _ _ _) | WExt (MTaskCancel t') => t' ≠ t
  | _ => True
  end.
Lemma stuck_run i d start rs k rs' : busy (w_run i d start rs).2 = Some k → Forall (λ r, quiet (task_id k) (wr_event r)) rs' →
  ∃ l, (w_run i d start (rs ++ rs')).2 = (w_run i d start rs).2 ++ l ∧
    busy (w_run i d start (rs ++ rs')).2 = Some k ∧
    (∀ k', WHand (MTask k') ∉ l) ∧ (∀ st dd p, WOut (MTaskResult (task_id k) st dd p) ∉ l).
Proof.
  intros Hb. induction rs' as [|[now e] rs' IH] using rev_ind; intros Hq.
  { exists []. rewrite !app_nil_r. split; [reflexivity|]. split; [exact Hb|]. split; set_solver. }
  apply Forall_app in Hq as [Hq1 Hq2]. inversion Hq2 as [|? ? Hq _]; subst. cbn [wr_event] in Hq.
  destruct (IH Hq1) as (l & E & Hb' & Hl1 & Hl2). rewrite app_assoc.
  destruct (a_dead (w_run i d start (rs ++ rs')).1) as [x|] eqn:Ed.
  - assert (Es : w_run i d start ((rs ++ rs') ++ [WRound now e]) = w_run i d start (rs ++ rs')).
    { rewrite run_app. cbn [foldl]. destruct (w_run i d start (rs ++ rs')) as [a h]. unfold w_step. cbn [fst] in Ed. rewrite Ed. reflexivity. }
    rewrite Es. exists l. auto.
  - destruct (run_snoc_did i d start (rs ++ rs') now e ltac:(apply working_run; exact Ed)) as (Ha & a' & out & x & Hd & Es).
    rewrite Es. cbn [snd]. clear Es. set (h := (w_run i d start (rs ++ rs')).2) in *. set (a := (w_run i d start (rs ++ rs')).1) in *. clearbody h a.
    exists (l ++ WIn now e :: out ++ trailer x a'). split; [rewrite E, <- app_assoc; reflexivity|]. clear E.
    pose proof (i_task _ _ Ha) as Ht. rewrite Hb' in Ht. destruct (i_held _ _ Ha _ Ht) as (Hi & Hlk & Hnl).
    assert (Hres : ∀ s, foldl busy_step s (trailer x a') = s).
    { intros s. destruct x as [x|]; [|reflexivity]. cbn [trailer]. unfold w_end. destruct x; reflexivity. }
    rewrite busy_input, foldl_app, Hres, Hb'. clear Hres.
    assert (Hout : (foldl busy_step (Some k, match e with WProc _ => true | _ => false end) out).1 = Some k ∧ (∀ k', WHand (MTask k') ∉ out) ∧
                   ∀ st dd p, WOut (MTaskResult (task_id k) st dd p) ∉ out).
    { inversion Hd; subst; cbn [quiet] in Hq; cbn [foldl busy_step fst]; (split; [try reflexivity; exfalso; congruence|]); (split; [set_solver|]);
        intros st' dd' p'; rewrite ?elem_of_cons, elem_of_nil; intuition congruence. }
    destruct Hout as (H1 & H2 & H3). split; [exact H1|]. split.
    + intros k'. rewrite elem_of_app, elem_of_cons, elem_of_app. intros [Hx|[Hx|[Hx|Hx]]]; [exact (Hl1 _ Hx)|discriminate|exact (H2 _ Hx)|].
      apply trailer_shape in Hx as [[? [=]]|(? & [=] & _)].
    + intros st dd p. rewrite elem_of_app, elem_of_cons, elem_of_app. intros [Hx|[Hx|[Hx|Hx]]]; [exact (Hl2 _ _ _ Hx)|discriminate|exact (H3 _ _ _ Hx)|].
      apply trailer_shape in Hx as [[? [=]]|(? & [=] & _)].
Qed.
Lemma echo_run i d start rs now : always clock_runs (w_run i d start rs).2 → working (w_run i d start rs).2 →
  unechoed (w_run i d start rs).2 = false →
  w_run i d start (rs ++ [WRound now (WExt MHeartbeatEcho)]) = ((w_run i d start rs).1, (w_run i d start rs).2 ++ [WIn now (WExt MHeartbeatEcho)]).
Proof.
  intros Hc Hw Hu. destruct (run_snoc_did i d start rs now (WExt MHeartbeatEcho) Hw) as (Ha & a' & out & x & Hd & ->).
  apply working_run in Hw. destruct (beats_run _ _ _ _ Hc) as [_ Hb]. destruct (Hb Hw) as [Hs _]. rewrite Hu in Hs.
  remember (w_run i d start rs).1 as a eqn:Ea. clear Ea. inversion Hd; subst; cbn [finish trailer app].
  - exfalso. assert (false = true) by (apply Hs; assumption). discriminate.
  - reflexivity.
  - contradiction.
Qed.
