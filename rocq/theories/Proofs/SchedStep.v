(** What single rounds do (C27-C31, C33, C34, C36, C39). *)

From Verif.Model Require Import Base OneToManyDict PriorityQueue Allocator Message Sorter Scheduler.
From Verif.Spec Require Import AllocatorSpec DictSpec SchedulerSpec.
From Verif.Proofs Require Import BaseProofs DictProofs AllocatorProofs SchedWp SchedCount SchedHold SchedContent SchedSend SchedPrim SchedFn SchedGlobal.

Notation begin s r := (set_log (λ l, l ++ [LIn (rd_now r) (rd_event r)]) (set_now (λ _, rd_now r) (set_codes (λ _, rd_codes r) s))).
Notation crash e s := (set_dead (λ _, Some e) (set_log (λ l, l ++ [LCrash e]) s)).
Lemma step_wp s r (Q : sched → Prop) : s_dead s = None →
  wp (handle (rd_event r)) (λ _ s', Q s') (λ e s', Q (crash e s')) (begin s r) → Q (step s r).
Proof. intros Hd. unfold wp, step. rewrite Hd. destruct (handle _ _) as [s' [u|e]]; auto. Qed.
Lemma step_dead s r e : s_dead s = Some e → step s r = s.
Proof. intros Hd. unfold step. rewrite Hd. reflexivity. Qed.
Lemma run_snoc c rs r : run c (rs ++ [r]) = step (run c rs) r.
Proof. unfold run, run_from. rewrite foldl_app. reflexivity. Qed.

Lemma wp_ok {A} (a : A) (Q : A → sched → Prop) (E : exn → sched → Prop) s : Q a s → wp (lift (Ok a)) Q E s.
Proof. exact id. Qed.
Lemma wp_raise {A} e (Q : A → sched → Prop) (E : exn → sched → Prop) s : E e s → wp (lift (Raise e)) Q E s.
Proof. exact id. Qed.
Ltac wok E := wstep; first [rewrite E | setoid_rewrite E]; cbn [from_option_exn]; apply wp_ok.

(** ** The function cache (C27, C29) *)
Lemma prim_funcs_keep a b h f i s s' : rtc (prim a (λ _, False) b h) s s' → s_funcs s !! f = Some i →
  ∃ i', s_funcs s' !! f = Some i' ∧ fi_name i' = fi_name i ∧ fi_content i' = fi_content i.
Proof.
  intros H; revert i; induction H as [s|s1 s2 s3 H _ IH]; intros i Hi; [eauto|].
  assert (∃ i', s_funcs s2 !! f = Some i' ∧ fi_name i' = fi_name i ∧ fi_content i' = fi_content i) as (i2 & H2 & E1 & E2).
  { destruct H; ss; eauto; [..|done].
    - destruct (decide (f0 = f)) as [->|Hne]; [|rewrite lookup_insert_ne by done; eauto].
      rewrite lookup_insert. eexists. split; [reflexivity|]. cbn. split; congruence.
    - destruct (decide (f0 = f)) as [->|Hne]; [congruence|rewrite lookup_insert_ne by done; eauto]. }
  destruct (IH i2 H2) as (i' & H' & E1' & E2'). exists i'. split; [exact H'|]. split; congruence.
Qed.
Lemma prim_funcs_from (a : bytes → bytes → bytes → Prop) d b h f i s s' : rtc (prim a d b h) s s' → s_funcs s' !! f = Some i →
  (∃ i0, s_funcs s !! f = Some i0 ∧ fi_name i0 = fi_name i ∧ fi_content i0 = fi_content i) ∨ a f (fi_name i) (fi_content i).
Proof.
  intros H; revert i; induction H as [s|s1 s2 s3 H _ IH]; intros i Hi; [eauto|].
  destruct (IH i Hi) as [(i2 & H2 & E1 & E2)|?]; [|auto]. rewrite <- E1, <- E2. clear E1 E2 IH Hi.
  destruct H; ss; eauto.
  - apply lookup_insert_Some in H2 as [[<- <-]|[_ H2]]; [|eauto]. cbn. eauto.
  - apply lookup_insert_Some in H2 as [[<- <-]|[_ H2]]; [|eauto]. cbn. eauto.
  - apply lookup_delete_Some in H2 as [_ H2]. eauto.
Qed.
Lemma round_path (a : bytes → bytes → bytes → Prop) d (b h : Prop) s r : s_dead s = None → round_adds a d b h s (rd_event r) →
  ∃ s1, rtc (prim a d b h) (begin s r) s1 ∧ (step s r = s1 ∨ ∃ e, step s r = crash e s1).
Proof.
  intros Hd Hr. unfold step. rewrite Hd. pose proof (go_handle a d b h (begin s r) (rd_event r) Hr) as Hw.
  unfold wp in Hw. destruct (handle _ _) as [s' [u|e]]; eauto.
Qed.
(** The Adds a round may make. *)
Definition round_adds_of (s : sched) (e : event) (f n ct : bytes) : Prop :=
  (∃ c, e = ERecv c (MFunctionRequest FnAdd f n ct)) ∨
  (e = EGraph ∧ ∃ c gt, head (s_gqueue s) = Some (c, gt) ∧ (f, (n, ct)) ∈ gt_functions gt).
Lemma round_adds_of_ok d b h s e : 
  match e with ERecv _ (MFunctionRequest FnDelete f _ _) => d f | EFunctions => ∀ f, d f | EWorkers => b | ERecv _ (MHeartbeat _) => h | _ => True end →
  round_adds (round_adds_of s e) d b h s e.
Proof.
  destruct e as [src m| | | | |]; cbn; auto.
  - destruct m; auto. match goal with t : function_request_type |- _ => destruct t end; auto. intros _. left. eauto.
  - intros _. destruct (s_gqueue s) as [|[c gt] q] eqn:E; auto. intros f n ct Hi. right. rewrite E. eauto.
Qed.
Lemma free_ok s e : round_adds (round_adds_of s e) (λ _, True) True True s e.
Proof. apply round_adds_of_ok. destruct e as [? m| | | | |]; auto. destruct m; auto. match goal with t : function_request_type |- _ => destruct t end; auto. Qed.
Lemma all_ok s e : round_adds (λ _ _ _, True) (λ _, True) True True s e.
Proof.
  destruct e as [? m| | | | |]; cbn; auto; [destruct m; auto; match goal with t : function_request_type |- _ => destruct t end; auto|].
  destruct (s_gqueue s) as [|[] ?]; auto.
Qed.
Lemma function_stable_lemma c rs r f i i' : let s := run c rs in
  s_funcs s !! f = Some i → s_funcs (step s r) !! f = Some i' →
  fi_name i' = fi_name i ∧ fi_content i' = fi_content i.
Proof.
  intros s Hi Hi'. destruct (s_dead s) eqn:Hd; [rewrite (step_dead _ _ _ Hd) in Hi'; ss; split; congruence|].
  assert (Hcase : (∀ g n ct, ¬ round_adds_of s (rd_event r) g n ct) ∨
     match rd_event r with ERecv _ (MFunctionRequest FnDelete f _ _) => False | EFunctions => False | _ => True end).
  { destruct (rd_event r) as [src m| | | | |]; cbn; auto; [destruct m; auto; match goal with t : function_request_type |- _ => destruct t end; auto|]; left;
    intros g n ct [[? ?]|[? ?]]; discriminate. }
  destruct Hcase as [Hc|Hc].
  - destruct (round_path _ (λ _, True) True True s r Hd (free_ok _ _)) as (s1 & Hp & Hs).
    assert (Hi1 : s_funcs s1 !! f = Some i') by (destruct Hs as [<-|[e E]]; [exact Hi'|rewrite E in Hi'; exact Hi']).
    destruct (prim_funcs_from _ _ _ _ _ _ _ _ Hp Hi1) as [(i0 & H0 & E1 & E2)|Hb]; [|destruct (Hc _ _ _ Hb)].
    ss. assert (i0 = i) as -> by (subst s; congruence). auto.
  - destruct (round_path (round_adds_of s (rd_event r)) (λ _, False) True True s r Hd) as (s1 & Hp & Hs).
    { apply round_adds_of_ok. destruct (rd_event r) as [? m| | | | |]; auto; done. }
    assert (Hi1 : s_funcs s1 !! f = Some i') by (destruct Hs as [<-|[e E]]; [exact Hi'|rewrite E in Hi'; exact Hi']).
    destruct (prim_funcs_keep _ _ _ _ _ _ _ Hp Hi) as (i2 & H2 & E1 & E2). assert (i2 = i') as -> by congruence. auto.
Qed.
Lemma function_from_app f n ct h l : function_from f n ct h → function_from f n ct (h ++ l).
Proof.
  intros [[c H]|(c & g & fs & ts & ns & H & Hf)]; [left; exists c; apply received_app; exact H|].
  right. exists c, g, fs, ts, ns. split; [apply received_app; exact H|exact Hf].
Qed.
Lemma step_log_inner s r : s_dead s = None → ∃ l, s_log (step s r) = s_log s ++ LIn (rd_now r) (rd_event r) :: l ∧ Forall (λ e, match e with LIn _ _ => False | _ => True end) l.
Proof.
  intros Hd. destruct (round_path (λ _ _ _, True) (λ _, True) True True s r Hd (all_ok _ _)) as (s1 & Hp & Hs).
  assert (∃ l, s_log s1 = s_log (begin s r) ++ l ∧ Forall (λ e, match e with LIn _ _ => False | _ => True end) l) as (l & El & Hl).
  { clear Hs. induction Hp as [s0|s0 s2 s3 H _ IH]; [exists []; rewrite app_nil_r; split; [reflexivity|constructor]|].
    destruct IH as (l2 & -> & Hl2). assert (∃ l, s_log s2 = s_log s0 ++ l ∧ Forall (λ e, match e with LIn _ _ => False | _ => True end) l) as (l1 & -> & Hl1).
    { destruct H; ss; try (exists []; rewrite app_nil_r; split; [reflexivity|constructor]; fail). exists [e]. split; [reflexivity|]. constructor; [|constructor]. destruct e; cbn in *; auto. }
    exists (l1 ++ l2). rewrite app_assoc. split; [reflexivity|]. apply Forall_app. auto. }
  ss. rewrite <- app_assoc in El. destruct Hs as [->|[e ->]]; ss.
  - exists l. split; [exact El|exact Hl].
  - exists (l ++ [LCrash e]). rewrite El, <- !app_assoc. split; [reflexivity|]. apply Forall_app. split; [exact Hl|repeat constructor].
Qed.
Lemma step_log s r : ∃ l, s_log (step s r) = s_log s ++ l ∧ (s_dead s = None → ∃ l', l = LIn (rd_now r) (rd_event r) :: l').
Proof.
  destruct (s_dead s) eqn:Hd; [rewrite (step_dead _ _ _ Hd); exists []; rewrite app_nil_r; split; [done|discriminate]|].
  destruct (step_log_inner s r Hd) as (l & -> & _). eexists. split; [reflexivity|]. intros _. eauto.
Qed.
Lemma function_origin_lemma c rs f i : s_funcs (run c rs) !! f = Some i → function_from f (fi_name i) (fi_content i) (s_log (run c rs)).
Proof.
  revert i. induction rs as [|r rs IH] using rev_ind; intros i; [intros H; cbn in H; rewrite lookup_empty in H; discriminate|].
  rewrite run_snoc. set (s := run c rs). intros Hi. destruct (s_dead s) eqn:Hd; [rewrite (step_dead _ _ _ Hd) in *; auto|].
  destruct (round_path _ (λ _, True) True True s r Hd (free_ok _ _)) as (s1 & Hp & Hs).
  assert (Hi1 : s_funcs s1 !! f = Some i) by (destruct Hs as [<-|[e E]]; [exact Hi|rewrite E in Hi; exact Hi]).
  destruct (step_log s r) as (l & El & Hl). destruct (Hl Hd) as [l' ->]. rewrite El.
  destruct (prim_funcs_from _ _ _ _ _ _ _ _ Hp Hi1) as [(i0 & H0 & <- & <-)|Hb].
  - apply function_from_app. apply IH. exact H0.
  - destruct Hb as [[cl E]|[_ (cl & gt & Hh & Hin)]].
    + left. exists cl, (rd_now r). rewrite E. set_solver.
    + apply function_from_app. right. destruct (Inv1_run c rs) as [_ H1]. specialize (H1 Hd).
      exists cl, (gt_id gt), (gt_functions gt), (gt_targets gt), (gt_graph gt). split; [|exact Hin].
      apply (i1_gqueue _ _ _ H1 cl gt). fold s. destruct (s_gqueue s); [discriminate|]. injection Hh as ->. set_solver.
Qed.

(** Answers to function requests. *)
Lemma app_snoc {A} (l : list A) a b : (l ++ [a]) ++ [b] = l ++ [a; b].
Proof. rewrite <- app_assoc. reflexivity. Qed.
Ltac by_step Hd := repeat match goal with x := _ : event |- _ => subst x end; cbv zeta; match goal with |- context [step ?s ?r] => pattern (step s r) end; apply step_wp; [exact Hd|]; cbn [handle on_receive rd_event rd_now rd_codes].
Lemma function_add_lemma s c f n ct now codes : s_dead s = None →
  let ev := ERecv c (MFunctionRequest FnAdd f n ct) in let s' := step s (Round now codes ev) in
  s_dead s' = None ∧
  match s_funcs s !! f with
  | Some i => s_log s' = s_log s ++ [LIn now ev; LSend c (MFunctionResponse FnDuplicated f "" "")] ∧
              ∃ i', s_funcs s' !! f = Some i' ∧ fi_name i' = fi_name i ∧ fi_content i' = fi_content i
  | None => s_log s' = s_log s ++ [LIn now ev; LSend c (MFunctionResponse FnOK f "" "")] ∧
              ∃ i', s_funcs s' !! f = Some i' ∧ fi_name i' = n ∧ fi_content i' = ct
  end.
Proof.
  intros Hd ev. by_step Hd. cbn [fm_on_function]. unfold fm_add, fm_respond. wsteps; ss; (split; [exact Hd|]); rewrite Hm.
  - rewrite app_snoc, lookup_insert. eauto.
  - rewrite app_snoc, lookup_insert. eauto.
Qed.
Lemma function_check_lemma s c f n ct now codes : s_dead s = None →
  let ev := ERecv c (MFunctionRequest FnCheck f n ct) in let s' := step s (Round now codes ev) in
  untouched s s' ∧ s_log s' = s_log s ++ [LIn now ev; LSend c (MFunctionResponse
    (if s_funcs s !! f then FnOK else FnNotExists) f "" "")].
Proof.
  intros Hd ev. by_step Hd. cbn [fm_on_function]. unfold fm_check, fm_respond, fm_has_function. wstep. wstep. ss.
  destruct (s_funcs s !! f) as [i|] eqn:E.
  - rewrite bool_decide_eq_true_2 by eauto. wsteps. ss. rewrite app_snoc. split; [split; reflexivity|reflexivity].
  - rewrite bool_decide_eq_false_2 by (intros [? ?]; discriminate). wsteps. ss. rewrite app_snoc. split; [split; reflexivity|reflexivity].
Qed.
Lemma function_request_lemma s c f n ct now codes : s_dead s = None →
  let ev := ERecv c (MFunctionRequest FnRequest f n ct) in let s' := step s (Round now codes ev) in
  untouched s s' ∧ s_log s' = s_log s ++ [LIn now ev; LSend c
    (match s_funcs s !! f with Some i => MFunctionResponse FnOK f (fi_name i) (fi_content i) | None => MFunctionResponse FnNotExists f "" "" end)].
Proof.
  intros Hd ev. by_step Hd. cbn [fm_on_function]. unfold fm_request. wsteps; ss; rewrite Hm, app_snoc; (split; [split; reflexivity|reflexivity]).
Qed.
(** Users of a function. *)
Lemma function_delete_lemma c rs cl f n ct now codes : let s := run c rs in s_dead s = None →
  let ev := ERecv cl (MFunctionRequest FnDelete f n ct) in let s' := step s (Round now codes ev) in
  s_funcs s' = s_funcs s ∧ s_ftasks s' = s_ftasks s ∧
  if decide (s_funcs s !! f = None) then s_dead s' = None ∧ s_log s' = s_log s ++ [LIn now ev; LSend cl (MFunctionResponse FnNotExists f "" "")]
  else if decide (users s f = ∅) then s_dead s' = Some ValueError ∧ s_log s' = s_log s ++ [LIn now ev; LCrash ValueError]
  else s_dead s' = None ∧ s_log s' = s_log s ++ [LIn now ev; LSend cl (MFunctionResponse FnStillHaveTask f "" "")].
Proof.
  intros s Hd ev. pose proof (Inv5_run c rs Hd) as H5. fold s in H5. unfold users. by_step Hd. cbn [fm_on_function]. unfold fm_delete, fm_has_function, fm_respond. wstep. wstep. ss.
  destruct (s_funcs s !! f) as [i|] eqn:E.
  - rewrite bool_decide_eq_true_2 by eauto. cbn [negb]. destruct (decide (Some i = None)); [discriminate|].
    unfold otm_get_values. pose proof (otm_inv_lookup (s_ftasks s) f (i5_otm _ H5)) as Hl.
    destruct (decide (owned (o_v2k (s_ftasks s)) f = ∅)) as [Eo|Eo]; wstep; wstep; ss; rewrite Hl; cbn [from_option_exn].
    { wstep. apply wp_raise. ss. rewrite app_snoc. auto. }
    wstep. apply wp_ok. destruct (Z.ltb_spec 0 (Z.of_nat (size (owned (o_v2k (s_ftasks s)) f)))) as [Hz|Hz].
    + wsteps. ss. rewrite app_snoc. auto.
    + destruct Eo. apply leibniz_equiv, size_empty_inv. lia.
  - rewrite bool_decide_eq_false_2 by (intros [? ?]; discriminate). cbn [negb]. wsteps. ss. rewrite app_snoc, decide_True by reflexivity. auto.
Qed.

(** ** Expiry (C28) *)
Lemma NoDup_fst_filter {A} (P : bytes * A → Prop) `{∀ x, Decision (P x)} (m : gmap bytes A) : NoDup (filter P (map_to_list m)).*1.
Proof.
  pose proof (NoDup_fst_map_to_list m) as Hn. induction (map_to_list m) as [|x l IH]; [constructor|].
  apply NoDup_cons in Hn as [Hx Hn]. rewrite filter_cons. destruct (decide (P x)); [|auto]. cbn. apply NoDup_cons. split; [|auto].
  intros (y & E & Hy)%elem_of_list_fmap. apply elem_of_list_filter in Hy as [_ Hy]. apply Hx. apply elem_of_list_fmap. eauto.
Qed.
Definition drop_order (w f : bytes) : entry := LSend w (MFunctionRequest FnDelete f "" "").
Lemma run_alloc_ids c rs : s_dead (run c rs) = None → al_worker_ids (s_alloc (run c rs)) = registered (s_log (run c rs)).
Proof.
  intros Hd. destruct (Inv2_run c rs) as [_ H2]. destruct (i2_alloc _ _ (H2 Hd)) as (mq & ml & st & R). exact (step_ids _ _ _ _ _ R).
Qed.
Lemma foreach_emit {A} (f : A → entry) l s : foreach l (λ a, emit (f a)) s = (set_log (λ h, h ++ (f <$> l)) s, Ok tt).
Proof.
  revert s; induction l as [|a l IH]; intros s; cbn.
  - unfold ret. f_equal. destruct s; unfold set_log; cbn. rewrite app_nil_r. reflexivity.
  - unfold bind, emit, modify. rewrite IH. f_equal. destruct s; unfold set_log; cbn. rewrite <- app_assoc. reflexivity.
Qed.
Record drops (fs : list bytes) (s s' : sched) (l : history) : Prop := {
  dr_funcs f : s_funcs s' !! f = (if decide (f ∈ fs) then None else s_funcs s !! f);
  dr_log : s_log s' = s_log s ++ l;
  dr_same : untouched (set_funcs (λ _, s_funcs s') s) s';
  dr_alloc : s_alloc s' = s_alloc s;
  dr_told w f : drop_order w f ∈ l ↔ w ∈ al_worker_ids (s_alloc s) ∧ f ∈ fs;
  dr_only e : e ∈ l → ∃ w f, e = drop_order w f;
  dr_once : NoDup l }.
Lemma drops_foreach l s E : NoDup l →
  wp (foreach l (λ f, do* modify (set_funcs (delete f)) in wm_delete_function f)) (λ _ s', ∃ h, drops l s s' h) E s.
Proof.
  revert s; induction l as [|f l IH]; intros s Hnd; cbn [foreach].
  - exists []. split; try reflexivity; try set_solver; [rewrite app_nil_r; reflexivity|split; reflexivity|constructor].
  - apply NoDup_cons in Hnd as [Hf Hnd]. wsteps. unfold wm_delete_function. wstep. wstep. wstep. wstep. unfold wp.
    change (λ w, send w (MFunctionRequest FnDelete f "" "")) with (λ w, emit (drop_order w f)). rewrite foreach_emit.
    match goal with |- match (foreach l ?g ?s1) with _ => _ end => change (wp (foreach l g) (λ _ s', ∃ h, drops (f :: l) s s' h) E s1) end.
    eapply wp_mono; [apply IH; exact Hnd| |auto]. cbv beta. intros _ s' [h [D1 D2 D3 D4 D5 D6 D7]]. ss.
    exists (((λ w, drop_order w f) <$> l') ++ h). assert (Hids : ∀ w, w ∈ l' ↔ w ∈ al_worker_ids (s_alloc s)) by (intros w; rewrite Hp; apply elem_of_elements).
    split; ss.
    + intros g. rewrite D1. destruct (decide (g = f)) as [->|Hne].
      * rewrite lookup_delete. rewrite (decide_True (P := f ∈ f :: l)) by set_solver. destruct (decide _); reflexivity.
      * rewrite lookup_delete_ne by done. destruct (decide (g ∈ l)); [rewrite decide_True by set_solver; reflexivity|].
        rewrite decide_False by set_solver. reflexivity.
    + rewrite D2, app_assoc. reflexivity.
    + destruct D3; split; ss; assumption.
    + exact D4.
    + intros w g. rewrite elem_of_app, D5, elem_of_list_fmap. split.
      * intros [(w' & [= -> ->] & Hw)|[? ?]]; [rewrite Hids in Hw; set_solver|set_solver].
      * intros [Hw [->|Hg]%elem_of_cons]; [left; exists w; rewrite Hids; auto|auto].
    + intros e [(w & -> & _)%elem_of_list_fmap|He]%elem_of_app; eauto.
    + apply NoDup_app. split; [|split; [|exact D7]].
      * apply NoDup_fmap_2; [intros ? ? [=]; assumption|]. rewrite Hp. apply NoDup_elements.
      * intros e (w & -> & _)%elem_of_list_fmap He. apply D5 in He. tauto.
Qed.
Lemma expiry_lemma c rs now codes : let s := run c rs in s_dead s = None →
  let s' := step s (Round now codes EFunctions) in
  s_dead s' = None ∧
  (∀ f, expires s now f → s_funcs s' !! f = None) ∧
  (∀ f, ¬ expires s now f → s_funcs s' !! f = s_funcs s !! f) ∧
  untouched (set_funcs (λ _, s_funcs s') s) s' ∧
  ∃ l, s_log s' = s_log s ++ LIn now EFunctions :: l ∧ NoDup l ∧
       (∀ w f, LSend w (MFunctionRequest FnDelete f "" "") ∈ l ↔ w ∈ registered (s_log s) ∧ expires s now f) ∧
       (∀ e, e ∈ l → ∃ w f, e = LSend w (MFunctionRequest FnDelete f "" "")).
Proof.
  intros s Hd. pose proof (Inv5_run c rs Hd) as H5. pose proof (run_alloc_ids c rs Hd) as Hids. fold s in H5, Hids.
  by_step Hd. unfold fm_routine. wstep. wstep. wstep. wstep.
  match goal with |- wp (foreach ?l _) _ _ ?s0 => eapply wp_mono; [apply (drops_foreach l s0 (λ _ _, False))| |intros ? ? []] end.
  { rewrite Hp. apply NoDup_fst_filter. }
  cbv beta. intros _ s' [h [D1 D2 D3 D4 D5 D6 D7]]. ss.
  assert (Hex : ∀ f, f ∈ l' ↔ expires s now f).
  { intros f. rewrite Hp, elem_of_list_fmap. split.
    - intros ([f' i] & -> & Hi). apply elem_of_list_filter in Hi as [He Hi]. apply elem_of_map_to_list in Hi. ss.
      unfold fm_expired in He. ss. apply andb_true_iff in He as [He1 He2]. apply Z.ltb_lt in He1.
      rewrite (otm_has_key_spec _ _ (i5_otm _ H5)), negb_involutive in He2. apply bool_decide_eq_true in He2. exists i. auto.
    - intros (i & Hi & He1 & He2). exists (f, i). split; [reflexivity|]. apply elem_of_list_filter. split; [|apply elem_of_map_to_list; exact Hi].
      unfold fm_expired. ss. apply andb_true_iff. split; [apply Z.ltb_lt; exact He1|].
      rewrite (otm_has_key_spec _ _ (i5_otm _ H5)), negb_involutive. apply bool_decide_eq_true. exact He2. }
  split; [destruct D3; ss; congruence|]. split; [|split; [|split]].
  - intros f Hf. rewrite D1, decide_True by (apply Hex; exact Hf). reflexivity.
  - intros f Hf. rewrite D1, decide_False by (rewrite Hex; exact Hf). reflexivity.
  - destruct D3; split; ss; assumption.
  - exists h. split; [rewrite D2, <- app_assoc; reflexivity|]. split; [exact D7|]. split; [|exact D6].
    intros w f. unfold drop_order in D5. rewrite D5, Hids, Hex. reflexivity.
Qed.
