(** * When everybody is punctual, nobody is taken for dead (C85) *)

From Verif.Model Require Import Base OneToManyDict PriorityQueue Allocator Message Client Worker Processor Scheduler System.
From Verif.Spec Require Import AllocatorSpec DictSpec SchedulerSpec SystemSpec FlowSpec PunctualSpec.
From Verif.Proofs Require Import BaseProofs DictProofs AllocatorProofs SchedWp SchedCount SchedHold SchedRemove SchedPlain SchedPolite SchedGlobal SchedStep SystemProofs FlowSched FlowWorker FlowWork FlowClient FlowSystem.

Definition beats (q : list message) : list heartbeat := omap (λ m, match m with MHeartbeat b => Some b | _ => None end) q.
Definition echoes (q : list message) : list unit := omap (λ m, match m with MHeartbeatEcho => Some tt | _ => None end) q.
Lemma beats_app q q' : beats (q ++ q') = beats q ++ beats q'.
Proof. apply omap_app. Qed.
Lemma echoes_app q q' : echoes (q ++ q') = echoes q ++ echoes q'.
Proof. apply omap_app. Qed.
Lemma beats_in q b : b ∈ beats q ↔ MHeartbeat b ∈ q.
Proof.
  unfold beats. rewrite elem_of_list_omap. split; [intros (m & Hm & E); destruct m; try discriminate; injection E as ->; exact Hm|]. intros Hm. exists (MHeartbeat b). auto.
Qed.
Lemma echoes_in q u : u ∈ echoes q ↔ MHeartbeatEcho ∈ q.
Proof.
  unfold echoes. rewrite elem_of_list_omap. split; [intros (m & Hm & E); destruct m; try discriminate; exact Hm|]. intros Hm. exists MHeartbeatEcho. destruct u. auto.
Qed.

(** ** One agent *)
Lemma beat_fold out s : beats (agent_sent out) = [] → (foldl beat_step s out).2 = s.2.
Proof.
  revert s. induction out as [|e out IH]; intros s H; [reflexivity|]. change (e :: out) with ([e] ++ out) in H. unfold agent_sent in H. rewrite omap_app in H. fold (agent_sent out) in H.
  rewrite beats_app in H. apply app_eq_nil in H as [H1 H2]. cbn. rewrite (IH _ H2). destruct e as [| |m| |]; try reflexivity. destruct m; try reflexivity. discriminate.
Qed.
Lemma beat_quiet h now e out : beats (agent_sent out) = [] → beat_sent_at (h ++ WIn now e :: out) = beat_sent_at h.
Proof. intros H. unfold beat_sent_at. rewrite foldl_app. cbn. rewrite (beat_fold _ _ H). reflexivity. Qed.
Lemma beat_loud h now e b : beat_sent_at (h ++ [WIn now e; WOut (MHeartbeat b)]) = Some now.
Proof. unfold beat_sent_at. rewrite foldl_app. reflexivity. Qed.

Definition steady (a a' : agent) : Prop := a_sent a' = a_sent a ∧ a_seen a' = a_seen a.
Lemma take_steady n : ∀ a a' ts e, wt_take n a = (a', ts, e) → steady a a' ∧ a_death a' = a_death a.
Proof.
  induction n as [|n IH]; intros a a' ts e; cbn [wt_take]; [intros [= <- <- <-]; done|]. destruct (a_ids a) as [|t ids] eqn:Ei; [intros [= <- <- <-]; done|]. destruct (a_tasks a !! t); [|intros [= <- <- <-]; done].
  destruct (wt_take n _) as [[a1 ts1] e1] eqn:E. intros [= <- <- <-]. exact (IH _ _ _ _ E).
Qed.
Lemma handle_beat now e a a' out : w_handle now e a = (a', out, None) → (∀ t, e ≠ WExt (MTaskCancel t)) →
  a_death a' = a_death a ∧
  match e with
  | WExt MHeartbeatEcho => beats (agent_sent out) = [] ∧ if a_sent a =? 0 then steady a a' else a_sent a' = 0 ∧ a_seen a' = now
  | WHeartbeat _ _ _ _ => if a_sent a =? 0 then a_sent a' = now ∧ a_seen a' = a_seen a ∧ ∃ b, out = [WOut (MHeartbeat b)] else out = [] ∧ steady a a'
  | _ => beats (agent_sent out) = [] ∧ steady a a'
  end.
Proof.
  intros E He. destruct e as [m|m| | |]; cbn [w_handle] in E.
  - destruct m; try discriminate E; try (by destruct (He _ eq_refl)).
    + unfold wt_new in E. destruct (bool_decide _) in E; [discriminate|]. injection E as <- <-. done.
    + unfold wt_balance in E. destruct (wt_take _ _) as [[a1 ts] [e|]] eqn:Et; [discriminate|]. injection E as <- <-. destruct (take_steady _ _ _ _ _ Et) as [H1 H2]. done.
    + unfold wh_echo in E. destruct (a_sent a =? 0); injection E as <- <-; done.
    + unfold wp_function_request in E. destruct type; try discriminate. injection E as <- <-. done.
    + unfold wp_function_response in E. destruct (negb (a_init a)); [injection E as <- <-; done|]. destruct (a_task a); [|discriminate].
      destruct (negb _); [injection E as <- <-; done|]. destruct status; injection E as <- <-; done.
  - destruct m; try discriminate E.
    + unfold wp_result in E. destruct (negb (a_init a)).
      * destruct (negb _); [injection E as <- <-; done|]. destruct (a_task a); injection E as <- <-; done.
      * destruct (a_task a); [|injection E as <- <-; done]. destruct (negb _); [injection E as <- <-; done|]. destruct (a_lock a); [|discriminate]. injection E as <- <-. done.
    + unfold wp_internal_request in E. destruct (negb (a_init a)); [injection E as <- <-; done|]. destruct (a_task a); [|injection E as <- <-; done].
      destruct (negb _); [injection E as <- <-; done|]. destruct type; try discriminate; injection E as <- <-; done.
  - unfold wt_loop in E. destruct (a_loop a).
    + destruct (a_ids a); [injection E as <- <-; done|]. destruct (_ !! _); [|discriminate]. injection E as <- <-. done.
    + destruct (a_lock a); injection E as <- <-; done.
    + destruct (negb _); [injection E as <- <-; done|]. destruct (a_task a); [discriminate|]. injection E as <- <-. done.
  - unfold wh_routine in E. destruct (a_sent a =? 0); cbn [negb] in E; injection E as <- <-; [|done]. split; [done|]. split; [done|]. split; [done|]. eexists. reflexivity.
  - unfold wo_routine in E. destruct (_ <? _); [|discriminate]. injection E as <- <-. done.
Qed.

(** ** Where the heartbeat of a worker is *)
Section clock.
  Context (d h : Z).
  Inductive heart (R : list Z) (a : agent) (hist : list wentry) (Qws Qsw : list message) (lb : option (Z * heartbeat)) : Prop :=
  | resting : a_sent a = 0 → beats Qws = [] → echoes Qsw = [] → (∀ t, t ∈ R → t <= a_seen a) → (∀ t b, lb = Some (t, b) → a_seen a <= t + d) → heart R a hist Qws Qsw lb
  | going b : a_sent a ≠ 0 → beat_sent_at hist = Some (a_sent a) → a_sent a <= a_seen a + h → beats Qws = [b] → echoes Qsw = [] →
      (∀ t b, lb = Some (t, b) → a_seen a <= t + d) → heart R a hist Qws Qsw lb
  | coming t b : a_sent a ≠ 0 → beats Qws = [] → echoes Qsw = [tt] → lb = Some (t, b) → t <= a_seen a + h + d → heart R a hist Qws Qsw lb.

  Record timed (before : list action) (y : system) : Prop := {
    tm_heart w x : y_workers y !! w = Some x → heart (rounds w before) (n_agent x) (n_history x) (to_scheduler y w) (to_agent y w x) (last_beat w (s_log (y_sched y)));
    tm_start w x : y_workers y !! w = Some x → ∃ death now retention, NewWorker w death now retention ∈ before;
    tm_death w x : y_workers y !! w = Some x → 2 * d + h < a_death (n_agent x) }.

  (** What the invariant says about silence. *)
  Lemma heart_seen R a hist Qws Qsw lb now : 0 <= d → 0 <= h → heart R a hist Qws Qsw lb → (∃ t, t ∈ R ∧ now - t <= h) →
    (∀ b t, MHeartbeat b ∈ Qws → beat_sent_at hist = Some t → now - t <= d) → (∀ b t, MHeartbeatEcho ∈ Qsw → lb = Some (t, b) → now - t <= d) →
    now - a_seen a <= 2 * d + h ∧ ∀ t b, lb = Some (t, b) → now - t <= 2 * d + h.
  Proof.
    intros Hd Hh H (r & Hr & Hn) P1 P2. destruct H as [_ _ _ Hrest Hlb|b Hs Hat Hle Hb _ Hlb|t b Hs _ He -> Hle].
    - specialize (Hrest r Hr). split; [lia|]. intros t b E. specialize (Hlb t b E). lia.
    - assert (Hi : MHeartbeat b ∈ Qws) by (apply beats_in; rewrite Hb; left). specialize (P1 b _ Hi Hat). split; [lia|]. intros t b' E. specialize (Hlb t b' E). lia.
    - assert (Hi : MHeartbeatEcho ∈ Qsw) by (apply (echoes_in _ tt); rewrite He; left). specialize (P2 b t Hi eq_refl). split; [lia|]. intros t' b' [= <- <-]. lia.
  Qed.
  Lemma heart_same R R' a a' hist hist' Qws Qws' Qsw Qsw' lb lb' : heart R a hist Qws Qsw lb → steady a a' → (a_sent a = 0 → ∀ t, t ∈ R' → t ∈ R) → beat_sent_at hist' = beat_sent_at hist →
    beats Qws' = beats Qws → echoes Qsw' = echoes Qsw → lb' = lb → heart R' a' hist' Qws' Qsw' lb'.
  Proof.
    intros H [S1 S2] HR Hh HQ HE ->. destruct H as [H1 H2 H3 H4 H5|b H1 H2 H3 H4 H5 H6|t b H1 H2 H3 H4 H5].
    - apply resting; rewrite ?S1, ?S2, ?HQ, ?HE; auto.
    - eapply (going _ _ _ _ _ _ b); rewrite ?S1, ?S2, ?HQ, ?HE, ?Hh; auto.
    - eapply (coming _ _ _ _ _ _ t b); rewrite ?S1, ?S2, ?HQ, ?HE; auto.
  Qed.

  Lemma rounds_snoc w before a : rounds w (before ++ [a]) =
    match a with
    | NewWorker v _ now _ => if String.eqb v w then take 1 (omap (λ a, match a with NewWorker v _ now _ => if String.eqb v w then Some now else None | _ => None end) before ++ [now]) ++ drop (length (take 1 (omap (λ a, match a with NewWorker v _ now _ => if String.eqb v w then Some now else None | _ => None end) before))) (rounds w before) else rounds w before
    | AgentDoes v now (WHeartbeat _ _ _ _) => if String.eqb v w then rounds w before ++ [now] else rounds w before
    | _ => rounds w before
    end.
  Proof.
    unfold rounds. rewrite !omap_app. cbn [omap list_omap].
    destruct a as [c|v death now retention|c e|c m loads|now codes e|from m now codes|v now e|v m now|v m now|v now e|v m loads now]; rewrite ?app_nil_r; try reflexivity.
    - destruct (String.eqb v w); rewrite ?app_nil_r; [|reflexivity]. rewrite drop_app. reflexivity.
    - destruct e; rewrite ?app_nil_r; try reflexivity. destruct (String.eqb v w); rewrite ?app_nil_r, ?app_assoc; reflexivity.
  Qed.
  Lemma rounds_moment w before t : t ∈ rounds w before → t ∈ omap moment before.
  Proof.
    unfold rounds. rewrite elem_of_app. intros [H|H].
    - match type of H with _ ∈ take 1 ?l => assert (H' : t ∈ l) by (rewrite <- (take_drop 1 l); apply elem_of_app; left; exact H); clear H; rename H' into H end. apply elem_of_list_omap in H as (a & Ha & E). apply elem_of_list_omap. exists a. split; [exact Ha|]. destruct a; try discriminate. destruct (String.eqb w0 w); [exact E|discriminate].
    - apply elem_of_list_omap in H as (a & Ha & E). apply elem_of_list_omap. exists a. split; [exact Ha|]. destruct a; try discriminate. destruct e; try discriminate. destruct (String.eqb w0 w); [exact E|discriminate].
  Qed.
  Lemma rounds_started w before v death now retention : (∃ death now retention, NewWorker w death now retention ∈ before) → rounds w (before ++ [NewWorker v death now retention]) = rounds w before.
  Proof.
    intros (d' & n' & r' & Hi). rewrite rounds_snoc. destruct (String.eqb_spec v w) as [->|]; [|reflexivity].
    set (l := omap _ before). assert (Hl : n' ∈ l). { apply elem_of_list_omap. exists (NewWorker w d' n' r'). split; [exact Hi|]. rewrite String.eqb_refl. reflexivity. }
    unfold rounds. fold l. rewrite drop_app. f_equal. destruct l as [|z l]; [by apply elem_of_nil in Hl|]. reflexivity.
  Qed.

  (** ** The steps *)
  Section steps.
    Context (cfg : config) (g : ledger) (y : system) (before : list action) (H : flow cfg ∅ g y) (HT : timed before y).

    Lemma timed_same a y' : y_workers y' = y_workers y → s_log (y_sched y') = s_log (y_sched y) → (∀ w x, y_workers y !! w = Some x → rounds w (before ++ [a]) = rounds w before ∧ to_scheduler y' w = to_scheduler y w) →
      timed (before ++ [a]) y'.
    Proof.
      intros Ew Es Hq. split; rewrite Ew; intros w x Hx.
      - destruct (Hq w x Hx) as [-> ->]. unfold to_agent. rewrite Es. exact (tm_heart _ _ HT w x Hx).
      - destruct (tm_start _ _ HT w x Hx) as (de & n & r & Hi). exists de, n, r. apply elem_of_app. auto.
      - exact (tm_death _ _ HT w x Hx).
    Qed.

    Lemma beat_step_log r w : s_dead (y_sched y) = None → last_beat w (s_log (step (y_sched y) r)) =
      match rd_event r with ERecv v (MHeartbeat b) => if String.eqb v w then Some (rd_now r, b) else last_beat w (s_log (y_sched y)) | _ => last_beat w (s_log (y_sched y)) end.
    Proof.
      intros Hd. destruct (step_log_inner (y_sched y) r Hd) as (l & -> & Hl). change (LIn (rd_now r) (rd_event r) :: l) with ([LIn (rd_now r) (rd_event r)] ++ l). rewrite app_assoc.
      assert (E : ∀ h', last_beat w (h' ++ l) = last_beat w h').
      { clear -Hl. induction Hl as [|e l He _ IH]; intros h'; [rewrite app_nil_r; reflexivity|]. change (e :: l) with ([e] ++ l). rewrite app_assoc, IH, last_beat_snoc. destruct e; try done. }
      rewrite E, last_beat_snoc. destruct (rd_event r) as [v m| | | | |]; try reflexivity.
    Qed.

    (** A step of the scheduler. *)
    Lemma timed_sched a r : (∀ w, rounds w (before ++ [a]) = rounds w before) →
      (∀ w x, y_workers y !! w = Some x → ∃ Q out, to_scheduler y w = rcvd w (rd_event r) ++ Q ∧ to_agent (set_sched (step (y_sched y) r) y) w x = to_agent y w x ++ out ∧
         ((beats (rcvd w (rd_event r)) = [] ∧ echoes out = []) ∨
          ∃ b, rcvd w (rd_event r) = [MHeartbeat b] ∧ echoes out = [tt] ∧ ∀ b' t, MHeartbeat b' ∈ to_scheduler y w → beat_sent_at (n_history x) = Some t → rd_now r - t <= d)) →
      timed (before ++ [a]) (set_sched (step (y_sched y) r) y).
    Proof.
      intros HR Hw. pose proof (c_dead _ _ _ _ _ (fl_core H)) as Hd. split; cbn [y_workers set_sched]; intros w x Hx.
      - destruct (Hw w x Hx) as (Q & out & EQ & EA & HQ). rewrite HR, (queue_in _ _ _ r H w Q EQ), EA. cbn [y_sched set_sched]. rewrite (beat_step_log r w Hd).
        pose proof (tm_heart _ _ HT w x Hx) as HH. rewrite EQ in HH. destruct HQ as [[Hb He]|(b & Hb & He & Hp)].
        + eapply heart_same; [exact HH|split; reflexivity|auto|reflexivity|rewrite beats_app, Hb; reflexivity|rewrite echoes_app, He, app_nil_r; reflexivity|].
          unfold rcvd in Hb. destruct (rd_event r) as [v m| | | | |]; try reflexivity. destruct (String.eqb v w); [|destruct m; reflexivity]. destruct m; try reflexivity. discriminate.
        + rewrite EQ in Hp. rewrite Hb in HH, Hp. assert (Ev : rd_event r = ERecv w (MHeartbeat b)).
          { unfold rcvd in Hb. destruct (rd_event r) as [v m| | | | |]; try discriminate. destruct (String.eqb_spec v w) as [->|]; [|discriminate]. injection Hb as ->. reflexivity. }
          rewrite Ev, String.eqb_refl. destruct HH as [_ Hn _ _ _|b' H1 H2 H3 H4 H5 _|t b' _ Hn _ _ _]; try discriminate.
          cbn in H4. injection H4 as -> H4. eapply coming; [exact H1|exact H4|rewrite echoes_app, H5, He; reflexivity|reflexivity|].
          specialize (Hp b' (a_sent (n_agent x)) ltac:(cbn; left) H2). lia.
      - destruct (tm_start _ _ HT w x Hx) as (de & n & r' & Hi). exists de, n, r'. apply elem_of_app. auto.
      - exact (tm_death _ _ HT w x Hx).
    Qed.

    (** A step of an agent. *)
    Lemma timed_agent w x now e Q a : y_workers y !! w = Some x → to_agent y w x = match e with WExt m => [m] | _ => [] end ++ Q →
      match e with WProc m => head (from_processor x) = Some m | WTimeout => now - a_seen (n_agent x) < a_death (n_agent x) | _ => True end →
      0 < now → (∀ t, t ∈ rounds w before → t <= now) → (∃ t, t ∈ rounds w before ∧ now - t <= h) →
      (∀ b t, MHeartbeatEcho ∈ to_agent y w x → last_beat w (s_log (y_sched y)) = Some (t, b) → now - t <= d) →
      (∀ v, rounds v (before ++ [a]) = match e with WHeartbeat _ _ _ _ => if String.eqb w v then rounds v before ++ [now] else rounds v before | _ => rounds v before end) →
      timed (before ++ [a]) (set_worker w (agent_step now e x) y).
    Proof.
      intros Hx HQ He Hnow Hcl Hp1 Hp2 HR. destruct (flow_agent _ _ _ H w x now e Q Hx HQ He) as (out & _ & Es & HF & Eq & Eq').
      destruct (fl_worker H w x Hx) as (L & qs & HL & HW).
      assert (Hw' : y_workers (set_worker w (agent_step now e x) y) !! w = Some (agent_step now e x)) by (cbn; apply lookup_insert).
      destruct (fl_worker HF w _ Hw') as (L' & qs' & _ & HW').
      assert (Hnc : ∀ t, e ≠ WExt (MTaskCancel t)). { intros t ->. pose proof (wo_sw _ _ _ _ _ _ _ HW) as Hsw. rewrite HQ in Hsw. cbn in Hsw. apply Forall_cons in Hsw as [[] _]. }
      destruct (agent_inv now e x (wo_alive _ _ _ _ _ _ _ HW) (wo_alive _ _ _ _ _ _ _ HW') Hnc) as (a' & out' & E & Hout & Ea).
      assert (out = agent_sent out') as ->. { rewrite Ea in Es. cbn [n_history] in Es. unfold agent_sent in Es. rewrite omap_app in Es. apply app_inv_head in Es. symmetry. exact Es. }
      destruct (handle_beat _ _ _ _ _ E Hnc) as [Hde Hb].
      assert (En1 : n_agent (agent_step now e x) = a') by (rewrite Ea; reflexivity). assert (En2 : n_history (agent_step now e x) = n_history x ++ WIn now e :: out') by (rewrite Ea; reflexivity).
      set (x' := agent_step now e x) in *. clearbody x'.
      assert (HR' : ∀ v, v ≠ w → rounds v (before ++ [a]) = rounds v before). { intros v Hv. rewrite HR. destruct e; try reflexivity. rewrite eqb_ne by done. reflexivity. }
      split; cbn [y_workers set_worker]; intros i z.
      - destruct (decide (i = w)) as [->|Hi]; [rewrite lookup_insert; intros [= <-]|rewrite lookup_insert_ne by done; intros Hz].
        + rewrite Eq, Eq', En1, En2. cbn [y_sched set_worker]. pose proof (tm_heart _ _ HT w x Hx) as HH. rewrite HQ in HH, Hp2.
          assert (Hquiet : beats (agent_sent out') = [] → steady (n_agent x) a' → echoes match e with WExt m => [m] | _ => [] end = [] → (∀ ac ar wc wr, e = WHeartbeat ac ar wc wr → a_sent (n_agent x) ≠ 0) →
            heart (rounds w (before ++ [a])) a' (n_history x ++ WIn now e :: out') (to_scheduler y w ++ agent_sent out') Q (last_beat w (s_log (y_sched y)))).
          { intros B S Ee Hne. eapply heart_same; [exact HH|exact S| |apply beat_quiet, B|rewrite beats_app, B, app_nil_r; reflexivity|rewrite echoes_app, Ee; reflexivity|reflexivity].
            intros H0 t. rewrite HR. destruct e; auto. destruct (Hne _ _ _ _ eq_refl H0). }
          destruct e as [m|m| |ac ar wc wr|]; try (destruct Hb as [Hb1 Hb2]; apply Hquiet; [exact Hb1|exact Hb2|reflexivity|discriminate]).
          * destruct m; try (destruct Hb as [Hb1 Hb2]; apply Hquiet; [exact Hb1|exact Hb2|reflexivity|discriminate]).
            destruct Hb as [Hb1 Hb2]. destruct HH as [_ _ Hn _ _|b H1 H2 H3 H4 H5 H6|t b H1 H2 H3 H4 H5]; try discriminate.
            destruct (Z.eqb_spec (a_sent (n_agent x)) 0) as [|_]; [done|]. destruct Hb2 as [S1 S2]. cbn in H3. injection H3 as H3.
            apply resting; [exact S1|rewrite beats_app, H2, Hb1; reflexivity|exact H3|..].
            -- intros r Hr. rewrite S2. apply Hcl. rewrite HR in Hr. exact Hr.
            -- intros t' b' E'. rewrite S2. specialize (Hp2 b' t' ltac:(left) E'). lia.
          * destruct (Z.eqb_spec (a_sent (n_agent x)) 0) as [H0|H0].
            -- destruct Hb as (S1 & S2 & b & ->). destruct HH as [_ H2 H3 H4 H5|b' H1|t b' H1]; [|done..].
               destruct Hp1 as (t & Ht & Hle). specialize (H4 t Ht). eapply (going _ _ _ _ _ _ b); rewrite ?S1, ?S2; [lia|apply beat_loud|lia|rewrite beats_app, H2; reflexivity|exact H3|exact H5].
            -- destruct Hb as [-> Hb]. apply Hquiet; [reflexivity|exact Hb|reflexivity|auto].
        + rewrite (HR' i Hi), (queue_other_worker y w x' i Hi). exact (tm_heart _ _ HT i z Hz).
      - intros Hz. assert (Hz' : is_Some (y_workers y !! i)). { destruct (decide (i = w)) as [->|Hi]; [eauto|]. rewrite lookup_insert_ne in Hz by done. eauto. }
        destruct Hz' as [z' Hz']. destruct (tm_start _ _ HT i z' Hz') as (de & n & r & Hi'). exists de, n, r. apply elem_of_app. auto.
      - destruct (decide (i = w)) as [->|Hi]; [rewrite lookup_insert; intros [= <-]; rewrite En1, Hde; exact (tm_death _ _ HT w x Hx)|rewrite lookup_insert_ne by done; exact (tm_death _ _ HT i z)].
    Qed.
    Lemma timed_processor w x now e a : y_workers y !! w = Some x → (∀ v, rounds v (before ++ [a]) = rounds v before) →
      match e with PRun o _ => o ≠ Ended | PMsg m loads => loads = true ∧ head (to_processor x) = Some m | _ => True end →
      timed (before ++ [a]) (set_worker w (processor_step now e x) y).
    Proof.
      intros Hx HR He. destruct (flow_processor _ _ _ H w x now e Hx He) as (_ & En & Eh & HF & Eq & Eq').
      set (x' := processor_step now e x) in *. clearbody x'. split; cbn [y_workers set_worker]; intros i z.
      - destruct (decide (i = w)) as [->|Hi]; [rewrite lookup_insert; intros [= <-]|rewrite lookup_insert_ne by done; intros Hz].
        + rewrite HR, Eq, Eq', En, Eh. exact (tm_heart _ _ HT w x Hx).
        + rewrite HR, (queue_other_worker y w x' i Hi). exact (tm_heart _ _ HT i z Hz).
      - intros Hz. assert (Hz' : is_Some (y_workers y !! i)). { destruct (decide (i = w)) as [->|Hi]; [eauto|]. rewrite lookup_insert_ne in Hz by done. eauto. }
        destruct Hz' as [z' Hz']. destruct (tm_start _ _ HT i z' Hz') as (de & n & r & Hi'). exists de, n, r. apply elem_of_app. auto.
      - destruct (decide (i = w)) as [->|Hi]; [rewrite lookup_insert; intros [= <-]; rewrite En; exact (tm_death _ _ HT w x Hx)|rewrite lookup_insert_ne by done; exact (tm_death _ _ HT i z)].
    Qed.
    Lemma unheard w l : heard_from w l = [] → last_beat w l = None.
    Proof.
      clear. induction l as [|e l IH] using rev_ind; [reflexivity|]. unfold heard_from. rewrite omap_app. intros [E1 E2]%app_eq_nil. rewrite last_beat_snoc.
      specialize (IH E1). destruct e as [now ev| | | | | |]; try exact IH. destruct ev as [v m| | | | |]; try exact IH. cbn in E2. destruct (String.eqb v w); [discriminate|]. destruct m; exact IH.
    Qed.
  End steps.

  Lemma for_part_echoes w out : (∀ v m, (v, m) ∈ out → m ≠ MHeartbeatEcho) → echoes (for_part w out) = [].
  Proof.
    intros Ho. destruct (echoes (for_part w out)) as [|u l] eqn:E; [reflexivity|]. exfalso. assert (Hi : u ∈ echoes (for_part w out)) by (rewrite E; left).
    apply echoes_in, elem_of_for_part in Hi. exact (Ho _ _ Hi eq_refl).
  Qed.

  Definition clock_ok (before : list action) (a : action) : Prop := ∀ now, moment a = Some now → 0 < now ∧ ∀ t, t ∈ omap moment before → t <= now.

  Lemma not_silent cfg g y before now w : flow cfg ∅ g y → timed before y → 0 <= d → 0 <= h → 2 * d + h <= c_timeout cfg →
    (∀ w x, y_workers y !! w = Some x →
      (∃ t, t ∈ rounds w before ∧ now - t <= h) ∧ (∀ b t, MHeartbeat b ∈ to_scheduler y w → beat_sent_at (n_history x) = Some t → now - t <= d) ∧
      (∀ b t, MHeartbeatEcho ∈ to_agent y w x → last_beat w (s_log (y_sched y)) = Some (t, b) → now - t <= d)) →
    ¬ silent (c_timeout cfg) now (s_log (y_sched y)) w.
  Proof.
    intros H HT Hd Hh Hle HP Hs. destruct (ok_run _ _ (fl_ok H)) as [rs Hrs]. pose proof (silent_iff cfg rs now w) as Hi. rewrite <- Hrs in Hi.
    destruct (proj2 (Hi (c_dead _ _ _ _ _ (fl_core H))) Hs) as (p & Hp & _). destruct Hs as (_ & t & b & Hl & Ht).
    assert (Hw : w ∈ lg_workers g). { rewrite <- (c_alive _ _ _ _ _ (fl_core H)). apply elem_of_dom. eauto. }
    destruct (fl_known H _ Hw) as [x Hx]. destruct (HP w x Hx) as (P1 & P2 & P3).
    destruct (heart_seen _ _ _ _ _ _ now Hd Hh (tm_heart _ _ HT w x Hx) P1 P2 P3) as [_ G]. specialize (G t b Hl). lia.
  Qed.

  Lemma calm_orderly cfg g y before a : flow cfg ∅ g y → timed before y → 0 <= d → 0 <= h → 2 * d + h <= c_timeout cfg → punctual d h before y a → calm_action y a → orderly y a.
  Proof.
    intros H HT Hd Hh Hle HP Ha. destruct a as [c|w death now retention|c e|c m loads|now codes e|from m now codes|w now e|w m now|w m now|w now e|w m loads now]; try exact Ha.
    - destruct e as [i m| | | | |]; try exact Ha. cbn in Ha |- *. split; [exact Ha|]. intros w. rewrite (fl_cfg H). eapply not_silent; eauto.
    - destruct e as [m|m| | |]; try exact Ha. cbn. intros x Hx. destruct (HP now w x eq_refl Hx) as (P1 & P2 & P3).
      destruct (heart_seen _ _ _ _ _ _ now Hd Hh (tm_heart _ _ HT w x Hx) P1 P2 P3) as [G _]. pose proof (tm_death _ _ HT w x Hx). lia.
  Qed.

  Theorem timed_act cfg g y before a : c_max_waiting cfg < 0 → flow cfg ∅ g y → timed before y → 0 <= d → 0 <= h → 2 * d + h <= c_timeout cfg → punctual d h before y a → clock_ok before a →
    (∀ w death now retention, a = NewWorker w death now retention → 2 * d + h < death) → orderly y a → timed (before ++ [a]) (act y a).
  Proof.
    intros Hmax H HT Hd Hh Hle HP HC Hpat Ho.
    assert (Hidle : (∀ w x, y_workers y !! w = Some x → rounds w (before ++ [a]) = rounds w before) → timed (before ++ [a]) y).
    { intros HR. eapply timed_same; eauto. }
    destruct a as [c|w death now retention|c e|c m loads|now codes e|from m now codes|w now e|w m now|w m now|w now e|w m loads now].
    - cbn [act]. destruct (unused y c) eqn:Eu; [|apply Hidle; intros; apply rounds_snoc]. pose proof (no_worker _ _ _ H _ Eu) as Hw.
      eapply timed_same; [exact HT|reflexivity|reflexivity|]. intros w x Hx. split; [apply rounds_snoc|]. exact (proj1 (queue_other_client y c _ w ltac:(congruence))).
    - cbn [act]. destruct (unused y w) eqn:Eu; [|apply Hidle; intros v x Hx; apply rounds_started, (tm_start _ _ HT v x Hx)]. pose proof (no_client _ _ _ H _ Eu) as Hc. pose proof (no_worker _ _ _ H _ Eu) as Hw.
      destruct (fl_fresh H _ Eu) as [F1 F2].
      destruct (w_init w death now) as [a hh] eqn:Ew. destruct (p_init retention) as [p out] eqn:Ep. injection Ew as <- <-. injection Ep as <- <-.
      set (x := Node _ _ _ _ retention). destruct (HC now eq_refl) as [Hnow Hcl]. split; cbn [y_workers set_worker]; intros i z.
      + destruct (decide (i = w)) as [->|Hne]; [rewrite lookup_insert; intros [= <-]|rewrite lookup_insert_ne by done; intros Hz].
        * unfold to_scheduler, to_agent, sent_by_part. cbn [y_clients y_workers set_worker y_sched]. rewrite lookup_insert, Hc, F1, F2, (unheard w _ F2). apply resting; [reflexivity|reflexivity|reflexivity| |discriminate].
          intros t Ht. apply rounds_moment in Ht. rewrite omap_app in Ht. change (a_seen (n_agent x)) with now. apply elem_of_app in Ht as [Ht|Ht]; [exact (Hcl t Ht)|]. apply elem_of_list_singleton in Ht as ->. lia.
        * rewrite (rounds_started i before w death now retention (tm_start _ _ HT i z Hz)), (queue_other_worker y w x i Hne). exact (tm_heart _ _ HT i z Hz).
      + destruct (decide (i = w)) as [->|Hne]; [intros _; exists death, now, retention; apply elem_of_app; right; left|rewrite lookup_insert_ne by done; intros Hz].
        destruct (tm_start _ _ HT i z Hz) as (de & n & r & Hi). exists de, n, r. apply elem_of_app. auto.
      + destruct (decide (i = w)) as [->|Hne]; [rewrite lookup_insert; intros [= <-]; exact (Hpat _ _ _ _ eq_refl)|rewrite lookup_insert_ne by done; exact (tm_death _ _ HT i z)].
    - destruct (y_clients y !! c) as [x|] eqn:Hx; [|cbn [act]; rewrite Hx; apply Hidle; intros; apply rounds_snoc].
      destruct (flow_user _ _ _ H c x e Hx) as (out & E & HF & _ & Eq & _).
      { destruct e; try done. cbn in Ho. destruct Ho as [Hn Ho]. split; [exact Hn|]. intros i z Hz (f' & n' & ct' & a' & Hi)%subs_in. eapply (Ho i). unfold history_of. rewrite Hz. exact Hi. }
      rewrite E. pose proof (not_worker _ _ _ _ (fl_ok H) Hx) as Hw. eapply timed_same; [exact HT|reflexivity|reflexivity|].
      intros w x' Hx'. split; [apply rounds_snoc|]. exact (proj1 (queue_other_client y c _ w ltac:(congruence))).
    - cbn [orderly] in Ho. destruct Ho as (Hn & -> & Hfl). destruct (y_clients y !! c) as [x|] eqn:Hx; [|cbn [act]; rewrite Hx; apply Hidle; intros; apply rounds_snoc].
      apply head_cons in Hn as [Q HQ]. destruct (flow_to_client _ _ _ H c x m Q Hx HQ (Hfl _ eq_refl)) as (out & E & Eh & HF & _ & Eq & _). rewrite E.
      pose proof (not_worker _ _ _ _ (fl_ok H) Hx) as Hw. eapply timed_same; [exact HT|reflexivity|reflexivity|].
      intros w x' Hx'. split; [apply rounds_snoc|]. exact (proj1 (queue_other_client y c _ w ltac:(congruence))).
    - cbn [act]. pose proof (fl_core H) as Hc. destruct e as [i m| | | | |]; [apply Hidle; intros; apply rounds_snoc|..].
      + destruct (round_quiet no_graphs (y_sched y) _ g now codes Hc eq_refl (fl_queue H) EGraph (or_introl (conj eq_refl eq_refl))) as (Hm & _).
        eapply timed_sched; [exact H|exact HT|intros; apply rounds_snoc|]. intros w x Hx. eexists _, _. split; [reflexivity|]. split; [exact (queue_agent _ _ _ (Round now codes EGraph) _ _ _ H Hm w x Hx)|left; done].
      + destruct (round_dispatch no_graphs (y_sched y) _ g now codes Hc eq_refl (fl_queue H)) as (_ & _ & _ & [(Hm & _)|(k & v & _ & _ & _ & _ & Hm)]); (eapply timed_sched; [exact H|exact HT|intros; apply rounds_snoc|]; intros w x Hx; eexists _, _; split; [reflexivity|]; split; [exact (queue_agent _ _ _ (Round now codes EDispatch) _ _ _ H Hm w x Hx)|left; split; [reflexivity|apply for_part_echoes]]).
        * intros ? ? []%elem_of_nil.
        * intros ? ? [= -> ->]%elem_of_list_singleton. discriminate.
      + destruct (round_functions no_graphs (y_sched y) _ g now codes Hc eq_refl (fl_queue H)) as (out & Hm & Hout & _).
        eapply timed_sched; [exact H|exact HT|intros; apply rounds_snoc|]. intros w x Hx. eexists _, _. split; [reflexivity|]. split; [exact (queue_agent _ _ _ (Round now codes EFunctions) _ _ _ H Hm w x Hx)|left; split; [reflexivity|]].
        apply for_part_echoes. intros v m (_ & f & ->)%Hout. discriminate.
      + destruct Ho as [Hu Ho]. rewrite (fl_cfg H) in Ho. destruct (ok_run _ _ (fl_ok H)) as [rs Hrs].
        destruct (round_workers no_graphs (y_sched y) _ g now codes Hc eq_refl (fl_queue H) Hu) as (out & Hm & Hout & _).
        { rewrite (fl_cfg H). intros w p Hp Ht. apply (Ho w). pose proof (silent_iff cfg rs now w) as Hi. rewrite <- Hrs in Hi. apply Hi; [exact (c_dead _ _ _ _ _ Hc)|eauto]. }
        eapply timed_sched; [exact H|exact HT|intros; apply rounds_snoc|]. intros w x Hx. eexists _, _. split; [reflexivity|]. split; [exact (queue_agent _ _ _ (Round now codes EWorkers) _ _ _ H Hm w x Hx)|left; split; [reflexivity|]].
        apply for_part_echoes. intros v m (_ & n & _ & ->)%Hout. discriminate.
      + destruct (round_quiet no_graphs (y_sched y) _ g now codes Hc eq_refl (fl_queue H) EStatus (or_intror eq_refl)) as (Hm & _).
        eapply timed_sched; [exact H|exact HT|intros; apply rounds_snoc|]. intros w x Hx. eexists _, _. split; [reflexivity|]. split; [exact (queue_agent _ _ _ (Round now codes EStatus) _ _ _ H Hm w x Hx)|left; done].
    - destruct Ho as [Hn Hu]. apply head_cons in Hn as [Q HQ]. cbn [act]. pose proof (act_step _ _ _ H (ToScheduler from m now codes)) as Hok. cbn [act] in Hok.
      destruct (y_clients y !! from) as [x|] eqn:Hx.
      + rewrite (sent_of_client _ _ _ _ _ Hx HQ) in *. destruct (flow_recv_client _ _ _ now codes H Hu from x m Q Hmax Hx HQ Hok) as (_ & _ & _ & _ & Hag & _).
        eapply timed_sched; [exact H|exact HT|intros; apply rounds_snoc|]. intros w z Hz. cbn [rd_event rcvd]. rewrite (eqb_ne from w) by (intros ->; pose proof (not_worker _ _ _ _ (fl_ok H) Hx); congruence).
        eexists _, []. split; [reflexivity|]. split; [rewrite app_nil_r; exact (Hag w z Hz)|left; done].
      + destruct (y_workers y !! from) as [x|] eqn:Hw.
        * rewrite (sent_of_worker _ _ _ H _ _ _ _ Hw HQ) in *. destruct (flow_recv_worker _ _ _ now codes H Hu from x m Q Hw HQ Hok) as (g' & _ & _ & _ & _ & Hag & _ & Hhear).
          eapply timed_sched; [exact H|exact HT|intros; apply rounds_snoc|]. intros w z Hz. cbn [rd_event rcvd]. destruct (decide (w = from)) as [->|Hne].
          -- rewrite Hw in Hz. injection Hz as <-. rewrite String.eqb_refl. exists Q. destruct m; try done; cbn in Hhear.
             ++ destruct Hhear as (_ & _ & _ & E). exists []. split; [exact HQ|]. split; [rewrite app_nil_r; exact E|left; done].
             ++ destruct Hhear as (_ & _ & E). exists []. split; [exact HQ|]. split; [rewrite app_nil_r; exact E|left; done].
             ++ destruct Hhear as (_ & _ & E). eexists. split; [exact HQ|]. split; [exact E|right]. eexists. split; [reflexivity|]. split; [reflexivity|]. exact (proj1 (proj2 (HP now from x eq_refl Hw))).
             ++ destruct Hhear as (_ & _ & n' & ct' & E). eexists. split; [exact HQ|]. split; [exact E|left; done].
          -- rewrite eqb_ne by done. exists (to_scheduler y w), []. split; [reflexivity|]. split; [rewrite app_nil_r; exact (Hag w z Hne Hz)|left; done].
        * unfold to_scheduler, sent_by_part in HQ. rewrite Hx, Hw in HQ. unfold on_the_way in HQ. rewrite drop_nil in HQ. discriminate.
    - destruct (y_workers y !! w) as [x|] eqn:Hx.
      + destruct (HP now w x eq_refl Hx) as (P1 & P2 & P3). destruct (HC now eq_refl) as [Hnow Hcl]. assert (Hr : ∀ t, t ∈ rounds w before → t <= now) by (intros t Ht; apply Hcl, (rounds_moment w), Ht).
        cbn [act]. rewrite Hx. destruct e as [m|m| | |]; try (apply Hidle; intros; apply rounds_snoc).
        * refine (timed_agent _ _ _ _ H HT w x now WLoop _ _ Hx eq_refl I Hnow Hr P1 P3 _). intros v. apply rounds_snoc.
        * refine (timed_agent _ _ _ _ H HT w x now (WHeartbeat _ _ _ _) _ _ Hx eq_refl I Hnow Hr P1 P3 _). intros v. rewrite rounds_snoc. reflexivity.
        * refine (timed_agent _ _ _ _ H HT w x now WTimeout _ _ Hx eq_refl (Ho _ Hx) Hnow Hr P1 P3 _). intros v. apply rounds_snoc.
      + cbn [act]. rewrite Hx. apply Hidle. intros v z Hz. rewrite rounds_snoc. destruct e; try reflexivity. rewrite eqb_ne by congruence. reflexivity.
    - destruct (y_workers y !! w) as [x|] eqn:Hx; [|cbn [act]; rewrite Hx; apply Hidle; intros; apply rounds_snoc]. destruct (head_cons _ _ (Ho _ Hx)) as [Q HQ].
      destruct (HP now w x eq_refl Hx) as (P1 & P2 & P3). destruct (HC now eq_refl) as [Hnow Hcl]. assert (Hr : ∀ t, t ∈ rounds w before → t <= now) by (intros t Ht; apply Hcl, (rounds_moment w), Ht).
      cbn [act]. rewrite Hx. destruct (bool_decide _); [|apply Hidle; intros; apply rounds_snoc].
      refine (timed_agent _ _ _ _ H HT w x now (WExt m) Q _ Hx HQ I Hnow Hr P1 P3 _). intros v. apply rounds_snoc.
    - destruct (y_workers y !! w) as [x|] eqn:Hx; [|cbn [act]; rewrite Hx; apply Hidle; intros; apply rounds_snoc].
      destruct (HP now w x eq_refl Hx) as (P1 & P2 & P3). destruct (HC now eq_refl) as [Hnow Hcl]. assert (Hr : ∀ t, t ∈ rounds w before → t <= now) by (intros t Ht; apply Hcl, (rounds_moment w), Ht).
      cbn [act]. rewrite Hx. destruct (bool_decide _); [|apply Hidle; intros; apply rounds_snoc].
      refine (timed_agent _ _ _ _ H HT w x now (WProc m) _ _ Hx eq_refl (Ho _ Hx) Hnow Hr P1 P3 _). intros v. apply rounds_snoc.
    - destruct (y_workers y !! w) as [x|] eqn:Hx; [|cbn [act]; rewrite Hx; apply Hidle; intros; apply rounds_snoc]. cbn [act]. rewrite Hx. destruct e as [m loads| |o l| |]; [apply Hidle; intros; apply rounds_snoc|..].
      + refine (timed_processor _ _ _ _ H HT w x now PLook _ Hx _ I). intros v. apply rounds_snoc.
      + refine (timed_processor _ _ _ _ H HT w x now (PRun o l) _ Hx _ Ho). intros v. apply rounds_snoc.
      + refine (timed_processor _ _ _ _ H HT w x now PScan _ Hx _ I). intros v. apply rounds_snoc.
      + refine (timed_processor _ _ _ _ H HT w x now PDelete _ Hx _ I). intros v. apply rounds_snoc.
    - destruct (y_workers y !! w) as [x|] eqn:Hx; [|cbn [act]; rewrite Hx; apply Hidle; intros; apply rounds_snoc]. cbn [act]. rewrite Hx. destruct (bool_decide _); [|apply Hidle; intros; apply rounds_snoc].
      destruct Ho as [-> Ho]. refine (timed_processor _ _ _ _ H HT w x now (PMsg m true) _ Hx _ (conj eq_refl (Ho _ Hx))). intros v. apply rounds_snoc.
  Qed.
End clock.

Lemma timed_boot d h c : timed d h [] (boot c).
Proof. split; cbn; intros w x; rewrite lookup_empty; discriminate. Qed.

Theorem punctual_timed d h c acts : c_max_waiting c < 0 → 0 <= d → 0 <= h → 2 * d + h <= c_timeout c → patient (2 * d + h) acts → one_clock acts → punctual_run d h c acts → calm_run c acts →
  orderly_run c acts ∧ timed d h acts (execute c acts).
Proof.
  intros Hmax Hd Hh Hle. induction acts as [|a acts IH] using rev_ind; intros Hpat Hone Hpun Hcalm.
  - split; [intros before a after E; by destruct before|apply timed_boot].
  - destruct IH as [Ho HT].
    + intros w de n r Hi. eapply Hpat, elem_of_app. eauto.
    + intros before b after now E. apply (Hone before b (after ++ [a])). rewrite E, <- app_assoc. reflexivity.
    + intros before b after E. apply (Hpun before b (after ++ [a])). rewrite E, <- app_assoc. reflexivity.
    + intros before b after E. apply (Hcalm before b (after ++ [a])). rewrite E, <- app_assoc. reflexivity.
    + destruct (flow_run c acts Hmax Ho) as [g H]. pose proof (Hpun acts a [] eq_refl) as HP. pose proof (calm_orderly d h c g _ _ a H HT Hd Hh Hle HP (Hcalm acts a [] eq_refl)) as Ha.
      split; [apply orderly_snoc; auto|]. rewrite execute_snoc. eapply timed_act; [eassumption..| | |exact Ha].
      * intros now. exact (Hone acts a [] now eq_refl).
      * intros w de n r ->. eapply Hpat, elem_of_app. right. left.
Qed.
