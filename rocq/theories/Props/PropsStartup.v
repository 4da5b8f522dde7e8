(** * Starting schedulers and clusters: the theorems *)

From Verif.Model Require Import Base ZMQConfig Message Startup Scheduler.
From Verif.Spec Require Import StartupSpec HistorySpec SchedulerSpec.
From Verif.Proofs Require Import NumberProofs SchedSame StartupProofs SchedExamples.

(** C76.  Every option given on the command line reaches the part it names; options not
    given have their documented defaults. *)
Theorem C76_scheduler_options :
  ∀ has_uvloop text address line, good_line scheduler_numbers scheduler_loops text line → from_string text = Ok address → zc_type address = Tcp →
  (loop_setting "builtin" line = "uvloop" → has_uvloop = true) →
  ∃ args up, scheduler_command (command_line line) = Parsed args ∧ scheduler_run has_uvloop args = Ok up ∧
    su_listens up = to_address address ∧
    su_io_threads up = setting ["--io-threads"] 1 line ∧
    c_max_waiting (su_config up) = setting ["--max-number-of-tasks-waiting"; "-mt"] (-1) line ∧
    c_queue_size (su_config up) = setting ["--per-worker-queue-size"; "-qs"] 1000 line ∧
    c_timeout (su_config up) = setting ["--worker-timeout-seconds"; "-wt"] 60 line ∧
    c_retention (su_config up) = setting ["--function-retention-seconds"; "-ft"] 20 line ∧
    c_lb_seconds (su_config up) = setting ["--load-balance-seconds"; "-ls"] 1 line ∧
    c_lb_times (su_config up) = setting ["--load-balance-trigger-times"; "-lbt"] 2 line ∧
    su_event_loop up = loop_setting "builtin" line.
Proof.
  intros u text a l Hg Hf Ht Hu. eexists. rewrite (scheduler_line text a l Hg Hf).
  assert (Hl : ∀ l d, Forall (good_item scheduler_numbers scheduler_loops) l → (d = "builtin" ∨ d = "uvloop") → loop_setting d l = "builtin" ∨ loop_setting d l = "uvloop").
  { clear. induction l as [|[n z|n v|x] l IH]; intros d H Hd; cbn [loop_setting]; [done|..]; apply Forall_cons in H as [H1 H2]; [by apply IH|apply IH; [done|apply H1]|by apply IH]. }
  destruct (proj2 (scheduler_ok u (SchedulerArgs a
    (setting ["--io-threads"] 1 l) (setting ["--max-number-of-tasks-waiting"; "-mt"] (-1) l) (setting ["--per-worker-queue-size"; "-qs"] 1000 l)
    (setting ["--worker-timeout-seconds"; "-wt"] 60 l) (setting ["--function-retention-seconds"; "-ft"] 20 l)
    (setting ["--load-balance-seconds"; "-ls"] 1 l) (setting ["--load-balance-trigger-times"; "-lbt"] 2 l) (loop_setting "builtin" l)))) as [up Hup].
  { split; [done|]. cbn [sa_event_loop]. destruct (Hl l "builtin" (proj1 Hg) (or_introl eq_refl)) as [E|E]; [by left|right]. split; [done|by apply Hu]. }
  exists up. split; [reflexivity|]. split; [done|]. destruct (scheduler_up_ok _ _ _ Hup) as (H1 & _ & H3 & H4 & -> & _). done.
Qed.
Print Assumptions C76_scheduler_options.

Example C76_scheduler_example :
  let line := [Number "-wt" 5; Address "tcp://10.0.0.1:2345"; Number "--max-number-of-tasks-waiting" (-1); Number "--worker-timeout-seconds" 7] in
  command_line line = ["-wt"; "5"; "tcp://10.0.0.1:2345"; "--max-number-of-tasks-waiting"; "-1"; "--worker-timeout-seconds"; "7"] ∧
  good_line scheduler_numbers scheduler_loops "tcp://10.0.0.1:2345" line ∧
  ∃ args, scheduler_command (command_line line) = Parsed args ∧ sa_worker_timeout_seconds args = 7.
Proof.
  split; [vm_compute; reflexivity|]. split; [|eexists; split; [vm_compute; reflexivity|reflexivity]].
  split; [|reflexivity]. repeat constructor; cbn; unfold scheduler_numbers; set_solver.
Qed.

(** The same for a cluster; every worker gets the settings. *)
Theorem C76_cluster_options :
  ∀ cpus has_uvloop text address line, good_line cluster_numbers cluster_loops text line → from_string text = Ok address →
  (loop_setting "builtin" line = "uvloop" → has_uvloop = true) →
  ∃ args, cluster_command cpus (command_line line) = Parsed args ∧
    Z.of_nat (length (cluster_workers args)) = Z.max 0 (setting ["--num-of-workers"; "-n"] (cpus - 1) line) ∧
    ∀ w, w ∈ cluster_workers args → ∃ up, worker_run has_uvloop w = Ok up ∧
      wu_connects up = to_address address ∧
      wu_heartbeat up = setting ["--heartbeat-interval"; "-hi"] 2 line ∧
      wu_retention up = setting ["--function-retention-seconds"; "-ft"] 20 line ∧
      wu_death up = setting ["--death-timeout-seconds"; "-dt"] 10 line ∧
      wu_collect up = setting ["--garbage-collect-interval-seconds"; "-gc"] 30 line ∧
      wu_trim up = setting ["--trim-memory-threshold-bytes"; "-tm"] (2 ^ 30) line ∧
      wu_event_loop up = loop_setting "builtin" line.
Proof.
  intros cpus u text a l Hg Hf Hu. eexists. rewrite (cluster_line cpus text a l Hg Hf).
  assert (Hl : ∀ l d, Forall (good_item cluster_numbers cluster_loops) l → (d = "builtin" ∨ d = "uvloop") → loop_setting d l = "builtin" ∨ loop_setting d l = "uvloop").
  { clear. induction l as [|[n z|n v|x] l IH]; intros d H Hd; cbn [loop_setting]; [done|..]; apply Forall_cons in H as [H1 H2]; [by apply IH|apply IH; [done|apply H1]|by apply IH]. }
  split; [reflexivity|]. unfold cluster_workers. split; [rewrite replicate_length; cbn [ca_n_workers]; lia|].
  intros w Hw. apply elem_of_replicate in Hw as [-> _]. unfold worker_run. cbn [wa_event_loop ca_event_loop].
  assert (register_event_loop u (loop_setting "builtin" l) = Ok tt) as ->.
  { destruct (Hl l "builtin" (proj1 Hg) (or_introl eq_refl)) as [E|E]; rewrite E; [done|]. by rewrite (Hu E). }
  eexists. split; [reflexivity|]. done.
Qed.
Print Assumptions C76_cluster_options.

Example C76_cluster_example :
  let line := [Number "-n" 3; Loop "-el" "builtin"; Address "tcp://10.0.0.1:2345"; Number "-hi" 4] in
  good_line cluster_numbers cluster_loops "tcp://10.0.0.1:2345" line ∧
  ∃ args, cluster_command 8 (command_line line) = Parsed args ∧ length (cluster_workers args) = 3%nat ∧ ca_heartbeat_interval_seconds args = 4.
Proof.
  split; [|eexists; split; [vm_compute; reflexivity|done]]. split; [|reflexivity]. repeat constructor; cbn; unfold cluster_numbers, cluster_loops; set_solver.
Qed.

(** A wrong command line is refused, whatever stands before and after the wrong place:
    a value that is not a number (or no event loop), an option without value. *)
Theorem C76_wrong_line_refused :
  ∀ cpus line rest, Forall plain_text (addresses line) →
  (Forall (good_item scheduler_numbers scheduler_loops) line → wrong_rest scheduler_numbers scheduler_loops rest → scheduler_command (command_line line ++ rest) = UsageError) ∧
  (Forall (good_item cluster_numbers cluster_loops) line → wrong_rest cluster_numbers cluster_loops rest → cluster_command cpus (command_line line ++ rest) = UsageError).
Proof. intros cpus line rest Ha. split; intros Hg Hw; [by apply scheduler_wrong|by apply cluster_wrong]. Qed.
Print Assumptions C76_wrong_line_refused.

Example C76_wrong_line_example :
  scheduler_command ["tcp://10.0.0.1:2345"; "-qs"; "many"; "-wt"; "5"] = UsageError ∧ wrong_rest scheduler_numbers scheduler_loops ["-qs"; "many"; "-wt"; "5"] ∧
  wrong_rest cluster_numbers cluster_loops ["-n"; "-hi"; "4"] ∧ wrong_rest cluster_numbers cluster_loops ["-el"] ∧ wrong_rest cluster_numbers cluster_loops ["-el"; "asyncio"].
Proof.
  split; [vm_compute; reflexivity|]. split; [apply wrong_number; [unfold scheduler_numbers; set_solver|exact I|]|].
  { intros z Hz. apply py_int_written in Hz. assert (E : py_int "many" = None) by (vm_compute; reflexivity). congruence. }
  split; [apply wrong_value; unfold cluster_numbers, cluster_loops; set_solver|]. split; [apply wrong_end; unfold cluster_numbers, cluster_loops; set_solver|].
  apply wrong_loop; [unfold cluster_loops; set_solver|exact I|discriminate..].
Qed.

(** So is a line without address, with several, or with a bad one. *)
Theorem C76_address_needed :
  ∀ cpus line, Forall plain_text (addresses line) → wrong_address line →
  (Forall (good_item scheduler_numbers scheduler_loops) line → scheduler_command (command_line line) = UsageError) ∧
  (Forall (good_item cluster_numbers cluster_loops) line → cluster_command cpus (command_line line) = UsageError).
Proof. intros cpus line Ha Hw. split; intros Hg; [by apply scheduler_nowhere|by apply cluster_nowhere]. Qed.
Print Assumptions C76_address_needed.

Example C76_address_example :
  wrong_address [Number "-wt" 5] ∧ wrong_address [Address "tcp://10.0.0.1:2345"; Number "-wt" 5; Address "tcp://10.0.0.1:2345"] ∧ wrong_address [Address "10.0.0.1:2345"].
Proof. split; [intros t c [=]|]. split; [intros t c [=]|]. intros t c [= <-]. vm_compute. discriminate. Qed.

(** C77.  The number of seconds for load balancing has no effect beyond being positive:
    the scheduler does the same for any two positive values, and for any two others. *)
Theorem C77_balance_seconds_refuted :
  ∀ waiting size timeout retention times n n' rs, (0 < n ↔ 0 < n') →
  s_log (run (Config waiting size timeout retention n times) rs) = s_log (run (Config waiting size timeout retention n' times) rs).
Proof. intros. apply same_settings; cbn; auto. Qed.
Print Assumptions C77_balance_seconds_refuted.

(** With balancing every 1000 seconds, a balance request is sent after one second. *)
Example C77_balance_seconds_example :
  let s := run (Config (-1) 10 60 20 1000 2)
    ([Round 0 [] (ERecv "w1" beat); Round 0 [] (ERecv "c" (MFunctionRequest FnAdd "f" "f" "f"))]
     ++ [Round 0 [] (ERecv "c" (MTask (Task "a" "f" []))); Round 0 [] EDispatch; Round 0 [] (ERecv "c" (MTask (Task "b" "f" []))); Round 0 [] EDispatch]
     ++ [Round 0 [] (ERecv "w2" beat); Round 0 [] EWorkers; Round 1 [] EWorkers]) in
  last (s_log s) = Some (LSend "w1" (MBalanceRequest 1)).
Proof. vm_compute. reflexivity. Qed.

(** Any negative limit on waiting tasks means the same: no limit. *)
Theorem C77_no_limit :
  ∀ size timeout retention seconds times n n' rs, n < 0 → n' < 0 →
  s_log (run (Config n size timeout retention seconds times) rs) = s_log (run (Config n' size timeout retention seconds times) rs).
Proof. intros. apply same_settings; cbn; auto. Qed.
Print Assumptions C77_no_limit.

(** C78.  A combo gives its scheduler and its workers one address and its settings. *)
Theorem C78_combo :
  ∀ has_uvloop b cluster scheduler up, combo b = Ok (cluster, scheduler) → scheduler_run has_uvloop scheduler = Ok up →
  su_io_threads up = ba_io_threads b ∧
  su_config up = Config (ba_max_number_of_tasks_waiting b) (ba_per_worker_queue_size b) (ba_worker_timeout_seconds b)
    (ba_function_retention_seconds b) (ba_load_balance_seconds b) (ba_load_balance_trigger_times b) ∧
  Z.of_nat (length (cluster_workers cluster)) = Z.max 0 (ba_n_workers b) ∧
  ∀ w wu, w ∈ cluster_workers cluster → worker_run has_uvloop w = Ok wu →
    wu_connects wu = su_listens up ∧ wu_heartbeat wu = ba_heartbeat_interval_seconds b ∧ wu_death wu = ba_death_timeout_seconds b ∧
    wu_retention wu = ba_function_retention_seconds b ∧ wu_collect wu = ba_garbage_collect_interval_seconds b ∧
    wu_trim wu = ba_trim_memory_threshold_bytes b ∧ wu_event_loop wu = ba_event_loop b.
Proof.
  intros u b cl sc up Hb Hup. unfold combo in Hb. destruct (from_string (ba_address b)) as [a|]; [|done]. cbn in Hb. injection Hb as <- <-.
  destruct (scheduler_up_ok _ _ _ Hup) as (H1 & _ & _ & H4 & H5 & _). cbn in H1, H4, H5. split; [done|]. split; [done|].
  unfold cluster_workers. split; [rewrite replicate_length; cbn [ca_n_workers]; lia|].
  intros w wu Hw Hwu. apply elem_of_replicate in Hw as [-> _]. unfold worker_run in Hwu. destruct (register_event_loop _ _); [|done]. cbn in Hwu.
  injection Hwu as <-. cbn. rewrite H1. done.
Qed.
Print Assumptions C78_combo.

(** ... except the event loop: the scheduler always uses the built-in one, ... *)
Theorem C78_event_loop_refuted :
  ∀ has_uvloop b cluster scheduler up, combo b = Ok (cluster, scheduler) → scheduler_run has_uvloop scheduler = Ok up → su_event_loop up = "builtin".
Proof.
  intros u b cl sc up Hb Hup. unfold combo in Hb. destruct (from_string (ba_address b)) as [a|]; [|done]. cbn in Hb. injection Hb as <- <-.
  by destruct (scheduler_up_ok _ _ _ Hup) as (_ & _ & H & _).
Qed.
Print Assumptions C78_event_loop_refuted.

(** ... and a combo that cannot work is made without complaint: with an address that is
    not a TCP address its scheduler cannot start, with an unknown event loop none of its
    workers can. *)
Theorem C78_bad_combo_refuted :
  ∀ b a, from_string (ba_address b) = Ok a → ∃ cluster scheduler, combo b = Ok (cluster, scheduler) ∧
  (zc_type a ≠ Tcp → ∀ u, scheduler_run u scheduler = Raise TypeError) ∧
  (ba_event_loop b ∉ ["builtin"; "uvloop"] → ∀ u w, w ∈ cluster_workers cluster → worker_run u w = Raise TypeError).
Proof.
  intros b a Ha. unfold combo. rewrite Ha. cbn. do 2 eexists. split; [reflexivity|]. split.
  - intros Ht u. unfold scheduler_run, scheduler_init. cbn. by rewrite bool_decide_false.
  - intros He u w Hw. unfold cluster_workers in Hw. apply elem_of_replicate in Hw as [-> _]. unfold worker_run, register_event_loop, allowed_loops. cbn [wa_event_loop ca_event_loop existsb].
    destruct (String.eqb_spec (ba_event_loop b) "builtin"); [set_solver|]. destruct (String.eqb_spec (ba_event_loop b) "uvloop"); [set_solver|]. done.
Qed.
Print Assumptions C78_bad_combo_refuted.

Example C78_example :
  let b := ComboArgs "tcp://127.0.0.1:2345" 4 1 (-1) 2 "uvloop" 60 20 10 1 2 30 (2 ^ 30) 1000 in
  ∃ cluster scheduler up, combo b = Ok (cluster, scheduler) ∧ scheduler_run true scheduler = Ok up ∧
    su_listens up = "tcp://127.0.0.1:2345" ∧ su_event_loop up = "builtin" ∧ length (cluster_workers cluster) = 4%nat.
Proof. vm_compute. do 3 eexists. split; [reflexivity|]. split; [reflexivity|]. auto. Qed.

(** C79.  A scheduler starts exactly on TCP addresses (with an event loop that is there),
    and schedulers at different addresses publish their state at different places. *)
Theorem C79_scheduler_starts :
  ∀ has_uvloop a, (∃ up, scheduler_run has_uvloop a = Ok up) ↔
  zc_type (sa_address a) = Tcp ∧ (sa_event_loop a = "builtin" ∨ (sa_event_loop a = "uvloop" ∧ has_uvloop = true)).
Proof. exact scheduler_ok. Qed.
Print Assumptions C79_scheduler_starts.

Theorem C79_monitors_distinct :
  ∀ u1 u2 a1 a2 t1 t2 up1 up2, from_string t1 = Ok (sa_address a1) → from_string t2 = Ok (sa_address a2) →
  scheduler_run u1 a1 = Ok up1 → scheduler_run u2 a2 = Ok up2 → (su_publishes up1 = su_publishes up2 ↔ su_listens up1 = su_listens up2).
Proof.
  intros u1 u2 a1 a2 t1 t2 up1 up2 F1 F2 H1 H2. destruct (scheduler_up_ok _ _ _ H1) as (-> & -> & _ & _ & _ & T1). destruct (scheduler_up_ok _ _ _ H2) as (-> & -> & _ & _ & _ & T2).
  split.
  - intros E. apply (inj (String.append "ipc://")) in E. apply ZMQConfigProofs.address_accepts in F1 as [F1 _], F2 as [F2 _].
    destruct (sa_address a1) as [ty1 h1 p1], (sa_address a2) as [ty2 h2 p2]. cbn in T1, T2, F1, F2. subst ty1 ty2.
    destruct (proj1 F1 eq_refl) as [q1 ->], (proj1 F2 eq_refl) as [q2 ->]. apply monitor_inj in E as [-> ->]. done.
  - intros E. assert (sa_address a1 = sa_address a2) as ->; [|done].
    assert (R : ∀ t a, from_string t = Ok a → from_string (to_address a) = Ok a).
    { intros t a F. apply ZMQConfigProofs.address_accepts in F as [G1 G2]. apply ZMQConfigProofs.address_roundtrip; [done|]. intros T.
      destruct (proj1 G1 T) as [q Eq]. rewrite Eq in G2. by destruct G2 as (? & _ & ? & _). }
    apply R in F1, F2. rewrite E in F1. rewrite F1 in F2. by injection F2.
Qed.
Print Assumptions C79_monitors_distinct.

(** Without the port in the name, the following two would publish at the same place. *)
Example C79_example :
  ∃ a1 a2 up1 up2, from_string "tcp://127.0.0.1:2345" = Ok a1 ∧ from_string "tcp://127.0.0.1:2346" = Ok a2 ∧
    scheduler_run false (SchedulerArgs a1 1 (-1) 1000 60 20 1 2 "builtin") = Ok up1 ∧
    scheduler_run false (SchedulerArgs a2 1 (-1) 1000 60 20 1 2 "builtin") = Ok up2 ∧ su_publishes up1 ≠ su_publishes up2 ∧
    (∃ a3, from_string "ipc:///tmp/x" = Ok a3 ∧ scheduler_run false (SchedulerArgs a3 1 (-1) 1000 60 20 1 2 "builtin") = Raise TypeError).
Proof.
  vm_compute. do 4 eexists. do 4 (split; [reflexivity|]). split; [congruence|]. eexists. split; reflexivity.
Qed.

(** C80.  A cluster asked for n workers starts n worker processes and never more (for
    n = 1 the worker runs in the process of the cluster itself, for n <= 0 there is none). *)
Theorem C80_workers_started :
  ∀ a n, ca_n_workers a = Z.of_nat n → n ≠ 1%nat →
  (∃ steps, let c := cl_run a (replicate steps CStep) in cl_phase c = Joining 0 ∧ ∀ w, w ∈ cl_alive c ↔ (w < n)%nat) ∧
  ∀ es w, w ∈ cl_alive (cl_run a es) → (w < n)%nat.
Proof.
  intros a n Ha Hn. split.
  - exists (n + 3)%nat. pose proof (start_lemma a) as H. rewrite Ha, Nat2Z.id in H. cbv zeta in H. rewrite H by lia. split; [done|].
    intros w. cbn. rewrite elem_of_list_to_set, elem_of_seq. lia.
  - intros es w Hw. apply workers_lemma in Hw. lia.
Qed.
Print Assumptions C80_workers_started.

Theorem C80_no_workers :
  ∀ a es, ca_n_workers a <= 0 → cl_alive (cl_run a es) = ∅.
Proof. intros a es Ha. apply leibniz_equiv, elem_of_equiv_empty. intros w Hw. apply workers_lemma in Hw. lia. Qed.
Print Assumptions C80_no_workers.

(** A signal to a cluster all of whose workers were started and none of which the cluster
    has seen end reaches every worker; and once they have ended, the cluster ends. *)
Theorem C80_signal_ends_cluster :
  ∀ a es s k, let c := cl_run a es in cl_phase c = Joining k → cl_reaped c = ∅ →
  let c' := cl_step c (CSignal s) in
  (∀ w, w ∈ cl_alive c → w ∈ cl_told c') ∧
  cl_phase (foldl cl_step c' ((CExit <$> seq 0 (Z.to_nat (ca_n_workers a))) ++ replicate (S (Z.to_nat (ca_n_workers a))) CStep)) = Ended.
Proof.
  intros a es s k c Hp Hr c'. destruct (signal_lemma a es s k Hp Hr) as (H1 & _ & _ & H4). fold c c' in H1, H4. split.
  - intros w Hw. apply H4. by apply workers_lemma in Hw.
  - assert (E : c' = cl_run a (es ++ [CSignal s])) by (unfold cl_run; by rewrite foldl_app).
    rewrite E. eapply end_lemma. rewrite <- E. by rewrite H1.
Qed.
Print Assumptions C80_signal_ends_cluster.

Definition three : cluster_args := ClusterArgs (ZMQConfig Tcp "127.0.0.1" (Some 2345)) 3 2 20 10 30 (2 ^ 30) "builtin".
Definition alone : cluster_args := ClusterArgs (ZMQConfig Tcp "127.0.0.1" (Some 2345)) 1 2 20 10 30 (2 ^ 30) "builtin".
Example C80_example :
  let c := cl_run three (replicate 6 CStep ++ [CSignal SIGTERM]) in
  cl_phase c = Joining 0 ∧ cl_reaped c = ∅ ∧ elements (cl_alive c) = elements (cl_told c) ∧ length (elements (cl_told c)) = 3%nat.
Proof. cbv zeta. split; [reflexivity|]. split; [by_compute|]. split; by_compute. Qed.

(** After the first worker has ended and was joined, a signal reaches nobody: the handler
    raises, and the workers that still run are told nothing. *)
Theorem C80_late_signal_refuted :
  ∀ a es s k, let c := cl_run a es in cl_phase c = Joining (S k) →
  let c' := cl_step c (CSignal s) in cl_phase c' = Broken ProcessLookupError ∧ cl_told c' = cl_told c ∧ cl_alive c' = cl_alive c.
Proof. exact joined_signal_lemma. Qed.
Print Assumptions C80_late_signal_refuted.

Example C80_late_signal_example :
  let c := cl_run three (replicate 6 CStep ++ [CExit 0%nat; CStep]) in cl_phase c = Joining 1 ∧ elements (cl_alive c) = [1%nat; 2%nat].
Proof. vm_compute. auto. Qed.

(** A signal while the workers are being started breaks the cluster, and one just before
    that is lost: the cluster goes on as if it had not come. *)
Theorem C80_early_signal_refuted :
  ∀ a es s, let c := cl_run a es in
  (∀ k, cl_phase c = Starting k → Z.of_nat k < ca_n_workers a → ∃ e, cl_phase (cl_step c (CSignal s)) = Broken e) ∧
  (cl_phase c = Handling → cl_step c (CSignal s) = c).
Proof.
  intros a es s c. split; [intros k H1 H2; exact (starting_signal_lemma a es s k H1 H2)|].
  intros Hp. unfold cl_step. rewrite Hp. unfold cl_handler. cbn. revert Hp. clearbody c. destruct c. cbn. by intros ->.
Qed.
Print Assumptions C80_early_signal_refuted.

Example C80_early_signal_example :
  cl_phase (cl_run three [CStep; CStep; CStep]) = Starting 1 ∧ cl_phase (cl_run three [CStep]) = Handling ∧
  cl_phase (cl_run three [CStep; CStep; CStep; CSignal SIGINT]) = Broken TypeError.
Proof. vm_compute. auto. Qed.

(** With a single worker, SIGINT ends the cluster but SIGTERM raises in it. *)
Theorem C80_single_worker_refuted :
  ∀ a es, let c := cl_run a es in cl_phase c = InProcess →
  cl_phase (cl_step c (CSignal SIGINT)) = Ended ∧ cl_phase (cl_step c (CSignal SIGTERM)) = Broken TypeError.
Proof. intros a es c Hp. unfold cl_step. rewrite Hp. split; done. Qed.
Print Assumptions C80_single_worker_refuted.

Example C80_single_worker_example : cl_phase (cl_run alone [CStep; CStep; CStep]) = InProcess.
Proof. reflexivity. Qed.
