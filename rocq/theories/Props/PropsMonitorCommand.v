(** * Starting the monitor: the theorems *)

From Verif.Model Require Import Base ZMQConfig Startup MonitorCommand.
From Verif.Spec Require Import StartupSpec NumberSpec.
From Verif.Proofs Require Import NumberProofs StartupProofs MonitorCommandProofs EqualsProofs.

(** C101.  A monitor connects to the address it is given and waits as long as it is told to,
    5 seconds if it is not told ([good_line], [setting]: Spec/StartupSpec.v)... *)
Theorem C101_monitor_options :
  ∀ text address line, good_line ["--timeout"] [] text line → from_string text = Ok address →
  ∃ up, monitor_command (command_line line) = Parsed (Ok up) ∧
    mu_connects up = to_address address ∧ mu_waits_ms up = 1000 * setting ["--timeout"] 5 line.
Proof. intros text a l Hg Hf. rewrite (monitor_line text a l Hg Hf). eexists. split; [done|]. cbn. split; [done|]. by rewrite Z.mul_comm. Qed.
Print Assumptions C101_monitor_options.

(** ... so that, given the address derived from that of a scheduler, it connects to where that
    scheduler publishes, whatever the scheduler's options and the monitor's. *)
Theorem C101_monitor_reaches_scheduler :
  ∀ has_uvloop args up port line, scheduler_run has_uvloop args = Ok up → zc_port (sa_address args) = Some port →
  good_line ["--timeout"] [] ("ipc:///tmp/" +:+ zc_host (sa_address args) +:+ "_" +:+ print_int port +:+ "_monitor") line →
  ∃ monitor, monitor_command (command_line line) = Parsed (Ok monitor) ∧ mu_connects monitor = su_publishes up.
Proof.
  intros u a up p l Hr Hp Hg. destruct (publishes_parses u a up Hr) as (c & Hc & Et).
  assert (su_publishes up = "ipc:///tmp/" +:+ zc_host (sa_address a) +:+ "_" +:+ print_int p +:+ "_monitor") as E.
  { destruct (scheduler_up_ok _ _ _ Hr) as (_ & -> & _). unfold monitor_host. rewrite Hp. reflexivity. }
  rewrite <- E in Hg. rewrite (monitor_line _ c l Hg Hc). eexists. split; [done|]. exact Et.
Qed.
Print Assumptions C101_monitor_reaches_scheduler.

(** A text that is no address is a ValueError (the scheduler and the cluster print their usage
    instead: C76) ... *)
Theorem C101_monitor_bad_address :
  ∀ text line, good_line ["--timeout"] [] text line → plain_text text → (∀ c, from_string text ≠ Ok c) →
  monitor_command (command_line line) = Parsed (Raise ValueError).
Proof. exact monitor_bad. Qed.
Print Assumptions C101_monitor_bad_address.

(** ... and no text, several, or a timeout that is no number, prints the usage. *)
Theorem C101_monitor_usage :
  (∀ line, Forall (good_item ["--timeout"] []) line → Forall plain_text (addresses line) → length (addresses line) ≠ 1%nat →
    monitor_command (command_line line) = UsageError) ∧
  (∀ line rest, Forall (good_item ["--timeout"] []) line → Forall plain_text (addresses line) → wrong_rest ["--timeout"] [] rest →
    monitor_command (command_line line ++ rest) = UsageError).
Proof. split; [exact monitor_usage|exact monitor_wrong]. Qed.
Print Assumptions C101_monitor_usage.

Example C101_example :
  let line := [Number "--timeout" 30; Address "ipc:///tmp/10.0.0.1_2345_monitor"; Number "--timeout" 7] in
  let args := SchedulerArgs (ZMQConfig Tcp "10.0.0.1" (Some 2345)) 1 (-1) 1000 60 20 1 2 "builtin" in
  good_line ["--timeout"] [] "ipc:///tmp/10.0.0.1_2345_monitor" line ∧
  (∃ up, scheduler_run false args = Ok up ∧
    monitor_command (command_line line) = Parsed (Ok (MonitorUp (su_publishes up) 7000))) ∧
  monitor_command ["10.0.0.1:2345"] = Parsed (Raise ValueError) ∧
  monitor_command ["--timeout"; "soon"; "ipc:///tmp/x"] = UsageError ∧ monitor_command [] = UsageError.
Proof.
  split; [split; [|reflexivity]; repeat constructor; cbn; set_solver|].
  split; [eexists; split; vm_compute; reflexivity|]. repeat split; vm_compute; reflexivity.
Qed.

(** C76, C101.  "name=value" means the same as name and value apart, for every option of
    the three programs, wherever it stands and whatever stands around it. *)
Theorem C76_equals_sign :
  ∀ name value before after, plain_text value ∨ (∃ z, value = print_int z) →
  (name ∈ scheduler_numbers ++ scheduler_loops →
    scheduler_command (before ++ (name +:+ "=" +:+ value) :: after) = scheduler_command (before ++ name :: value :: after)) ∧
  (name ∈ cluster_numbers ++ cluster_loops → ∀ cpus,
    cluster_command cpus (before ++ (name +:+ "=" +:+ value) :: after) = cluster_command cpus (before ++ name :: value :: after)) ∧
  (name = "--timeout" →
    monitor_command (before ++ (name +:+ "=" +:+ value) :: after) = monitor_command (before ++ name :: value :: after)).
Proof. exact equals_sign. Qed.
Print Assumptions C76_equals_sign.
Example C76_equals_example :
  monitor_command ["--timeout=-7"; "ipc:///tmp/x"] = Parsed (Ok (MonitorUp "ipc:///tmp/x" (-7000))) ∧
  monitor_command ["--timeout=1=2"; "ipc:///tmp/x"] = UsageError ∧
  ∃ args, scheduler_command ["-wt=5"; "tcp://h:1"; "--event-loop=uvloop"] = Parsed args ∧ sa_worker_timeout_seconds args = 5 ∧ sa_event_loop args = "uvloop".
Proof. split; [vm_compute; reflexivity|]. split; [vm_compute; reflexivity|]. eexists. split; [vm_compute; reflexivity|]. split; reflexivity. Qed.
