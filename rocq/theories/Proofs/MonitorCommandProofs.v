(** * The command line of the monitor: proofs *)

From Verif.Model Require Import Base ZMQConfig SchedulerState Startup MonitorCommand.
From Verif.Spec Require Import StartupSpec.
From Verif.Proofs Require Import ZMQConfigProofs NumberProofs StartupProofs.

Lemma monitor_line text a l : good_line ["--timeout"] [] text l → from_string text = Ok a →
  monitor_command (command_line l) = Parsed (Ok (MonitorUp (to_address a) (setting ["--timeout"] 5 l * 1000))).
Proof.
  intros [Hg Ha] Hf.
  destruct (collect_line monitor_table ["--timeout"] [] eq_refl (int_ok monitor_table ["--timeout"] eq_refl) (loop_ok monitor_table [] eq_refl)
    (dest_ok monitor_table eq_refl) text a l no_arguments Hf Hg ltac:(rewrite Ha; by repeat constructor)) as (ns & E1 & E2 & E3 & _).
  unfold monitor_command. rewrite E1, E2, Ha. cbn [no_arguments ns_plain app]. rewrite Hf. cbn. unfold monitor_connect.
  specialize (E3 (Opt ["--timeout"] "timeout" KInt) 5 ltac:(set_solver)). cbn [op_dest op_names] in E3. by rewrite E3.
Qed.
Lemma monitor_prefix l : Forall (good_item ["--timeout"] []) l → Forall plain_text (addresses l) →
  ∃ ns, collect monitor_table (command_line l) no_arguments = Parsed ns ∧ ns_plain ns = addresses l.
Proof.
  intros Hg Ha. destruct (collect_prefix monitor_table ["--timeout"] [] eq_refl (int_ok monitor_table ["--timeout"] eq_refl) (loop_ok monitor_table [] eq_refl) l no_arguments [] Hg Ha) as (ns & E1 & E2).
  rewrite app_nil_r in E1. exists ns. done.
Qed.
Lemma monitor_bad text l : good_line ["--timeout"] [] text l → plain_text text → (∀ c, from_string text ≠ Ok c) →
  monitor_command (command_line l) = Parsed (Raise ValueError).
Proof.
  intros [Hg Ha] Hp Hn. destruct (monitor_prefix l Hg ltac:(rewrite Ha; by repeat constructor)) as (ns & E1 & E2).
  unfold monitor_command. rewrite E1, E2, Ha. destruct (from_string text) as [c|e] eqn:E; [by destruct (Hn c)|].
  apply address_errors in E as ->. done.
Qed.
Lemma monitor_usage l : Forall (good_item ["--timeout"] []) l → Forall plain_text (addresses l) → length (addresses l) ≠ 1%nat →
  monitor_command (command_line l) = UsageError.
Proof.
  intros Hg Ha Hn. destruct (monitor_prefix l Hg Ha) as (ns & E1 & E2). unfold monitor_command. rewrite E1, E2.
  by destruct (addresses l) as [|x [|y k]].
Qed.
Lemma monitor_wrong l rest : Forall (good_item ["--timeout"] []) l → Forall plain_text (addresses l) → wrong_rest ["--timeout"] [] rest →
  monitor_command (command_line l ++ rest) = UsageError.
Proof.
  intros Hg Ha Hw. unfold monitor_command. by rewrite (collect_wrong monitor_table ["--timeout"] [] eq_refl (int_ok monitor_table ["--timeout"] eq_refl) (loop_ok monitor_table [] eq_refl)).
Qed.

Lemma publishes_parses u a up : scheduler_run u a = Ok up → ∃ c, from_string (su_publishes up) = Ok c ∧ to_address c = su_publishes up.
Proof.
  intros H. destruct (scheduler_up_ok _ _ _ H) as (_ & -> & _). exists (ZMQConfig Ipc (monitor_host (sa_address a)) None).
  change ("ipc://" +:+ monitor_host (sa_address a)) with (to_address (ZMQConfig Ipc (monitor_host (sa_address a)) None)).
  split; [|done]. apply address_roundtrip; [|done]. split; [done|by intros [? ?]].
Qed.
