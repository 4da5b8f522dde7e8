(** * The monitor process: C97 *)

From Verif.Model Require Import Base Message Transport Formatter Top MonitorLoop.
From Verif.Spec Require Import TopSpec MonitorSpec.
From Verif.Proofs Require Import BaseProofs TopProofs MonitorProofs.
From Verif.Props Require Import PropsMonitor.

(** While the scheduler publishes reports and states the monitor goes on and draws one screen
    per report, in their order: that report, with the column that the last shortcut pressed
    names (keys are read when a report is drawn). Everything else it passes over. *)
Theorem C97_every_report_drawn : ∀ loads (sent : list (message * Z)) arrivals,
  Forall2 (λ (p : message * Z) a, published loads p.1 ∧ ∃ order frames, connector_send order p.1 = Ok frames ∧ a = Arrives frames p.2) sent arrivals →
  length (monitor loads arrivals) = length sent ∧
  ∀ i m key, sent !! i = Some (m, key) →
    match m with
    | MSchedulerState d => ∃ r texts, loads d = Ok r ∧ screen r (column_after (keys_read (take (S i) sent))) = Ok texts ∧ monitor loads arrivals !! i = Some (Draws texts)
    | _ => monitor loads arrivals !! i = Some Passed
    end.
Proof. intros loads sent arrivals H. exact (watch loads sent arrivals [] H). Qed.
Print Assumptions C97_every_report_drawn.

(** The workers stand below each other by that column: higher entries first - numbers by
    their values, not by their texts - and equal ones in the order of the report. *)
Theorem C97_order_of_workers : ∀ r keys, report_ok r → ∃ t1 t2 out,
  status_tables r (column_after keys) = Ok (t1, t2) ∧ ranked (column_after keys) (r_workers r) out ∧
  ∀ i w, out !! i = Some w → ∃ cells rest, t2 !! S i = Some (cells ++ rest) ∧ Forall2 (displays w) (entries w) cells.
Proof.
  intros r keys H. destruct (status_ok r (column_after keys) H (column_ok keys)) as (t1 & t2 & w1 & w2 & E & _ & _ & _ & _ & _ & _ & _ & _ & _ & out & H1 & H2). exists t1, t2, out. auto.
Qed.
Print Assumptions C97_order_of_workers.

(** How it ends: with TimeoutError when nothing arrives in time, and without a word when a
    message of unknown type arrives. A single frame is passed over. *)
Theorem C97_ends : ∀ loads before after, Forall goes_on (monitor loads before) →
  monitor loads (before ++ Silence :: after) = monitor loads before ++ [Fails TimeoutError] ∧
  (∀ t p payload key, type_known t = false → monitor loads (before ++ Arrives (t :: p :: payload) key :: after) = monitor loads before ++ [Leaves]) ∧
  ∀ t key, monitor loads (before ++ Arrives [t] key :: after) = monitor loads before ++ Passed :: drop (length before) (monitor loads (before ++ after)).
Proof.
  intros loads before after H. split; [|split].
  - destruct (run_app loads before "cpu" (Silence :: after) H) as (s & E & _). unfold monitor. rewrite E. reflexivity.
  - intros t p payload key Ht. destruct (run_app loads before "cpu" (Arrives (t :: p :: payload) key :: after) H) as (s & E & _). unfold monitor. rewrite E. cbn [monitor_run monitor_turn]. rewrite Ht. reflexivity.
  - intros t key. destruct (run_column loads before "cpu" H) as (s & E). unfold monitor. rewrite !E, drop_app_le by (rewrite (run_length loads before "cpu" H); lia).
    rewrite drop_ge by (rewrite (run_length loads before "cpu" H); lia). reflexivity.
Qed.
Print Assumptions C97_ends.

(** Two reports with a state between them; [m] (109) is pressed before the second: sorted by
    cpu first, then by memory. *)
Definition loads_example (data : bytes) : res report := if String.eqb data "{}" then Ok example_report else Raise ValueError.
Definition arrivals_example : list arrival :=
  [Arrives ["SS"; "{}"] (-1); Arrives (match connector_send [] (MTaskState "t" "f" Running) with Ok f => f | _ => [] end) 99; Arrives ["SS"; "{}"] 109].
Example C97_example :
  let sent := [(MSchedulerState "{}", -1); (MTaskState "t" "f" Running, 99); (MSchedulerState "{}", 109)] in
  Forall2 (λ (p : message * Z) a, published loads_example p.1 ∧ ∃ order frames, connector_send order p.1 = Ok frames ∧ a = Arrives frames p.2) sent arrivals_example ∧
  (∃ a b, monitor loads_example arrivals_example = [Draws a; Passed; Draws b] ∧ length a = length b ∧ a ≠ b) ∧
  keys_read sent = [-1; 109] ∧ column_after (keys_read (take 1 sent)) = "cpu" ∧ column_after (keys_read sent) = "rss" ∧
  type_known "??" = false ∧ monitor loads_example [Arrives ["SS"; "no json"] (-1); Silence] = [Fails ValueError].
Proof.
  assert (Hr : report_ok example_report) by apply C64_example.
  split; [|split; [|repeat split; by_compute]].
  - repeat constructor; try (exists example_report; split; [reflexivity|exact Hr]); (exists []; eexists; split; [vm_compute; reflexivity|vm_compute; reflexivity]).
  - pose (s := screen example_report). exists (match s "cpu" with Ok t => t | _ => [] end), (match s "rss" with Ok t => t | _ => [] end). split; [by_compute|split; [by_compute|]]. intros E.
    assert (bool_decide (match s "cpu" with Ok t => t | _ => [] end = match s "rss" with Ok t => t | _ => [] end) = false) as Hn by (vm_compute; reflexivity). apply bool_decide_eq_false in Hn. exact (Hn E).
Qed.
