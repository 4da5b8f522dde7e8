(** * How soon silence is noticed: C91 *)

From Verif.Model Require Import Base OneToManyDict Message SchedulerState Scheduler Worker EventLoop.
From Verif.Spec Require Import HistorySpec SchedulerSpec WorkerSpec LoopSpec.
From Verif.Proofs Require Import HistoryProofs LoopProofs SchedExamples WorkerExamples.

(** ** C91 *)

(** The turns of a loop are spaced by the interval at least, and by no more than the
    slack beyond it: over [j] turns the difference is between [j] intervals and [j]
    intervals with slack. *)
Theorem C91_spacing : ∀ seconds slack start turns i j a b, 0 <= seconds → Forall (quick slack) turns →
  loop_starts seconds start turns !! i = Some a → loop_starts seconds start turns !! (i + j)%nat = Some b →
  a + Z.of_nat j * seconds <= b <= a + Z.of_nat j * (seconds + slack).
Proof. exact loop_far. Qed.
Print Assumptions C91_spacing.
(** A worker that is still counted, whose tasks are therefore not given to others, was
    heard from within the timeout and one turn of the loop. *)
Theorem C91_worker : ∀ c rs slack start now, 0 <= c_timeout c → 0 <= slack → let s := run c rs in s_dead s = None →
  up_to rd_now now rs → Forall (λ r, start <= rd_now r) rs →
  on_schedule cleanup_interval slack start now (times_of rd_now (λ r, match rd_event r with EWorkers => true | _ => false end) rs) →
  ∀ w, w ∈ registered (s_log s) ∨ (∃ t, holder (s_log s) !! t = Some w) →
  ∃ t b, last_beat w (s_log s) = Some (t, b) ∧ now - t <= c_timeout c + 1 + slack.
Proof.
  intros c rs slack start now Ht Hsl s Hd Hu Hst Hsch w Hw. assert (Hr : w ∈ registered (s_log s)) by (destruct Hw as [?|[t Hw]]; [done|by eapply task_noticed]).
  by apply (worker_noticed c rs cleanup_interval slack start now).
Qed.
Print Assumptions C91_worker.
(** A function is deleted when no task uses it and nobody asked for it: in the last turn
    of the loop it was missing, or some task used it, or it had been added or looked for
    within the retention time. *)
Theorem C91_function : ∀ c rs slack start now f, let s := run c rs in s_dead s = None → up_to rd_now now rs → start < now →
  on_schedule cleanup_interval slack start now (times_of rd_now (λ r, match rd_event r with EFunctions => true | _ => false end) rs) →
  ∃ rs1 r rs2, rs = rs1 ++ r :: rs2 ∧ now - rd_now r <= 1 + slack ∧
    (s_funcs (run c (rs1 ++ [r])) !! f = None ∨ users (run c rs1) f ≠ ∅ ∨
     ∃ i, s_funcs (run c rs1) !! f = Some i ∧ rd_now r - fi_alive i <= c_retention c).
Proof. intros c rs slack start now f s Hd Hu Hst Hsch. by apply (function_noticed c rs cleanup_interval slack start now f). Qed.
Print Assumptions C91_function.
(** A worker that has not ended yet got an answer from the scheduler within its timeout
    and one turn of its loop. *)
Theorem C91_scheduler : ∀ i d begun rs slack start now, 0 <= d → 0 <= slack →
  always clock_runs (w_run i d begun rs).2 → working (w_run i d begun rs).2 →
  up_to wr_now now rs → Forall (λ r, begun <= wr_now r) rs → start <= begun + 1 + slack →
  on_schedule timeout_interval slack start now (times_of wr_now (λ r, match wr_event r with WTimeout => true | _ => false end) rs) →
  now - last_echo begun (w_run i d begun rs).2 <= d + 1 + slack.
Proof. intros i d begun rs slack start now Hd Hsl Hc Hw Hu Hf Hst Hsch. by apply (scheduler_noticed i d begun rs timeout_interval slack start now). Qed.
Print Assumptions C91_scheduler.

(** The timeout is 60: at 61, just before the loop's turn, w1 is still counted, and not
    after it.  w2 sends a heartbeat every twenty seconds. *)
Definition seconds_of (n : nat) : list round :=
  let now := Z.of_nat n in Round now [] EFunctions :: Round now [] EWorkers :: (if (n mod 20 =? 5)%nat then [later now (ERecv "w2" beat)] else []).
Definition first_minute (n : nat) : list round := later 0 (ERecv "w1" beat) :: later 0 (ERecv "w2" beat) :: later 0 (ERecv "cl" (MFunctionRequest FnAdd "f" "name" "code")) :: concat (seconds_of <$> seq 0 n).
Example C91_example :
  (let s := run cfg (first_minute 61) in s_dead s = None ∧ bool_decide (registered (s_log s) = {["w1"; "w2"]}) = true ∧ last_beat "w1" (s_log s) = Some (0, match beat with MHeartbeat b => b | _ => Heartbeat 0 0 0 0 0 0 false false false end)) ∧
  bool_decide (registered (s_log (run cfg (first_minute 62))) = {["w2"]}) = true ∧
  up_to rd_now 61 (first_minute 61) ∧
  on_schedule cleanup_interval 0 0 61 (times_of rd_now (λ r, match rd_event r with EWorkers => true | _ => false end) (first_minute 61)) ∧
  on_schedule cleanup_interval 0 0 61 (times_of rd_now (λ r, match rd_event r with EFunctions => true | _ => false end) (first_minute 61)) ∧
  c_timeout cfg = 60.
Proof.
  split; [split_and!; vm_compute; reflexivity|]. split; [vm_compute; reflexivity|]. split.
  { unfold up_to. apply sorted_check. vm_compute. reflexivity. }
  split; [|split; [|reflexivity]]; (exists (replicate 62 (Turn 0 0)), 61; split; [apply Forall_replicate; unfold quick; cbn; lia|split; [vm_compute; reflexivity|lia]]).
Qed.
Example C91_worker_example : let rs := WRound 1 (WHeartbeat 1 2 3 4) :: WRound 2 (WExt MHeartbeatEcho) :: ((λ n, WRound (Z.of_nat n) WTimeout) <$> seq 2 30) in
  always clock_runs (w_run "w" 30 1 rs).2 ∧ (∀ e, WCrash e ∉ (w_run "w" 30 1 rs).2) ∧ last_echo 1 (w_run "w" 30 1 rs).2 = 2 ∧
  on_schedule timeout_interval 0 2 32 (times_of wr_now (λ r, match wr_event r with WTimeout => true | _ => false end) rs) ∧
  last (w_run "w" 30 1 (rs ++ [WRound 32 WTimeout])).2 = Some (WCrash TimeoutError).
Proof.
  intros rs. split; [|split; [|split; [vm_compute; reflexivity|split; [|vm_compute; reflexivity]]]].
  - apply (checked_always (λ _ e, match e with WIn now _ => negb (now =? 0) | _ => true end)); [|vm_compute; reflexivity].
    intros b e. destruct e; try done. cbn. intros H%negb_true_iff%Z.eqb_neq. done.
  - intros e He. assert (Hb : forallb (λ x, match x with WCrash _ => false | _ => true end) (w_run "w" 30 1 rs).2 = true) by (vm_compute; reflexivity).
    rewrite forallb_forall in Hb. apply elem_of_list_In in He. by specialize (Hb _ He).
  - exists (replicate 31 (Turn 0 0)), 32. split; [apply Forall_replicate; unfold quick; cbn; lia|]. split; [vm_compute; reflexivity|lia].
Qed.
