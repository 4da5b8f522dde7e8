(** * The screen and the scheduler: C98 *)

From Verif.Model Require Import Base Message SchedulerState Scheduler Counters Formatter Top MonitorLoop Published.
From Verif.Spec Require Import SchedulerSpec CountersSpec TopSpec MonitorSpec PublishedSpec.
From Verif.Proofs Require Import BaseProofs SchedPolite SchedExamples TopProofs PublishedProofs.

(** C98.  In well-behaved traffic the scheduler's report can be shown, whatever the column
    chosen, and the screen tells the truth about the history: the numbers of waiting, running and
    finished tasks and of messages, for each client the number of its unanswered tasks, and one
    row for each registered worker with its last heartbeat, its tasks and its free places. *)
Theorem C98_screen_tells_the_truth : ∀ c rs now codes, let s := run c rs in
  c_max_waiting c < 0 → always (polite utf8) (s_log s) →
  (∀ w last h, w ∈ registered (s_log s) → last_beat w (s_log s) = Some (last, h) → fits h) →
  ∃ r, s_log (step s (Round now codes EStatus)) = s_log s ++ [LIn now EStatus; LReport r] ∧
  ∀ value percent x p rss st j sort_by, becomes value percent (CFloat x p) rss st r j → 0 <= rss < 1024 ^ 5 → sort_by ∈ columns →
  ∃ t1 t2 texts, status_tables j sort_by = Ok (t1, t2) ∧ screen j sort_by = Ok texts ∧
    line t1 "unassigned" (Z.of_nat (length (s_unassigned s))) ∧ line t1 "running" (number (dom (holder (s_log s)))) ∧
    (∃ success failed canceled not_found, outcomes (s_log s) = (success, failed, canceled, not_found) ∧
      line t1 "success" success ∧ line t1 "failed" failed ∧ line t1 "canceled" canceled ∧ line t1 "not_found" not_found) ∧
    (∀ es xs, socket_run binder_step no_statistics es = (st, xs) → no_failure xs → ∀ t,
      (0 < handed t xs → line t1 (type_name t) (handed t xs)) ∧ (0 < wired t xs → line t1 (type_name t) (wired t xs))) ∧
    (∀ cl (X : gset bytes), (∀ t, t ∈ X ↔ accepted cl t (s_log s) ∧ ¬ answered t (s_log s)) → X ≠ ∅ → shown t2 [CText (truncate cl 18 KeepLeft); CInt (number X)]) ∧
    ∃ order, order ≡ₚ elements (registered (s_log s)) ∧ ∀ i w, order !! i = Some w → ∃ last h cells rest,
      last_beat w (s_log s) = Some (last, h) ∧ t2 !! S i = Some (cells ++ rest) ∧
      tells_of percent w h (c_queue_size c - outstanding (s_log s) w) (outstanding (s_log s) w) (now - last) cells.
Proof. exact shown_state. Qed.
Print Assumptions C98_screen_tells_the_truth.

(** Such reports are what C97 is about: the monitor draws each of them. *)
Theorem C98_reports_are_drawn : ∀ loads c rs now codes r value percent x p rss st j data,
  c_max_waiting c < 0 → always (polite utf8) (s_log (run c rs)) →
  (∀ w last h, w ∈ registered (s_log (run c rs)) → last_beat w (s_log (run c rs)) = Some (last, h) → fits h) →
  LReport r ∈ drop (length (s_log (run c rs))) (s_log (step (run c rs) (Round now codes EStatus))) →
  becomes value percent (CFloat x p) rss st r j → 0 <= rss < 1024 ^ 5 → loads data = Ok j → published loads (MSchedulerState data).
Proof.
  intros loads c rs now codes r value percent x p rss st j data Hw Ha Hf Hin Hj Hr Hl. exists j. split; [exact Hl|].
  apply (becomes_ok _ _ _ _ _ _ _ Hj); [by exists x, p|done|]. intros w row Hrow.
  destruct (report_lemma c rs now codes Hw Ha) as (r' & E & _ & _ & _ & _ & _ & _ & _ & Hws). rewrite E, drop_app in Hin.
  apply elem_of_cons in Hin as [[=]|Hin]. apply elem_of_list_singleton in Hin as [= ->]. apply Hws in Hrow as (Hreg & last & h & Hb & ->). exact (Hf w last h Hreg Hb).
Qed.
Print Assumptions C98_reports_are_drawn.

(** Without the bound on the delay of a worker the monitor can end with an exception: a
    worker that reports a delay of 1000 s. *)
Definition slow : heartbeat := Heartbeat 1 2 3 4 5 (10 ^ 9) true false false.
Definition slow_report : Top.report :=
  Top.Report [("cpu", CFloat 0 "0.0%"); ("rss", CInt 5000)]
    [("unassigned", CInt 0); ("running", CInt 0); ("success", CInt 0); ("failed", CInt 0); ("canceled", CInt 0); ("not_found", CInt 0)] [] [] [] []
    [worker_json (λ n, n) (λ _, "1.0%") "w" (SchedulerState.WorkerRow slow 2 0 9)].
Theorem C98_slow_worker_refuted : ∃ rs r j,
  always (polite utf8) (s_log (run cfg rs)) ∧ last (s_log (run cfg (rs ++ [later 9 EStatus]))) = Some (LReport r) ∧
  becomes (λ n, n) (λ _, "1.0%") (CFloat 0 "0.0%") 5000 no_statistics r j ∧
  ∀ sort_by, sort_by ∈ columns → ∃ e, screen j sort_by = Raise e.
Proof.
  exists [from "w" (MHeartbeat slow)], (SchedulerState.Report ∅ ∅ 0 0 0 0 0 0 {["w" := SchedulerState.WorkerRow slow 2 0 9]}), slow_report.
  split; [apply polite_check; vm_compute; reflexivity|]. split; [by_compute|]. split.
  - split_and!; try done. exists [("w", SchedulerState.WorkerRow slow 2 0 9)]. split; [|reflexivity]. cbn [rp_workers]. rewrite map_to_list_singleton. done.
  - intros sort_by H. unfold columns in H. repeat (apply elem_of_cons in H as [->|H]; [eexists; vm_compute; reflexivity|]). by apply elem_of_nil in H.
Qed.
Print Assumptions C98_slow_worker_refuted.

(** Two workers with two tasks each and one task waiting, from the example of C35. *)
Definition shown_example : Top.report :=
  Top.Report [("cpu", CFloat 1 "0.1%"); ("rss", CInt 2048)]
    [("unassigned", CInt 1); ("running", CInt 4); ("success", CInt 1); ("failed", CInt 0); ("canceled", CInt 0); ("not_found", CInt 0)] [] []
    [("cl", CInt 5)] [("name", CInt 5)] [worker_json (λ n, n) (λ _, "1.0%") "w2" (SchedulerState.WorkerRow info 0 2 9); worker_json (λ n, n) (λ _, "1.0%") "w1" (SchedulerState.WorkerRow info 0 2 9)].
Example C98_example :
  c_max_waiting cfg < 0 ∧ always (polite utf8) (s_log (run cfg waiting)) ∧ fits info ∧ registered (s_log (run cfg waiting)) = {["w1"; "w2"]} ∧
  (∀ w, w ∈ ["w1"; "w2"] → last_beat w (s_log (run cfg waiting)) = Some (0, info)) ∧
  (∃ r, last (s_log (run cfg (waiting ++ [later 9 EStatus]))) = Some (LReport r) ∧ becomes (λ n, n) (λ _, "1.0%") (CFloat 1 "0.1%") 2048 no_statistics r shown_example) ∧
  ∃ texts, screen shown_example "cpu" = Ok texts.
Proof.
  split; [reflexivity|]. split; [apply polite_check; vm_compute; reflexivity|]. split; [split; [cbn; lia|split; cbn; lia]|]. split; [by_compute|].
  split. { intros w H. apply elem_of_cons in H as [->|H]; [by_compute|]. apply elem_of_list_singleton in H as ->. by_compute. }
  split; [|eexists; vm_compute; reflexivity].
  exists (SchedulerState.Report {["cl" := 5]} {["name" := 5]} 1 4 1 0 0 0 {["w1" := SchedulerState.WorkerRow info 0 2 9; "w2" := SchedulerState.WorkerRow info 0 2 9]}).
  split; [by_compute|]. split_and!; try done; try (by cbn [r_clients r_functions shown_example rp_clients rp_functions]; rewrite map_to_list_singleton).
  exists [("w2", SchedulerState.WorkerRow info 0 2 9); ("w1", SchedulerState.WorkerRow info 0 2 9)]. split; [|reflexivity]. cbn [rp_workers].
  rewrite map_to_list_insert, map_to_list_singleton by done. apply perm_swap.
Qed.
