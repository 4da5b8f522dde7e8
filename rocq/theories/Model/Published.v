(** * From the scheduler's report to the one that the monitor decodes

    status_reporter.py:23-26: [json.dumps] of the statistics of the managers, and
    [json.loads] in top.py:94 gives them back.  JSON objects are dictionaries in insertion
    order, which the model of the scheduler does not keep: any order is possible here.
    Measured loads ([cpu]) arrive as thousandths (message.py:310-345); [value] and [percent]
    stand for the float n/1000 and for its text in the format [.1%]. *)

From Verif.Model Require Import Base Message SchedulerState Counters Formatter Top.

Definition flag (b : bool) : bytes := if b then "1" else "0".
(** worker_manager.py:116-127 with queued.py:98-102. *)
Definition worker_json (value : Z → Z) (percent : Z → bytes) (name : bytes) (row : SchedulerState.worker_row) : list (bytes * cell) :=
  let h := wr_info row in
  [("worker", CText name);
   ("agt_cpu", CFloat (value (hb_agent_cpu h)) (percent (hb_agent_cpu h))); ("agt_rss", CInt (hb_agent_rss h));
   ("cpu", CFloat (value (hb_worker_cpu h)) (percent (hb_worker_cpu h))); ("rss", CInt (hb_worker_rss h));
   ("free", CInt (wr_free row)); ("sent", CInt (wr_sent row)); ("queued", CInt (hb_queued h));
   ("lag", CInt (hb_latency h)); ("last", CInt (wr_last row));
   ("ITL", CText (flag (hb_initialized h) +:+ flag (hb_has_task h) +:+ flag (hb_task_lock h)))].
(** task_manager.py:74-83. *)
Definition tasks_json (r : SchedulerState.report) : list (bytes * cell) :=
  [("unassigned", CInt (rp_unassigned r)); ("running", CInt (rp_running r)); ("success", CInt (rp_success r));
   ("failed", CInt (rp_failed r)); ("canceled", CInt (rp_canceled r)); ("not_found", CInt (rp_not_found r))].
Definition number_json (p : bytes * Z) : bytes * cell := (p.1, CInt p.2).
(** status_reporter.py:24-26 and async_binder.py:59-65: [j] is what the monitor may decode
    when the managers report [r], the binder has counted [st] and the scheduler's process uses
    [rss] bytes and the load [cpu]. *)
Definition becomes (value : Z → Z) (percent : Z → bytes) (cpu : cell) (rss : Z) (st : statistics) (r : SchedulerState.report) (j : Top.report) : Prop :=
  r_scheduler j = [("cpu", cpu); ("rss", CInt rss)] ∧ r_task_manager j = tasks_json r ∧
  r_sent j ≡ₚ number_json <$> map_to_list (st_sent st) ∧ r_received j ≡ₚ number_json <$> map_to_list (st_received st) ∧
  r_clients j ≡ₚ number_json <$> map_to_list (rp_clients r) ∧ r_functions j ≡ₚ number_json <$> map_to_list (rp_functions r) ∧
  ∃ ws, ws ≡ₚ map_to_list (rp_workers r) ∧ r_workers j = (λ p, worker_json value percent p.1 p.2) <$> ws.
