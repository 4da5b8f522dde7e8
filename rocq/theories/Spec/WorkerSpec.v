(** * Reading a worker's observable history

    Everything here is computed from the history (messages in and out), not from the
    agent's tables. *)

From Verif.Model Require Import Base Message Worker.
From Verif.Spec Require Export HistorySpec.

(** The task the processor is working on: handed over, and since then the processor
    was not restarted and no result was sent in reaction to a message from it. *)
Definition busy_step (p : option task * bool) (e : wentry) : option task * bool :=
  match e with
  | WIn _ (WProc _) => (p.1, true)
  | WIn _ _ => (p.1, false)
  | WHand (MTask k) => (Some k, p.2)
  | WStart => (None, p.2)
  | WOut (MTaskResult _ _ _ _) => if p.2 then (None, true) else p
  | _ => p
  end.
Definition busy (h : list wentry) : option task := (foldl busy_step (None, false) h).1.

(** The processor has reported that it is up since it was last (re)started. *)
Definition up_step (b : bool) (e : wentry) : bool :=
  match e with
  | WStart => false
  | WIn _ (WProc (MTaskResult t _ _ _)) => b || String.eqb t ""
  | _ => b
  end.
Definition up (h : list wentry) : bool := foldl up_step false h.

(** The tasks received and neither handed over, nor cancelled, nor given back, in the
    order received. *)
Definition waiting_step (l : list task) (e : wentry) : list task :=
  match e with
  | WIn _ (WExt (MTask k)) => l ++ [k]
  | WHand (MTask k) => tail l
  | WOut (MTaskResult t Canceled _ _) => filter (λ k, task_id k ≠ t) l
  | WOut (MBalanceResponse ids) => filter (λ k, task_id k ∉ ids) l
  | _ => l
  end.
Definition waiting (h : list wentry) : list task := foldl waiting_step [] h.

(** No task arrives whose id the worker still has. *)
Definition fresh (before : list wentry) (e : wentry) : Prop :=
  match e with
  | WIn _ (WExt (MTask k)) =>
      task_id k ∉ task_id <$> waiting before ∧ (∀ k', busy before = Some k' → task_id k' ≠ task_id k)
  | _ => True
  end.

(** The last input. *)
Definition last_event (h : list wentry) : option wevent :=
  foldl (λ o e, match e with WIn _ ev => Some ev | _ => o end) None h.

(** ** What C46 says of each entry
    A task goes to the processor only when it is up and idle. *)
Definition one_at_a_time (before : list wentry) (e : wentry) : Prop :=
  match e with
  | WHand (MTask _) => busy before = None ∧ up before = true
  | _ => True
  end.
(** A task goes to the processor only when it is the oldest waiting. *)
Definition oldest_first (before : list wentry) (e : wentry) : Prop :=
  match e with
  | WHand (MTask k) => ∃ rest, waiting before = k :: rest
  | _ => True
  end.
(** A result sent to the scheduler is, word for word, what the processor just reported
    for the task it was working on; or it answers the cancel that just came. *)
Definition genuine (before : list wentry) (e : wentry) : Prop :=
  match e with
  | WOut (MTaskResult t st d p) =>
      (last_event before = Some (WProc (MTaskResult t st d p)) ∧ ∃ k, busy before = Some k ∧ task_id k = t)
      ∨ (last_event before = Some (WExt (MTaskCancel t)) ∧ (st = Canceled ∨ st = NotFound) ∧ d = 0 ∧ p = "")
  | _ => True
  end.

(** The processor reports only success and failure. *)
Definition plain_results (h : list wentry) : Prop :=
  ∀ now t st d p, WIn now (WProc (MTaskResult t st d p)) ∈ h → st = Success ∨ st = Failed.

(** Counting what happened to task [t]. *)
Definition arrivals (t : bytes) (e : wentry) : nat :=
  match e with WIn _ (WExt (MTask k)) => if String.eqb (task_id k) t then 1 else 0 | _ => 0 end.
Definition answers_to (t : bytes) (e : wentry) : nat :=
  match e with
  | WOut (MTaskResult _ NotFound _ _) => 0
  | WOut (MTaskResult t' _ _ _) => if String.eqb t' t then 1 else 0
  | _ => 0
  end.
Definition give_backs (t : bytes) (e : wentry) : nat :=
  match e with WOut (MBalanceResponse ids) => count_occ string_dec ids t | _ => 0 end.
Definition handovers (t : bytes) (e : wentry) : nat :=
  match e with WHand (MTask k) => if String.eqb (task_id k) t then 1 else 0 | _ => 0 end.

Definition cancels_of (t : bytes) (e : wentry) : nat :=
  match e with WIn _ (WExt (MTaskCancel t')) => if String.eqb t' t then 1 else 0 | _ => 0 end.
Definition cancel_answers (t : bytes) (e : wentry) : nat :=
  match e with
  | WOut (MTaskResult t' Canceled _ _) | WOut (MTaskResult t' NotFound _ _) => if String.eqb t' t then 1 else 0
  | _ => 0
  end.

(** The process is alive. *)
Definition working (h : list wentry) : Prop := ∀ e, WCrash e ∉ h.

(** Heartbeats: sent and not echoed yet; time of the last echo that was waited for. *)
Definition beat_step (p : bool * Z) (e : wentry) : bool * Z :=
  match e with
  | WOut (MHeartbeat _) => (true, p.2)
  | WIn now (WExt MHeartbeatEcho) => if p.1 then (false, now) else p
  | _ => p
  end.
Definition beats (started : Z) (h : list wentry) : bool * Z := foldl beat_step (false, started) h.
Definition unechoed (h : list wentry) : bool := (beats 0 h).1.
Definition last_echo (started : Z) (h : list wentry) : Z := (beats started h).2.

(** A heartbeat is sent only when the previous one was echoed. *)
Definition one_beat (before : list wentry) (e : wentry) : Prop :=
  match e with WOut (MHeartbeat _) => unechoed before = false | _ => True end.
(** A heartbeat says whether the processor is up and has a task, and carries the
    measurements just made. *)
Definition true_beat (before : list wentry) (e : wentry) : Prop :=
  match e with
  | WOut (MHeartbeat b) =>
      hb_initialized b = up before
      ∧ hb_has_task b = match busy before with Some k => negb (String.eqb (task_id k) "") | None => false end
      ∧ last_event before = Some (WHeartbeat (hb_agent_cpu b) (hb_agent_rss b) (hb_worker_cpu b) (hb_worker_rss b))
      ∧ (hb_queued b = Z.of_nat (length (waiting before)) ∨ hb_queued b + 1 = Z.of_nat (length (waiting before)))
  | _ => True
  end.

(** The clock never shows 0. *)
Definition clock_runs (before : list wentry) (e : wentry) : Prop :=
  match e with WIn now _ => now ≠ 0 | _ => True end.

(** ** Well-behaved peers
    No task the worker still has arrives again; balance requests are for at least 0
    tasks; a cancel or a function arrives only while the worker is busy or its
    processor is starting (see C49); message classes are those the agent handles; the
    processor asks only for functions. *)
Definition welcome (before : list wentry) (e : wentry) : Prop :=
  match e with
  | WIn _ (WExt m) =>
      match m with
      | MTask k => fresh before e
      | MTaskCancel _ => is_Some (busy before) ∨ up before = false
      | MFunctionResponse _ _ _ _ => is_Some (busy before) ∨ up before = false
      | MBalanceRequest n => 0 <= n
      | MFunctionRequest ty _ _ _ => ty = FnDelete
      | MHeartbeatEcho => True
      | _ => False
      end
  | WIn _ (WProc m) =>
      match m with
      | MTaskResult _ _ _ _ => True
      | MFunctionRequest ty _ _ _ => ty = FnRequest
      | _ => False
      end
  | _ => True
  end.
