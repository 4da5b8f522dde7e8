(** * The worker process: agent (worker/worker.py, worker/agent/ *.py)

    The agent is one asyncio loop.  Each [await] that can suspend is the end of a
    step, so the coroutine of task_manager.py:66-73 is cut at the [await]s of
    processor_manager.py:93 and :95 and the other loops may run in between; sending is
    one step (the sockets have no high-water mark).  What the processor process does
    is modelled in Model/Processor.v. *)

From Verif.Model Require Import Base Message.

(** Where the task loop is (task_manager.py:66-73 with processor_manager.py:92-99). *)
Inductive task_loop : Type :=
| LGet                 (* before or in [self._queued_task_ids.get()] *)
| LLock (k : task)     (* in [task_wait_lock.acquire()] with task [k] *)
| LInit (k : task).    (* has the lock, in [initialized.wait()] *)

(** The agent: VanillaTaskManager (task_manager.py:19-20), _ProcessorHolder
    (processor_manager.py:31-36), VanillaHeartbeatManager (heartbeat_manager.py:26-27)
    and VanillaTimeoutManager (timeout_manager.py:9-10).  [a_ids] is the IndexedQueue,
    oldest first (C01).  [a_sent] is [_start_timestamp_ns], 0 for none.
    SIMPLIFICATION: both clocks ([time.time], [time.time_ns]) are one integer clock;
    the [processor] field is left out since a processor is always started after
    processor_manager.py:78, and so is the pid kept by the heartbeat manager. *)
Record agent := Agent {
  a_identity : bytes;         (* connector identity *)
  a_death : Z;                (* death_timeout_seconds *)
  a_tasks : gmap bytes task;  (* _queued_task_id_to_task *)
  a_ids : list bytes;         (* _queued_task_ids *)
  a_loop : task_loop;
  a_init : bool;              (* initialized *)
  a_task : option task;       (* task *)
  a_lock : bool;              (* task_wait_lock *)
  a_sent : Z;
  a_latency : Z;
  a_seen : Z;                 (* _last_seen_time *)
  a_dead : option exn }.

(** What can happen: a message from the scheduler or from the processor, or a round of
    one of the loops of worker.py:138-144.  A heartbeat round is given the four
    measurements it would make. *)
Inductive wevent : Type :=
| WExt (m : message)
| WProc (m : message)
| WLoop
| WHeartbeat (agent_cpu agent_rss worker_cpu worker_rss : Z)
| WTimeout.

(** The observable history: inputs, messages to the scheduler, messages to the
    processor, processor (re)starts, and the end of the process. *)
Inductive wentry : Type :=
| WIn (now : Z) (e : wevent)
| WOut (m : message)
| WHand (m : message)
| WStart
| WCrash (e : exn).

(** Result of a handler: new state, what it did, exception. *)
Definition wres : Type := agent * list wentry * option exn.

Definition with_queue (q : gmap bytes task) (ids : list bytes) (a : agent) : agent :=
  Agent (a_identity a) (a_death a) q ids (a_loop a) (a_init a) (a_task a) (a_lock a) (a_sent a) (a_latency a) (a_seen a) (a_dead a).
Definition with_loop (l : task_loop) (a : agent) : agent :=
  Agent (a_identity a) (a_death a) (a_tasks a) (a_ids a) l (a_init a) (a_task a) (a_lock a) (a_sent a) (a_latency a) (a_seen a) (a_dead a).
Definition with_holder (init : bool) (k : option task) (lock : bool) (a : agent) : agent :=
  Agent (a_identity a) (a_death a) (a_tasks a) (a_ids a) (a_loop a) init k lock (a_sent a) (a_latency a) (a_seen a) (a_dead a).
Definition with_beat (sent latency seen : Z) (a : agent) : agent :=
  Agent (a_identity a) (a_death a) (a_tasks a) (a_ids a) (a_loop a) (a_init a) (a_task a) (a_lock a) sent latency seen (a_dead a).
Definition with_dead (e : exn) (a : agent) : agent :=
  Agent (a_identity a) (a_death a) (a_tasks a) (a_ids a) (a_loop a) (a_init a) (a_task a) (a_lock a) (a_sent a) (a_latency a) (a_seen a) (Some e).

(** [list.remove]-like removal of the first occurrence. *)
Fixpoint remove_first (x : bytes) (l : list bytes) : list bytes :=
  match l with
  | [] => []
  | y :: l => if String.eqb x y then l else y :: remove_first x l
  end.

(** ** Task manager (worker/agent/task_manager.py) *)

(** task_manager.py:29-31 [on_task_new]: the dictionary entry is written before [put]
    raises KeyError on a duplicate. *)
Definition wt_new (k : task) (a : agent) : wres :=
  let a := with_queue (<[task_id k := k]> (a_tasks a)) (a_ids a) a in
  if bool_decide (task_id k ∈ a_ids a) then (a, [], Some KeyError)
  else (with_queue (a_tasks a) (a_ids a ++ [task_id k]) a, [], None).

(** processor_manager.py:114-124 [on_cancel_task] with :135-137 [restart_processor]:
    the old processor is killed and a new one started.  [None.task_id] raises
    AttributeError; releasing a lock that is not held would raise RuntimeError, here
    OutOfFuel (shown unreachable). *)
Definition wp_cancel (t : bytes) (a : agent) : agent * list wentry * res bool :=
  if negb (a_init a) then (a, [], Ok false)
  else
    match a_task a with
    | None => (a, [], Raise AttributeError)
    | Some k =>
        if negb (String.eqb (task_id k) t) then (a, [], Ok false)
        else if a_lock a then (with_holder false None false a, [WStart], Ok true)
        else (with_holder false None false a, [WStart], Raise OutOfFuel)
    end.

(** task_manager.py:39-50 [on_cancel_task]. *)
Definition wt_cancel (t : bytes) (a : agent) : wres :=
  match a_tasks a !! t with
  | Some _ =>
      let a := with_queue (delete t (a_tasks a)) (a_ids a) a in
      if bool_decide (t ∈ a_ids a) then
        (with_queue (a_tasks a) (remove_first t (a_ids a)) a, [WOut (MTaskResult t Canceled 0 "")], None)
      else (a, [], Some KeyError)
  | None =>
      match wp_cancel t a with
      | (a, out, Ok true) => (a, out ++ [WOut (MTaskResult t Canceled 0 "")], None)
      | (a, out, Ok false) => (a, out ++ [WOut (MTaskResult t NotFound 0 "")], None)
      | (a, out, Raise e) => (a, out, Some e)
      end
  end.

(** task_manager.py:52-61 [on_balance_request]: one pass of the [while] loop per unit
    of [n]. *)
Fixpoint wt_take (n : nat) (a : agent) : agent * list bytes * option exn :=
  match n with
  | O => (a, [], None)
  | S n =>
      match a_ids a with
      | [] => (a, [], Some QueueEmpty)
      | t :: ids =>
          match a_tasks a !! t with
          | None => (with_queue (a_tasks a) ids a, [], Some KeyError)
          | Some _ => let '(a, ts, e) := wt_take n (with_queue (delete t (a_tasks a)) ids a) in (a, t :: ts, e)
          end
      end
  end.
(** ... and worker.py:121-124.  A negative count makes [while number_of_tasks] run
    until the queue is empty and [get_nowait] raises. *)
Definition wt_balance (n : Z) (a : agent) : wres :=
  let m := Z.min n (Z.of_nat (length (a_ids a))) in
  let '(a, ts, e) := wt_take (if m <? 0 then S (length (a_ids a)) else Z.to_nat m) a in
  match e with
  | None => (a, [WOut (MBalanceResponse ts)], None)
  | Some e => (a, [], Some e)
  end.

(** task_manager.py:66-73 [__processing_task] and processor_manager.py:92-99
    [on_task], up to the next [await] that may suspend.  [on_task] always returns
    True, so task_manager.py:72-73 is dead code. *)
Definition wt_loop (a : agent) : wres :=
  match a_loop a with
  | LGet =>
      match a_ids a with
      | [] => (a, [], None)
      | t :: ids =>
          match a_tasks a !! t with
          | None => (with_queue (a_tasks a) ids a, [], Some KeyError)
          | Some k => (with_loop (LLock k) (with_queue (delete t (a_tasks a)) ids a), [], None)
          end
      end
  | LLock k =>
      if a_lock a then (a, [], None)
      else (with_loop (LInit k) (with_holder (a_init a) (a_task a) true a), [], None)
  | LInit k =>
      if negb (a_init a) then (a, [], None)
      else
        match a_task a with
        | Some _ => (a, [], Some AssertionError)
        | None => (with_loop LGet (with_holder (a_init a) (Some k) (a_lock a) a), [WHand (MTask k)], None)
        end
  end.

(** ** Processor manager (worker/agent/processor_manager.py) *)

(** processor_manager.py:83-90 [on_function_request] (from the scheduler). *)
Definition wp_function_request (ty : function_request_type) (f : bytes) (a : agent) : wres :=
  match ty with
  | FnDelete => (a, [WHand (MFunctionRequest FnDelete f "" "")], None)
  | _ => (a, [], Some TypeError)
  end.

(** processor_manager.py:101-112 [on_function_response]. *)
Definition wp_function_response (st : function_response_type) (f name content : bytes) (a : agent) : wres :=
  if negb (a_init a) then (a, [], None)
  else
    match a_task a with
    | None => (a, [], Some AttributeError)
    | Some k =>
        if negb (String.eqb (task_function k) f) then (a, [], None)
        else
          match st with
          | FnNotExists => (a, [], None)
          | _ => (a, [WHand (MFunctionResponse st f name content)], None)
          end
    end.

(** processor_manager.py:170-193 [__on_internal_task_result] and
    [__on_internal_processor_initialized]. *)
Definition wp_result (t : bytes) (st : task_status) (d : Z) (p : bytes) (a : agent) : wres :=
  if negb (a_init a) then
    if negb (String.eqb t "") then (a, [], None)
    else
      (with_holder true (a_task a) (a_lock a) a,
       match a_task a with Some k => [WHand (MTask k)] | None => [] end, None)
  else
    match a_task a with
    | None => (a, [], None)
    | Some k =>
        if negb (String.eqb (task_id k) t) then (a, [], None)
        else if a_lock a then (with_holder true None false a, [WOut (MTaskResult t st d p)], None)
        else (with_holder true None false a, [WOut (MTaskResult t st d p)], Some OutOfFuel)
    end.

(** processor_manager.py:206-217 [__on_internal_function_request]. *)
Definition wp_internal_request (ty : function_request_type) (f name content : bytes) (a : agent) : wres :=
  if negb (a_init a) then (a, [], None)
  else
    match a_task a with
    | None => (a, [], None)
    | Some k =>
        if negb (String.eqb (task_function k) f) then (a, [], None)
        else
          match ty with
          | FnRequest => (a, [WOut (MFunctionRequest FnRequest f name content)], None)
          | _ => (a, [], Some AssertionError)
          end
    end.

(** ** Heartbeats and timeouts *)

(** heartbeat_manager.py:44-51 [on_heartbeat_echo].  The code divides in floating point
    before the floor division; below 2^53 ns that is the integer division here. *)
Definition wh_echo (now : Z) (a : agent) : wres :=
  if a_sent a =? 0 then (a, [], None)
  else (with_beat 0 ((now - a_sent a) / 2 / 1000) now a, [], None).

(** heartbeat_manager.py:53-74 [routine], processor_manager.py:126-133. *)
Definition wh_routine (now ac ar wc wr : Z) (a : agent) : wres :=
  if negb (a_sent a =? 0) then (a, [], None)
  else
    (with_beat now (a_latency a) (a_seen a) a,
     [WOut (MHeartbeat (Heartbeat ac ar wc wr (Z.of_nat (length (a_ids a))) (a_latency a) (a_init a)
        (match a_task a with Some k => negb (String.eqb (task_id k) "") | None => false end) (a_lock a)))], None).

(** timeout_manager.py:15-19 [routine]. *)
Definition wo_routine (now : Z) (a : agent) : wres :=
  if now - a_seen a <? a_death a then (a, [], None) else (a, [], Some TimeoutError).

(** ** The process *)

(** worker.py:108-134 [__on_receive_external], processor_manager.py:195-204
    [__on_receive_internal], and the loops. *)
Definition w_handle (now : Z) (e : wevent) (a : agent) : wres :=
  match e with
  | WExt m =>
      match m with
      | MHeartbeatEcho => wh_echo now a
      | MTask k => wt_new k a
      | MTaskCancel t => wt_cancel t a
      | MBalanceRequest n => wt_balance n a
      | MFunctionRequest ty f _ _ => wp_function_request ty f a
      | MFunctionResponse st f name content => wp_function_response st f name content a
      | _ => (a, [], Some TypeError)
      end
  | WProc m =>
      match m with
      | MFunctionRequest ty f name content => wp_internal_request ty f name content a
      | MTaskResult t st d p => wp_result t st d p a
      | _ => (a, [], Some TypeError)
      end
  | WLoop => wt_loop a
  | WHeartbeat ac ar wc wr => wh_routine now ac ar wc wr a
  | WTimeout => wo_routine now a
  end.

(** worker.py:136-154: an exception ends all loops; a timeout (or SIGINT, not
    modelled) is followed by a DisconnectRequest, other exceptions are not. *)
Definition w_end (e : exn) (a : agent) : list wentry :=
  match e with TimeoutError => [WOut (MDisconnectRequest (a_identity a))] | _ => [] end ++ [WCrash e].

Record wround := WRound { wr_now : Z; wr_event : wevent }.
Definition w_step (s : agent * list wentry) (r : wround) : agent * list wentry :=
  let '(a, h) := s in
  match a_dead a with
  | Some _ => s
  | None =>
      match w_handle (wr_now r) (wr_event r) a with
      | (a', out, None) => (a', h ++ WIn (wr_now r) (wr_event r) :: out)
      | (a', out, Some e) => (with_dead e a', h ++ WIn (wr_now r) (wr_event r) :: out ++ w_end e a')
      end
  end.

(** worker.py:68-106 [__initialize] at time [now]: the first processor is started. *)
Definition w_init (identity : bytes) (death now : Z) : agent * list wentry :=
  (Agent identity death ∅ [] LGet false None false 0 0 now None, [WStart]).
Definition w_run (identity : bytes) (death now : Z) (rs : list wround) : agent * list wentry :=
  foldl w_step (w_init identity death now) rs.
