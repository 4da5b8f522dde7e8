(** * The message counters of AsyncBinder and AsyncConnector *)

From Verif.Model Require Import Base Message Transport.

(** message.py:15-43: the member names of [MessageType]. *)
Definition type_name (t : message_type) : bytes :=
  match t with
  | TyTask => "Task" | TyTaskEcho => "TaskEcho" | TyTaskCancel => "TaskCancel" | TyTaskResult => "TaskResult"
  | TyGraphTask => "GraphTask" | TyGraphTaskEcho => "GraphTaskEcho" | TyGraphTaskCancel => "GraphTaskCancel"
  | TyGraphTaskCancelEcho => "GraphTaskCancelEcho" | TyGraphTaskResult => "GraphTaskResult"
  | TyBalanceRequest => "BalanceRequest" | TyBalanceResponse => "BalanceResponse"
  | TyHeartbeat => "Heartbeat" | TyHeartbeatEcho => "HeartbeatEcho"
  | TyFunctionRequest => "FunctionRequest" | TyFunctionResponse => "FunctionResponse"
  | TyDisconnectRequest => "DisconnectRequest" | TyDisconnectResponse => "DisconnectResponse"
  | TyWorkerTaskRequest => "WorkerTaskRequest"
  | TySchedulerState => "SchedulerState" | TyTaskState => "TaskState" | TyGraphTaskState => "GraphTaskState"
  end.

(** async_binder.py:37-40 and async_connector.py:51-54 [_statistics]: two dictionaries
    that give 0 for a missing key. *)
Record statistics : Type := Statistics { st_received : gmap bytes Z; st_sent : gmap bytes Z }.

Global Instance statistics_eq_dec : EqDecision statistics. Proof. solve_decision. Defined.

Definition no_statistics : statistics := Statistics ∅ ∅.

(** async_binder.py:88-89 and async_connector.py:92-93 [__count_one]. *)
Definition count_one (t : message_type) (counts : gmap bytes Z) : gmap bytes Z :=
  <[type_name t := default 0 (counts !! type_name t) + 1]> counts.
Definition count_received (t : message_type) (s : statistics) : statistics :=
  Statistics (count_one t (st_received s)) (st_sent s).
Definition count_sent (t : message_type) (s : statistics) : statistics :=
  Statistics (st_received s) (count_one t (st_sent s)).

(** What happens at the socket, and what can be seen from outside. *)
Inductive socket_event : Type :=
| Receive (frames : list bytes)                           (* frames arrive, routine() runs *)
| SendTo (order : list nat) (to : bytes) (m : message).   (* send() is called *)

Inductive socket_effect : Type :=
| Handed (source : bytes) (m : message)                   (* the callback is called *)
| Dropped                                                 (* logged and dropped *)
| Wired (m : message) (frames : list bytes)               (* send_multipart is called for that message *)
| Failure (e : exn).                                      (* an exception leaves routine() or send() *)

Global Instance socket_effect_eq_dec : EqDecision socket_effect. Proof. solve_decision. Defined.

(** async_binder.py:47-57 [routine] and 67-70 [send].  A received message is counted
    after the validity test and before it is decoded; a sent one before it is encoded. *)
Definition binder_step (s : statistics) (e : socket_event) : statistics * socket_effect :=
  match e with
  | Receive frames =>
      if binder_valid frames then
        match frames with
        | source :: t :: payload =>
            match enum_of type_value all_types t with
            | Ok ty =>
                let s := count_received ty s in
                match deserialize ty payload with
                | Ok m => (s, Handed source m)
                | Raise e => (s, Failure e)
                end
            | Raise e => (s, Failure e)
            end
        | _ => (s, Dropped)
        end
      else (s, Dropped)
  | SendTo order to m =>
      let s := count_sent (message_type_of m) s in
      match binder_send order to m with
      | Ok frames => (s, Wired m frames)
      | Raise e => (s, Failure e)
      end
  end.

(** async_connector.py:68-82 [routine], with a callback set, and 84-87 [send]; there is
    one peer, so [to] is not used.  A received message is counted after it is decoded. *)
Definition connector_step (s : statistics) (e : socket_event) : statistics * socket_effect :=
  match e with
  | Receive frames =>
      if connector_valid frames then
        match frames with
        | t :: payload =>
            match enum_of type_value all_types t with
            | Ok ty =>
                match deserialize ty payload with
                | Ok m => (count_received ty s, Handed "" m)
                | Raise e => (s, Failure e)
                end
            | Raise e => (s, Failure e)
            end
        | _ => (s, Dropped)
        end
      else (s, Dropped)
  | SendTo order _ m =>
      let s := count_sent (message_type_of m) s in
      match connector_send order m with
      | Ok frames => (s, Wired m frames)
      | Raise e => (s, Failure e)
      end
  end.

(** A socket through a list of events.  That an exception ends the process is not
    built in: the counters after an exception are part of the model too. *)
Fixpoint socket_run (step : statistics → socket_event → statistics * socket_effect)
    (s : statistics) (es : list socket_event) : statistics * list socket_effect :=
  match es with
  | [] => (s, [])
  | e :: es =>
      let '(s, x) := step s e in
      let '(s, xs) := socket_run step s es in (s, x :: xs)
  end.
