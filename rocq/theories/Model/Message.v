(** * Protocol messages and their wire format (scaled/protocol/python/message.py) *)

From Verif.Model Require Import Base.

(** ** Packing of integers: Python's [struct], native little-endian layout
    (the platform scaled is deployed on; struct's native mode depends on it). *)

Definition byte_of (z : Z) : Ascii.ascii := Ascii.ascii_of_N (Z.to_N (z mod 256)).
Definition of_byte (a : Ascii.ascii) : Z := Z.of_N (Ascii.N_of_ascii a).

Fixpoint le_bytes (n : nat) (z : Z) : bytes :=
  match n with
  | O => EmptyString
  | S n' => String (byte_of z) (le_bytes n' (z / 256))
  end.

Fixpoint le_value (s : bytes) : Z :=
  match s with EmptyString => 0 | String a s' => of_byte a + 256 * le_value s' end.

(** Unsigned field of [n] bytes: struct.error when out of range. *)
Definition pack_uint (n : nat) (z : Z) : res bytes :=
  if (0 <=? z) && (z <? 256 ^ Z.of_nat n) then Ok (le_bytes n z) else Raise StructError.

(** [struct.unpack("I", data)[0]]: the buffer must have exactly four bytes. *)
Definition unpack_I (s : bytes) : res Z :=
  if (String.length s =? 4)%nat then Ok (le_value s) else Raise StructError.

Fixpoint str_take (n : nat) (s : bytes) : bytes :=
  match n, s with S n', String a s' => String a (str_take n' s') | _, _ => EmptyString end.
Fixpoint str_drop (n : nat) (s : bytes) : bytes :=
  match n, s with S n', String _ s' => str_drop n' s' | _, _ => s end.

(** Field of [n] bytes at offset [i]. *)
Definition field (i n : nat) (s : bytes) : Z := le_value (str_take n (str_drop i s)).

(** ** Enumerations *)

(** message.py:15-43 [MessageType]. *)
Inductive message_type : Type :=
| TyTask | TyTaskEcho | TyTaskCancel | TyTaskResult
| TyGraphTask | TyGraphTaskEcho | TyGraphTaskCancel | TyGraphTaskCancelEcho | TyGraphTaskResult
| TyBalanceRequest | TyBalanceResponse | TyHeartbeat | TyHeartbeatEcho
| TyFunctionRequest | TyFunctionResponse | TyDisconnectRequest | TyDisconnectResponse
| TyWorkerTaskRequest | TySchedulerState | TyTaskState | TyGraphTaskState.

Definition type_value (t : message_type) : bytes :=
  match t with
  | TyTask => "TK" | TyTaskEcho => "TE" | TyTaskCancel => "TC" | TyTaskResult => "TR"
  | TyGraphTask => "GT" | TyGraphTaskEcho => "GE" | TyGraphTaskCancel => "GC"
  | TyGraphTaskCancelEcho => "GX" | TyGraphTaskResult => "GR"
  | TyBalanceRequest => "BQ" | TyBalanceResponse => "BR"
  | TyHeartbeat => "HB" | TyHeartbeatEcho => "HE"
  | TyFunctionRequest => "FR" | TyFunctionResponse => "FA"
  | TyDisconnectRequest => "DR" | TyDisconnectResponse => "DP"
  | TyWorkerTaskRequest => "PI"
  | TySchedulerState => "SS" | TyTaskState => "TS" | TyGraphTaskState => "GS"
  end.

Definition all_types : list message_type :=
  [TyTask; TyTaskEcho; TyTaskCancel; TyTaskResult; TyGraphTask; TyGraphTaskEcho; TyGraphTaskCancel;
   TyGraphTaskCancelEcho; TyGraphTaskResult; TyBalanceRequest; TyBalanceResponse; TyHeartbeat; TyHeartbeatEcho;
   TyFunctionRequest; TyFunctionResponse; TyDisconnectRequest; TyDisconnectResponse; TyWorkerTaskRequest;
   TySchedulerState; TyTaskState; TyGraphTaskState].

(** Python [Enum(value)]: the member with that value, ValueError when there is none. *)
Definition enum_of {A} (value : A -> bytes) (members : list A) (s : bytes) : res A :=
  match List.find (λ a, String.eqb (value a) s) members with Some a => Ok a | None => Raise ValueError end.

(** message.py:50-57 [TaskStatus]. *)
Inductive task_status : Type :=
| Inactive | Running | Canceling | Success | Failed | Canceled | NotFound.
Definition status_value (s : task_status) : bytes :=
  match s with Inactive => "I" | Running => "R" | Canceling => "X" | Success => "S"
             | Failed => "F" | Canceled => "C" | NotFound => "N" end.
Definition all_statuses := [Inactive; Running; Canceling; Success; Failed; Canceled; NotFound].

(** message.py:60-66 [TaskEchoStatus]. *)
Inductive echo_status : Type :=
| SubmitOK | CancelOK | CancelFailed | EchoDuplicated | NoWorker | FunctionNotExists.
Definition echo_value (s : echo_status) : bytes :=
  match s with SubmitOK => "SK" | CancelOK => "CK" | CancelFailed => "CF" | EchoDuplicated => "DC"
             | NoWorker => "NW" | FunctionNotExists => "FN" end.
Definition all_echoes := [SubmitOK; CancelOK; CancelFailed; EchoDuplicated; NoWorker; FunctionNotExists].

(** message.py:69-71 [NodeTaskType]. *)
Inductive node_type : Type := NodeNormal | NodeTarget.
Definition node_value (n : node_type) : bytes := match n with NodeNormal => "N" | NodeTarget => "T" end.
Definition all_nodes := [NodeNormal; NodeTarget].

(** message.py:74-78 [FunctionRequestType]. *)
Inductive function_request_type : Type := FnCheck | FnAdd | FnRequest | FnDelete.
Definition fn_request_value (t : function_request_type) : bytes :=
  match t with FnCheck => "C" | FnAdd => "A" | FnRequest => "R" | FnDelete => "D" end.
Definition all_fn_requests := [FnCheck; FnAdd; FnRequest; FnDelete].

(** message.py:81-85 [FunctionResponseType]. *)
Inductive function_response_type : Type := FnOK | FnNotExists | FnStillHaveTask | FnDuplicated.
Definition fn_response_value (t : function_response_type) : bytes :=
  match t with FnOK => "OK" | FnNotExists => "NE" | FnStillHaveTask => "HT" | FnDuplicated => "DC" end.
Definition all_fn_responses := [FnOK; FnNotExists; FnStillHaveTask; FnDuplicated].

(** message.py:88-90, 104-114 [ArgumentType], [Argument]. *)
Inductive argument : Type := ArgData (data : bytes) | ArgTask (task_id : bytes).

(** message.py:120-124 [Task]. *)
Record task := Task { task_id : bytes; task_function : bytes; task_args : list argument }.

(** ** Messages.
    SIMPLIFICATIONS: [duration] is the bit pattern of the float32 that
    [struct.pack("f", ...)] stores; the cpu fields are the integers
    [int(cpu * 1000)]; no other floating point occurs.  [functions] is the
    dictionary as the list of its items in insertion order. *)
Record heartbeat := Heartbeat {
  hb_agent_cpu : Z; hb_agent_rss : Z; hb_worker_cpu : Z; hb_worker_rss : Z;
  hb_queued : Z; hb_latency : Z; hb_initialized : bool; hb_has_task : bool; hb_task_lock : bool }.

Inductive message : Type :=
| MTask (t : task)
| MTaskEcho (id : bytes) (status : echo_status)
| MTaskCancel (id : bytes)
| MTaskResult (id : bytes) (status : task_status) (duration : Z) (result : bytes)
| MGraphTask (id : bytes) (functions : list (bytes * (bytes * bytes))) (targets : list bytes) (graph : list task)
| MGraphTaskEcho (id : bytes) (status : echo_status)
| MGraphTaskCancel (id : bytes)
| MGraphTaskResult (id : bytes) (status : task_status) (results : list bytes)
| MBalanceRequest (n : Z)
| MBalanceResponse (ids : list bytes)
| MHeartbeat (h : heartbeat)
| MHeartbeatEcho
| MFunctionRequest (type : function_request_type) (id name content : bytes)
| MFunctionResponse (status : function_response_type) (id name content : bytes)
| MDisconnectRequest (worker : bytes)
| MDisconnectResponse (worker : bytes)
| MWorkerTaskRequest
| MSchedulerState (data : bytes)
| MTaskState (id function_name : bytes) (status : task_status)
| MGraphTaskState (graph_id id : bytes) (type : node_type) (parents : gset bytes).

(** message.py:470-493 [PROTOCOL]: the type of each class.  The inverse direction is
    [deserialize] below, which raises KeyError for the one type without a class. *)
Definition message_type_of (m : message) : message_type :=
  match m with
  | MTask _ => TyTask | MTaskEcho _ _ => TyTaskEcho | MTaskCancel _ => TyTaskCancel
  | MTaskResult _ _ _ _ => TyTaskResult | MGraphTask _ _ _ _ => TyGraphTask
  | MGraphTaskEcho _ _ => TyGraphTaskEcho | MGraphTaskCancel _ => TyGraphTaskCancel
  | MGraphTaskResult _ _ _ => TyGraphTaskResult | MBalanceRequest _ => TyBalanceRequest
  | MBalanceResponse _ => TyBalanceResponse | MHeartbeat _ => TyHeartbeat | MHeartbeatEcho => TyHeartbeatEcho
  | MFunctionRequest _ _ _ _ => TyFunctionRequest | MFunctionResponse _ _ _ _ => TyFunctionResponse
  | MDisconnectRequest _ => TyDisconnectRequest | MDisconnectResponse _ => TyDisconnectResponse
  | MWorkerTaskRequest => TyWorkerTaskRequest | MSchedulerState _ => TySchedulerState
  | MTaskState _ _ _ => TyTaskState | MGraphTaskState _ _ _ _ => TyGraphTaskState
  end.

(** ** Serialization *)

(** message.py:109-110. *)
Definition serialize_arg (a : argument) : list bytes :=
  match a with ArgData d => ["D"; d] | ArgTask t => ["T"; t] end.

(** message.py:126-127. *)
Definition serialize_task (t : task) : list bytes :=
  task_id t :: task_function t :: List.flat_map serialize_arg (task_args t).

(** message.py:189-193: each task preceded by its number of frames. *)
Fixpoint serialize_graph (ts : list task) : res (list bytes) :=
  match ts with
  | [] => Ok []
  | t :: ts =>
      n ← pack_uint 4 (Z.of_nat (length (serialize_task t)));
      rest ← serialize_graph ts;
      Ok (n :: serialize_task t ++ rest)
  end.

(** message.py:311-327 [Heartbeat.serialize], FORMAT "HQHQHI???" with native
    alignment: H at 0, Q at 8, H at 16, Q at 24, H at 32, I at 36, ??? at 40-42. *)
Definition flag (b : bool) : bytes := String (byte_of (if b then 1 else 0)) EmptyString.
Definition serialize_heartbeat (h : heartbeat) : res bytes :=
  a ← pack_uint 2 (hb_agent_cpu h);
  b ← pack_uint 8 (hb_agent_rss h);
  c ← pack_uint 2 (hb_worker_cpu h);
  d ← pack_uint 8 (hb_worker_rss h);
  e ← pack_uint 2 (hb_queued h);
  f ← pack_uint 4 (hb_latency h);
  Ok (a +:+ le_bytes 6 0 +:+ b +:+ c +:+ le_bytes 6 0 +:+ d +:+ e +:+ le_bytes 2 0 +:+ f
      +:+ flag (hb_initialized h) +:+ flag (hb_has_task h) +:+ flag (hb_task_lock h))%string.

(** All [serialize] methods.  [order] is the iteration order of the one set-valued
    field (message.py:463). *)
Definition serialize (order : list nat) (m : message) : res (list bytes) :=
  match m with
  | MTask t => Ok (serialize_task t)                                             (* 126-127 *)
  | MTaskEcho id st => Ok [id; echo_value st]                                     (* 139-140 *)
  | MTaskCancel id => Ok [id]                                                     (* 151-152 *)
  | MTaskResult id st dur r =>                                                    (* 166-167 *)
      d ← pack_uint 4 dur; Ok [id; status_value st; d; r]
  | MGraphTask id fs ts g =>                                                      (* 181-195 *)
      nf ← pack_uint 4 (Z.of_nat (length fs));
      (* names, content = zip( *values ): unpacking an empty zip raises ValueError *)
      match fs with
      | [] => Raise ValueError
      | _ :: _ =>
          gb ← serialize_graph g;
          nt ← pack_uint 4 (Z.of_nat (length ts));
          Ok (id :: (nf :: fs.*1 ++ fs.*2.*1 ++ fs.*2.*2) ++ nt :: ts ++ gb)
      end
  | MGraphTaskEcho id st => Ok [id; echo_value st]                                (* 238-239 *)
  | MGraphTaskCancel id => Ok [id]                                                (* 250-251 *)
  | MGraphTaskResult id st rs => Ok (id :: status_value st :: rs)                 (* 264-265 *)
  | MBalanceRequest n => b ← pack_uint 4 n; Ok [b]                                (* 276-277 *)
  | MBalanceResponse ids => b ← pack_uint 4 (Z.of_nat (length ids)); Ok (b :: ids) (* 288-289 *)
  | MHeartbeat h => b ← serialize_heartbeat h; Ok [b]                             (* 313-327 *)
  | MHeartbeatEcho => Ok [""]                                                     (* 357-358 *)
  | MFunctionRequest t id n c => Ok [fn_request_value t; id; n; c]                (* 372-373 *)
  | MFunctionResponse t id n c => Ok [fn_response_value t; id; n; c]              (* 387-388 *)
  | MDisconnectRequest w => Ok [w]                                                (* 399-400 *)
  | MDisconnectResponse w => Ok [w]                                               (* 411-412 *)
  | MWorkerTaskRequest => Ok [""]                                                 (* 421-422 *)
  | MSchedulerState d => Ok [d]                                                   (* 433-434 *)
  | MTaskState id n st => Ok [id; n; status_value st]                             (* 447-448 *)
  | MGraphTaskState g id t ps => Ok (g :: id :: node_value t :: shuffle order (elements ps)) (* 462-463 *)
  end.

(** ** Deserialization *)

(** [data[i]]: IndexError when too short. *)
Definition index (data : list bytes) (i : nat) : res bytes := from_option_exn IndexError (data !! i).

(** message.py:112-114 with the comprehension of line 131: arguments are read from
    pairs of frames; the last slice may have one frame only. *)
Fixpoint deserialize_args (data : list bytes) : res (list argument) :=
  match data with
  | [] => Ok []
  | [ty] => if String.eqb ty "D" || String.eqb ty "T" then Raise IndexError else Raise ValueError
  | ty :: d :: rest =>
      a ← (if String.eqb ty "D" then Ok (ArgData d)
           else if String.eqb ty "T" then Ok (ArgTask d) else Raise ValueError);
      rest ← deserialize_args rest;
      Ok (a :: rest)
  end.

(** message.py:129-131. *)
Definition deserialize_task (data : list bytes) : res task :=
  id ← index data 0; f ← index data 1; args ← deserialize_args (drop 2 data); Ok (Task id f args).

(** A slice [data[i : i + n]] of the frames that start at [i]; like Python's it is
    cut at the end of the list. *)
Definition slice (n : Z) (data : list bytes) : list bytes :=
  take (Z.to_nat (Z.min n (Z.of_nat (length data)))) data.
Definition after (n : Z) (data : list bytes) : list bytes :=
  drop (Z.to_nat (Z.min n (Z.of_nat (length data)))) data.

(** message.py:223-228: the while loop, on the frames from [index] on.  Each round
    consumes at least one frame, so [length data] rounds suffice. *)
Fixpoint deserialize_graph (fuel : nat) (data : list bytes) : res (list task) :=
  match data, fuel with
  | [], _ => Ok []
  | _, O => Raise OutOfFuel
  | h :: rest, S fuel' =>
      n ← unpack_I h;
      t ← deserialize_task (slice n rest);
      ts ← deserialize_graph fuel' (after n rest);
      Ok (t :: ts)
  end.

(** [dict(pairs)]: a repeated key keeps its first position and gets the last value. *)
Fixpoint dict_put {A} (k : bytes) (v : A) (d : list (bytes * A)) : list (bytes * A) :=
  match d with
  | [] => [(k, v)]
  | (k', v') :: d' => if String.eqb k k' then (k, v) :: d' else (k', v') :: dict_put k v d'
  end.
Definition dict_of {A} (l : list (bytes * A)) : list (bytes * A) :=
  fold_left (λ d p, dict_put p.1 p.2 d) l [].

(** message.py:197-230 [GraphTask.deserialize]. *)
Definition deserialize_graph_task (data : list bytes) : res message :=
  id ← index data 0;
  h ← index data 1;
  nf ← unpack_I h;
  let d1 := drop 2 data in
  let keys := slice nf d1 in let d2 := after nf d1 in
  let names := slice nf d2 in let d3 := after nf d2 in
  let content := slice nf d3 in let d4 := after nf d3 in
  let functions := dict_of (zip keys (zip names content)) in
  h ← index d4 0;
  nt ← unpack_I h;
  let d5 := drop 1 d4 in
  let targets := slice nt d5 in let d6 := after nt d5 in
  g ← deserialize_graph (length d6) d6;
  Ok (MGraphTask id functions targets g).

(** message.py:329-352 [Heartbeat.deserialize]: exactly 43 bytes. *)
Definition deserialize_heartbeat (s : bytes) : res heartbeat :=
  if (String.length s =? 43)%nat then
    Ok (Heartbeat (field 0 2 s) (field 8 8 s) (field 16 2 s) (field 24 8 s) (field 32 2 s) (field 36 4 s)
                  (negb (field 40 1 s =? 0)) (negb (field 41 1 s =? 0)) (negb (field 42 1 s =? 0)))
  else Raise StructError.

(** All [deserialize] methods, dispatched as [PROTOCOL[message_type].deserialize]. *)
Definition deserialize (ty : message_type) (data : list bytes) : res message :=
  match ty with
  | TyTask => t ← deserialize_task data; Ok (MTask t)                             (* 129-131 *)
  | TyTaskEcho => id ← index data 0; s ← index data 1;                            (* 142-144 *)
      st ← enum_of echo_value all_echoes s; Ok (MTaskEcho id st)
  | TyTaskCancel => id ← index data 0; Ok (MTaskCancel id)                        (* 154-156 *)
  | TyTaskResult =>                                                               (* 169-171 *)
      id ← index data 0; s ← index data 1; st ← enum_of status_value all_statuses s;
      d ← index data 2; dur ← unpack_I d; r ← index data 3; Ok (MTaskResult id st dur r)
  | TyGraphTask => deserialize_graph_task data                                    (* 197-230 *)
  | TyGraphTaskEcho => id ← index data 0; s ← index data 1;                       (* 241-243 *)
      st ← enum_of echo_value all_echoes s; Ok (MGraphTaskEcho id st)
  | TyGraphTaskCancel => id ← index data 0; Ok (MGraphTaskCancel id)              (* 253-255 *)
  | TyGraphTaskCancelEcho => Raise KeyError                                       (* no class: 470-493 *)
  | TyGraphTaskResult => id ← index data 0; s ← index data 1;                     (* 267-269 *)
      st ← enum_of status_value all_statuses s; Ok (MGraphTaskResult id st (drop 2 data))
  | TyBalanceRequest => d ← index data 0; n ← unpack_I d; Ok (MBalanceRequest n)  (* 279-281 *)
  | TyBalanceResponse =>                                                          (* 291-296 *)
      d ← index data 0; n ← unpack_I d;
      if n =? Z.of_nat (length (drop 1 data)) then Ok (MBalanceResponse (drop 1 data)) else Raise AssertionError
  | TyHeartbeat => d ← index data 0; h ← deserialize_heartbeat d; Ok (MHeartbeat h) (* 329-352 *)
  | TyHeartbeatEcho => Ok MHeartbeatEcho                                          (* 360-362 *)
  | TyFunctionRequest =>                                                          (* 375-377 *)
      s ← index data 0; t ← enum_of fn_request_value all_fn_requests s;
      id ← index data 1; n ← index data 2; c ← index data 3; Ok (MFunctionRequest t id n c)
  | TyFunctionResponse =>                                                         (* 390-392 *)
      s ← index data 0; t ← enum_of fn_response_value all_fn_responses s;
      id ← index data 1; n ← index data 2; c ← index data 3; Ok (MFunctionResponse t id n c)
  | TyDisconnectRequest => w ← index data 0; Ok (MDisconnectRequest w)            (* 402-404 *)
  | TyDisconnectResponse => w ← index data 0; Ok (MDisconnectResponse w)          (* 414-416 *)
  | TyWorkerTaskRequest => Ok MWorkerTaskRequest                                  (* 424-426 *)
  | TySchedulerState => d ← index data 0; Ok (MSchedulerState d)                  (* 436-438 *)
  | TyTaskState => id ← index data 0; n ← index data 1; s ← index data 2;         (* 450-452 *)
      st ← enum_of status_value all_statuses s; Ok (MTaskState id n st)
  | TyGraphTaskState => g ← index data 0; id ← index data 1; s ← index data 2;    (* 465-467 *)
      t ← enum_of node_value all_nodes s; Ok (MGraphTaskState g id t (list_to_set (drop 3 data)))
  end.

Global Instance argument_eq_dec : EqDecision argument. Proof. solve_decision. Defined.
Global Instance task_eq_dec : EqDecision task. Proof. solve_decision. Defined.
Global Instance message_type_eq_dec : EqDecision message_type. Proof. solve_decision. Defined.
Global Instance task_status_eq_dec : EqDecision task_status. Proof. solve_decision. Defined.
Global Instance echo_status_eq_dec : EqDecision echo_status. Proof. solve_decision. Defined.
Global Instance node_type_eq_dec : EqDecision node_type. Proof. solve_decision. Defined.
Global Instance fn_request_eq_dec : EqDecision function_request_type. Proof. solve_decision. Defined.
Global Instance fn_response_eq_dec : EqDecision function_response_type. Proof. solve_decision. Defined.
Global Instance heartbeat_eq_dec : EqDecision heartbeat. Proof. solve_decision. Defined.
Global Instance message_eq_dec : EqDecision message. Proof. solve_decision. Defined.
Global Instance res_eq_dec {A} `{EqDecision A} : EqDecision (res A). Proof. solve_decision. Defined.
