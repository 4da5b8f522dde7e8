(** * The client (client.py): tasks, futures and messages

    Two kinds of threads: user threads call submit and get, the connector thread
    handles incoming messages one at a time and sends.  A submit is cut into the four
    steps between which the connector thread or another user thread can run; a message
    handler is one step.  Argument conversion, graph construction and [map] are in
    Model/ClientCalls.v.
    SIMPLIFICATIONS: a message put into the connector's queue (sync_connector.py:87) is
    sent; single dictionary operations and message handlers are atomic (iterating over
    a dictionary that another thread changes can raise RuntimeError in Python). *)

From Verif.Model Require Import Base Message.

(** Futures are named by the task they were returned for, or by graph task and
    position. *)
Notation fkey := (bytes + bytes * nat)%type.
Notation FTask := (inl : bytes → fkey).
Notation FGraph g i := (inr (g, i) : fkey).

(** States of a concurrent.futures.Future; the value is in the history. *)
Inductive fstate : Type := FPending | FRunning | FCancelled | FFinished.
#[global] Instance fstate_eq_dec : EqDecision fstate. Proof. solve_decision. Defined.
Inductive fvalue : Type := Value (payload : bytes) | Error (payload : bytes) | Disconnected.

(** Where a call of submit is: before client.py:189, :195, :92. *)
Inductive stage : Type := AtCheck | AtAppend | AtRegister.

(** client.py:64-70.  [k_futures] and [k_graphs] list the keys of [_task_id_to_future]
    and [_graph_task_id_to_futures] in insertion order, with the number of futures.
    [k_flight] are the calls of submit in progress, [k_sending] the calls of get between
    :128 and :129.  [k_up]: the connector thread runs. *)
Record client := Client {
  k_tasks : gmap bytes task;                     (* _task_id_to_task *)
  k_bodies : gmap bytes (bytes * bytes);         (* _task_id_to_function *)
  k_futures : list bytes;
  k_buffer : gmap bytes (list task);             (* _function_id_to_not_ready_tasks *)
  k_graphs : list (bytes * nat);
  k_state : gmap fkey fstate;
  k_flight : gmap bytes (task * stage);
  k_sending : gmap bytes nat;
  k_up : bool }.

Inductive kevent : Type :=
| KSubmit (t f name content : bytes) (args : list bytes)   (* submit called: up to client.py:88 *)
| KStep (t : bytes)                                        (* the next step of that submit *)
| KGraph (m : message) (n : nat)                           (* get: :128, with [n] distinct targets *)
| KGraphStep (g : bytes)                                   (* :129 *)
| KCancel (k : fkey)                                       (* the user cancels a future *)
| KRecv (m : message) (loads : bool)                       (* [loads]: the payload can be deserialized *)
| KExit.                                                   (* disconnect: the connector thread ends *)

(** The observable history. *)
Inductive kentry : Type :=
| CIn (e : kevent)
| COut (m : message)
| CSet (k : fkey) (v : fvalue)     (* a future is resolved *)
| CCrash (e : exn).                (* the connector thread ends with an exception *)

Definition kres : Type := client * list kentry * option exn.

Definition k_with (tasks : gmap bytes task) (bodies : gmap bytes (bytes * bytes)) (futures : list bytes) (buffer : gmap bytes (list task)) (c : client) : client :=
  Client tasks bodies futures buffer (k_graphs c) (k_state c) (k_flight c) (k_sending c) (k_up c).
Definition k_with_state (graphs : list (bytes * nat)) (state : gmap fkey fstate) (c : client) : client :=
  Client (k_tasks c) (k_bodies c) (k_futures c) (k_buffer c) graphs state (k_flight c) (k_sending c) (k_up c).
Definition k_with_flight (flight : gmap bytes (task * stage)) (sending : gmap bytes nat) (c : client) : client :=
  Client (k_tasks c) (k_bodies c) (k_futures c) (k_buffer c) (k_graphs c) (k_state c) flight sending (k_up c).
Definition k_down (c : client) : client :=
  Client (k_tasks c) (k_bodies c) (k_futures c) (k_buffer c) (k_graphs c) (k_state c) (k_flight c) (k_sending c) false.

(** Registering under a key keeps the place of an existing one. *)
Definition put_last {A} (same : A → bool) (x : A) (l : list A) : list A :=
  if existsb same l then (λ y, if same y then x else y) <$> l else l ++ [x].
Definition pop_key (t : bytes) (l : list bytes) : list bytes := List.filter (λ x, negb (String.eqb x t)) l.
Definition pop_graph (g : bytes) (l : list (bytes * nat)) : list (bytes * nat) := List.filter (λ x, negb (String.eqb x.1 g)) l.

(** Future.set_result and set_exception: InvalidStateError when cancelled or finished. *)
Definition f_set (k : fkey) (v : fvalue) (c : client) : kres :=
  match k_state c !! k with
  | Some FPending | Some FRunning => (k_with_state (k_graphs c) (<[k := FFinished]> (k_state c)) c, [CSet k v], None)
  | _ => (c, [], Some InvalidStateError)
  end.
Fixpoint f_set_all (kvs : list (fkey * fvalue)) (c : client) : kres :=
  match kvs with
  | [] => (c, [], None)
  | (k, v) :: kvs =>
      match f_set k v c with
      | (c, out, Some e) => (c, out, Some e)
      | (c, out, None) => let '(c, out', e) := f_set_all kvs c in (c, out ++ out', e)
      end
  end.

(** client.py:188-195 [__on_buffer_task_send], in two steps. *)
Definition k_check (k : task) (c : client) : list kentry * option exn :=
  match k_buffer c !! task_function k with
  | Some _ => ([], None)
  | None =>
      match k_bodies c !! task_id k with
      | Some (name, content) => ([COut (MFunctionRequest FnAdd (task_function k) name content)], None)
      | None => ([], Some KeyError)
      end
  end.
Definition k_append (k : task) (c : client) : client :=
  k_with (k_tasks c) (k_bodies c) (k_futures c)
    (<[task_function k := default [] (k_buffer c !! task_function k) ++ [k]]> (k_buffer c)) c.

(** client.py:76-94 [submit]. *)
Definition k_submit (t f name content : bytes) (args : list bytes) (c : client) : client :=
  let k := Task t f (ArgData <$> args) in
  k_with_flight (<[t := (k, AtCheck)]> (k_flight c)) (k_sending c)
    (k_with (<[t := k]> (k_tasks c)) (<[t := (name, content)]> (k_bodies c)) (k_futures c) (k_buffer c) c).
(** An exception here is raised to the caller of submit, whose call ends.  [k_bodies]
    has the task at that point as long as the connector thread runs (shown in the proofs). *)
Definition k_step_submit (t : bytes) (c : client) : client * list kentry :=
  match k_flight c !! t with
  | None => (c, [])
  | Some (k, AtCheck) =>
      match k_check k c with
      | (out, None) => (k_with_flight (<[t := (k, AtAppend)]> (k_flight c)) (k_sending c) c, out)
      | (out, Some _) => (k_with_flight (delete t (k_flight c)) (k_sending c) c, out)
      end
  | Some (k, AtAppend) => (k_with_flight (<[t := (k, AtRegister)]> (k_flight c)) (k_sending c) (k_append k c), [])
  | Some (k, AtRegister) =>
      (k_with_flight (delete t (k_flight c)) (k_sending c)
         (k_with_state (k_graphs c) (<[FTask t := FPending]> (k_state c))
            (k_with (k_tasks c) (k_bodies c) (put_last (String.eqb t) t (k_futures c)) (k_buffer c) c)), [])
  end.

(** client.py:127-129 in [get]; the futures exist before the message is sent (:337). *)
Definition k_graph (m : message) (n : nat) (c : client) : client * list kentry :=
  match m with
  | MGraphTask g _ _ _ =>
      (k_with_flight (k_flight c) (<[g := n]> (k_sending c))
         (k_with_state (k_graphs c) (foldr (λ i st, <[FGraph g i := FPending]> st) (k_state c) (seq 0 n)) c), [COut m])
  | _ => (c, [])
  end.
Definition k_graph_step (g : bytes) (c : client) : client :=
  match k_sending c !! g with
  | None => c
  | Some n => k_with_flight (k_flight c) (delete g (k_sending c)) (k_with_state (put_last (λ x, String.eqb g x.1) (g, n) (k_graphs c)) (k_state c) c)
  end.

(** Future.cancel by the user. *)
Definition k_cancel (k : fkey) (c : client) : client :=
  match k_state c !! k with
  | Some FPending => k_with_state (k_graphs c) (<[k := FCancelled]> (k_state c)) c
  | _ => c
  end.

(** client.py:167-186 [__on_task_echo]. *)
Definition k_echo (t : bytes) (st : echo_status) (c : client) : kres :=
  match k_tasks c !! t with
  | None => (c, [], None)
  | Some k =>
      match st with
      | EchoDuplicated => (c, [], None)
      | FunctionNotExists =>
          match k_check k c with
          | (out, None) => (k_append k c, out, None)
          | (out, Some e) => (c, out, Some e)
          end
      | NoWorker => (c, [], Some NotImplementedError)
      | SubmitOK =>
          let c := k_with (delete t (k_tasks c)) (delete t (k_bodies c)) (k_futures c) (k_buffer c) c in
          if existsb (String.eqb t) (k_futures c) then
            match k_state c !! FTask t with
            | Some FPending => (k_with_state (k_graphs c) (<[FTask t := FRunning]> (k_state c)) c, [], None)
            | Some FCancelled => (c, [], None)
            | _ => (c, [], Some InvalidStateError)    (* RuntimeError *)
            end
          else (c, [], Some KeyError)
      | _ => (c, [], Some AssertionError)
      end
  end.

(** client.py:197-203 [__on_function_response]. *)
Definition k_function_response (st : function_response_type) (f : bytes) (c : client) : kres :=
  match st with
  | FnOK | FnDuplicated =>
      match k_buffer c !! f with
      | None => (c, [], None)
      | Some ks => (k_with (k_tasks c) (k_bodies c) (k_futures c) (delete f (k_buffer c)) c, (λ k, COut (MTask k)) <$> ks, None)
      end
  | _ => (c, [], Some AssertionError)
  end.

(** client.py:205-216 [__on_task_result].  SIMPLIFICATION: whatever exception the
    deserializer raises is UnicodeError here. *)
Definition k_result (t : bytes) (st : task_status) (p : bytes) (loads : bool) (c : client) : kres :=
  if existsb (String.eqb t) (k_futures c) then
    let c := k_with (k_tasks c) (k_bodies c) (pop_key t (k_futures c)) (k_buffer c) c in
    match st with
    | Success => if loads then f_set (FTask t) (Value p) c else (c, [], Some UnicodeError)
    | Failed => if loads then f_set (FTask t) (Error p) c else (c, [], Some UnicodeError)
    | _ => (c, [], None)
    end
  else (c, [], None).

(** client.py:218-232 [__on_graph_task_result]; [k_enumerate]: [futures[i]] for an [i]
    beyond the futures, after the others were set (:225, :231). *)
Definition k_enumerate (n : nat) (ps : list bytes) (r : kres) : kres :=
  match r with (c, out, None) => (c, out, if (n <? length ps)%nat then Some IndexError else None) | _ => r end.
Definition k_graph_result (g : bytes) (st : task_status) (ps : list bytes) (loads : bool) (c : client) : kres :=
  match List.find (λ x, String.eqb x.1 g) (k_graphs c) with
  | None => (c, [], None)
  | Some (_, n) =>
      let c := k_with_state (pop_graph g (k_graphs c)) (k_state c) c in
      let set v := f_set_all (imap (λ i p, (FGraph g i, v p)) (take n ps)) c in
      match st with
      | Success => if loads then k_enumerate n ps (set Value) else (c, [], Some UnicodeError)
      | Failed =>
          match ps with
          | [] => (c, [], Some IndexError)
          | p :: _ => if loads then k_enumerate n ps (set (λ _, Error p)) else (c, [], Some UnicodeError)
          end
      | _ => (c, [], None)
      end
  end.

(** client.py:234-246 [__on_exit], with the cancels it sends. *)
Fixpoint k_exit_tasks (ts : list bytes) (c : client) : kres :=
  match ts with
  | [] => (c, [], None)
  | t :: ts =>
      match f_set (FTask t) Disconnected c with
      | (c, out, Some e) => (c, COut (MTaskCancel t) :: out, Some e)
      | (c, out, None) => let '(c, out', e) := k_exit_tasks ts c in (c, COut (MTaskCancel t) :: out ++ out', e)
      end
  end.
Fixpoint k_exit_graphs (gs : list (bytes * nat)) (c : client) : kres :=
  match gs with
  | [] => (c, [], None)
  | (g, n) :: gs =>
      match f_set_all ((λ i, (FGraph g i, Disconnected)) <$> seq 0 n) c with
      | (c, out, Some e) => (c, COut (MGraphTaskCancel g) :: out, Some e)
      | (c, out, None) => let '(c, out', e) := k_exit_graphs gs c in (c, COut (MGraphTaskCancel g) :: out ++ out', e)
      end
  end.
Definition k_exit (c : client) : kres :=
  match k_exit_tasks (k_futures c) c with
  | (c, out, Some e) => (c, out, Some e)
  | (c, out, None) => let '(c, out', e) := k_exit_graphs (k_graphs c) c in (c, out ++ out', e)
  end.

(** client.py:148-165 [__on_receive]. *)
Definition k_receive (m : message) (loads : bool) (c : client) : kres :=
  match m with
  | MTaskEcho t st => k_echo t st c
  | MFunctionResponse st f _ _ => k_function_response st f c
  | MTaskResult t st _ p => k_result t st p loads c
  | MGraphTaskResult g st ps => k_graph_result g st ps loads c
  | _ => (c, [], Some TypeError)
  end.

(** One step.  The connector thread does nothing once it has ended; an exception in it
    ends it without [__on_exit] (sync_connector.py:77-85). *)
Definition k_settle (r : kres) : client * list kentry :=
  match r with (c, out, None) => (c, out) | (c, out, Some e) => (k_down c, out ++ [CCrash e]) end.
Definition k_handle (e : kevent) (c : client) : client * list kentry :=
  match e with
  | KSubmit t f name content args => (k_submit t f name content args c, [])
  | KStep t => k_step_submit t c
  | KGraph m n => k_graph m n c
  | KGraphStep g => (k_graph_step g c, [])
  | KCancel k => (k_cancel k c, [])
  | KRecv m loads => if k_up c then k_settle (k_receive m loads c) else (c, [])
  | KExit => if k_up c then (let '(c, out) := k_settle (k_exit c) in (k_down c, out)) else (c, [])
  end.
Definition k_step (s : client * list kentry) (e : kevent) : client * list kentry :=
  let '(c, h) := s in let '(c, out) := k_handle e c in (c, h ++ CIn e :: out).
Definition k_init : client := Client ∅ ∅ [] ∅ [] ∅ ∅ ∅ true.
Definition k_run (es : list kevent) : client * list kentry := foldl k_step (k_init, []) es.
