(** * The processor process (worker/agent/processor/ *.py)

    Two threads: the main thread handles one message at a time and runs the user's
    function; the cache cleaner thread deletes functions that were not used for a
    while.  Their interleaving is explicit: the main thread can be overtaken between
    its two look-ups of a function and before the call, and the cleaner between
    deciding which functions are idle and deleting each of them.
    SIMPLIFICATION: one look-up (cache_cleaner.py:46-52) and one deletion
    (cache_cleaner.py:42-44) are atomic, and so is the scan of
    cache_cleaner.py:55-60 (in Python it can also raise RuntimeError and end the
    cleaner thread).  Memory (cache_cleaner.py:64-75) is in Model/MemoryCleaner.v. *)

From Verif.Model Require Import Base Message.

(** What the user's code did when called (processor.py:122-124): returned a value that
    could be serialized; raised an exception in decoding, calling or encoding that
    could be pickled; or ended the process (an exception that is not an [Exception],
    that cannot be pickled, processor.py:136, or a crash of the interpreter). *)
Inductive outcome : Type :=
| Returned (value : bytes)
| Raised (error : bytes)
| Ended.

(** Where the main thread is. *)
Inductive main_thread : Type :=
| Waiting                                   (* sync_connector.py:106 *)
| Found (k : task)                          (* processor.py:112 or :108, before :121 *)
| Calling (k : task) (f : option bytes)     (* processor.py:122-124 with function [f] *)
| Stopped.                                  (* the process has ended *)

(** processor.py:46-48, cache_cleaner.py:27-28; [c_doomed] are the ids left in
    [idle_functions] (cache_cleaner.py:56-61).  A function is its serialized content. *)
Record processor := Processor {
  c_retention : Z;
  c_functions : gmap bytes bytes;   (* _cached_functions *)
  c_since : gmap bytes Z;           (* _cached_functions_alive_since *)
  c_doomed : list bytes;
  c_task : option task;             (* _current_task *)
  c_main : main_thread }.

(** What can happen: a message is received ([loads]: whether deserialize_function
    accepts its content), the main thread takes its second look, the user's code
    finishes; the cleaner scans, the cleaner deletes one function. *)
Inductive pevent : Type :=
| PMsg (m : message) (loads : bool)
| PLook
| PRun (o : outcome) (duration : Z)
| PScan
| PDelete.

(** Observable history: messages in and out, and calls of user code. *)
Inductive pentry : Type :=
| PIn (m : message)
| POut (m : message)
| PCalled (content : bytes) (args : list bytes) (o : outcome)
| PStop.

Definition pc_with (fs : gmap bytes bytes) (since : gmap bytes Z) (doomed : list bytes) (k : option task) (m : main_thread) (p : processor) : processor :=
  Processor (c_retention p) fs since doomed k m.
Definition pc_main (m : main_thread) (p : processor) : processor :=
  Processor (c_retention p) (c_functions p) (c_since p) (c_doomed p) (c_task p) m.

(** cache_cleaner.py:38-40 [add_function]. *)
Definition pc_add (now : Z) (f content : bytes) (p : processor) : processor :=
  pc_with (<[f := content]> (c_functions p)) (<[f := now]> (c_since p)) (c_doomed p) (c_task p) (c_main p) p.
(** cache_cleaner.py:42-44 [del_function]. *)
Definition pc_del (f : bytes) (p : processor) : processor :=
  pc_with (delete f (c_functions p)) (delete f (c_since p)) (c_doomed p) (c_task p) (c_main p) p.
(** cache_cleaner.py:46-52 [get_function]. *)
Definition pc_get (now : Z) (f : bytes) (p : processor) : processor * option bytes :=
  match c_functions p !! f with
  | None => (p, None)
  | Some content => (pc_with (c_functions p) (<[f := now]> (c_since p)) (c_doomed p) (c_task p) (c_main p) p, Some content)
  end.

(** processor.py:82-116.  An unknown message is only logged. *)
Definition p_receive (now : Z) (m : message) (loads : bool) (p : processor) : processor * list pentry :=
  match m with
  | MFunctionRequest FnDelete f _ _ => (pc_del f p, [])
  | MTask k =>
      match pc_get now (task_function k) p with
      | (p, Some _) => (pc_main (Found k) p, [])
      | (p, None) =>
          (pc_with (c_functions p) (c_since p) (c_doomed p) (Some k) (c_main p) p,
           [POut (MFunctionRequest FnRequest (task_function k) "" "")])
      end
  | MFunctionResponse _ f _ content =>
      if negb loads then (pc_main Stopped p, [PStop])
      else
        let p := pc_add now f content p in
        match c_task p with
        | Some k => (pc_with (c_functions p) (c_since p) (c_doomed p) None (Found k) p, [])
        | None => (pc_main Stopped p, [PStop])     (* [None.function_id], and again in the handler: processor.py:121, :130 *)
        end
  | _ => (p, [])
  end.

(** processor.py:122 [arg.data for arg in task.function_args]. *)
Definition arg_data (x : argument) : bytes := match x with ArgData d => d | ArgTask t => t end.

(** processor.py:118-138.  Calling [None] raises TypeError, so then the outcome is
    never [Returned]. *)
Definition p_run (o : outcome) (d : Z) (p : processor) : processor * list pentry :=
  match c_main p with
  | Calling k f =>
      match f, o with
      | None, Returned _ => (p, [])
      | _, Ended => (pc_main Stopped p, (match f with Some c => [PCalled c (arg_data <$> task_args k) o] | None => [] end) ++ [PStop])
      | Some c, Returned v => (pc_main Waiting p, [PCalled c (arg_data <$> task_args k) o; POut (MTaskResult (task_id k) Success d v)])
      | Some c, Raised v => (pc_main Waiting p, [PCalled c (arg_data <$> task_args k) o; POut (MTaskResult (task_id k) Failed d v)])
      | None, Raised v => (pc_main Waiting p, [POut (MTaskResult (task_id k) Failed d v)])
      end
  | _ => (p, [])
  end.

(** The cleaner (cache_cleaner.py:54-62) goes on as long as the process lives. *)
Definition p_scan (now : Z) (p : processor) : processor :=
  match c_doomed p with
  | [] => pc_with (c_functions p) (c_since p)
            (fst <$> List.filter (λ x, c_retention p <? now - x.2) (map_to_list (c_since p))) (c_task p) (c_main p) p
  | _ => p
  end.
Definition p_delete (p : processor) : processor :=
  match c_doomed p with
  | [] => p
  | f :: rest => let p := pc_del f p in pc_with (c_functions p) (c_since p) rest (c_task p) (c_main p) p
  end.

Record pround := PRound { pr_now : Z; pr_event : pevent }.
(** A message is received only when the main thread waits for one. *)
Definition p_step (s : processor * list pentry) (r : pround) : processor * list pentry :=
  let '(p, h) := s in
  match c_main p with
  | Stopped => s
  | _ =>
      match pr_event r with
      | PMsg m loads =>
          match c_main p with
          | Waiting => let '(p, out) := p_receive (pr_now r) m loads p in (p, h ++ PIn m :: out)
          | _ => s
          end
      | PLook =>
          match c_main p with
          | Found k => let '(p, f) := pc_get (pr_now r) (task_function k) p in (pc_main (Calling k f) p, h)
          | _ => s
          end
      | PRun o d => let '(p, out) := p_run o d p in (p, h ++ out)
      | PScan => (p_scan (pr_now r) p, h)
      | PDelete => (p_delete p, h)
      end
  end.

(** processor.py:54-78: the first thing sent is the sentinel. *)
Definition p_init (retention : Z) : processor * list pentry :=
  (Processor retention ∅ ∅ [] None Waiting, [POut (MTaskResult "" Success 0 "")]).
Definition p_exec (retention : Z) (rs : list pround) : processor * list pentry :=
  foldl p_step (p_init retention) rs.
