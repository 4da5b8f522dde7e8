(** * QueuedAllocator (scaled/scheduler/allocators/queued.py) *)

From Verif.Model Require Import Base Float Heapq PriorityQueue.

(** queued.py:12-17 [__init__]. *)
Record alloc := Alloc {
  al_max : Z;
  al_w2t : gmap bytes (gset bytes);
  al_t2w : gmap bytes bytes;
  al_pq  : pq }.

Definition al_init (max_tasks_per_worker : Z) : alloc := Alloc max_tasks_per_worker ∅ ∅ pq_empty.

Definition set_pq (a : alloc) (q : pq) : alloc := Alloc (al_max a) (al_w2t a) (al_t2w a) q.

(** queued.py:19-25 [add_worker].  The worker queue is unbounded, so [put] never
    suspends. *)
Definition al_add_worker (a : alloc) (w : bytes) : alloc * bool :=
  match al_w2t a !! w with
  | Some _ => (a, false)
  | None => (Alloc (al_max a) (<[w := ∅]> (al_w2t a)) (al_t2w a) (pq_put (al_pq a) (0, w)), true)
  end.

(** [self._task_id_to_worker.pop(task_id)] for each task (queued.py:34-35). *)
Fixpoint pop_tasks (m : gmap bytes bytes) (ts : list bytes) : res (gmap bytes bytes) :=
  match ts with
  | [] => Ok m
  | t :: ts => match m !! t with None => Raise KeyError | Some _ => pop_tasks (delete t m) ts end
  end.

(** queued.py:27-36 [remove_worker].  The model returns the set of tasks; the
    code returns it as a list in unspecified order, which callers choose. *)
Definition al_remove_worker (a : alloc) (w : bytes) : res (alloc * gset bytes) :=
  match al_w2t a !! w with
  | None => Ok (a, ∅)
  | Some ts =>
      q ← pq_remove (al_pq a) w;
      t2w ← pop_tasks (al_t2w a) (elements ts);
      Ok (Alloc (al_max a) (delete w (al_w2t a)) t2w q, ts)
  end.

(** queued.py:38-39 [get_worker_ids]. *)
Definition al_worker_ids (a : alloc) : gset bytes := dom (al_w2t a).

(** Rounding up an exact quotient. *)
Definition ceil_div (x n : Z) : Z := - ((- x) / n).

(** queued.py:41-55 [balance].  SIMPLIFICATION: the mean is an exact rational
    (the code divides Python ints into a float); [count > mean] is
    [count * n > sum] and [math.ceil(count - mean)] is [ceil((count*n-sum)/n)].
    [al_balance_float] has the floats; C11_float_mean says when the two agree. *)
Definition al_balance (a : alloc) : gmap bytes Z :=
  let counts : gmap bytes Z := (λ ts : gset bytes, Z.of_nat (size ts)) <$> al_w2t a in
  let values := (map_to_list counts).*2 in
  let any_worker_has_task := existsb (λ c, negb (c =? 0)) values in
  let has_idle_workers := negb (forallb (λ c, negb (c =? 0)) values) in
  if negb any_worker_has_task then ∅
  else if negb has_idle_workers then ∅
  else
    let sum := foldr Z.add 0 values in
    let n := Z.of_nat (length values) in
    omap (λ c, if c * n >? sum then Some (ceil_div (c * n - sum) n) else None) counts.

(** queued.py:41-55 [balance] with floats: [mean = sum(...) / len(...)] is a float,
    [count > mean] compares an integer with a float exactly, [count - mean] converts
    [count] to a float and rounds the difference. *)
Definition al_balance_float (a : alloc) : gmap bytes Z :=
  let counts : gmap bytes Z := (λ ts : gset bytes, Z.of_nat (size ts)) <$> al_w2t a in
  let values := (map_to_list counts).*2 in
  let any_worker_has_task := existsb (λ c, negb (c =? 0)) values in
  let has_idle_workers := negb (forallb (λ c, negb (c =? 0)) values) in
  if negb any_worker_has_task then ∅
  else if negb has_idle_workers then ∅
  else
    let mean := float_of (foldr Z.add 0 values) (Z.of_nat (length values)) in
    omap (λ c,
      if c * mean.2 >? mean.1 then
        let count := float_of c 1 in
        let difference := float_of (count.1 * mean.2 - mean.1 * count.2) (count.2 * mean.2) in
        Some (ceil_div difference.1 difference.2)
      else None) counts.

(** Result of [assign_task]; [Waits] means the coroutine is suspended in
    [self._worker_queue.get()] because the queue is empty (queued.py:58). *)
Inductive assign_result : Type :=
| Assigned (w : bytes) | AllFull | Waits.

(** queued.py:57-70 [assign_task]. *)
Definition al_assign (a : alloc) (t : bytes) : res (alloc * assign_result) :=
  match pq_queue (al_pq a) with
  | [] => Ok (a, Waits)
  | _ :: _ =>
      '(q, (count, w)) ← pq_get (al_pq a);
      if count =? al_max a then Ok (set_pq a (pq_put q (count, w)), AllFull)
      else
        match al_t2w a !! t with
        | Some w' => Ok (set_pq a (pq_put q (count, w)), Assigned w')
        | None =>
            match al_w2t a !! w with
            | None => Raise KeyError
            | Some ts =>
                Ok (Alloc (al_max a) (<[w := {[t]} ∪ ts]> (al_w2t a)) (<[t := w]> (al_t2w a))
                          (pq_put q (count + 1, w)), Assigned w)
            end
        end
  end.

(** queued.py:72-80 [remove_task]; [set.remove] raises KeyError when absent. *)
Definition al_remove_task (a : alloc) (t : bytes) : res (alloc * option bytes) :=
  match al_t2w a !! t with
  | None => Ok (a, None)
  | Some w =>
      match al_w2t a !! w with
      | None => Raise KeyError
      | Some ts =>
          if bool_decide (t ∈ ts) then
            q ← pq_decrease (al_pq a) w;
            Ok (Alloc (al_max a) (<[w := ts ∖ {[t]}]> (al_w2t a)) (delete t (al_t2w a)) q, Some w)
          else Raise KeyError
      end
  end.

(** queued.py:82-86 [get_assigned_worker]. *)
Definition al_get_assigned (a : alloc) (t : bytes) : option bytes := al_t2w a !! t.

(** queued.py:88-96 [has_available_worker]. *)
Definition al_has_available (a : alloc) : res (alloc * bool) :=
  match pq_queue (al_pq a) with
  | [] => Ok (a, false)
  | _ :: _ =>
      '(q, count) ← pq_max_priority (al_pq a);
      Ok (set_pq a q, negb (count =? al_max a))
  end.

(** queued.py:98-102 [statistics]: (free, sent) per worker. *)
Definition al_statistics (a : alloc) : gmap bytes (Z * Z) :=
  (λ ts : gset bytes, (al_max a - Z.of_nat (size ts), Z.of_nat (size ts))) <$> al_w2t a.

(** The methods as calls. *)
Inductive al_op : Type :=
| AAddWorker (w : bytes) | ARemoveWorker (w : bytes) | AAssign (t : bytes)
| ARemoveTask (t : bytes) | AGetAssigned (t : bytes) | AHasAvailable
| AWorkerIds | ABalance | AStatistics.

Inductive al_ret : Type :=
| ABool (b : bool) | ATasks (s : gset bytes) | AResult (r : assign_result)
| AWorker (o : option bytes) | AWorkers (s : gset bytes)
| AAdvice (m : gmap bytes Z) | AStats (m : gmap bytes (Z * Z)).

Global Instance assign_result_eq_dec : EqDecision assign_result.
Proof. solve_decision. Defined.
Global Instance al_ret_eq_dec : EqDecision al_ret.
Proof. solve_decision. Defined.

Definition al_call (a : alloc) (o : al_op) : res (alloc * al_ret) :=
  match o with
  | AAddWorker w => let '(a, b) := al_add_worker a w in Ok (a, ABool b)
  | ARemoveWorker w => '(a, s) ← al_remove_worker a w; Ok (a, ATasks s)
  | AAssign t => '(a, r) ← al_assign a t; Ok (a, AResult r)
  | ARemoveTask t => '(a, o) ← al_remove_task a t; Ok (a, AWorker o)
  | AGetAssigned t => Ok (a, AWorker (al_get_assigned a t))
  | AHasAvailable => '(a, b) ← al_has_available a; Ok (a, ABool b)
  | AWorkerIds => Ok (a, AWorkers (al_worker_ids a))
  | ABalance => Ok (a, AAdvice (al_balance a))
  | AStatistics => Ok (a, AStats (al_statistics a))
  end.

(** A history of calls: the answers so far, and the exception if one ended it. *)
Fixpoint al_run (a : alloc) (os : list al_op) : list al_ret * option exn :=
  match os with
  | [] => ([], None)
  | o :: os =>
      match al_call a o with
      | Raise e => ([], Some e)
      | Ok (a', r) => let '(rs, e) := al_run a' os in (r :: rs, e)
      end
  end.
