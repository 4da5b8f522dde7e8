(** * PriorityQueue (scaled/utility/queues/async_priority_queue.py)

    Queue entries are two-element Python lists, i.e. mutable objects: the heap
    list and the locator dictionary hold references to them and the code
    mutates them through either.  So entries are cells in a store. *)

From Verif.Model Require Import Base Heapq.

(** One entry [[priority, data]]. *)
Notation entry := (Z * bytes)%type.

(** Python's [<] on such lists: lexicographic. *)
Definition entry_ltb (a b : entry) : bool :=
  Z.ltb a.1 b.1 || (Z.eqb a.1 b.1 && bytes_ltb a.2 b.2).

(** async_priority_queue.py:17-19 [_init]; [pq_cells]/[pq_fresh] are the Python
    object heap restricted to entries. *)
Record pq := PQ {
  pq_cells   : gmap nat entry;
  pq_fresh   : nat;
  pq_queue   : list nat;
  pq_locator : gmap bytes nat }.

Definition pq_empty : pq := PQ ∅ 0 [] ∅.

(** Dereferencing; a dangling reference cannot exist in Python and never occurs. *)
Definition cell (cells : gmap nat entry) (l : nat) : entry := default (0, "") (cells !! l).

Definition ref_ltb (cells : gmap nat entry) (a b : nat) : bool :=
  entry_ltb (cell cells a) (cell cells b).

(** async_priority_queue.py:14-15 [__len__]. *)
Definition pq_len (q : pq) : nat := length (pq_queue q).

(** async_priority_queue.py:21-23 [_put], called with a fresh list object
    (every caller passes a list display). *)
Definition pq_put (q : pq) (e : entry) : pq :=
  let l := pq_fresh q in
  let cells := <[l := e]> (pq_cells q) in
  PQ cells (S l) (heappush (ref_ltb cells) (pq_queue q) l) (<[e.2 := l]> (pq_locator q)).

(** async_priority_queue.py:25-28 [_get]; [dict.pop] of an absent key raises KeyError. *)
Definition pq_get (q : pq) : res (pq * entry) :=
  '(l, queue) ← heappop (ref_ltb (pq_cells q)) (pq_queue q);
  let e := cell (pq_cells q) l in
  match pq_locator q !! e.2 with
  | None => Raise KeyError
  | Some _ => Ok (PQ (pq_cells q) (pq_fresh q) queue (delete e.2 (pq_locator q)), e)
  end.

(** [list.index]: position of the first element equal to [entry] (by value);
    ValueError when there is none. *)
Fixpoint list_index (cells : gmap nat entry) (queue : list nat) (e : entry) : option nat :=
  match queue with
  | [] => None
  | l :: queue' => if decide (cell cells l = e) then Some 0%nat
                   else S <$> list_index cells queue' e
  end.

(** async_priority_queue.py:30-38 [remove]. *)
Definition pq_remove (q : pq) (data : bytes) : res pq :=
  match pq_locator q !! data with
  | None => Raise KeyError
  | Some l =>
      let locator := delete data (pq_locator q) in
      match list_index (pq_cells q) (pq_queue q) (cell (pq_cells q) l) with
      | None => Raise ValueError
      | Some i =>
          let e : entry := (-1, (cell (pq_cells q) l).2) in
          let cells := <[l := e]> (pq_cells q) in
          '(l', queue) ← heappop (ref_ltb cells) (siftdown (ref_ltb cells) (pq_queue q) i);
          if decide (cell cells l' = e)
          then Ok (PQ cells (pq_fresh q) queue locator)
          else Raise AssertionError
      end
  end.

(** The queue object left behind when [remove] raises: the locator entry is already
    gone (line 34), and at the assertion the top of the heap is already popped. *)
Definition pq_failed_remove (q : pq) (data : bytes) : pq :=
  match pq_locator q !! data with
  | None => q
  | Some l =>
      let locator := delete data (pq_locator q) in
      match list_index (pq_cells q) (pq_queue q) (cell (pq_cells q) l) with
      | None => PQ (pq_cells q) (pq_fresh q) (pq_queue q) locator
      | Some i =>
          let e : entry := (-1, (cell (pq_cells q) l).2) in
          let cells := <[l := e]> (pq_cells q) in
          match heappop (ref_ltb cells) (siftdown (ref_ltb cells) (pq_queue q) i) with
          | Ok (_, queue) => PQ cells (pq_fresh q) queue locator
          | Raise _ => PQ cells (pq_fresh q) (siftdown (ref_ltb cells) (pq_queue q) i) locator
          end
      end
  end.

(** async_priority_queue.py:40-46 [decrease_priority]. *)
Definition pq_decrease (q : pq) (data : bytes) : res pq :=
  match pq_locator q !! data with
  | None => Raise KeyError
  | Some l =>
      match list_index (pq_cells q) (pq_queue q) (cell (pq_cells q) l) with
      | None => Raise ValueError
      | Some i =>
          let e := cell (pq_cells q) l in
          let cells := <[l := (e.1 - 1, e.2)]> (pq_cells q) in
          Ok (PQ cells (pq_fresh q) (siftdown (ref_ltb cells) (pq_queue q) i) (pq_locator q))
      end
  end.

(** async_priority_queue.py:48-51 [max_priority]: pops the top entry and pushes
    a NEW list object with the same contents; the locator is not updated. *)
Definition pq_max_priority (q : pq) : res (pq * Z) :=
  '(l, queue) ← heappop (ref_ltb (pq_cells q)) (pq_queue q);
  let e := cell (pq_cells q) l in
  let l' := pq_fresh q in
  let cells := <[l' := e]> (pq_cells q) in
  Ok (PQ cells (S l') (heappush (ref_ltb cells) queue l') (pq_locator q), e.1).

(** The queue's methods as calls.  [put]/[get] are asyncio.Queue's
    put_nowait/get_nowait; get_nowait raises QueueEmpty when the queue is empty. *)
Inductive pq_op : Type :=
| PPut (priority : Z) (data : bytes) | PGet | PRemove (data : bytes)
| PDecrease (data : bytes) | PLen | PMax.

Inductive pq_ret : Type :=
| PUnit | PEntry (priority : Z) (data : bytes) | PInt (n : Z) | PRaise (e : exn).

Definition pq_call (q : pq) (o : pq_op) : pq * pq_ret :=
  match o with
  | PPut p d => (pq_put q (p, d), PUnit)
  | PGet => match pq_queue q with
            | [] => (q, PRaise QueueEmpty)
            | _ => match pq_get q with Ok (q', e) => (q', PEntry e.1 e.2) | Raise e => (q, PRaise e) end
            end
  | PRemove d => match pq_remove q d with
                 | Ok q' => (q', PUnit)
                 | Raise e => (pq_failed_remove q d, PRaise e)
                 end
  | PDecrease d => match pq_decrease q d with Ok q' => (q', PUnit) | Raise e => (q, PRaise e) end
  | PLen => (q, PInt (Z.of_nat (pq_len q)))
  | PMax => match pq_max_priority q with Ok (q', p) => (q', PInt p) | Raise e => (q, PRaise e) end
  end.
