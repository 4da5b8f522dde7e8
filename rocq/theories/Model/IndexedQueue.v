(** * IndexedQueue (scaled/utility/queues/async_indexed_queue.py)

    Pointer-level model: nodes live in a store indexed by object identity,
    [None] is Python's None.  The queue is polymorphic in the item type and
    takes Python's [hash] as a parameter. *)

From Verif.Model Require Import Base.

Section indexed_queue.
Context {A : Type} (hash : A -> Z).

(** async_indexed_queue.py:42-46 [_Node]. *)
Record node := Node { n_value : A; n_prev : option nat; n_next : option nat }.

(** async_indexed_queue.py:49-53 [_DoubleLinkedList.__init__] and 111-114
    [_IndexedDoubleLinkedQueue.__init__].  [q_store] and [q_fresh] model the
    Python object heap (objects are never reused, garbage is not collected). *)
Record iq := IQ {
  q_store : gmap nat node;
  q_fresh : nat;
  q_head  : option nat;
  q_tail  : option nat;
  q_size  : Z;
  q_map   : gmap Z nat }.

Definition iq_empty : iq := IQ ∅ 0 None None 0 ∅.

Definition set_prev (p : option nat) (n : node) : node := Node (n_value n) p (n_next n).
Definition set_next (p : option nat) (n : node) : node := Node (n_value n) (n_prev n) p.

(** async_indexed_queue.py:58-67 [add_to_head], on a node already in the store. *)
Definition add_to_head (q : iq) (l : nat) : iq :=
  match q_head q with
  | None => IQ (q_store q) (q_fresh q) (Some l) (Some l) (q_size q + 1) (q_map q)
  | Some h =>
      IQ (alter (set_prev (Some l)) h (alter (set_next (Some h)) l (q_store q)))
         (q_fresh q) (Some l) (q_tail q) (q_size q + 1) (q_map q)
  end.

(** async_indexed_queue.py:69-82 [remove_tail]. *)
Definition remove_tail (q : iq) : res (iq * node) :=
  match q_tail q with
  | None => Raise QueueEmpty
  | Some t =>
      match q_store q !! t with
      | None => Raise AttributeError (* dangling reference: impossible in Python *)
      | Some n =>
          match n_prev n with
          | None => Ok (IQ (q_store q) (q_fresh q) None None (q_size q - 1) (q_map q), n)
          | Some p =>
              Ok (IQ (alter (set_next None) p (q_store q)) (q_fresh q)
                     (q_head q) (Some p) (q_size q - 1) (q_map q), n)
          end
      end
  end.

(** async_indexed_queue.py:84-108 [_DoubleLinkedList.remove].  The asserts
    compare object identities. *)
Definition list_remove (q : iq) (l : nat) : res iq :=
  match q_store q !! l with
  | None => Raise AttributeError
  | Some n =>
      match n_prev n, n_next n with
      | Some p, Some x =>
          Ok (IQ (alter (set_prev (Some p)) x (alter (set_next (Some x)) p (q_store q)))
                 (q_fresh q) (q_head q) (q_tail q) (q_size q - 1) (q_map q))
      | None, None =>
          if bool_decide (q_head q = Some l) && bool_decide (q_tail q = Some l)
          then Ok (IQ (q_store q) (q_fresh q) None None (q_size q - 1) (q_map q))
          else Raise AssertionError
      | Some p, None =>
          if bool_decide (q_tail q = Some l)
          then Ok (IQ (alter (set_next None) p (q_store q)) (q_fresh q)
                      (q_head q) (Some p) (q_size q - 1) (q_map q))
          else Raise AssertionError
      | None, Some x =>
          if bool_decide (q_head q = Some l)
          then Ok (IQ (alter (set_prev None) x (q_store q)) (q_fresh q)
                      (Some x) (q_tail q) (q_size q - 1) (q_map q))
          else Raise AssertionError
      end
  end.

Definition set_map (q : iq) (m : gmap Z nat) : iq :=
  IQ (q_store q) (q_fresh q) (q_head q) (q_tail q) (q_size q) m.

(** async_indexed_queue.py:116-118 (and 22-23) [__contains__]. *)
Definition iq_contains (q : iq) (a : A) : bool := bool_decide (is_Some (q_map q !! hash a)).

(** async_indexed_queue.py:120-121 (and 25-26, 55-56) [__len__]. *)
Definition iq_len (q : iq) : Z := q_size q.

(** async_indexed_queue.py:123-130 [put]. *)
Definition iq_put (q : iq) (a : A) : res iq :=
  match q_map q !! hash a with
  | Some _ => Raise KeyError
  | None =>
      let l := q_fresh q in
      let q := IQ (<[l := Node a None None]> (q_store q)) (S l)
                  (q_head q) (q_tail q) (q_size q) (q_map q) in
      let q := add_to_head q l in
      Ok (set_map q (<[hash a := l]> (q_map q)))
  end.

(** async_indexed_queue.py:132-135 [get]; [del d[k]] raises KeyError when absent. *)
Definition iq_get (q : iq) : res (iq * A) :=
  '(q, n) ← remove_tail q;
  match q_map q !! hash (n_value n) with
  | None => Raise KeyError
  | Some _ => Ok (set_map q (delete (hash (n_value n)) (q_map q)), n_value n)
  end.

(** async_indexed_queue.py:137-143 [remove]. *)
Definition iq_remove (q : iq) (a : A) : res iq :=
  match q_map q !! hash a with
  | None => Raise KeyError
  | Some l => list_remove (set_map q (delete (hash a) (q_map q))) l
  end.

End indexed_queue.
Arguments node : clear implicits.
Arguments iq : clear implicits.

(** The public interface: one constructor per method.  [put]/[get] are
    asyncio.Queue's put_nowait/get_nowait, which call [_put]/[_get]
    (async_indexed_queue.py:28-39); get_nowait on an empty queue raises
    QueueEmpty (asyncio/queues.py), as does [_get] itself. *)
Inductive queue_call (A : Type) : Type :=
| QPut (a : A) | QGet | QRemove (a : A) | QContains (a : A) | QLen.
Arguments QPut {A} a. Arguments QGet {A}. Arguments QRemove {A} a.
Arguments QContains {A} a. Arguments QLen {A}.

Inductive queue_ret (A : Type) : Type :=
| QUnit | QItem (a : A) | QBool (b : bool) | QInt (z : Z) | QRaise (e : exn).
Arguments QUnit {A}. Arguments QItem {A} a. Arguments QBool {A} b.
Arguments QInt {A} z. Arguments QRaise {A} e.

(** When a method raises, the object keeps its previous state: in the modelled
    methods the only exceptions that can actually occur are raised before any
    assignment (the AssertionErrors and the KeyError of [get] are proved
    unreachable when hashes do not collide). *)
Definition iq_call {A} (hash : A -> Z) (q : iq A) (c : queue_call A) : iq A * queue_ret A :=
  match c with
  | QPut a => match iq_put hash q a with Ok q' => (q', QUnit) | Raise e => (q, QRaise e) end
  | QGet => match iq_get hash q with Ok (q', a) => (q', QItem a) | Raise e => (q, QRaise e) end
  | QRemove a => match iq_remove hash q a with Ok q' => (q', QUnit) | Raise e => (q, QRaise e) end
  | QContains a => (q, QBool (iq_contains hash q a))
  | QLen => (q, QInt (iq_len q))
  end.
