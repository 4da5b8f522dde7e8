(** * What a duplicate-free FIFO queue with removal does (specification) *)

From Verif.Model Require Import Base IndexedQueue.

(** The queue is the list of its items, oldest first.  [same] says when two
    items count as the same item. *)
Definition fifo_call {A} (same : A -> A -> bool) (l : list A) (c : queue_call A)
  : list A * queue_ret A :=
  match c with
  | QPut a => if existsb (same a) l then (l, QRaise KeyError) else (l ++ [a], QUnit)
  | QGet => match l with [] => (l, QRaise QueueEmpty) | a :: l' => (l', QItem a) end
  | QRemove a => if existsb (same a) l
                 then (List.filter (λ b, negb (same a b)) l, QUnit)
                 else (l, QRaise KeyError)
  | QContains a => (l, QBool (existsb (same a) l))
  | QLen => (l, QInt (Z.of_nat (length l)))
  end.

(** Real equality of items. *)
Definition equal {A} `{EqDecision A} (a b : A) : bool := bool_decide (a = b).
