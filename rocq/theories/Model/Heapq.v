(** * CPython's heapq on a Python list

    Used by scaled/utility/queues/async_priority_queue.py:22,26,37,38,46,49,50.
    Transcribed from CPython 3.11 Lib/heapq.py; [ltb] is Python's [<] on the
    elements.  A list is a Coq list, positions are [nat]. *)

From Verif.Model Require Import Base.

Section heapq.
Context {A : Type} (ltb : A -> A -> bool).

(** heapq.py [_siftdown(heap, startpos=0, pos)], loop part: [newitem] is held
    out and parents move down while it is smaller.  [fuel = pos] iterations
    always suffice: [pos] strictly decreases and the loop stops at 0. *)
Fixpoint siftdown_loop (fuel : nat) (heap : list A) (pos : nat) (newitem : A) : list A :=
  match fuel with
  | O => <[pos := newitem]> heap
  | S fuel' =>
      if Nat.eqb pos 0 then <[pos := newitem]> heap
      else
        let parentpos := ((pos - 1) / 2)%nat in
        match heap !! parentpos with
        | None => heap
        | Some parent =>
            if ltb newitem parent
            then siftdown_loop fuel' (<[pos := parent]> heap) parentpos newitem
            else <[pos := newitem]> heap
        end
  end.

Definition siftdown (heap : list A) (pos : nat) : list A :=
  match heap !! pos with
  | None => heap
  | Some newitem => siftdown_loop pos heap pos newitem
  end.

(** heapq.py [heappush]. *)
Definition heappush (heap : list A) (item : A) : list A :=
  siftdown (heap ++ [item]) (length heap).

(** heapq.py [_siftup(heap, pos=0)], loop part: the smaller child moves up until
    a leaf is reached.  [fuel = length heap] always suffices. *)
Fixpoint siftup_loop (fuel : nat) (heap : list A) (pos : nat) (newitem : A) : list A * nat :=
  match fuel with
  | O => (<[pos := newitem]> heap, pos)
  | S fuel' =>
      let childpos := (2 * pos + 1)%nat in
      match heap !! childpos with
      | None => (<[pos := newitem]> heap, pos)
      | Some child =>
          let rightpos := (childpos + 1)%nat in
          match heap !! rightpos with
          | Some rchild =>
              if ltb child rchild
              then siftup_loop fuel' (<[pos := child]> heap) childpos newitem
              else siftup_loop fuel' (<[pos := rchild]> heap) rightpos newitem
          | None => siftup_loop fuel' (<[pos := child]> heap) childpos newitem
          end
      end
  end.

Definition siftup (heap : list A) : list A :=
  match heap !! 0%nat with
  | None => heap
  | Some newitem =>
      let '(heap, pos) := siftup_loop (length heap) heap 0 newitem in
      siftdown heap pos
  end.

(** heapq.py [heappop]; [list.pop] on an empty list raises IndexError. *)
Definition heappop (heap : list A) : res (A * list A) :=
  match last heap with
  | None => Raise IndexError
  | Some lastelt =>
      let heap := removelast heap in
      match heap with
      | [] => Ok (lastelt, [])
      | returnitem :: _ => Ok (returnitem, siftup (<[0%nat := lastelt]> heap))
      end
  end.
End heapq.
