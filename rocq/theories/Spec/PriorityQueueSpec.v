(** * What a priority queue with removal and decrease-key does (specification) *)

From Verif.Model Require Import Base PriorityQueue.

(** Order on (priority, data). *)
Definition entry_le (a b : Z * bytes) : Prop :=
  a.1 < b.1 ∨ (a.1 = b.1 ∧ (a.2 = b.2 ∨ bytes_ltb a.2 b.2 = true)).

(** The queue is a finite map [m] from data to priority, and the set [s] of data
    that [max_priority] has looked at since they were last put (the code treats
    those differently).  A call is within the contract if it does not put data
    already present, keeps priorities non-negative, and does not remove or
    decrease data that was looked at. *)
Definition pq_contract (m : gmap bytes Z) (s : gset bytes) (o : pq_op) : Prop :=
  match o with
  | PPut p d => 0 <= p ∧ m !! d = None
  | PDecrease d => (∀ p, m !! d = Some p → 1 <= p) ∧ d ∉ s
  | PRemove d => d ∉ s
  | _ => True
  end.

Definition least (m : gmap bytes Z) (p : Z) (d : bytes) : Prop :=
  m !! d = Some p ∧ ∀ p' d', m !! d' = Some p' → entry_le (p, d) (p', d').

(** [pq_does m s o m' s' r]: from [m], [s], call [o] may return [r] and leave [m'], [s']. *)
Inductive pq_does (m : gmap bytes Z) (s : gset bytes) :
  pq_op -> gmap bytes Z -> gset bytes -> pq_ret -> Prop :=
| does_put p d : pq_does m s (PPut p d) (<[d := p]> m) s PUnit
| does_get p d : least m p d → pq_does m s PGet (delete d m) (s ∖ {[d]}) (PEntry p d)
| does_get_empty : m = ∅ → pq_does m s PGet m s (PRaise QueueEmpty)
| does_remove d : is_Some (m !! d) → pq_does m s (PRemove d) (delete d m) s PUnit
| does_remove_absent d : m !! d = None → pq_does m s (PRemove d) m s (PRaise KeyError)
| does_decrease d p : m !! d = Some p → pq_does m s (PDecrease d) (<[d := p - 1]> m) s PUnit
| does_decrease_absent d : m !! d = None → pq_does m s (PDecrease d) m s (PRaise KeyError)
| does_len : pq_does m s PLen m s (PInt (Z.of_nat (size m)))
| does_max p d : least m p d → pq_does m s PMax m (s ∪ {[d]}) (PInt p)
| does_max_empty : m = ∅ → pq_does m s PMax m s (PRaise IndexError).

(** The answers [rs] to the calls [os] are right as long as the calls respect the
    contract. *)
Fixpoint pq_conforms (m : gmap bytes Z) (s : gset bytes) (os : list pq_op) (rs : list pq_ret) : Prop :=
  match os, rs with
  | [], [] => True
  | o :: os, r :: rs => pq_contract m s o → ∃ m' s', pq_does m s o m' s' r ∧ pq_conforms m' s' os rs
  | _, _ => False
  end.

(** What a read-only [max_priority] would mean: dropping the [PMax] calls from a
    history, together with their answers, changes no other answer. *)
Fixpoint drop_peeks (os : list pq_op) (rs : list pq_ret) : list pq_ret :=
  match os, rs with
  | PMax :: os, _ :: rs => drop_peeks os rs
  | _ :: os, r :: rs => r :: drop_peeks os rs
  | _, _ => []
  end.

Definition without_peeks (os : list pq_op) : list pq_op :=
  List.filter (λ o, match o with PMax => false | _ => true end) os.
