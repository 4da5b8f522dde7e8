(** * Properties C01-C06: queues and dictionaries *)

From Verif.Model Require Import Base IndexedQueue OneToManyDict PriorityQueue.
From Verif.Spec Require Import QueueSpec DictSpec PriorityQueueSpec.
From Verif.Proofs Require Import IndexedQueueProofs DictProofs PriorityQueueProofs DataExamples.

(** C01.  With collision-free hashes every call on an IndexedQueue answers what it
    answers on a plain duplicate-free FIFO list. *)
Theorem C01_indexed_queue_is_fifo :
  ∀ (A : Type) (eqA : EqDecision A) (hash : A → Z), Inj (=) (=) hash →
  ∀ calls : list (queue_call A),
  run_calls (iq_call hash) iq_empty calls = run_calls (fifo_call equal) [] calls.
Proof. exact queue_fifo_lemma. Qed.
Print Assumptions C01_indexed_queue_is_fifo.

(** A non-trivial history: middle removal, duplicate put, emptying, refill. *)
Example C01_example :
  Inj (=) (=) Z.of_nat ∧
  run_calls (iq_call Z.of_nat) iq_empty
    [QPut 1%nat; QPut 2%nat; QPut 3%nat; QPut 2%nat; QRemove 2%nat; QGet; QContains 3%nat; QLen; QGet; QGet; QPut 2%nat; QGet]
  = [QUnit; QUnit; QUnit; QRaise KeyError; QUnit; QItem 1%nat; QBool true; QInt 1; QItem 3%nat; QRaise QueueEmpty; QUnit; QItem 2%nat].
Proof. split; [exact Nat2Z.inj|vm_compute; reflexivity]. Qed.

(** C02.  With a colliding hash the queue cannot tell the two items apart: the
    FIFO claim fails for every hash function that is not injective. *)
Theorem C02_hash_collision_refuted :
  ∀ (A : Type) (eqA : EqDecision A) (hash : A → Z) (a b : A), a ≠ b → hash a = hash b →
  run_calls (iq_call hash) iq_empty [QPut a; QContains b; QPut b; QRemove b; QLen]
    = [QUnit; QBool true; QRaise KeyError; QUnit; QInt 0] ∧
  run_calls (fifo_call equal) [] [QPut a; QContains b; QPut b; QRemove b; QLen]
    = [QUnit; QBool false; QUnit; QUnit; QInt 1].
Proof. exact collision_lemma. Qed.
Print Assumptions C02_hash_collision_refuted.

(** What holds for every hash function: the queue is a FIFO of hash classes. *)
Theorem C02_indexed_queue_by_hash :
  ∀ (A : Type) (hash : A → Z) (calls : list (queue_call A)),
  run_calls (iq_call hash) iq_empty calls
  = run_calls (fifo_call (λ a b, hash a =? hash b)) [] calls.
Proof. exact queue_by_hash_lemma. Qed.
Print Assumptions C02_indexed_queue_by_hash.

(** Python's [hash] on small ints collides at -1 and -2. *)
Example C02_example :
  let pyhash (z : Z) := if z =? -1 then -2 else z in pyhash (-1) = pyhash (-2) ∧ -1 ≠ -2.
Proof. split; [reflexivity|discriminate]. Qed.

(** C03.  OneToManyDict is a finite function from values to keys. *)
Theorem C03_one_to_many_is_function :
  ∀ (K V : Type) (eqK : EqDecision K) (cK : Countable K) (eqV : EqDecision V) (cV : Countable V)
    (calls : list (otm_op K V)),
  run_calls otm_call otm_empty calls = run_calls owner_call (∅ : gmap V K) calls.
Proof. exact otm_lemma. Qed.
Print Assumptions C03_one_to_many_is_function.

Example C03_example :
  run_calls otm_call otm_empty
    [OAdd 1%nat 10%nat; OAdd 1%nat 11%nat; OAdd 2%nat 10%nat; OGetKey 10%nat; ORemoveValue 10%nat; OHasKey 1%nat; ORemoveKey 1%nat; OHasKey 1%nat; OGetKey 11%nat]
  = [RUnit; RUnit; RRaise ValueError; RKey 1%nat; RKey 1%nat; RBool true; RValues {[11%nat]}; RBool false; RRaise ValueError].
Proof. by_compute. Qed.

(** C04.  KeyValueDictSet is a finite set of pairs. *)
Theorem C04_key_value_set_is_relation :
  ∀ (K V : Type) (eqK : EqDecision K) (cK : Countable K) (eqV : EqDecision V) (cV : Countable V)
    (calls : list (kvs_op K V)),
  run_calls kvs_call (∅ : gmap K (gset V)) calls = run_calls relation_call (∅ : gset (K * V)) calls.
Proof. exact kvs_lemma. Qed.
Print Assumptions C04_key_value_set_is_relation.

Example C04_example :
  run_calls kvs_call (∅ : gmap nat (gset nat))
    [KAdd 1%nat 10%nat; KAdd 1%nat 11%nat; KRemoveValue 1%nat 10%nat; KContains 1%nat; KRemoveValue 1%nat 11%nat; KContains 1%nat; KGetValues 1%nat]
  = [RUnit; RUnit; RUnit; RBool true; RUnit; RBool false; RRaise ValueError].
Proof. by_compute. Qed.

(** C05.  As long as the calls respect the contract, the priority queue answers
    like a finite map whose [get] takes the least (priority, data). *)
Theorem C05_priority_queue_yields_least :
  ∀ calls : list pq_op, pq_conforms ∅ ∅ calls (run_calls pq_call pq_empty calls).
Proof. exact pq_refines. Qed.
Print Assumptions C05_priority_queue_yields_least.

Example C05_example :
  run_calls pq_call pq_empty
    [PPut 3 "c"; PPut 1 "b"; PPut 2 "a"; PDecrease "c"; PDecrease "c"; PDecrease "c"; PGet; PRemove "b"; PLen; PGet; PGet]
  = [PUnit; PUnit; PUnit; PUnit; PUnit; PUnit; PEntry 0 "c"; PUnit; PInt 1; PEntry 2 "a"; PRaise QueueEmpty].
Proof. vm_compute. reflexivity. Qed.

(** C06.  [max_priority] is not a read-only peek: here it loses a decrease, makes
    a second decrease raise, and makes a removal raise; without the peek all of
    these succeed.  (C05 above is the positive part: peeks are harmless as long as
    the data looked at is taken out before it is decreased or removed.) *)
Theorem C06_peek_is_read_only_refuted :
  ∃ calls, drop_peeks calls (run_calls pq_call pq_empty calls)
           ≠ run_calls pq_call pq_empty (without_peeks calls).
Proof. exact peek_lemma. Qed.
Print Assumptions C06_peek_is_read_only_refuted.

Theorem C06_peek_loses_decrease_refuted :
  run_calls pq_call pq_empty [PPut 1 "w"; PMax; PDecrease "w"; PMax; PDecrease "w"; PRemove "w"]
    = [PUnit; PInt 1; PUnit; PInt 1; PRaise ValueError; PRaise ValueError] ∧
  run_calls pq_call pq_empty [PPut 1 "w"; PDecrease "w"; PMax; PGet]
    = [PUnit; PUnit; PInt 0; PEntry 0 "w"] ∧
  run_calls pq_call pq_empty [PPut 1 "w"; PMax; PRemove "w"] = [PUnit; PInt 1; PRaise AssertionError].
Proof. exact peek_trace_lemma. Qed.
Print Assumptions C06_peek_loses_decrease_refuted.

(** Positive part: histories that never decrease or remove looked-at data. *)
Theorem C06_peek_then_get_partial :
  ∀ calls : list pq_op, pq_conforms ∅ ∅ calls (run_calls pq_call pq_empty calls).
Proof. exact pq_refines. Qed.
Print Assumptions C06_peek_then_get_partial.

Example C06_example :
  run_calls pq_call pq_empty [PPut 1 "v"; PPut 2 "w"; PMax; PDecrease "w"; PGet; PPut 1 "v"; PDecrease "v"; PMax; PGet]
  = [PUnit; PUnit; PInt 1; PUnit; PEntry 1 "v"; PUnit; PUnit; PInt 0; PEntry 0 "v"].
Proof. vm_compute. reflexivity. Qed.
