(** Lemmas behind C01-C06 in the exact form the property file states them. *)

From Verif.Model Require Import Base IndexedQueue OneToManyDict PriorityQueue.
From Verif.Spec Require Import QueueSpec DictSpec PriorityQueueSpec.
From Verif.Proofs Require Import IndexedQueueProofs DictProofs PriorityQueueProofs.

Lemma queue_fifo_lemma :
  ∀ (A : Type) (eqA : EqDecision A) (hash : A → Z), Inj (=) (=) hash →
  ∀ calls : list (queue_call A),
  run_calls (iq_call hash) iq_empty calls = run_calls (fifo_call equal) [] calls.
Proof. intros A eqA hash Hi calls. apply queue_fifo. exact Hi. Qed.

Lemma queue_by_hash_lemma :
  ∀ (A : Type) (hash : A → Z) (calls : list (queue_call A)),
  run_calls (iq_call hash) iq_empty calls
  = run_calls (fifo_call (λ a b, hash a =? hash b)) [] calls.
Proof. intros. apply queue_by_hash. Qed.

Lemma collision_lemma :
  ∀ (A : Type) (eqA : EqDecision A) (hash : A → Z) (a b : A), a ≠ b → hash a = hash b →
  run_calls (iq_call hash) iq_empty [QPut a; QContains b; QPut b; QRemove b; QLen]
    = [QUnit; QBool true; QRaise KeyError; QUnit; QInt 0] ∧
  run_calls (fifo_call equal) [] [QPut a; QContains b; QPut b; QRemove b; QLen]
    = [QUnit; QBool false; QUnit; QUnit; QInt 1].
Proof.
  intros A eqA hash a b Hne Hh. split.
  - rewrite queue_by_hash_lemma. repeat (cbn; rewrite ?Hh, ?Z.eqb_refl). reflexivity.
  - cbn. unfold equal. rewrite (bool_decide_eq_false_2 (b = a)) by congruence. cbn.
    rewrite (bool_decide_eq_false_2 (b = a)) by congruence.
    rewrite (bool_decide_eq_true_2 (b = b)) by reflexivity. reflexivity.
Qed.

Lemma otm_lemma :
  ∀ (K V : Type) (eqK : EqDecision K) (cK : Countable K) (eqV : EqDecision V) (cV : Countable V)
    (calls : list (otm_op K V)),
  run_calls otm_call otm_empty calls = run_calls owner_call (∅ : gmap V K) calls.
Proof. intros. apply otm_refines. Qed.

Lemma kvs_lemma :
  ∀ (K V : Type) (eqK : EqDecision K) (cK : Countable K) (eqV : EqDecision V) (cV : Countable V)
    (calls : list (kvs_op K V)),
  run_calls kvs_call (∅ : gmap K (gset V)) calls = run_calls relation_call (∅ : gset (K * V)) calls.
Proof. intros. apply kvs_refines. Qed.

Lemma peek_lemma :
  ∃ calls, drop_peeks calls (run_calls pq_call pq_empty calls)
           ≠ run_calls pq_call pq_empty (without_peeks calls).
Proof. exists [PPut 1 "w"; PMax; PRemove "w"]. vm_compute. discriminate. Qed.

Lemma peek_trace_lemma :
  run_calls pq_call pq_empty [PPut 1 "w"; PMax; PDecrease "w"; PMax; PDecrease "w"; PRemove "w"]
    = [PUnit; PInt 1; PUnit; PInt 1; PRaise ValueError; PRaise ValueError] ∧
  run_calls pq_call pq_empty [PPut 1 "w"; PDecrease "w"; PMax; PGet]
    = [PUnit; PUnit; PInt 0; PEntry 0 "w"] ∧
  run_calls pq_call pq_empty [PPut 1 "w"; PMax; PRemove "w"] = [PUnit; PInt 1; PRaise AssertionError].
Proof. vm_compute. auto. Qed.
