(** * What the task allocator does (specification)

    The ledger is what an observer can reconstruct from the calls and answers:
    the set of registered workers and, for each assigned task, its worker. *)

From Verif.Model Require Import Base Allocator.

Record ledger := Ledger { lg_workers : gset bytes; lg_owner : gmap bytes bytes }.

Definition lg_empty : ledger := Ledger ∅ ∅.

Definition tasks_of (g : ledger) (w : bytes) : gset bytes :=
  dom (filter (λ p, p.2 = w) (lg_owner g)).

Definition load (g : ledger) (w : bytes) : Z := Z.of_nat (size (tasks_of g w)).

(** Sum of the loads of all workers. *)
Definition total_load (g : ledger) : Z := Z.of_nat (size (lg_owner g)).

Definition advice_ok (g : ledger) (m : gmap bytes Z) : Prop :=
  let n := Z.of_nat (size (lg_workers g)) in
  let idle := ∃ w, w ∈ lg_workers g ∧ load g w = 0 in
  let busy := ∃ w, w ∈ lg_workers g ∧ 0 < load g w in
  (* advice only if some worker is idle and some worker has a task *)
  (m ≠ ∅ → idle ∧ busy) ∧
  (idle ∧ busy →
     (* exactly the workers above the mean [total_load / n] *)
     (∀ w, is_Some (m !! w) ↔ w ∈ lg_workers g ∧ load g w * n > total_load g) ∧
     (* told to give up everything above the floor of the mean *)
     (∀ w k, m !! w = Some k → k = load g w - total_load g / n)).

(** [al_does exact max g o g' r]: with queue size [max], from [g] call [o] may
    answer [r] and lead to [g'].  With [exact = false] the answers "full" and
    "not available" are unconstrained and the choice of worker is only limited by
    capacity; this is what holds in every history. *)
Inductive al_does (exact : bool) (max : Z) (g : ledger) : al_op -> ledger -> al_ret -> Prop :=
| ad_add w : w ∉ lg_workers g →
    al_does exact max g (AAddWorker w) (Ledger ({[w]} ∪ lg_workers g) (lg_owner g)) (ABool true)
| ad_add_again w : w ∈ lg_workers g → al_does exact max g (AAddWorker w) g (ABool false)
| ad_remove w : w ∈ lg_workers g →
    al_does exact max g (ARemoveWorker w)
      (Ledger (lg_workers g ∖ {[w]}) (filter (λ p, p.2 ≠ w) (lg_owner g))) (ATasks (tasks_of g w))
| ad_remove_unknown w : w ∉ lg_workers g → al_does exact max g (ARemoveWorker w) g (ATasks ∅)
| ad_assign_wait t : lg_workers g = ∅ → al_does exact max g (AAssign t) g (AResult Waits)
| ad_assign_full t : lg_workers g ≠ ∅ →
    (exact = true → ∀ w, w ∈ lg_workers g → load g w = max) →
    al_does exact max g (AAssign t) g (AResult AllFull)
| ad_assign_again t w : lg_owner g !! t = Some w →
    al_does exact max g (AAssign t) g (AResult (Assigned w))
| ad_assign t w : lg_owner g !! t = None → w ∈ lg_workers g →
    (0 <= max → load g w < max) →
    (exact = true → ∀ w', w' ∈ lg_workers g → load g w <= load g w') →
    al_does exact max g (AAssign t) (Ledger (lg_workers g) (<[t := w]> (lg_owner g)))
      (AResult (Assigned w))
| ad_remove_task t :
    al_does exact max g (ARemoveTask t) (Ledger (lg_workers g) (delete t (lg_owner g)))
      (AWorker (lg_owner g !! t))
| ad_get t : al_does exact max g (AGetAssigned t) g (AWorker (lg_owner g !! t))
| ad_available b :
    (b = true → ∃ w, w ∈ lg_workers g ∧ load g w ≠ max ∧ (0 <= max → load g w < max)) →
    (exact = true → b = false → ∀ w, w ∈ lg_workers g → load g w = max) →
    al_does exact max g AHasAvailable g (ABool b)
| ad_ids : al_does exact max g AWorkerIds g (AWorkers (lg_workers g))
| ad_balance m : advice_ok g m → al_does exact max g ABalance g (AAdvice m)
| ad_stats m :
    (∀ w f s, m !! w = Some (f, s) ↔ w ∈ lg_workers g ∧ s = load g w ∧ f = max - s) →
    al_does exact max g AStatistics g (AStats m).

(** Invariants of the ledger itself that users rely on. *)
Definition ledger_ok (max : Z) (g : ledger) : Prop :=
  (∀ t w, lg_owner g !! t = Some w → w ∈ lg_workers g) ∧
  (0 <= max → ∀ w, load g w <= max).

(** The answers [rs] are possible answers to (a prefix of) the calls [os], with the
    ledger well-formed throughout. *)
Fixpoint al_conforms (exact : bool) (max : Z) (g : ledger) (os : list al_op) (rs : list al_ret) : Prop :=
  ledger_ok max g ∧
  match os, rs with
  | _, [] => True
  | o :: os, r :: rs => ∃ g', al_does exact max g o g' r ∧ al_conforms exact max g' os rs
  | [], _ :: _ => False
  end.

(** Calls that neither change the ledger nor peek at the queue. *)
Definition reads (o : al_op) : bool :=
  match o with AGetAssigned _ | AWorkerIds | ABalance | AStatistics => true | _ => false end.

(** A history is disciplined if after [has_available_worker] nothing but reads and
    further checks happens until the next assignment. *)
Fixpoint disciplined (peeked : bool) (os : list al_op) : bool :=
  match os with
  | [] => true
  | AHasAvailable :: os => disciplined true os
  | AAssign _ :: os => disciplined false os
  | o :: os => (negb peeked || reads o) && disciplined peeked os
  end.

(** The same ledger computed from calls and answers alone. *)
Definition seen (g : ledger) (o : al_op) (r : al_ret) : ledger :=
  match o, r with
  | AAddWorker w, ABool true => Ledger ({[w]} ∪ lg_workers g) (lg_owner g)
  | ARemoveWorker w, _ => Ledger (lg_workers g ∖ {[w]}) (filter (λ p, p.2 ≠ w) (lg_owner g))
  | AAssign t, AResult (Assigned w) => Ledger (lg_workers g) (<[t := w]> (lg_owner g))
  | ARemoveTask t, _ => Ledger (lg_workers g) (delete t (lg_owner g))
  | _, _ => g
  end.

Fixpoint ledger_after (g : ledger) (os : list al_op) (rs : list al_ret) : ledger :=
  match os, rs with
  | o :: os, r :: rs => ledger_after (seen g o r) os rs
  | _, _ => g
  end.
