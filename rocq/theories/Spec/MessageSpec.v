(** * Which messages fit the wire format *)

From Verif.Model Require Import Base Message.

Definition u16 (z : Z) : Prop := 0 <= z <= 65535.
Definition u32 (z : Z) : Prop := 0 <= z <= 4294967295.
Definition u64 (z : Z) : Prop := 0 <= z <= 18446744073709551615.
Definition count32 {A} (l : list A) : Prop := Z.of_nat (length l) <= 4294967295.

(** Every number fits its field. *)
Definition numbers_fit (m : message) : Prop :=
  match m with
  | MTaskResult _ _ duration _ => u32 duration   (* a float32 bit pattern *)
  | MGraphTask _ functions targets graph =>
      count32 functions ∧ count32 targets ∧
      Forall (λ t, 2 + 2 * Z.of_nat (length (task_args t)) <= 4294967295) graph
  | MBalanceRequest n => u32 n
  | MBalanceResponse ids => count32 ids
  | MHeartbeat h =>
      u16 (hb_agent_cpu h) ∧ u64 (hb_agent_rss h) ∧ u16 (hb_worker_cpu h) ∧ u64 (hb_worker_rss h) ∧
      u16 (hb_queued h) ∧ u32 (hb_latency h)
  | _ => True
  end.

(** The one other restriction: a graph task needs a function. *)
Definition has_functions (m : message) : Prop :=
  match m with MGraphTask _ functions _ _ => functions ≠ [] | _ => True end.

(** A dictionary has distinct keys (by construction in Python; the model keeps its
    items in a list). *)
Definition proper (m : message) : Prop :=
  match m with MGraphTask _ functions _ _ => NoDup functions.*1 | _ => True end.

Definition encodable (m : message) : Prop := numbers_fit m ∧ has_functions m.
