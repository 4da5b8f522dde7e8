(** * When a processor collects garbage *)

From Verif.Model Require Import Base MemoryCleaner.

(** The times of the turns in which an action was taken. *)
Fixpoint collected (turns : list (Z * Z)) (acts : list (list mem_action)) : list Z :=
  match turns, acts with
  | (now, _) :: turns, a :: acts => (match a with Collect :: _ => [now] | _ => [] end) ++ collected turns acts
  | _, _ => []
  end.

(** Each time at least [gap] after the one before. *)
Definition spaced (gap : Z) (times : list Z) : Prop :=
  ∀ i a b, times !! i = Some a → times !! S i = Some b → a + gap <= b.
