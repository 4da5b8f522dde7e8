(** * Histories: lists of entries, oldest first *)

From Verif.Model Require Import Base.

Section history.
Context {E : Type}.

(** How often [p] occurs. *)
Definition occurrences (p : E → bool) (h : list E) : nat := length (List.filter p h).

(** [P before e] holds at every entry [e] of the history. *)
Definition always (P : list E → E → Prop) (h : list E) : Prop :=
  ∀ before e after, h = before ++ e :: after → P before e.

(** Counting moments: positions of the history where [p], which may look at what came
    before, is true. *)
Fixpoint moments_from (p : list E → E → bool) (before h : list E) : nat :=
  match h with
  | [] => 0
  | e :: h => (if p before e then 1 else 0) + moments_from p (before ++ [e]) h
  end.
Definition moments (p : list E → E → bool) (h : list E) : nat := moments_from p [] h.

(** Sum of a quantity over all entries. *)
Definition total (f : E → nat) (h : list E) : nat := sum_list_with f h.
End history.
