(** * How often the loops make a turn (for C91) *)

From Verif.Model Require Import Base EventLoop.

(** Turns and sleeps that together take at most [slack] longer than asked for. *)
Definition quick (slack : Z) (x : turn) : Prop := 0 <= takes x ∧ 0 <= oversleeps x ∧ takes x + oversleeps x <= slack.

(** Up to the time [now] the loop has made its turns at [starts], the first at [start],
    and the next one is not due before [now]. *)
Definition on_schedule (seconds slack start now : Z) (starts : list Z) : Prop :=
  ∃ turns next, Forall (quick slack) turns ∧ loop_starts seconds start turns = starts ++ [next] ∧ now <= next.

(** The times of some of the steps of an execution. *)
Definition times_of {R} (time : R → Z) (which : R → bool) (rs : list R) : list Z := time <$> List.filter which rs.
(** The clock does not go back, and shows [now] at the end. *)
Definition up_to {R} (time : R → Z) (now : Z) (rs : list R) : Prop := StronglySorted Z.le ((time <$> rs) ++ [now]).
