(** * How long a processor keeps a function (C84) *)

From Verif.Model Require Import Base Message Processor.
From Verif.Spec Require Import ProcessorSpec.

(** A message that needs or brings function [f]. *)
Definition concerns (f : bytes) (m : message) : bool :=
  match m with
  | MTask k => String.eqb (task_function k) f
  | MFunctionResponse _ g _ _ => String.eqb g f
  | _ => false
  end.
(** After [before] the event has a visible effect: a message is received, not left on the socket. *)
Definition seen (r : Z) (before : list pround) (x : pround) : Prop := (p_exec r (before ++ [x])).2 ≠ (p_exec r before).2.

(** At time [s], every message received in [rs] that concerns [f] is older than [r]. *)
Definition idle (r : Z) (rs : list pround) (f : bytes) (s : Z) : Prop :=
  ∀ before u m loads after, rs = before ++ PRound u (PMsg m loads) :: after → concerns f m = true → seen r before (PRound u (PMsg m loads)) → r < s - u.
(** ... and so is every second look for the function of the task at hand. *)
Definition not_looked_up (r : Z) (rs : list pround) (f : bytes) (s : Z) : Prop :=
  ∀ before u after k, rs = before ++ PRound u PLook :: after → outstanding (p_exec r before).2 = Some k → task_function k = f → r < s - u.

(** Times do not go back. *)
Definition in_time (rs : list pround) : Prop := StronglySorted Z.le (pr_now <$> rs).

(** The cleaner deletes up to [n] functions. *)
Definition clean (n : nat) (now : Z) : list pround := replicate n (PRound now PDelete).
