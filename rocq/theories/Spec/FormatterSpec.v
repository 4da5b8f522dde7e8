(** * Reading formatted numbers *)

From Coq Require Import Ascii.
From Verif.Model Require Import Base.

(** The number a string of decimal digits stands for. *)
Definition digit (a : ascii) : Z := Z.of_nat (nat_of_ascii a) - 48.
Definition is_digit (a : ascii) : Prop := 0 <= digit a <= 9.
Fixpoint reads_from (acc : Z) (s : bytes) : Z := match s with EmptyString => acc | String a s => reads_from (10 * acc + digit a) s end.
Definition reads (s : bytes) : Z := reads_from 0 s.

Fixpoint chars (s : bytes) : list ascii := match s with EmptyString => [] | String a s => a :: chars s end.
Definition without (c : ascii) (s : bytes) : list ascii := List.filter (λ a, negb (Ascii.eqb a c)) (chars s).

(** [d] tenths are [p / q] rounded to the nearest tenth. *)
Definition rounds (d p q : Z) : Prop := - q <= 2 * (10 * p - d * q) <= q.
