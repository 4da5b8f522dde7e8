(** * What the counters should say, in terms of what was seen at the socket *)

From Verif.Model Require Import Base Message Transport Counters.

Definition same_type (t u : message_type) : bool := bool_decide (t = u).

(** How many messages of one type the callback was given. *)
Definition handed (t : message_type) (xs : list socket_effect) : Z :=
  Z.of_nat (length (List.filter (λ x, match x with Handed _ m => same_type t (message_type_of m) | _ => false end) xs)).

(** How many messages of one type were put on the wire. *)
Definition wired (t : message_type) (xs : list socket_effect) : Z :=
  Z.of_nat (length (List.filter (λ x, match x with Wired m _ => same_type t (message_type_of m) | _ => false end) xs)).

Definition no_failure (xs : list socket_effect) : Prop := ∀ e, Failure e ∉ xs.

(** A dictionary of counters says [count] about every type: the name of the type is a
    key exactly when the number is not 0, and then with that number; there are no other keys. *)
Definition tells (counts : gmap bytes Z) (count : message_type → Z) : Prop :=
  ∀ key n, counts !! key = Some n ↔ ∃ t, key = type_name t ∧ n = count t ∧ 0 < n.
