(** * Specifications of the two dictionary classes *)

From Verif.Model Require Import Base OneToManyDict.

Section spec.
Context {K V : Type} `{Countable K} `{Countable V}.

(** OneToManyDict is a finite function [f] from values to keys ("owner of"). *)
Definition owned (f : gmap V K) (k : K) : gset V := dom (filter (λ p, p.2 = k) f).

Definition owner_call (f : gmap V K) (c : otm_op K V) : gmap V K * otm_ret K V :=
  match c with
  | OAdd k v =>
      match f !! v with
      | Some k' => if decide (k' = k) then (f, RUnit) else (f, RRaise ValueError)
      | None => (<[v := k]> f, RUnit)
      end
  | ORemoveKey k =>
      if decide (owned f k = ∅) then (f, RRaise KeyError)
      else (filter (λ p, p.2 ≠ k) f, RValues (owned f k))
  | ORemoveValue v =>
      match f !! v with Some k => (delete v f, RKey k) | None => (f, RRaise ValueError) end
  | OHasKey k => (f, RBool (negb (bool_decide (owned f k = ∅))))
  | OHasValue v => (f, RBool (bool_decide (is_Some (f !! v))))
  | OGetKey v => (f, match f !! v with Some k => RKey k | None => RRaise ValueError end)
  | OGetValues k => (f, if decide (owned f k = ∅) then RRaise ValueError else RValues (owned f k))
  | OKeys => (f, RKeys (list_to_set (map_to_list f).*2))
  end.

(** KeyValueDictSet is a finite set of pairs. *)
Definition related (r : gset (K * V)) (k : K) : gset V :=
  set_map snd (filter (λ p, p.1 = k) r).

Definition relation_call (r : gset (K * V)) (c : kvs_op K V) : gset (K * V) * otm_ret K V :=
  match c with
  | KAdd k v => (r ∪ {[(k, v)]}, RUnit)
  | KRemoveKey k =>
      if decide (related r k = ∅) then (r, RRaise KeyError)
      else (filter (λ p, p.1 ≠ k) r, RValues (related r k))
  | KRemoveValue k v =>
      if decide ((k, v) ∈ r) then (r ∖ {[(k, v)]}, RUnit) else (r, RRaise KeyError)
  | KContains k => (r, RBool (negb (bool_decide (related r k = ∅))))
  | KGetValues k => (r, if decide (related r k = ∅) then RRaise ValueError else RValues (related r k))
  end.
End spec.
