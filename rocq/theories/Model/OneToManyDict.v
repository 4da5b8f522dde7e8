(** * OneToManyDict (scaled/utility/one_to_many_dict.py)
    and KeyValueDictSet (scaled/utility/key_value_set.py) *)

From Verif.Model Require Import Base.

Section one_to_many.
Context {K V : Type} `{Countable K} `{Countable V}.

(** one_to_many_dict.py:10-13. *)
Record otm := OTM { o_k2v : gmap K (gset V); o_v2k : gmap V K }.

Definition otm_empty : otm := OTM ∅ ∅.

(** one_to_many_dict.py:15-16, 38-39 [__contains__], [has_key]. *)
Definition otm_has_key (d : otm) (k : K) : bool := bool_decide (is_Some (o_k2v d !! k)).

(** one_to_many_dict.py:41-42 [has_value]. *)
Definition otm_has_value (d : otm) (v : V) : bool := bool_decide (is_Some (o_v2k d !! v)).

(** one_to_many_dict.py:27-36 [add]. *)
Definition otm_add (d : otm) (k : K) (v : V) : res otm :=
  let conflict := match o_v2k d !! v with Some k' => negb (bool_decide (k' = k)) | None => false end in
  if conflict then Raise ValueError
  else
    let v2k := <[v := k]> (o_v2k d) in
    let k2v := match o_k2v d !! k with Some _ => o_k2v d | None => <[k := ∅]> (o_k2v d) end in
    Ok (OTM (alter (λ s, {[v]} ∪ s) k k2v) v2k).

(** one_to_many_dict.py:44-48 [get_key]. *)
Definition otm_get_key (d : otm) (v : V) : res K := from_option_exn ValueError (o_v2k d !! v).

(** one_to_many_dict.py:50-54 [get_values]. *)
Definition otm_get_values (d : otm) (k : K) : res (gset V) := from_option_exn ValueError (o_k2v d !! k).

(** [self._value_to_key.pop(value)] for each value (one_to_many_dict.py:61-62);
    pop of an absent key raises KeyError. *)
Fixpoint pop_all (m : gmap V K) (vs : list V) : res (gmap V K) :=
  match vs with
  | [] => Ok m
  | v :: vs => match m !! v with None => Raise KeyError | Some _ => pop_all (delete v m) vs end
  end.

(** one_to_many_dict.py:56-64 [remove_key].  The order in which the values are
    popped is not observable. *)
Definition otm_remove_key (d : otm) (k : K) : res (otm * gset V) :=
  match o_k2v d !! k with
  | None => Raise KeyError
  | Some vs =>
      v2k ← pop_all (o_v2k d) (elements vs);
      Ok (OTM (delete k (o_k2v d)) v2k, vs)
  end.

(** one_to_many_dict.py:66-75 [remove_value]; [d[key]] and [set.remove] raise
    KeyError when absent. *)
Definition otm_remove_value (d : otm) (v : V) : res (otm * K) :=
  match o_v2k d !! v with
  | None => Raise ValueError
  | Some k =>
      let v2k := delete v (o_v2k d) in
      match o_k2v d !! k with
      | None => Raise KeyError
      | Some vs =>
          if bool_decide (v ∈ vs) then
            let vs' := vs ∖ {[v]} in
            Ok (OTM (if bool_decide (vs' = ∅) then delete k (o_k2v d) else <[k := vs']> (o_k2v d)) v2k, k)
          else Raise KeyError
      end
  end.
End one_to_many.
Arguments otm : clear implicits.
Arguments otm K V {_ _} {_ _}.

(** The methods as calls.  [OKeys] is [set(d.keys())]. *)
Inductive otm_op (K V : Type) : Type :=
| OAdd (k : K) (v : V) | ORemoveKey (k : K) | ORemoveValue (v : V)
| OHasKey (k : K) | OHasValue (v : V) | OGetKey (v : V) | OGetValues (k : K) | OKeys.
Arguments OAdd {K V} k v. Arguments ORemoveKey {K V} k. Arguments ORemoveValue {K V} v.
Arguments OHasKey {K V} k. Arguments OHasValue {K V} v. Arguments OGetKey {K V} v.
Arguments OGetValues {K V} k. Arguments OKeys {K V}.

Inductive otm_ret (K V : Type) `{Countable K} `{Countable V} : Type :=
| RUnit | RBool (b : bool) | RKey (k : K) | RValues (s : gset V) | RKeys (s : gset K) | RRaise (e : exn).
Arguments RUnit {K V _ _ _ _}. Arguments RBool {K V _ _ _ _} b. Arguments RKey {K V _ _ _ _} k.
Arguments RValues {K V _ _ _ _} s. Arguments RKeys {K V _ _ _ _} s. Arguments RRaise {K V _ _ _ _} e.
Global Instance otm_ret_eq_dec {K V} `{Countable K} `{Countable V} : EqDecision (otm_ret K V).
Proof. solve_decision. Defined.

(** As for IndexedQueue: the exceptions that can occur (the two argument checks)
    are raised before any assignment. *)
Definition otm_call {K V} `{Countable K} `{Countable V} (d : otm K V) (c : otm_op K V)
  : otm K V * otm_ret K V :=
  match c with
  | OAdd k v => match otm_add d k v with Ok d' => (d', RUnit) | Raise e => (d, RRaise e) end
  | ORemoveKey k => match otm_remove_key d k with Ok (d', s) => (d', RValues s) | Raise e => (d, RRaise e) end
  | ORemoveValue v => match otm_remove_value d v with Ok (d', k) => (d', RKey k) | Raise e => (d, RRaise e) end
  | OHasKey k => (d, RBool (otm_has_key d k))
  | OHasValue v => (d, RBool (otm_has_value d v))
  | OGetKey v => (d, match otm_get_key d v with Ok k => RKey k | Raise e => RRaise e end)
  | OGetValues k => (d, match otm_get_values d k with Ok s => RValues s | Raise e => RRaise e end)
  | OKeys => (d, RKeys (dom (o_k2v d)))
  end.

(** ** KeyValueDictSet *)
(** key_value_set.py:10-12: a KeyValueDictSet is one dictionary of sets. *)
Notation kvs K V := (gmap K (gset V)).

Section key_value_set.
Context {K V : Type} `{Countable K} `{Countable V}.


(** key_value_set.py:14-15 [__contains__]. *)
Definition kvs_contains (d : kvs K V) (k : K) : bool := bool_decide (is_Some (d !! k)).

(** key_value_set.py:26-30 [add]. *)
Definition kvs_add (d : kvs K V) (k : K) (v : V) : kvs K V :=
  let d := match d !! k with Some _ => d | None => <[k := ∅]> d end in
  alter (λ s, {[v]} ∪ s) k d.

(** key_value_set.py:32-36 [get_values]. *)
Definition kvs_get_values (d : kvs K V) (k : K) : res (gset V) := from_option_exn ValueError (d !! k).

(** key_value_set.py:38-43 [remove_key]. *)
Definition kvs_remove_key (d : kvs K V) (k : K) : res (kvs K V * gset V) :=
  match d !! k with None => Raise KeyError | Some s => Ok (delete k d, s) end.

(** key_value_set.py:45-51 [remove_value]. *)
Definition kvs_remove_value (d : kvs K V) (k : K) (v : V) : res (kvs K V) :=
  match d !! k with
  | None => Raise KeyError
  | Some s =>
      if bool_decide (v ∈ s) then
        let s' := s ∖ {[v]} in
        Ok (if bool_decide (s' = ∅) then delete k d else <[k := s']> d)
      else Raise KeyError
  end.
End key_value_set.

Inductive kvs_op (K V : Type) : Type :=
| KAdd (k : K) (v : V) | KRemoveKey (k : K) | KRemoveValue (k : K) (v : V)
| KContains (k : K) | KGetValues (k : K).
Arguments KAdd {K V} k v. Arguments KRemoveKey {K V} k. Arguments KRemoveValue {K V} k v.
Arguments KContains {K V} k. Arguments KGetValues {K V} k.

Definition kvs_call {K V} `{Countable K} `{Countable V} (d : kvs K V) (c : kvs_op K V)
  : kvs K V * otm_ret K V :=
  match c with
  | KAdd k v => (kvs_add d k v, RUnit)
  | KRemoveKey k => match kvs_remove_key d k with Ok (d', s) => (d', RValues s) | Raise e => (d, RRaise e) end
  | KRemoveValue k v => match kvs_remove_value d k v with Ok d' => (d', RUnit) | Raise e => (d, RRaise e) end
  | KContains k => (d, RBool (kvs_contains d k))
  | KGetValues k => (d, match kvs_get_values d k with Ok s => RValues s | Raise e => RRaise e end)
  end.
