(** * Python floats as fractions

    A float is a fraction [(a, b)], [0 < b].  Rounding is to 53 binary digits, ties to
    even (IEEE 754 binary64 as used by CPython).  SIMPLIFICATION: the exponent is not
    bounded; overflow needs values beyond 2^1023 and underflow values below 2^-1022. *)

From Verif.Model Require Import Base.

(** The integer closest to p / q, ties to even. *)
Definition nearest (p q : Z) : Z :=
  let d := p / q in
  let r := p mod q in
  if 2 * r <? q then d else if q <? 2 * r then d + 1 else if Z.even d then d else d + 1.

(** The exponent of p / q: [2^k <= p / q < 2^(k+1)], for positive p and q. *)
Definition exponent (p q : Z) : Z :=
  let k := Z.log2 p - Z.log2 q in
  if q * 2 ^ Z.max 0 k <=? p * 2 ^ Z.max 0 (- k) then k else k - 1.

(** The float closest to p / q, for [0 <= p] and [0 < q]: what [p / q] is for Python
    integers (longobject.c [long_true_divide]), and for exact results of float
    operations. *)
Definition float_of (p q : Z) : Z * Z :=
  if p =? 0 then (0, 1)
  else
    let e := 52 - exponent p q in
    if e <? 0 then (nearest p (q * 2 ^ (- e)) * 2 ^ (- e), 1) else (nearest (p * 2 ^ e) q, 2 ^ e).
