(** * Number formatting (utility/formatter.py)

    Numbers are non-negative integers, as everywhere the functions are called
    (top.py:101-166, function_manager.py:87, :128).  Python's floats are modelled exactly
    as 53-bit binary fractions, without a bound on the exponent: SIMPLIFICATION: an
    integer beyond 2^1024 raises OverflowError in Python, and ValueError here. *)

From stdpp Require Import pretty.
From Verif.Model Require Export Float.
From Verif.Model Require Import Base.

(** Decimal digits of a non-negative integer. *)
Definition dec (n : Z) : bytes := pretty (Z.to_N n).

(** [f"{p / q:.1f}"] for an exact quotient: rounded to tenths, ties to even. *)
Definition one_decimal (p q : Z) : bytes :=
  let t := nearest (10 * p) q in dec (t / 10) +:+ "." +:+ dec (t mod 10).

(** The float closest to p / q, as a fraction: the quotient is scaled to 53 binary digits
    and rounded.  For p / q of at least 1/1024, or 0. *)
Definition float_quotient (p q : Z) : Z * Z :=
  let e := 62 - Z.log2 (1024 * p / q) in
  if e <? 0 then (nearest p (q * 2 ^ (- e)) * 2 ^ (- e), 1) else (nearest (p * 2 ^ e) q, 2 ^ e).

(** formatter.py:7-19 [format_bytes].  Dividing a float by 1024.0 is exact; [number] is
    p / q.  SIMPLIFICATION: the first division first converts the integer to a float,
    which rounds integers beyond 2^53; those are too big with and without rounding. *)
Fixpoint format_bytes_from (units : list bytes) (p q : Z) : res bytes :=
  match units with
  | [] => Raise ValueError
  | u :: units =>
      if 1024 * q <=? p then format_bytes_from units p (q * 1024)
      else if String.eqb u "b" || String.eqb u "k" then Ok (dec (p / q) +:+ u)
      else Ok (one_decimal p q +:+ u)
  end.
Definition format_bytes (n : Z) : res bytes := format_bytes_from ["b"; "k"; "m"; "g"; "t"] n 1.

(** formatter.py:22-23 [format_integer]: [f"{n:,}"], the groups of three digits from the
    right. *)
Fixpoint groups (fuel : nat) (n : Z) : bytes :=
  match fuel with
  | O => ""
  | S fuel =>
      if n <? 1000 then dec n
      else groups fuel (n / 1000) +:+ "," +:+ dec (n mod 1000 / 100) +:+ dec (n mod 100 / 10) +:+ dec (n mod 10)
  end.
Definition format_integer (n : Z) : bytes := groups (S (Z.to_nat n)) n.

(** formatter.py:30-43 [format_microseconds]; [number] is the float (or integer) p / q. *)
Fixpoint format_microseconds_from (units : list bytes) (p q : Z) : res bytes :=
  match units with
  | [] => Raise ValueError
  | u :: units =>
      if 1000 * q <=? p then let '(p, q) := float_quotient p (q * 1000) in format_microseconds_from units p q
      else if String.eqb u "us" then let '(p, q) := float_quotient p (q * 1000) in Ok (one_decimal p q +:+ "ms")
      else Ok (dec (p / q) +:+ (if String.eqb u "s" && (1000 * q <? p) then "+" else "") +:+ u)
  end.
Definition format_microseconds (n : Z) : res bytes := format_microseconds_from ["us"; "ms"; "s"] n 1.

(** formatter.py:46-50 [format_seconds]. *)
Definition format_seconds (n : Z) : bytes := if 60 <? n then "60+s" else dec n +:+ "s".
