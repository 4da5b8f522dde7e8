(** * How a number is written in an address or an option (C19, C76)

    As Python's [int] reads ASCII text: blanks, a sign or none, digits with single
    underscores between them, blanks. *)

From Verif.Model Require Import Base.
From Coq Require Import Ascii.

Definition code (c : ascii) : Z := Z.of_N (N_of_ascii c).
(** Space, tab, newline, vertical tab, form feed, carriage return, or one of the four
    ASCII separators. *)
Definition blank (c : ascii) : Prop := code c = 32 ∨ 9 <= code c <= 13 ∨ 28 <= code c <= 31.
Definition digit (c : ascii) : Prop := 48 <= code c <= 57.
Definition blanks (s : string) : Prop := Forall blank (String.list_ascii_of_string s).

(** Further digits, each with an underscore before it or not. *)
Definition further (ds : list (bool * ascii)) : string :=
  foldr (λ (p : bool * ascii) (s : string), (if p.1 then "_" else "") +:+ String p.2 s) "" ds.
Definition value (cs : list ascii) : Z := foldl (λ n c, 10 * n + (code c - 48)) 0 cs.

Definition written (s : string) (z : Z) : Prop :=
  ∃ left sign d ds right,
    s = left +:+ sign +:+ String d (further ds) +:+ right ∧ blanks left ∧ blanks right ∧ digit d ∧ Forall (λ p, digit p.2) ds ∧
    (sign = "" ∧ z = value (d :: ds.*2) ∨ sign = "+" ∧ z = value (d :: ds.*2) ∨ sign = "-" ∧ z = - value (d :: ds.*2)).
