(** * What the monitor's screen should show *)

From Verif.Model Require Import Base Formatter Top.

(** Every row of the table has [w] cells. *)
Definition rectangular (w : nat) (t : table) : Prop := Forall (λ r, length r = w) t.
Definition cell_at (t : table) (i j : nat) : option cell := match t !! i with Some r => r !! j | None => None end.

(** Two printed texts are on different lines, or at least [gap] blanks apart. *)
Definition apart (gap : nat) (a b : nat * nat * bytes) : Prop :=
  a.1.1 ≠ b.1.1 ∨ (a.1.2 + String.length a.2 + gap ≤ b.1.2)%nat ∨ (b.1.2 + String.length b.2 + gap ≤ a.1.2)%nat.

(** The cells stand next to each other in a row of the table. *)
Definition shown (t : table) (cells : list cell) : Prop := ∃ r before after, In r t ∧ r = before ++ cells ++ after.

(** A status report as the scheduler sends it. *)
Definition size (c : cell) : Prop := ∃ n, c = CInt n ∧ 0 <= n < 1024 ^ 5.
Definition field (r : list (bytes * cell)) (k : bytes) (ok : cell → Prop) : Prop := ∃ v, In (k, v) r ∧ ok v.
Definition worker_ok (r : list (bytes * cell)) : Prop :=
  NoDup r.*1 ∧
  field r "worker" (λ v, ∃ s, v = CText s) ∧
  field r "agt_cpu" (λ v, ∃ x p, v = CFloat x p) ∧ field r "agt_rss" size ∧
  field r "cpu" (λ v, ∃ x p, v = CFloat x p) ∧ field r "rss" size ∧
  field r "last" (λ v, ∃ n, v = CInt n) ∧ field r "lag" (λ v, ∃ n, v = CInt n ∧ 0 <= n < 10 ^ 9) ∧
  field r "free" (λ v, ∃ n, v = CInt n) ∧ field r "sent" (λ v, ∃ n, v = CInt n) ∧ field r "queued" (λ v, ∃ n, v = CInt n).
(** The columns by which one can sort. *)
Definition columns : list bytes := ["worker"; "agt_cpu"; "agt_rss"; "cpu"; "rss"; "free"; "sent"; "queued"; "lag"].
Definition report_ok (r : report) : Prop :=
  NoDup (r_scheduler r).*1 ∧
  field (r_scheduler r) "cpu" (λ v, ∃ x p, v = CFloat x p) ∧ field (r_scheduler r) "rss" size ∧
  Forall worker_ok (r_workers r) ∧
  (∀ a b, In a (r_workers r) → In b (r_workers r) → a.*1 = b.*1).

(** How one entry of a worker's part of the report is displayed. *)
Definition displays (r : list (bytes * cell)) (p : bytes * cell) (c : cell) : Prop :=
  let '(k, v) := p in
  if decide (k = "worker") then ∃ s, v = CText s ∧ c = CText (truncate s 24 KeepLeft)
  else if decide (k = "agt_cpu" ∨ k = "cpu") then ∃ x p, v = CFloat x p ∧ c = CText p
  else if decide (k = "agt_rss" ∨ k = "rss") then ∃ n s, v = CInt n ∧ format_bytes n = Ok s ∧ c = CText s
  else if decide (k = "lag") then
    ∃ n s last, v = CInt n ∧ format_microseconds n = Ok s ∧ In ("last", CInt last) r ∧
      c = CText ((if decide (5 < last) then "(" +:+ format_seconds last +:+ ") " else "") +:+ s)
  else c = v.
Definition entries (r : list (bytes * cell)) : list (bytes * cell) := filter (λ p, p.1 ≠ "last") r.
Definition header (sort_by k : bytes) : cell := CText (if decide (k = sort_by) then "[" +:+ k +:+ "]" else k).

(** The order in which workers are listed: those with the higher entry first, texts in
    dictionary order of their bytes; equal ones as in the report. *)
Definition higher (a b : cell) : Prop :=
  match a, b with
  | CText s, CText t => (∃ x more, s = t +:+ String x more) ∨
      ∃ common x y s' t', s = common +:+ String x s' ∧ t = common +:+ String y t' ∧ (Ascii.N_of_ascii y < Ascii.N_of_ascii x)%N
  | CInt n, CInt m => m < n
  | CFloat v _, CFloat v' _ => v' < v
  | _, _ => False
  end.
Definition alike (a b : cell) : Prop :=
  match a, b with CText s, CText t => s = t | CInt n, CInt m => n = m | CFloat v _, CFloat v' _ => v = v' | _, _ => False end.
Definition ranked (column : bytes) (rows out : list (list (bytes * cell))) : Prop :=
  ∃ places, places ≡ₚ seq 0 (length rows) ∧ length out = length rows ∧ (∀ i p, places !! i = Some p → out !! i = rows !! p) ∧
  ∀ i j p q r r', (i < j)%nat → places !! i = Some p → places !! j = Some q → rows !! p = Some r → rows !! q = Some r' →
    ∃ a b, In (column, a) r ∧ In (column, b) r' ∧ (higher a b ∨ alike a b ∧ (p < q)%nat).
