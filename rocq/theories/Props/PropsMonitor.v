(** * C63 and C64: the monitor's numbers and tables *)

From Coq Require Import Ascii.
From Verif.Model Require Import Base Formatter Top.
From Verif.Spec Require Import FormatterSpec TopSpec.
From Verif.Proofs Require Import BaseProofs FormatterProofs TopProofs.

(** ** C63: numbers are shown correctly *)

(** Decimal digits stand for the number. *)
Theorem C63_decimal : ∀ n, 0 <= n → reads (dec n) = n ∧ Forall is_digit (chars (dec n)).
Proof. intros n Hn. split; [by apply dec_reads|]. by apply dec_digits. Qed.
Print Assumptions C63_decimal.

(** Sizes: whole bytes and kilobytes, rounded down; tenths of the larger units, rounded to
    the nearest; ValueError from 1024^5 on. *)
Theorem C63_bytes : ∀ n, 0 <= n →
  (n < 1024 → format_bytes n = Ok (dec n +:+ "b")) ∧
  (1024 <= n < 1024 ^ 2 → format_bytes n = Ok (dec (n / 1024) +:+ "k")) ∧
  (∀ k unit, (k, unit) = (2, "m") ∨ (k, unit) = (3, "g") ∨ (k, unit) = (4, "t") → 1024 ^ k <= n < 1024 ^ (k + 1) →
    ∃ d, 0 <= d ∧ rounds d n (1024 ^ k) ∧ format_bytes n = Ok ((dec (d / 10) +:+ "." +:+ dec (d mod 10)) +:+ unit)) ∧
  (1024 ^ 5 <= n → format_bytes n = Raise ValueError).
Proof.
  intros n Hn. change (1024 ^ 5) with 1125899906842624. change (1024 ^ 2) with 1048576. unfold format_bytes. split; [|split; [|split]].
  - intros H. rewrite bytes_here by lia. cbn. by rewrite Z.div_1_r.
  - intros H. rewrite bytes_next, bytes_here by lia. done.
  - intros k unit Hk H.
    destruct Hk as [[= -> ->]|[[= -> ->]|[= -> ->]]].
    + change (1024 ^ (2 + 1)) with 1073741824 in H. change (1024 ^ 2) with 1048576 in *. destruct (one_decimal_spec n 1048576 ltac:(lia) Hn) as (d & Hd & E & R). exists d. split; [done|]. split; [done|].
      do 2 rewrite bytes_next by lia. rewrite bytes_here by lia. change (1 * 1024 * 1024) with 1048576. rewrite E. done.
    + change (1024 ^ (3 + 1)) with 1099511627776 in H. change (1024 ^ 3) with 1073741824 in *. destruct (one_decimal_spec n 1073741824 ltac:(lia) Hn) as (d & Hd & E & R). exists d. split; [done|]. split; [done|].
      do 3 rewrite bytes_next by lia. rewrite bytes_here by lia. change (1 * 1024 * 1024 * 1024) with 1073741824. rewrite E. done.
    + change (1024 ^ (4 + 1)) with 1125899906842624 in H. change (1024 ^ 4) with 1099511627776 in *. destruct (one_decimal_spec n 1099511627776 ltac:(lia) Hn) as (d & Hd & E & R). exists d. split; [done|]. split; [done|].
      do 4 rewrite bytes_next by lia. rewrite bytes_here by lia. change (1 * 1024 * 1024 * 1024 * 1024) with 1099511627776. rewrite E. done.
  - intros H. do 5 rewrite bytes_next by lia. done.
Qed.
Print Assumptions C63_bytes.

(** The number in front of the unit is not always below 1024. *)
Theorem C63_bytes_below_1024_refuted : format_bytes (1024 ^ 3 - 1) = Ok "1024.0m".
Proof. vm_compute. reflexivity. Qed.
Print Assumptions C63_bytes_below_1024_refuted.

(** Thousands separators change nothing but the layout: without them the digits of the
    number remain, and counted from the right exactly every fourth character is one. *)
Theorem C63_integer : ∀ n, 0 <= n →
  without ","%char (format_integer n) = chars (dec n) ∧
  ∀ i a, reverse (chars (format_integer n)) !! i = Some a → a = ","%char ↔ (i mod 4 = 3)%nat.
Proof. intros n Hn. split; [by apply format_integer_digits|]. by apply format_integer_commas. Qed.
Print Assumptions C63_integer.

(** Times: tenths of a millisecond below one millisecond, rounded to the nearest; whole
    milliseconds and seconds, rounded down; ValueError from 1000 seconds on. *)
Theorem C63_microseconds : ∀ n, 0 <= n →
  (n < 1000 → ∃ d, 0 <= d ∧ rounds d n 1000 ∧ format_microseconds n = Ok (dec (d / 10) +:+ "." +:+ dec (d mod 10) +:+ "ms")) ∧
  (1000 <= n < 10 ^ 6 → format_microseconds n = Ok (dec (n / 1000) +:+ "ms")) ∧
  (10 ^ 6 <= n < 10 ^ 9 → format_microseconds n = Ok (dec (n / 10 ^ 6) +:+ "s")) ∧
  (10 ^ 9 <= n → format_microseconds n = Raise ValueError).
Proof.
  intros n Hn. change (10 ^ 6) with 1000000. change (10 ^ 9) with 1000000000. split; [|split; [|split]].
  - intros H. destruct (us_small n) as (d & Hd & E & R); [lia|]. by exists d.
  - apply us_ms.
  - apply us_s.
  - apply us_too_big.
Qed.
Print Assumptions C63_microseconds.

Theorem C63_seconds : ∀ n, 0 <= n → (n <= 60 → format_seconds n = dec n +:+ "s") ∧ (60 < n → format_seconds n = "60+s").
Proof. intros n Hn. unfold format_seconds. destruct (Z.ltb_spec 60 n); split; intros; (done || lia). Qed.
Print Assumptions C63_seconds.

Example C63_example :
  format_bytes 1023 = Ok "1023b" ∧ format_bytes 1048575 = Ok "1023k" ∧ format_bytes 1610612736 = Ok "1.5g" ∧ format_bytes (1024 ^ 5) = Raise ValueError ∧
  format_integer 1234567 = "1,234,567" ∧ format_integer 999 = "999" ∧
  format_microseconds 250 = Ok "0.2ms" ∧ format_microseconds 999999 = Ok "999ms" ∧ format_microseconds 61000000 = Ok "61s" ∧ format_microseconds 1000000000 = Raise ValueError ∧
  format_seconds 60 = "60s" ∧ format_seconds 61 = "60+s".
Proof. vm_compute. done. Qed.

(** ** C64: tables *)

(** Merging puts the rows next to each other, with blanks where a table has no more rows,
    and concatenating puts them below each other, padded to the widest row. *)
Theorem C64_merge : ∀ a b left right padding, rectangular a left → rectangular b right → left ≠ [] → right ≠ [] →
  let t := merge_tables left right padding in
  rectangular (a + (if decide (padding = "") then 0 else 1) + b)%nat t ∧ length t = Nat.max (length left) (length right) ∧
  ∀ i, (i < length t)%nat → t !! i = Some
    (default (replicate a (CText "")) (left !! i) ++ (if decide (padding = "") then [] else [CText padding]) ++ default (replicate b (CText "")) (right !! i)).
Proof.
  intros a b l r pad Ha Hb Hl Hr t. assert (Ed : ∀ {A} (x y : A), (if decide (pad = "") then x else y) = (if String.eqb pad "" then x else y)).
  { intros A x y. destruct (String.eqb_spec pad ""), (decide (pad = "")); done. }
  rewrite !Ed. split; [by apply merge_rectangular|]. split; [by apply merge_length|].
  intros i Hi. unfold t in Hi. rewrite merge_length in Hi by done. unfold t. rewrite merge_row by done.
  assert (Hrow : ∀ w t, rectangular w t → t ≠ [] → row_at t i = default (replicate w (CText "")) (t !! i)).
  { intros w t' Hw Hne. unfold row_at. destruct (t' !! i); [done|]. destruct t' as [|x t']; [done|]. apply Forall_cons_1 in Hw as [Hw _]. cbn. by rewrite Hw. }
  by rewrite (Hrow a l), (Hrow b r).
Qed.
Print Assumptions C64_merge.

Theorem C64_concat : ∀ a b up down n, rectangular a up → rectangular b down → up ≠ [] → down ≠ [] → ∃ t,
  concat_tables up down n = Ok t ∧ rectangular (Nat.max a b) t ∧
  t = ((λ r, r ++ replicate (Nat.max a b - a) (CText "")) <$> up) ++ replicate n (replicate (Nat.max a b) (CText "")) ++ ((λ r, r ++ replicate (Nat.max a b - b) (CText "")) <$> down).
Proof.
  intros a b up down n Ha Hb Hu Hd. assert (Hne : up ++ down ≠ []) by (by destruct up). rewrite concat_ok by done.
  assert (Ew : widest (up ++ down) = Nat.max a b).
  { clear Hne. rewrite <- (widest_is up a), <- (widest_is down b) by done. clear. induction up as [|r up IH]; [done|].
    change (widest ((r :: up) ++ down)) with (Nat.max (length r) (widest (up ++ down))). change (widest (r :: up)) with (Nat.max (length r) (widest up)). lia. }
  eexists. split; [done|]. split.
  - rewrite <- Ew. eapply concat_rectangular. by rewrite concat_ok.
  - rewrite Ew. f_equal; [|f_equal]; apply list_fmap_ext; intros i r Hr; unfold pad_row; do 3 f_equal.
    + exact (proj1 (Forall_lookup _ _) Ha i r Hr).
    + exact (proj1 (Forall_lookup _ _) Hb i r Hr).
Qed.
Print Assumptions C64_concat.

Theorem C64_truncate : ∀ s n,
  (n <= 0 ∨ Z.of_nat (String.length s) <= n → ∀ how, truncate s n how = s) ∧
  (0 < n < Z.of_nat (String.length s) →
    chars (truncate s n KeepLeft) = take (Z.to_nat n) (chars s) ++ ["+"%char] ∧
    chars (truncate s n KeepRight) = "+"%char :: drop (String.length s - Z.to_nat n) (chars s)).
Proof. intros s n. split; [intros H how; by apply truncate_short|]. intros H. split; [by apply truncate_left|by apply truncate_right]. Qed.
Print Assumptions C64_truncate.

(** A rectangular table is printed cell by cell: row [i] on line [line + i], column [j]
    starting at [starts j] and right-justified to where the next column's gap starts.  Any
    other table raises IndexError. *)
Theorem C64_print : ∀ line t padding w, rectangular w t → ∃ ps (starts : nat → nat),
  print_table line t padding = Ok ps ∧ length ps = (length t * w)%nat ∧
  ∀ i j c, cell_at t i j = Some c → ∃ n,
    ps !! (i * w + j)%nat = Some ((line + i)%nat, starts j, spaces n +:+ cell_text c) ∧
    starts (S j) = (starts j + n + String.length (cell_text c) + padding)%nat.
Proof. exact print_ok. Qed.
Print Assumptions C64_print.
Theorem C64_print_ragged : ∀ line t padding r r', In r t → In r' t → length r ≠ length r' → print_table line t padding = Raise IndexError.
Proof. exact print_raises. Qed.
Print Assumptions C64_print_ragged.

(** The text of a cell: a text is itself, the digits of a count stand for it. *)
Theorem C64_cell_text : (∀ s, cell_text (CText s) = s) ∧ (∀ x p, cell_text (CFloat x p) = p) ∧ ∀ n, 0 <= n → reads (cell_text (CInt n)) = n ∧ Forall is_digit (chars (cell_text (CInt n))).
Proof. split; [reflexivity|]. split; [reflexivity|]. exact C63_decimal. Qed.
Print Assumptions C64_cell_text.

(** Every report the scheduler can send is shown: nothing raises, every entry of the report
    stands in the tables, workers in the order of the chosen column, and no two texts on the
    screen touch each other. *)
Theorem C64_screen : ∀ r sort_by, report_ok r → sort_by ∈ columns → ∃ t1 t2 ps1 ps2,
  status_tables r sort_by = Ok (t1, t2) ∧ print_table 0 t1 1 = Ok ps1 ∧ print_table (length t1 + 4) t2 1 = Ok ps2 ∧
  screen r sort_by = Ok (ps1 ++ ps2) ∧ ∀ a b x y, (ps1 ++ ps2) !! a = Some x → (ps1 ++ ps2) !! b = Some y → a ≠ b → apart 1 x y.
Proof. exact screen_ok. Qed.
Print Assumptions C64_screen.
Theorem C64_contents : ∀ r sort_by, report_ok r → sort_by ∈ columns → ∃ t1 t2 w1 w2,
  status_tables r sort_by = Ok (t1, t2) ∧ rectangular w1 t1 ∧ rectangular w2 t2 ∧
  (∀ k n, In (k, CInt n) (r_task_manager r ++ r_sent r ++ r_received r) → shown t1 [CText k; CText (format_integer n)]) ∧
  (∀ k v, In (k, v) (r_scheduler r) → k ≠ "cpu" → k ≠ "rss" → shown t1 [CText k; v]) ∧
  (∀ x p, In ("cpu", CFloat x p) (r_scheduler r) → shown t1 [CText "cpu"; CText p]) ∧
  (∀ n s, In ("rss", CInt n) (r_scheduler r) → format_bytes n = Ok s → shown t1 [CText "rss"; CText s]) ∧
  (∀ k v, In (k, v) (r_clients r ++ r_functions r) → shown t2 [CText (truncate k 18 KeepLeft); v]) ∧
  (r_workers r = [] → shown t2 [CText "No workers"]) ∧
  (∀ w, In w (r_workers r) → shown t2 (header sort_by <$> (entries w).*1) ∧ ∃ cells, Forall2 (displays w) (entries w) cells ∧ shown t2 cells) ∧
  ∃ out, ranked sort_by (r_workers r) out ∧ ∀ i w, out !! i = Some w → ∃ cells rest, t2 !! S i = Some (cells ++ rest) ∧ Forall2 (displays w) (entries w) cells.
Proof. exact status_ok. Qed.
Print Assumptions C64_contents.

(** A report with two workers, one of them silent for seven seconds. *)
Definition worker_entry (name : bytes) (cpu rss last lag : Z) : list (bytes * cell) :=
  [("worker", CText name); ("agt_cpu", CFloat 5 "0.5%"); ("agt_rss", CInt 2048); ("cpu", CFloat cpu "99.0%"); ("rss", CInt rss);
   ("free", CInt 998); ("sent", CInt 2); ("queued", CInt 1); ("lag", CInt lag); ("last", CInt last)].
Definition example_report : report :=
  Report [("cpu", CFloat 10 "1.0%"); ("rss", CInt 5000)] [("unassigned", CInt 12345)] [("Task", CInt 3)] [("TaskResult", CInt 2); ("Task", CInt 3)]
    [("client-with-a-rather-long-name", CInt 3)] [("f", CInt 1)] [worker_entry "w1" 9900 100 1 250; worker_entry "a-worker-with-a-very-long-name" 9901 3000000 7 1500].
Example C64_example : report_ok example_report ∧
  status_tables example_report "cpu" = Ok
    ([[CText "scheduler"; CText ""; CText "|"; CText "task_manager"; CText ""; CText "|"; CText "scheduler_sent"; CText ""; CText "|"; CText "scheduler_received"; CText ""];
      [CText "cpu"; CText "1.0%"; CText "|"; CText "unassigned"; CText "12,345"; CText "|"; CText "Task"; CText "3"; CText "|"; CText "TaskResult"; CText "2"];
      [CText "rss"; CText "4k"; CText "|"; CText ""; CText ""; CText "|"; CText ""; CText ""; CText "|"; CText "Task"; CText "3"]],
     [[CText "worker"; CText "agt_cpu"; CText "agt_rss"; CText "[cpu]"; CText "rss"; CText "free"; CText "sent"; CText "queued"; CText "lag"; CText "|"; CText "client_manager"; CText ""];
      [CText "a-worker-with-a-very-lon+"; CText "0.5%"; CText "2k"; CText "99.0%"; CText "2.9m"; CInt 998; CInt 2; CInt 1; CText "(7s) 1ms"; CText "|"; CText "client-with-a-rath+"; CInt 3];
      [CText "w1"; CText "0.5%"; CText "2k"; CText "99.0%"; CText "100b"; CInt 998; CInt 2; CInt 1; CText "0.2ms"; CText "|"; CText ""; CText ""];
      [CText ""; CText ""; CText ""; CText ""; CText ""; CText ""; CText ""; CText ""; CText ""; CText "|"; CText "func_to_num_tasks"; CText ""];
      [CText ""; CText ""; CText ""; CText ""; CText ""; CText ""; CText ""; CText ""; CText ""; CText "|"; CText "f"; CInt 1]]).
Proof.
  split; [|vm_compute; reflexivity].
  assert (Hw : ∀ name cpu rss last lag, 0 <= rss < 1024 ^ 5 → 0 <= lag < 10 ^ 9 → worker_ok (worker_entry name cpu rss last lag)).
  { intros name cpu rss last lag H1 H2. split; [apply (bool_decide_unpack _); vm_compute; exact I|].
    split_and!; eexists; (split; [cbn; tauto|]); [by eexists|by eexists _, _| |by eexists _, _| |by eexists| |by eexists|by eexists|by eexists]; eexists; (split; [reflexivity|lia]). }
  split; [apply (bool_decide_unpack _); vm_compute; exact I|].
  split; [eexists; split; [left; reflexivity|by eexists _, _]|]. split; [eexists; split; [right; left; reflexivity|eexists; split; [reflexivity|lia]]|].
  split; [apply Forall_cons_2; [apply Hw; lia|]; apply Forall_cons_2; [apply Hw; lia|]; done|].
  intros a b [<-|[<-|[]]] [<-|[<-|[]]]; done.
Qed.
