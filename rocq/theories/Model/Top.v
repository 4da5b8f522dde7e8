(** * The monitor's tables (entry_points/top.py)

    From the decoded status report to the texts put on the screen.  Not modelled: curses
    itself (a text outside the screen raises curses.error, which top.py:122-132 catches).
    The subscription and the key presses are in [MonitorLoop.v]. *)

From Coq Require Import Ascii.
From Verif.Model Require Import Base Formatter.

(** A JSON value in the report: a string, a number, or a finite float given by its value, in
    units of 2^-1074 (all finite floats are multiples of it), and by its text in the format
    [.1%] (formatter.py:26-27), which is not modelled further. *)
Inductive cell : Type := CText (s : bytes) | CInt (n : Z) | CFloat (value : Z) (percent : bytes).
(** [str(cell)]; the floats of a report are formatted before they get here. *)
Definition cell_text (c : cell) : bytes := match c with CText s => s | CInt n => dec n | CFloat _ p => p end.
Notation table := (list (list cell)).

(** top.py:230-241 [__truncate]. *)
Inductive side : Type := KeepLeft | KeepRight.
Definition truncate (s : bytes) (number : Z) (how : side) : bytes :=
  if number <=? 0 then s
  else if Z.of_nat (String.length s) <=? number then s
  else match how with
       | KeepLeft => String.substring 0 (Z.to_nat number) s +:+ "+"
       | KeepRight => "+" +:+ String.substring (String.length s - Z.to_nat number) (Z.to_nat number) s
       end.

(** top.py:189-214 [__merge_tables]; [padding] is [""] when there is none. *)
Definition row_at (t : table) (i : nat) : list cell :=
  match t !! i with Some r => r | None => replicate (length (hd [] t)) (CText "") end.
Definition merge_tables (left right : table) (padding : bytes) : table :=
  match left, right with
  | [], _ => right
  | _, [] => left
  | _, _ =>
      (λ i, row_at left i ++ (if String.eqb padding "" then [] else [CText padding]) ++ row_at right i)
        <$> seq 0 (Nat.max (length left) (length right))
  end.

(** top.py:217-227 [__concat_tables]: max() of no rows raises ValueError.  The rows are
    extended in place, which nobody else sees. *)
Definition widest (t : table) : nat := foldr (λ r w, Nat.max (length r) w) 0%nat t.
Definition pad_row (w : nat) (r : list cell) : list cell := r ++ replicate (w - length r) (CText "").
Definition concat_tables (up down : table) (padding : nat) : res table :=
  match up ++ down with
  | [] => Raise ValueError
  | _ =>
      let w := widest (up ++ down) in
      Ok ((pad_row w <$> up) ++ replicate padding (replicate w (CText "")) ++ (pad_row w <$> down))
  end.

(** top.py:137-147 [__generate_keyword_data].  SIMPLIFICATION: format_integer of something
    that is not an integer raises in Python; the report has only integers there. *)
Definition keyword_table (title : bytes) (data : list (bytes * cell)) (key_length : Z) (integers : bool) : table :=
  [CText title; CText ""] ::
  ((λ p, [CText (truncate p.1 key_length KeepLeft);
          if integers then CText (match p.2 with CInt n => format_integer n | c => cell_text c end) else p.2]) <$> data).

(** Dictionaries in insertion order. *)
Definition dict_get (k : bytes) (d : list (bytes * cell)) : res cell :=
  match List.find (λ p, String.eqb p.1 k) d with Some p => Ok p.2 | None => Raise KeyError end.
Definition dict_put (k : bytes) (v : cell) (d : list (bytes * cell)) : list (bytes * cell) :=
  if existsb (λ p, String.eqb p.1 k) d then (λ p, if String.eqb p.1 k then (k, v) else p) <$> d else d ++ [(k, v)].
Definition dict_pop (k : bytes) (d : list (bytes * cell)) : list (bytes * cell) := List.filter (λ p, negb (String.eqb p.1 k)) d.

Definition format_size_cell (c : cell) : res cell := match c with CInt n => s ← format_bytes n; Ok (CText s) | _ => Raise TypeError end.
Definition format_percent_cell (c : cell) : res cell := match c with CFloat _ p => Ok (CText p) | _ => Raise TypeError end.
Definition format_name_cell (n : Z) (c : cell) : res cell := match c with CText s => Ok (CText (truncate s n KeepLeft)) | _ => Raise TypeError end.
Definition update (k : bytes) (f : cell → res cell) (d : list (bytes * cell)) : res (list (bytes * cell)) :=
  c ← dict_get k d; v ← f c; Ok (dict_put k v d).

(** top.py:157-166, the body of the loop: one worker. *)
Definition worker_row (worker_length : Z) (r : list (bytes * cell)) : res (list (bytes * cell)) :=
  r ← update "worker" (format_name_cell worker_length) r;
  r ← update "agt_cpu" format_percent_cell r;
  r ← update "agt_rss" format_size_cell r;
  r ← update "cpu" format_percent_cell r;
  r ← update "rss" format_size_cell r;
  last ← dict_get "last" r;
  match last with
  | CInt last =>
      let r := dict_pop "last" r in
      update "lag" (λ c, match c with
        | CInt lag => s ← format_microseconds lag; Ok (CText ((if 5 <? last then "(" +:+ format_seconds last +:+ ") " else "") +:+ s))
        | _ => Raise TypeError
        end) r
  | _ => Raise TypeError
  end.
Fixpoint worker_rows (worker_length : Z) (rs : list (list (bytes * cell))) : res (list (list (bytes * cell))) :=
  match rs with
  | [] => Ok []
  | r :: rs => r ← worker_row worker_length r; rs ← worker_rows worker_length rs; Ok (r :: rs)
  end.
(** Python's [<] on texts: by code points, hence by the bytes of their UTF-8. *)
Fixpoint text_lt (s t : bytes) : bool :=
  match s, t with
  | _, EmptyString => false
  | EmptyString, String _ _ => true
  | String a s, String b t => if (N_of_ascii a =? N_of_ascii b)%N then text_lt s t else (N_of_ascii a <? N_of_ascii b)%N
  end.
Definition is_text (c : cell) : bool := match c with CText _ => true | _ => false end.
(** The value of a number in units of 2^-1074. *)
Definition amount (c : cell) : Z := match c with CInt n => n * 2 ^ 1074 | CFloat v _ => v | CText _ => 0 end.
(** Python's [<] on cells.  A text and a number cannot be compared: [sorted_down] raises. *)
Definition cell_lt (a b : cell) : bool :=
  match a, b with
  | CText s, CText t => text_lt s t
  | CText _, _ => false
  | _, CText _ => true
  | _, _ => amount a <? amount b
  end.
(** [sorted(..., reverse=True)]: stable, so that rows with the same key keep their order.  The
    result of a stable sort does not depend on the algorithm; this is insertion. *)
Fixpoint insert_row {A} (x : cell * A) (l : list (cell * A)) : list (cell * A) :=
  match l with
  | [] => [x]
  | y :: l' => if cell_lt x.1 y.1 then y :: insert_row x l' else x :: l
  end.
Definition sort_rows {A} (l : list (cell * A)) : list (cell * A) := foldr insert_row [] l.
Fixpoint keys_of (k : bytes) (rs : list (list (bytes * cell))) : res (list cell) :=
  match rs with
  | [] => Ok []
  | r :: rs => c ← dict_get k r; cs ← keys_of k rs; Ok (c :: cs)
  end.
(** top.py:155.  Among two or more rows with a text and a number as keys every sort compares a
    text with a number at some point, which raises TypeError. *)
Definition sorted_down (sort_by : bytes) (rs : list (list (bytes * cell))) : res (list (list (bytes * cell))) :=
  cs ← keys_of sort_by rs;
  if forallb is_text cs || forallb (λ c, negb (is_text c)) cs then Ok (sort_rows (zip cs rs)).*2 else Raise TypeError.

(** top.py:150-170 [__generate_worker_manager_table]. *)
Definition worker_table (workers : list (list (bytes * cell))) (worker_length : Z) (sort_by : bytes) : res table :=
  match workers with
  | [] => Ok [[CText "No workers"]]
  | _ :: _ =>
      rs ← sorted_down sort_by workers;
      rs ← worker_rows worker_length rs;
      Ok (((λ p : bytes * cell, CText (if String.eqb p.1 sort_by then "[" +:+ p.1 +:+ "]" else p.1)) <$> hd [] rs) :: ((λ r : list (bytes * cell), r.*2) <$> rs))
  end.

(** The decoded report (top.py:94). *)
Record report := Report {
  r_scheduler : list (bytes * cell);
  r_task_manager : list (bytes * cell);
  r_sent : list (bytes * cell);
  r_received : list (bytes * cell);
  r_clients : list (bytes * cell);
  r_functions : list (bytes * cell);
  r_workers : list (list (bytes * cell)) }.

(** top.py:100-119: the two tables on the screen. *)
Definition status_tables (r : report) (sort_by : bytes) : res (table * table) :=
  s ← update "cpu" format_percent_cell (r_scheduler r);
  s ← update "rss" format_size_cell s;
  let client_table := keyword_table "client_manager" (r_clients r) 18 false in
  let function_table := keyword_table "func_to_num_tasks" (r_functions r) 18 false in
  w ← worker_table (r_workers r) 24 sort_by;
  let table1 := merge_tables (keyword_table "scheduler" s 0 false) (keyword_table "task_manager" (r_task_manager r) 0 true) "|" in
  let table1 := merge_tables table1 (keyword_table "scheduler_sent" (r_sent r) 0 true) "|" in
  let table1 := merge_tables table1 (keyword_table "scheduler_received" (r_received r) 0 true) "|" in
  table2 ← concat_tables client_table function_table 1;
  Ok (table1, merge_tables w table2 "|").

(** top.py:173-186 [__print_table]: the texts put on the screen, with line and column.
    [row[i]] and [col_widths[j]] raise IndexError when there is no such cell or column. *)
Definition width_of (t : table) (i : nat) : res nat :=
  foldr (λ r w, w ← w; match r !! i with Some c => Ok (Nat.max (String.length (cell_text c)) w) | None => Raise IndexError end) (Ok 0%nat) t.
Fixpoint widths (t : table) (n i : nat) : res (list nat) :=
  match n with O => Ok [] | S n => w ← width_of t i; ws ← widths t n (S i); Ok (w :: ws) end.
Fixpoint spaces (n : nat) : bytes := match n with O => "" | S n => String " "%char (spaces n) end.
Definition rjust (s : bytes) (w : nat) : bytes := spaces (w - String.length s) +:+ s.
Fixpoint print_row (line padding : nat) (ws : list nat) (j : nat) (r : list cell) : res (list (nat * nat * bytes)) :=
  match r with
  | [] => Ok []
  | c :: r =>
      match ws !! j with
      | None => Raise IndexError
      | Some w =>
          rest ← print_row line padding ws (S j) r;
          Ok ((line, (sum_list (take j ws) + padding * j)%nat, rjust (cell_text c) w) :: rest)
      end
  end.
Fixpoint print_rows (line padding : nat) (ws : list nat) (t : table) : res (list (nat * nat * bytes)) :=
  match t with
  | [] => Ok []
  | r :: t => a ← print_row line padding ws 0 r; b ← print_rows (S line) padding ws t; Ok (a ++ b)
  end.
Definition print_table (line : nat) (t : table) (padding : nat) : res (list (nat * nat * bytes)) :=
  match t with
  | [] => Ok []
  | r :: _ => ws ← widths t (length r) 0; print_rows line padding ws t
  end.
(** top.py:119-132: everything [show_status] prints of the tables; four lines between. *)
Definition screen (r : report) (sort_by : bytes) : res (list (nat * nat * bytes)) :=
  ts ← status_tables r sort_by;
  a ← print_table 0 ts.1 1;
  b ← print_table (length ts.1 + 4) ts.2 1;
  Ok (a ++ b).
