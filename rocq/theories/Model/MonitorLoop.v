(** * The monitor process (entry_points/top.py): subscription and key presses *)

From Verif.Model Require Import Base Message Transport Formatter Top.

(** top.py:22-32 [SORT_BY_OPTIONS]: the character codes of n, C, M, c, m, f, w, d, l. *)
Definition sort_options : list (Z * bytes) :=
  [(110, "worker"); (67, "agt_cpu"); (77, "agt_rss"); (99, "cpu"); (109, "rss"); (102, "free"); (119, "sent"); (100, "queued"); (108, "lag")].
(** top.py:96-98.  [option] is what [getch] returns: -1 when no key was pressed. *)
Definition choose (option : Z) (sort_by : bytes) : bytes :=
  match List.find (λ p, p.1 =? option) sort_options with Some p => p.2 | None => sort_by end.

(** What [recv_multipart] meets: frames, with the key that [getch] returns should it be
    called, or nothing within the timeout (zmq.Again). *)
Inductive arrival : Type := Arrives (frames : list bytes) (option : Z) | Silence.
(** What can be seen of one turn of the loop. *)
Inductive turn : Type :=
| Passed                                         (* nothing on the screen changes *)
| Draws (texts : list (nat * nat * bytes))       (* the screen is drawn anew *)
| Leaves                                         (* the program ends *)
| Fails (e : exn).                               (* the program ends with an exception *)
Global Instance turn_eq_dec : EqDecision turn. Proof. solve_decision. Defined.

(** top.py:93-135 [show_status], and 73-90: one turn of [subscribe_status].  [loads] is
    [json.loads] of the payload; 60-61: a timeout is reported as TimeoutError. *)
Definition show_status (loads : bytes → res report) (sort_by data : bytes) (option : Z) : bytes * turn :=
  match loads data with
  | Raise e => (sort_by, Fails e)
  | Ok r =>
      let sort_by := choose option sort_by in
      (sort_by, match screen r sort_by with Ok texts => Draws texts | Raise e => Fails e end)
  end.
Definition monitor_turn (loads : bytes → res report) (sort_by : bytes) (a : arrival) : bytes * turn :=
  match a with
  | Silence => (sort_by, Fails TimeoutError)
  | Arrives [] _ => (sort_by, Leaves)
  | Arrives [_] _ => (sort_by, Passed)
  | Arrives (t :: payload) option =>
      if type_known t then
        match (ty ← enum_of type_value all_types t; deserialize ty payload) with
        | Raise e => (sort_by, Fails e)
        | Ok (MSchedulerState data) => show_status loads sort_by data option
        | Ok _ => (sort_by, Passed)
        end
      else (sort_by, Leaves)
  end.
(** top.py:52 and 73: the whole program, up to the turn that ends it. *)
Fixpoint monitor_run (loads : bytes → res report) (sort_by : bytes) (l : list arrival) : list turn :=
  match l with
  | [] => []
  | a :: l =>
      let '(sort_by, t) := monitor_turn loads sort_by a in
      t :: match t with Passed | Draws _ => monitor_run loads sort_by l | _ => [] end
  end.
Definition monitor (loads : bytes → res report) (l : list arrival) : list turn := monitor_run loads "cpu" l.
