(** * What the monitor should do (C97) *)

From Coq Require Import Ascii.
From Verif.Model Require Import Base Message Formatter Top MonitorLoop.
From Verif.Spec Require Import TopSpec.

(** What a scheduler publishes: status reports, and states of tasks and of nodes of graphs. *)
Definition published (loads : bytes → res report) (m : message) : Prop :=
  match m with
  | MSchedulerState d => ∃ r, loads d = Ok r ∧ report_ok r
  | MTaskState _ _ _ | MGraphTaskState _ _ _ _ => True
  | _ => False
  end.

(** The shortcuts, and the column chosen by the keys read so far: that of the last shortcut. *)
Definition shortcuts : list (ascii * bytes) :=
  [("n"%char, "worker"); ("C"%char, "agt_cpu"); ("M"%char, "agt_rss"); ("c"%char, "cpu"); ("m"%char, "rss"); ("f"%char, "free"); ("w"%char, "sent"); ("d"%char, "queued"); ("l"%char, "lag")].
Definition shortcut (key : Z) : option bytes :=
  match List.find (λ p, Z.of_nat (nat_of_ascii p.1) =? key) shortcuts with Some p => Some p.2 | None => None end.
Definition column_after (keys : list Z) : bytes := default "cpu" (last (omap shortcut keys)).
(** Keys are read when a report is shown. *)
Definition keys_read (l : list (message * Z)) : list Z := omap (λ p, match p.1 with MSchedulerState _ => Some p.2 | _ => None end) l.

Definition goes_on (t : turn) : Prop := match t with Passed | Draws _ => True | _ => False end.
