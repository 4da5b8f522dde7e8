(** * What users of the whole system see *)

From Verif.Model Require Import Base Message Client Worker Processor Scheduler System.

(** The history of client [c]: what its user did, what was sent and received, how its
    futures were resolved. *)
Definition history_of (y : system) (c : bytes) : list kentry :=
  match y_clients y !! c with Some x => x.2 | None => [] end.

(** The user of [c] called submit: task [t] is function [f], with this content, applied
    to [args]. *)
Definition submits (y : system) (c t f name content : bytes) (args : list bytes) : Prop :=
  CIn (KSubmit t f name content args) ∈ history_of y c.
(** The user of [c] called get: graph [g] with functions [fs], targets [ts] and nodes [ns]. *)
Definition asks (y : system) (c g : bytes) (fs : list (bytes * (bytes * bytes))) (ts : list bytes) (ns : list task) : Prop :=
  ∃ n, CIn (KGraph (MGraphTask g fs ts ns) n) ∈ history_of y c.

(** Some worker ran the function with this content on these arguments, with outcome [o]. *)
Definition ran (y : system) (content : bytes) (args : list bytes) (o : outcome) : Prop :=
  ∃ w x, y_workers y !! w = Some x ∧ PCalled content args o ∈ n_calls x.

(** [n] is what some user asked for: a submitted task or a node of a graph. *)
Definition wanted (y : system) (n : task) : Prop :=
  (∃ c t f name content args, submits y c t f name content args ∧ n = Task t f (ArgData <$> args)) ∨
  (∃ c g fs ts ns, asks y c g fs ts ns ∧ n ∈ ns).
(** Some user provided this content for function [f]. *)
Definition provides (y : system) (f content : bytes) : Prop :=
  (∃ c t name args, submits y c t f name content args) ∨
  (∃ c g fs ts ns name, asks y c g fs ts ns ∧ (f, (name, content)) ∈ fs).

(** [v] is a value of task [t]: its function was run on its arguments -- references to
    other tasks replaced by values of those tasks -- and returned [v]. *)
Inductive computed (y : system) : bytes → bytes → Prop :=
| computed_run n content vs v :
    wanted y n → provides y (task_function n) content → arguments y (task_args n) vs → ran y content vs (Returned v) →
    computed y (task_id n) v
with arguments (y : system) : list argument → list bytes → Prop :=
| arguments_nil : arguments y [] []
| arguments_data d args vs : arguments y args vs → arguments y (ArgData d :: args) (d :: vs)
| arguments_task x v args vs : computed y x v → arguments y args vs → arguments y (ArgTask x :: args) (v :: vs).

(** Ids identify: task and graph ids are uuids (client.py:79, :336, :362), function ids are
    md5 hashes of the content (client.py:258). *)
Record identified (y : system) : Prop := {
  id_some n : wanted y n → task_id n ≠ "";
  id_task n n' : wanted y n → wanted y n' → task_id n = task_id n' → n = n';
  id_graph c c' g fs fs' ts ts' ns ns' : asks y c g fs ts ns → asks y c' g fs' ts' ns' → c = c' ∧ fs = fs' ∧ ts = ts' ∧ ns = ns';
  id_function f content content' : provides y f content → provides y f content' → content = content' }.

(** Functions depend only on their arguments. *)
Definition pure (y : system) (apply : bytes → list bytes → bytes) : Prop :=
  ∀ content args v, ran y content args (Returned v) → v = apply content args.
