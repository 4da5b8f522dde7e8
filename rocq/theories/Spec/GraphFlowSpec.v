(** * Orderly executions of the whole system with graphs

    As Spec/FlowSpec.v, but users also submit graphs with [get]. *)

From Verif.Model Require Import Base Message Client Worker Processor Scheduler System.
From Verif.Spec Require Import SchedulerSpec SystemSpec FlowSpec TrafficSpec.

(** Nobody has used the id [t] for a task, a graph or a node of one. *)
Definition free (y : system) (t : bytes) : Prop :=
  ∀ c e, CIn e ∈ history_of y c → match e with KSubmit t' _ _ _ _ => t' ≠ t | KGraph m _ => ¬ named t m | _ => True end.
(** [t] is the id of a graph that some user submitted, or of a node of it. *)
Definition of_graph (y : system) (t : bytes) : Prop := ∃ c m n, CIn (KGraph m n) ∈ history_of y c ∧ named t m.

(** ** The executions
    As [orderly], with these differences:
    - users also submit graphs that can be computed ([graph_fit]) and whose ids are new,
      with one future for each target;
    - the client gets no message between sending a graph and registering its futures;
    - no node of a graph fails. *)
Definition orderly_graphs (y : system) (a : action) : Prop :=
  match a with
  | UserDoes c (KSubmit t f name _ _) => utf8 name = true ∧ free y t
  | UserDoes c (KStep _) | UserDoes c (KGraphStep _) => True
  | UserDoes c (KGraph m n) => ∃ g fs ts ns, m = MGraphTask g fs ts ns ∧ n = length ts ∧ graph_fit utf8 g fs ts ns ∧ ∀ x, named x m → free y x
  | ToClient c m loads => orderly y a ∧ ∀ x, y_clients y !! c = Some x → k_sending x.1 = ∅
  | ToScheduler from (MTaskResult t st _ _) _ _ => orderly y a ∧ (of_graph y t → st = Success)
  | _ => orderly y a
  end.
Definition orderly_graphs_run (c : config) (acts : list action) : Prop :=
  ∀ before a after, acts = before ++ a :: after → orderly_graphs (execute c before) a.

(** No processor has reported that a node failed, and none is about to: the function of
    a node that it is about to call is still there (C51). *)
Definition nodes_intact (y : system) : Prop :=
  ∀ w x, y_workers y !! w = Some x →
    (∀ t d p, POut (MTaskResult t Failed d p) ∈ n_calls x → ¬ of_graph y t) ∧
    match c_main (n_processor x) with
    | Found k => of_graph y (task_id k) → is_Some (c_functions (n_processor x) !! task_function k)
    | Calling k f => of_graph y (task_id k) → is_Some f
    | _ => True
    end.
(** All futures of all graphs have their values. *)
Definition graphs_resolved (y : system) : Prop :=
  ∀ c g fs ts ns n i, CIn (KGraph (MGraphTask g fs ts ns) n) ∈ history_of y c → (i < n)%nat → ∃ v, CSet (FGraph g i) (Value v) ∈ history_of y c.
