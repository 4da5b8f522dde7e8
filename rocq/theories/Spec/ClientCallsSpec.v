(** * What a Python call and a graph of calls mean *)

From stdpp Require Import relations.
From Verif.Model Require Import Base Message Client ClientCalls.

(** ** Python's calling convention *)

(** What a function sees: its named parameters, [*args] and [**kwargs]. *)
Record frame := Frame { fr_params : gmap bytes bytes; fr_star : list bytes; fr_extra : gmap bytes bytes }.

Definition has_kind (k : kind) (sig : list param) : Prop := ∃ p, p ∈ sig ∧ p_kind p = k.
(** Parameters a keyword can name. *)
Definition by_keyword (p : param) : bool := match p_kind p with PositionalOrKeyword | KeywordOnly => true | _ => false end.
Definition named (p : param) : bool := by_position p || by_keyword p.
(** The [i]-th positional parameter. *)
Definition positional (sig : list param) : list param := List.filter by_position sig.

(** [binds sig args kwargs fr]: Python accepts the call [fn( *args, **kwargs)] of a
    function with parameters [sig], which then sees [fr]. *)
Record binds (sig : list param) (args : list bytes) (kwargs : gmap bytes bytes) (fr : frame) : Prop := {
  (* surplus positional arguments need *args *)
  b_surplus : (length (positional sig) < length args)%nat → has_kind VarPositional sig;
  b_star : fr_star fr = drop (length (positional sig)) args;
  (* a keyword names a parameter not given by position, or goes to **kwargs *)
  b_keyword k v : kwargs !! k = Some v →
    (∃ p, p ∈ sig ∧ by_keyword p = true ∧ p_name p = k) ∨ has_kind VarKeyword sig;
  b_twice i p : positional sig !! i = Some p → (i < length args)%nat → by_keyword p = true → kwargs !! p_name p = None;
  b_extra k : fr_extra fr !! k = (if existsb (λ p, by_keyword p && String.eqb (p_name p) k) sig then None else kwargs !! k);
  (* every named parameter has a value: by position, by keyword, or its default *)
  b_position i p v : positional sig !! i = Some p → args !! i = Some v → fr_params fr !! p_name p = Some v;
  b_open p : p ∈ sig → named p = true → (∀ i, positional sig !! i = Some p → (length args <= i)%nat) →
    ∃ v, fr_params fr !! p_name p = Some v ∧
      (if by_keyword p then match kwargs !! p_name p with Some w => v = w | None => p_default p = Some v end
       else p_default p = Some v);
  b_only k : is_Some (fr_params fr !! k) → ∃ p, p ∈ sig ∧ named p = true ∧ p_name p = k }.

(** Signatures Python accepts: distinct names, and no parameter without a default after
    one with a default among the positional ones. *)
Definition signature_ok (sig : list param) : Prop :=
  NoDup (p_name <$> sig) ∧
  ∀ i j p q, positional sig !! i = Some p → positional sig !! j = Some q → (i < j)%nat → p_default q = None → p_default p = None.

(** A required positional parameter is given neither by position nor by keyword. *)
Definition misses (sig : list param) (args : list bytes) (kwargs : gmap bytes bytes) : Prop :=
  ∃ i p, positional sig !! i = Some p ∧ (length args <= i)%nat ∧ p_default p = None ∧ kwargs !! p_name p = None.

(** ** Graphs of calls *)

(** Node [n] depends on [m]. *)
Definition depends (graph : ugraph) (n m : bytes) : Prop := ∃ name content args, (n, GCall name content args) ∈ graph ∧ AName m ∈ args.
Definition computed (graph : ugraph) (n : bytes) : Prop := ∃ name content args, (n, GCall name content args) ∈ graph.
Definition well_formed (graph : ugraph) (keys : list bytes) : Prop :=
  (∀ k, k ∈ keys → computed graph k) ∧
  (∀ n name content args a, (n, GCall name content args) ∈ graph → a ∈ args → ∃ m, a = AName m ∧ m ∈ graph.*1) ∧
  (∀ n, ¬ tc (depends graph) n n).

(** The value of a node, when calling content [c] on [vs] gives [interp c vs]. *)
Section denotation.
  Context (interp : bytes → list bytes → bytes).

  Inductive node_value (graph : ugraph) : bytes → bytes → Prop :=
  | value_data n d : (n, GData d) ∈ graph → node_value graph n d
  | value_call n name content args vs : (n, GCall name content args) ∈ graph → node_values graph args vs →
      node_value graph n (interp content vs)
  with node_values (graph : ugraph) : list garg → list bytes → Prop :=
  | values_nil : node_values graph [] []
  | values_cons m v args vs : node_value graph m v → node_values graph args vs → node_values graph (AName m :: args) (v :: vs).

  (** The value of a task of a graph message: its function's content on the values of
      its arguments. *)
  Inductive task_value (functions : list (bytes * (bytes * bytes))) (tasks : list task) : bytes → bytes → Prop :=
  | tvalue k name content vs : k ∈ tasks → (task_function k, (name, content)) ∈ functions → arg_values functions tasks (task_args k) vs →
      task_value functions tasks (task_id k) (interp content vs)
  with arg_values (functions : list (bytes * (bytes * bytes))) (tasks : list task) : list argument → list bytes → Prop :=
  | avalues_nil : arg_values functions tasks [] []
  | avalues_data d args vs : arg_values functions tasks args vs → arg_values functions tasks (ArgData d :: args) (d :: vs)
  | avalues_task t v args vs : task_value functions tasks t v → arg_values functions tasks args vs →
      arg_values functions tasks (ArgTask t :: args) (v :: vs).
End denotation.
