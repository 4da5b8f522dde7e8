(** * Base: Python values, exceptions and the result monad

    Models no single file of /repo: it fixes how Python notions that occur
    everywhere are represented.  See DESIGN.md section 2. *)

From stdpp Require Export gmap strings list sorting.
From Coq Require Export ZArith Lia.

#[global] Open Scope Z_scope.

(** Python [bytes]: a Coq [ascii] is exactly eight bits. *)
Notation bytes := string.

(** Python exceptions that the modelled code can raise. *)
Inductive exn : Type :=
| KeyError | ValueError | IndexError | AssertionError | AttributeError
| TypeError | QueueEmpty | StructError | TimeoutError | NotImplementedError
| InvalidStateError | CycleError | UnicodeError | ImportError | ProcessLookupError
| OutOfFuel.  (* not a Python exception: a bound in the model was too small *)

Global Instance exn_eq_dec : EqDecision exn.
Proof. solve_decision. Defined.

(** A call either returns or raises. *)
Inductive res (A : Type) : Type :=
| Ok (a : A)
| Raise (e : exn).
Arguments Ok {A} a.
Arguments Raise {A} e.

Global Instance res_ret : MRet res := fun A a => Ok a.
Global Instance res_bind : MBind res := fun A B f m =>
  match m with Ok a => f a | Raise e => Raise e end.

(** [d[k]] on a dictionary: KeyError when absent. *)
Definition from_option_exn {A} (e : exn) (o : option A) : res A :=
  match o with Some a => Ok a | None => Raise e end.

(** Run a deterministic object through a list of method calls, collecting
    what each call returned. *)
Fixpoint run_calls {S O R : Type} (step : S -> O -> S * R) (s : S) (ops : list O)
  : list R :=
  match ops with
  | [] => []
  | o :: ops => let '(s', r) := step s o in r :: run_calls step s' ops
  end.

(** Same, returning the final object. *)
Fixpoint run_state {S O R : Type} (step : S -> O -> S * R) (s : S) (ops : list O)
  : S :=
  match ops with
  | [] => s
  | o :: ops => run_state step (step s o).1 ops
  end.

(** Python [bytes.__lt__]: lexicographic on unsigned bytes, a proper prefix
    being smaller. *)
Fixpoint bytes_ltb (a b : bytes) : bool :=
  match a, b with
  | EmptyString, EmptyString => false
  | EmptyString, String _ _ => true
  | String _ _, EmptyString => false
  | String x a', String y b' =>
      if N.ltb (Ascii.N_of_ascii x) (Ascii.N_of_ascii y) then true
      else if N.eqb (Ascii.N_of_ascii x) (Ascii.N_of_ascii y) then bytes_ltb a' b'
      else false
  end.

(** Iteration order.  Python iterates over sets and dictionaries in an order
    the model does not track; [shuffle code l] visits [l] in an order chosen by
    [code]: at each point the element at position [code_i mod length] of those
    left.  Every [code] gives a permutation and every permutation has a code
    (proved in Proofs/BaseProofs.v), so a theorem for all codes is a theorem
    for all iteration orders. *)
Fixpoint take_out {A} (i : nat) (x : A) (l : list A) : A * list A :=
  match i, l with
  | O, _ => (x, l)
  | S _, [] => (x, [])
  | S i', y :: l' => let '(z, l'') := take_out i' y l' in (z, x :: l'')
  end.

Fixpoint shuffle {A} (code : list nat) (l : list A) : list A :=
  match code, l with
  | [], _ => l
  | _, [] => []
  | c :: code', x :: l' =>
      let '(y, l'') := take_out (c mod (length l))%nat x l' in
      y :: shuffle code' l''
  end.

(** Equalities between values containing finite maps are checked by deciding them. *)
Ltac by_compute := apply (bool_decide_unpack _); vm_compute; exact I.
