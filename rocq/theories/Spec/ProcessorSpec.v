(** * Reading a processor's observable history *)

From Verif.Model Require Import Base Message Processor.
From Verif.Spec Require Export HistorySpec.

(** The task received last, unless answered. *)
Definition outstanding_step (o : option task) (e : pentry) : option task :=
  match e with
  | PIn (MTask k) => Some k
  | POut (MTaskResult _ _ _ _) => None
  | _ => o
  end.
Definition outstanding (h : list pentry) : option task := foldl outstanding_step None h.

(** The content of function [f] as last provided, unless its deletion was requested
    since. *)
Definition provided_step (f : bytes) (o : option bytes) (e : pentry) : option bytes :=
  match e with
  | PIn (MFunctionResponse _ g _ c) => if String.eqb g f then Some c else o
  | PIn (MFunctionRequest FnDelete g _ _) => if String.eqb g f then None else o
  | _ => o
  end.
Definition provided (f : bytes) (h : list pentry) : option bytes := foldl (provided_step f) None h.

(** A function was requested and no function has come since. *)
Definition asked_step (b : bool) (e : pentry) : bool :=
  match e with
  | POut (MFunctionRequest FnRequest _ _ _) => true
  | PIn (MFunctionResponse _ _ _ _) => false
  | _ => b
  end.
Definition asked (h : list pentry) : bool := foldl asked_step false h.

(** The agent's side of the conversation (C46): one task at a time, and a function
    only in reply to a request for it. *)
Definition one_by_one (before : list pentry) (e : pentry) : Prop :=
  match e with
  | PIn (MTask _) => outstanding before = None
  | PIn (MFunctionResponse _ f _ _) => asked before = true ∧ ∃ k, outstanding before = Some k ∧ task_function k = f
  | _ => True
  end.

(** A result (other than the first message, which says that the processor is up) is for
    the task received last and tells what its function, in its latest version, just
    did with the arguments of the task; or it is a failure without a call. *)
Definition called_for (k : task) (before : list pentry) (content : bytes) (o : outcome) : Prop :=
  ∃ earlier, before = earlier ++ [PCalled content (arg_data <$> task_args k) o] ∧
             provided (task_function k) earlier = Some content.
Definition tells (before : list pentry) (e : pentry) : Prop :=
  match e with
  | POut (MTaskResult t st d p) =>
      before = [] ∧ t = "" ∨
      ∃ k, outstanding before = Some k ∧ t = task_id k ∧
        ((∃ content, st = Success ∧ called_for k before content (Returned p)) ∨
         (∃ content, st = Failed ∧ called_for k before content (Raised p)) ∨
         (st = Failed ∧ ∀ earlier content args o, before ≠ earlier ++ [PCalled content args o]))
  | _ => True
  end.
(** ... and it is never a failure without a call. *)
Definition tells_call (before : list pentry) (e : pentry) : Prop :=
  match e with
  | POut (MTaskResult _ _ _ _) => before = [] ∨ ∃ earlier content args o, before = earlier ++ [PCalled content args o]
  | _ => True
  end.
(** User code is called only for the task received last. *)
Definition calls_for_task (before : list pentry) (e : pentry) : Prop :=
  match e with
  | PCalled content args _ => ∃ k, outstanding before = Some k ∧ args = (arg_data <$> task_args k) ∧ provided (task_function k) before = Some content
  | _ => True
  end.
(** A function is requested right when a task that needs it arrives. *)
Definition requests_for_task (before : list pentry) (e : pentry) : Prop :=
  match e with
  | POut (MFunctionRequest ty f _ _) => ty = FnRequest ∧ ∃ k earlier, before = earlier ++ [PIn (MTask k)] ∧ task_function k = f
  | _ => True
  end.

Definition tasks_in (e : pentry) : nat := match e with PIn (MTask _) => 1 | _ => 0 end.
Definition results_out (e : pentry) : nat := match e with POut (MTaskResult _ _ _ _) => 1 | _ => 0 end.
