(** * The states of tasks that a scheduler publishes (C99) *)

From Verif.Model Require Import Base Message Scheduler.
From Verif.Spec Require Import SchedulerSpec.

(** The last state published of a task. *)
Definition last_state (t : bytes) (h : history) : option task_status :=
  foldl (λ o e, match e with LMonitor (MTaskState t' _ st) => if String.eqb t' t then Some st else o | _ => o end) None h.
(** The statuses of the results of the task sent to clients. *)
Definition statuses_sent (t : bytes) (h : history) : list task_status :=
  foldl (λ l e, match e with LSend _ (MTaskResult t' st _ _) => if String.eqb t' t then l ++ [st] else l | _ => l end) [] h.
(** Why the state [st] of [t] under the name [n] may be published: the task was submitted, and
    its function came under this name; and all but Inactive and Running answer a result of a
    worker or a client's wish to cancel the task. *)
Definition named (t n : bytes) (h : history) : Prop :=
  ∃ cl k ct, received cl (MTask k) h ∧ task_id k = t ∧ function_from (task_function k) n ct h.
Definition caused (t : bytes) (st : task_status) (h : history) : Prop :=
  st = Inactive ∨ st = Running ∨ (∃ w d p, received w (MTaskResult t st d p) h) ∨
  ((st = Canceling ∨ st = Canceled) ∧ ∃ cl, received cl (MTaskCancel t) h).
