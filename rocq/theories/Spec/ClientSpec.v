(** * What a user of the client sees: calls, messages and futures *)

From Verif.Model Require Import Base Message Client.
From Verif.Spec Require Import HistorySpec.

(** ** Facts about a history *)

(** The connector thread runs: no exception ended it and the user has not disconnected. *)
Definition connected (h : list kentry) : bool :=
  negb (existsb (λ e, match e with CCrash _ | CIn KExit => true | _ => false end) h).

(** Task [t] was submitted, as which task, with which function. *)
Definition submits (t : bytes) (e : kentry) : bool := match e with CIn (KSubmit t' _ _ _ _) => String.eqb t' t | _ => false end.
Definition submitted (t : bytes) (h : list kentry) : bool := existsb (submits t) h.
Definition submitted_as (k : task) (name content : bytes) (h : list kentry) : Prop :=
  ∃ args, CIn (KSubmit (task_id k) (task_function k) name content args) ∈ h ∧ task_args k = (ArgData <$> args).

(** Ids are never reused: uuid1 in client.py:77 and :360. *)
Definition asks_graph (g : bytes) (e : kentry) : bool := match e with CIn (KGraph (MGraphTask g' _ _ _) _) => String.eqb g' g | _ => false end.
Definition new_ids : list kentry → Prop := always (λ before e,
  match e with
  | CIn (KSubmit t _ _ _ _) => submitted t before = false
  | CIn (KGraph (MGraphTask g _ _ _) _) => existsb (asks_graph g) before = false
  | _ => True
  end).

(** How far the call of submit has got: nothing, checked (1), buffered (2), returned (3). *)
Definition step_of (t : bytes) (n : option nat) (e : kentry) : option nat :=
  match e with
  | CIn (KSubmit t' _ _ _ _) => if String.eqb t' t then Some 0%nat else n
  | CIn (KStep t') => if String.eqb t' t then S <$> n else n
  | _ => n
  end.
Definition steps (t : bytes) (h : list kentry) : option nat := foldl (step_of t) None h.
Definition returned (t : bytes) (h : list kentry) : bool := match steps t h with Some n => (3 <=? n)%nat | None => false end.
Definition buffered (t : bytes) (h : list kentry) : bool := match steps t h with Some n => (2 <=? n)%nat | None => false end.

(** The scheduler accepted [t]: an echo SubmitOK after the submission. *)
Definition accepts (t : bytes) (e : kentry) : bool := match e with CIn (KRecv (MTaskEcho t' SubmitOK) _) => String.eqb t' t | _ => false end.
Definition accepted (t : bytes) (h : list kentry) : bool :=
  negb (moments (λ before e, accepts t e && submitted t before) h =? 0)%nat.
(** The scheduler asks for the function of [t] again. *)
Definition refuses (t : bytes) (e : kentry) : bool := match e with CIn (KRecv (MTaskEcho t' FunctionNotExists) _) => String.eqb t' t | _ => false end.
Definition asked_again (t : bytes) (h : list kentry) : nat :=
  moments (λ before e, refuses t e && submitted t before && negb (accepted t before)) h.

(** Messages sent and received about a function or a task. *)
Definition requests (f : bytes) (e : kentry) : bool := match e with COut (MFunctionRequest FnAdd f' _ _) => String.eqb f' f | _ => false end.
Definition positive (st : function_response_type) : bool := match st with FnOK | FnDuplicated => true | _ => false end.
Definition grants (f : bytes) (e : kentry) : bool := match e with CIn (KRecv (MFunctionResponse st f' _ _) _) => positive st && String.eqb f' f | _ => false end.
Definition sends (t : bytes) (e : kentry) : bool := match e with COut (MTask k) => String.eqb (task_id k) t | _ => false end.

(** The Task messages the client owes the scheduler for [t]. *)
Definition owed (t : bytes) (h : list kentry) : nat :=
  ((if buffered t h then 1 else 0) + asked_again t h)%nat.

(** The last thing that happened to the client, which an output belongs to. *)
Definition cause_of (c : option kevent) (e : kentry) : option kevent := match e with CIn ev => Some ev | _ => c end.
Definition cause (h : list kentry) : option kevent := foldl cause_of None h.

(** Futures. *)
Definition sets (k : fkey) (e : kentry) : bool := match e with CSet k' _ => bool_decide (k' = k) | _ => false end.
Definition cancels (k : fkey) (e : kentry) : bool := match e with CIn (KCancel k') => bool_decide (k' = k) | _ => false end.
(** A future from submit waits for a result: submit has returned it and no result came since. *)
Definition wait_of (t : bytes) (h : list kentry) (w : bool) (e : kentry) : bool :=
  match e with
  | CIn (KStep t') => if String.eqb t' t && bool_decide (steps t h = Some 2%nat) then true else w
  | CIn (KRecv (MTaskResult t' _ _ _) _) => if String.eqb t' t then false else w
  | _ => w
  end.
Fixpoint waits_from (t : bytes) (before : list kentry) (w : bool) (h : list kentry) : bool :=
  match h with [] => w | e :: h => waits_from t (before ++ [e]) (wait_of t before w e) h end.
Definition waits (t : bytes) (h : list kentry) : bool := waits_from t [] false h.

(** A graph call waits for its result: [Some n] with the number of its futures. *)
Inductive graph_wait : Type := NoCall | Asked (n : nat) | Waits (n : nat) | Over.
Definition graph_of (g : bytes) (w : graph_wait) (e : kentry) : graph_wait :=
  match e with
  | CIn (KGraph (MGraphTask g' _ _ _) n) => if String.eqb g' g then Asked n else w
  | CIn (KGraphStep g') => if String.eqb g' g then match w with Asked n => Waits n | _ => w end else w
  | CIn (KRecv (MGraphTaskResult g' _ _) _) => if String.eqb g' g then match w with Waits _ => Over | _ => w end else w
  | _ => w
  end.
Definition graph_waits (g : bytes) (h : list kentry) : graph_wait := foldl (graph_of g) NoCall h.

(** The user can cancel a future while it waits and the scheduler has not accepted its
    task; graph futures as long as the graph runs. *)
Definition cancellable (k : fkey) (h : list kentry) : bool :=
  match k with
  | inl t => waits t h && negb (accepted t h)
  | inr (g, i) => match graph_waits g h with Asked n | Waits n => (i <? n)%nat | _ => false end
  end.
Definition cancelled (k : fkey) (h : list kentry) : bool :=
  negb (moments (λ before e, cancels k e && cancellable k before) h =? 0)%nat.

(** ** Properties *)

(** C53: what a future is resolved with comes from its own result or from disconnecting. *)
Definition own_result : list kentry → Prop := always (λ before e,
  match e with
  | CSet (inl t) (Value p) => ∃ d, cause before = Some (KRecv (MTaskResult t Success d p) true)
  | CSet (inl t) (Error p) => ∃ d, cause before = Some (KRecv (MTaskResult t Failed d p) true)
  | CSet (inr (g, i)) (Value p) => ∃ ps, cause before = Some (KRecv (MGraphTaskResult g Success ps) true) ∧ ps !! i = Some p
  | CSet (inr (g, i)) (Error p) => ∃ ps, cause before = Some (KRecv (MGraphTaskResult g Failed ps) true) ∧ ps !! 0%nat = Some p
  | CSet _ Disconnected => cause before = Some KExit
  | _ => True
  end).

(** C54: a Task message is sent in answer to a positive response for its function, and
    is a submitted task. *)
Definition upload_first : list kentry → Prop := always (λ before e,
  match e with
  | COut (MTask k) =>
      (∃ st name content loads, cause before = Some (KRecv (MFunctionResponse st (task_function k) name content) loads) ∧ positive st = true)
      ∧ ∃ name content, submitted_as k name content before
  | _ => True
  end).
(** Add requests carry a submitted function. *)
Definition true_uploads : list kentry → Prop := always (λ before e,
  match e with
  | COut (MFunctionRequest ty f name content) => ty = FnAdd ∧ ∃ k, task_function k = f ∧ submitted_as k name content before
  | _ => True
  end).

(** Calls of submit that do not overlap with anything else (one thread, and no message
    handled in between). *)
Inductive call : Type :=
| CallSubmit (t f name content : bytes) (args : list bytes)
| CallGet (m : message) (n : nat)
| CallCancel (k : fkey)
| CallMessage (m : message) (loads : bool)
| CallExit.
Definition events_of (c : call) : list kevent :=
  match c with
  | CallSubmit t f name content args => [KSubmit t f name content args; KStep t; KStep t; KStep t]
  | CallGet (MGraphTask g a b d) n => [KGraph (MGraphTask g a b d) n; KGraphStep g]
  | CallGet _ _ => []
  | CallCancel k => [KCancel k]
  | CallMessage m loads => [KRecv m loads]
  | CallExit => [KExit]
  end.
Definition one_at_a_time (cs : list call) : list kevent := concat (events_of <$> cs).

(** The scheduler answers requests, and only those. *)
Definition answers_only (f : bytes) : list kentry → Prop := always (λ before e,
  grants f e = true → (occurrences (grants f) before < occurrences (requests f) before)%nat).

(** Messages sent when the client disconnects. *)
Definition drops (t : bytes) (e : kentry) : bool := match e with COut (MTaskCancel t') => String.eqb t' t | _ => false end.
Definition drops_graph (g : bytes) (e : kentry) : bool := match e with COut (MGraphTaskCancel g') => String.eqb g' g | _ => false end.
Definition crashes (e : kentry) : bool := match e with CCrash _ => true | _ => false end.
(** A result message for [t]. *)
Definition results (t : bytes) (e : kentry) : bool := match e with CIn (KRecv (MTaskResult t' _ _ _) _) => String.eqb t' t | _ => false end.
