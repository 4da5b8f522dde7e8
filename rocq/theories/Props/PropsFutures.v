(** * What the futures do: C90 *)

From Verif.Model Require Import Base Message Client ClientCalls.
From Verif.Spec Require Import HistorySpec ClientSpec.
From Verif.Proofs Require Import BaseProofs HistoryProofs ClientProofs ClientRuns MapProofs CancelProofs.
From Verif.Props Require Import PropsClient.

(** ** C90 *)

(** [result()] returns the value the future was given, and raises the exception it was
    given; [Disconnected] is one of these. *)
Theorem C90_outcome : ∀ es h k v, (k_run es).2 = h → new_ids h →
  CSet k v ∈ h ↔ f_result (k_run es) k = Some (match v with Value p => Returns p | _ => Raises v end).
Proof. intros es h k v Hr Hn. destruct (k_run es) as [c h0] eqn:E. cbn in Hr. subst h0. by apply f_result_iff with es. Qed.
Print Assumptions C90_outcome.
(** It raises CancelledError when [cancel()] came while the future was pending, whatever
    happened since ... *)
Theorem C90_cancelled : ∀ es es' k, new_ids (k_run (es ++ KCancel k :: es')).2 → connected (k_run es).2 = true → cancellable k (k_run es).2 = true →
  f_result (k_run (es ++ KCancel k :: es')) k = Some RaisesCancelled.
Proof. exact cancel_raises. Qed.
Print Assumptions C90_cancelled.
(** ... and only after [cancel()]; such a future is never given a value. *)
Theorem C90_only_cancelled : ∀ es h k, (k_run es).2 = h → new_ids h → f_result (k_run es) k = Some RaisesCancelled →
  CIn (KCancel k) ∈ h ∧ ∀ v, CSet k v ∉ h.
Proof. intros es h k Hr Hn. destruct (k_run es) as [c h0] eqn:E. cbn in Hr. subst h0. by apply raises_cancelled with es. Qed.
Print Assumptions C90_only_cancelled.
(** It blocks otherwise. *)
Theorem C90_blocks : ∀ es h k, (k_run es).2 = h → new_ids h → (∀ v, CSet k v ∉ h) → CIn (KCancel k) ∉ h → f_result (k_run es) k = None.
Proof.
  intros es h k Hr Hn Hs Hc. destruct (k_run es) as [c h0] eqn:E. cbn in Hr. subst h0. destruct (f_result (c, h) k) as [o|] eqn:Ef; [|done].
  destruct (f_result_cases _ _ _ _ _ E Hn Ef) as [[v Hv]| ->]; [by destruct (Hs v)|]. by destruct (raises_cancelled _ _ _ _ E Hn Ef).
Qed.
Print Assumptions C90_blocks.
(** Asking again gives the same answer: nothing changes an outcome. *)
Theorem C90_stable : ∀ es es' k o, new_ids (k_run (es ++ es')).2 → f_result (k_run es) k = Some o → f_result (k_run (es ++ es')) k = Some o.
Proof. exact f_result_stable. Qed.
Print Assumptions C90_stable.

(** Task a is cancelled before it is accepted; b gets its value, c is accepted and cannot
    be cancelled any more. *)
Definition three : list kevent := sub "a" ++ sub "b" ++ sub "c" ++ [fn_ok; echo_ok "c"].
Definition three_rest : list kevent := [KCancel (FTask "c"); echo_ok "b"; value_of "b"; KCancel (FTask "b"); echo_ok "a"].
Example C90_example :
  new_ids (k_run (three ++ KCancel (FTask "a") :: three_rest)).2 ∧ connected (k_run three).2 = true ∧
  cancellable (FTask "a") (k_run three).2 = true ∧ cancellable (FTask "c") (k_run three).2 = false ∧
  (f_result (k_run (three ++ KCancel (FTask "a") :: three_rest)) ∘ FTask) <$> ["a"; "b"; "c"] = [Some RaisesCancelled; Some (Returns "v"); None] ∧
  (f_result (k_run (three ++ [KExit])) ∘ FTask) <$> ["a"; "b"; "c"] = [Some (Raises Disconnected); Some (Raises Disconnected); Some (Raises Disconnected)].
Proof. here. Qed.
