(** * Property C92: the message counters *)

From Verif.Model Require Import Base Message Transport Counters.
From Verif.Spec Require Import CountersSpec.
From Verif.Proofs Require Import MessageProofs TransportProofs CountersProofs.

(** C92.  As long as no exception has left the socket, the counters of a binder, and of
    a connector, are exactly the numbers of messages of each type handed to the callback
    and put on the wire; dropped frames are not counted, and no two types share a key. *)
Theorem C92_binder :
  ∀ es s xs, socket_run binder_step no_statistics es = (s, xs) → no_failure xs →
  tells (st_received s) (λ t, handed t xs) ∧ tells (st_sent s) (λ t, wired t xs).
Proof. exact (counters_true binder_step binder_counts). Qed.
Print Assumptions C92_binder.

Theorem C92_connector :
  ∀ es s xs, socket_run connector_step no_statistics es = (s, xs) → no_failure xs →
  tells (st_received s) (λ t, handed t xs) ∧ tells (st_sent s) (λ t, wired t xs).
Proof. exact (counters_true connector_step connector_counts). Qed.
Print Assumptions C92_connector.

(** Counting changes nothing about what is delivered: each arrival has the effect that
    properties C16 to C18 are about. *)
Theorem C92_counting_is_harmless :
  ∀ s frames,
  snd (binder_step s (Receive frames)) =
    match binder_receive frames with Ignored => Dropped | Delivered src m => Handed src m | Died e => Failure e end ∧
  snd (connector_step s (Receive frames)) =
    match connector_receive frames with Ignored => Dropped | Delivered src m => Handed src m | Died e => Failure e end.
Proof. intros s frames. split; [apply binder_effect|apply connector_effect]. Qed.
Print Assumptions C92_counting_is_harmless.

Theorem C92_distinct_names : ∀ t u, type_name t = type_name u → t = u.
Proof. exact type_name_inj. Qed.
Print Assumptions C92_distinct_names.

(** After an exception the two differ: the binder has counted a message that was never
    delivered, the connector has not; and both have counted an unencodable message as sent. *)
Theorem C92_after_an_exception :
  binder_step no_statistics (Receive ["peer"; "GX"; "x"]) = (Statistics {["GraphTaskCancelEcho" := 1]} ∅, Failure KeyError) ∧
  connector_step no_statistics (Receive ["GX"; "x"]) = (no_statistics, Failure KeyError) ∧
  ∀ order to m e, serialize order m = Raise e →
    binder_step no_statistics (SendTo order to m) = (Statistics ∅ {[type_name (message_type_of m) := 1]}, Failure e) ∧
    connector_step no_statistics (SendTo order to m) = (Statistics ∅ {[type_name (message_type_of m) := 1]}, Failure e).
Proof.
  split; [by_compute|]. split; [by_compute|]. intros order to m e E.
  cbn [binder_step connector_step]. unfold binder_send, connector_send. rewrite E. split; reflexivity.
Qed.
Print Assumptions C92_after_an_exception.

Definition counter_events : list socket_event :=
  [Receive ["w1"; "DR"; "w1"]; Receive ["w1"; "ZZ"; "w1"]; Receive ["w1"];
   SendTo [] "w1" (MDisconnectResponse "w1"); Receive ["w2"; "DR"; "w2"];
   SendTo [] "w2" (MDisconnectResponse "w2"); SendTo [] "c" (MTaskEcho "t" SubmitOK)].

Example C92_example :
  socket_run binder_step no_statistics counter_events =
    (Statistics {["DisconnectRequest" := 2]} (<["DisconnectResponse" := 2]> {["TaskEcho" := 1]}),
     [Handed "w1" (MDisconnectRequest "w1"); Dropped; Dropped;
      Wired (MDisconnectResponse "w1") ["w1"; "DP"; "w1"]; Handed "w2" (MDisconnectRequest "w2");
      Wired (MDisconnectResponse "w2") ["w2"; "DP"; "w2"]; Wired (MTaskEcho "t" SubmitOK) ["c"; "TE"; "t"; "SK"]]).
Proof. by_compute. Qed.
