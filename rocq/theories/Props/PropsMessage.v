(** * Properties C14-C19: the wire format and addresses *)

From Verif.Model Require Import Base Message Transport ZMQConfig.
From Verif.Spec Require Import MessageSpec NumberSpec.
From Verif.Proofs Require Import MessageProofs TransportProofs ZMQConfigProofs.

(** C14.  Every message whose numbers fit is encoded, and decoding gives it back.
    [proper] only says that a dictionary has distinct keys; [order] is the
    arbitrary iteration order of the one set-valued field. *)
Theorem C14_messages_round_trip :
  ∀ order m, proper m → encodable m →
  ∃ frames, serialize order m = Ok frames ∧ deserialize (message_type_of m) frames = Ok m.
Proof.
  intros order m Hp He. apply (encodable_iff order) in He as [fs E].
  exists fs. split; [exact E|]. exact (roundtrip order m fs Hp E).
Qed.
Print Assumptions C14_messages_round_trip.

Definition graph_message : message :=
  MGraphTask "g" [("f1", ("add", "code1")); ("f2", ("mul", "code2"))] ["t3"; "t1"]
    [Task "t1" "f1" [ArgData "x"; ArgData ""]; Task "t2" "f2" []; Task "t3" "f2" [ArgTask "t1"; ArgData "T"; ArgTask "t2"]].

Example C14_example :
  proper graph_message ∧ encodable graph_message ∧
  (frames ← serialize [] graph_message; deserialize TyGraphTask frames) = Ok graph_message ∧
  proper (MHeartbeat (Heartbeat 65535 (2 ^ 64 - 1) 0 1 7 (2 ^ 32 - 1) true false true)) ∧
  encodable (MHeartbeat (Heartbeat 65535 (2 ^ 64 - 1) 0 1 7 (2 ^ 32 - 1) true false true)).
Proof.
  split; [by_compute|]. split; [split; [|discriminate]|].
  { cbn. unfold count32. split; [cbn; lia|]. split; [cbn; lia|]. rewrite !Forall_cons, Forall_nil. cbn. lia. }
  split; [by_compute|]. split; [exact I|]. split; [|exact I]. cbn. unfold u16, u32, u64. lia.
Qed.

(** C15.  Type code and payload determine the message. *)
Theorem C15_frames_identify_message :
  ∀ order1 order2 m1 m2 frames, proper m1 → proper m2 →
  connector_send order1 m1 = Ok frames → connector_send order2 m2 = Ok frames → m1 = m2.
Proof. exact frames_identify. Qed.
Print Assumptions C15_frames_identify_message.

(** Neighbouring messages with almost the same frames stay apart. *)
Example C15_example :
  connector_send [] (MTaskCancel "a") = Ok ["TC"; "a"] ∧ connector_send [] (MGraphTaskCancel "a") = Ok ["GC"; "a"] ∧
  connector_send [] (MDisconnectRequest "a") = Ok ["DR"; "a"] ∧ connector_send [] (MSchedulerState "a") = Ok ["SS"; "a"].
Proof. repeat split. Qed.

(** C16.  Whatever one side sends, the other side delivers, unchanged and with the
    right source; the binder addresses the frames to the peer it was told. *)
Theorem C16_sent_is_delivered :
  ∀ order peer m, proper m → encodable m →
  (∃ frames, connector_send order m = Ok frames ∧
     binder_receive (router_in peer frames) = Delivered peer m ∧
     connector_receive frames = Delivered "" m) ∧
  (∃ frames, binder_send order peer m = Ok (peer :: frames) ∧
     connector_receive (router_out (peer :: frames)) = Delivered "" m).
Proof. exact sent_is_delivered. Qed.
Print Assumptions C16_sent_is_delivered.

Example C16_example :
  (frames ← connector_send [] graph_message; Ok (binder_receive (router_in "client" frames))) = Ok (Delivered "client" graph_message) ∧
  (frames ← binder_send [1%nat] "monitor" (MGraphTaskState "g" "t" NodeTarget {["a"; "b"; "c"]}); Ok (connector_receive (router_out frames)))
   = Ok (Delivered "" (MGraphTaskState "g" "t" NodeTarget {["a"; "b"; "c"]})).
Proof. split; by_compute. Qed.

(** C17.  Exactly the messages with a number out of range, or a graph task without
    functions, cannot be encoded; the exception says which. *)
Theorem C17_unencodable_messages :
  ∀ order m,
  ((∃ frames, serialize order m = Ok frames) ↔ numbers_fit m ∧ has_functions m) ∧
  (∀ e, serialize order m = Raise e →
     (has_functions m ∧ ¬ numbers_fit m ∧ e = StructError) ∨ (¬ has_functions m ∧ e = ValueError)).
Proof. exact unencodable. Qed.
Print Assumptions C17_unencodable_messages.

Example C17_example :
  serialize [] (MHeartbeat (Heartbeat 1 1 1 1 65536 1 true true true)) = Raise StructError ∧
  serialize [] (MHeartbeat (Heartbeat (-1) 1 1 1 1 1 true true true)) = Raise StructError ∧
  serialize [] (MGraphTask "g" [] ["t"] []) = Raise ValueError ∧
  serialize [] (MBalanceRequest (2 ^ 32)) = Raise StructError.
Proof. repeat split. Qed.

(** C18, refuted.  There are frames that pass the validity check and then kill the
    receive routine, for every source and content. *)
Theorem C18_malformed_message_kills_receiver_refuted :
  (∀ source x xs, binder_receive (source :: "GX" :: x :: xs) = Died KeyError ∧
                  connector_receive ("GX" :: x :: xs) = Died KeyError) ∧
  (∀ source id f, binder_receive [source; "TK"; id; f; "D"] = Died IndexError) ∧
  (∀ source id f, id ≠ "" → binder_receive [source; "TR"; id; "?"; f; f] = Died ValueError) ∧
  (∀ source x, binder_receive [source; "BR"; String.append x "12345"] = Died StructError) ∧
  ¬ (∀ frames, binder_receive frames = Ignored ∨ ∃ source m, binder_receive frames = Delivered source m).
Proof. exact receiver_killed. Qed.
Print Assumptions C18_malformed_message_kills_receiver_refuted.

(** C18, what holds: exactly the too short frame lists and the unknown type codes are
    ignored; a delivered message came from the source in the first frame and has the
    type of the second; the only exceptions are the five listed. *)
Theorem C18_malformed_message_partial :
  ∀ frames,
  (binder_receive frames = Ignored ↔
     (length frames < 3)%nat ∨ (∃ source t payload, frames = source :: t :: payload ∧ ∀ ty, type_value ty ≠ t)) ∧
  (connector_receive frames = Ignored ↔
     (length frames < 2)%nat ∨ (∃ t payload, frames = t :: payload ∧ ∀ ty, type_value ty ≠ t)) ∧
  (∀ source m, binder_receive frames = Delivered source m →
     ∃ payload, frames = source :: type_value (message_type_of m) :: payload ∧ payload ≠ [] ∧
                deserialize (message_type_of m) payload = Ok m) ∧
  (∀ source m, connector_receive frames = Delivered source m →
     ∃ payload, frames = type_value (message_type_of m) :: payload ∧ payload ≠ [] ∧
                deserialize (message_type_of m) payload = Ok m) ∧
  (∀ e, binder_receive frames = Died e ∨ connector_receive frames = Died e →
     e ∈ [KeyError; IndexError; ValueError; StructError; AssertionError]).
Proof. exact receive_partial. Qed.
Print Assumptions C18_malformed_message_partial.

Example C18_example :
  binder_receive ["w"; "HB"] = Ignored ∧ binder_receive ["w"; "XX"; ""] = Ignored ∧
  binder_receive ["c"; "TC"; "t"; "extra"] = Delivered "c" (MTaskCancel "t").
Proof. repeat split. Qed.

(** C19.  Addresses: printing then parsing is the identity on valid configurations
    whose tcp host has no colon (character 58)... *)
Theorem C19_address_round_trip :
  ∀ c, (zc_type c = Tcp ↔ is_Some (zc_port c)) →
  (zc_type c = Tcp → ∀ i, String.get i (zc_host c) ≠ Some (Ascii.ascii_of_nat 58)) →
  from_string (to_address c) = Ok c.
Proof. exact address_roundtrip'. Qed.
Print Assumptions C19_address_round_trip.

(** ... and the accepted strings are exactly a scheme, a host and, exactly for tcp, a port
    ([written]: Spec/NumberSpec.v); everything else is rejected with ValueError. *)
Theorem C19_address_accepted_exactly :
  ∀ s c, from_string s = Ok c ↔
  (zc_type c = Tcp ↔ is_Some (zc_port c)) ∧
  match zc_port c with
  | None => s = zmq_value (zc_type c) +:+ "://" +:+ zc_host c
  | Some p => ∃ text, s = "tcp://" +:+ zc_host c +:+ ":" +:+ text ∧
                      (∀ i, String.get i (zc_host c) ≠ Some (Ascii.ascii_of_nat 58)) ∧
                      (∀ i, String.get i text ≠ Some (Ascii.ascii_of_nat 58)) ∧ written text p
  end.
Proof. exact address_shape. Qed.
Print Assumptions C19_address_accepted_exactly.
Theorem C19_address_rejected : ∀ s e, from_string s = Raise e → e = ValueError.
Proof. exact address_errors. Qed.
Print Assumptions C19_address_rejected.

Example C19_example :
  to_address (ZMQConfig Tcp "127.0.0.1" (Some 2345)) = "tcp://127.0.0.1:2345" ∧
  from_string "tcp://127.0.0.1:2345" = Ok (ZMQConfig Tcp "127.0.0.1" (Some 2345)) ∧
  from_string "ipc:///tmp/a://b:7" = Ok (ZMQConfig Ipc "/tmp/a://b:7" None) ∧
  from_string "tcp://h: +1_0 " = Ok (ZMQConfig Tcp "h" (Some 10)) ∧
  from_string "tcp://::1:80" = Raise ValueError ∧ from_string "tcp://h" = Raise ValueError ∧
  from_string "http://h:80" = Raise ValueError ∧ from_string "tcp://h:8_" = Raise ValueError.
Proof. vm_compute. repeat split. Qed.

(** The colon restriction is needed. *)
Example C19_colon_needed :
  from_string (to_address (ZMQConfig Tcp "::1" (Some 80))) = Raise ValueError.
Proof. vm_compute. reflexivity. Qed.
