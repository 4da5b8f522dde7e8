(** * Transports: what AsyncBinder, AsyncConnector and SyncConnector put on the wire
    and what they do with received frames. *)

From Verif.Model Require Import Base Message.

(** What happens to one received list of frames. *)
Inductive receipt : Type :=
| Ignored                                  (* logged and dropped *)
| Delivered (source : bytes) (m : message) (* handed to the callback *)
| Died (e : exn).                          (* exception leaves the receive routine *)

Global Instance receipt_eq_dec : EqDecision receipt. Proof. solve_decision. Defined.

Definition type_known (s : bytes) : bool := existsb (λ t, String.eqb (type_value t) s) all_types.

(** async_binder.py:67-70 [send]: destination, type, payload. *)
Definition binder_send (order : list nat) (to : bytes) (m : message) : res (list bytes) :=
  payload ← serialize order m; Ok (to :: type_value (message_type_of m) :: payload).

(** async_binder.py:77-86 [__is_valid_message]. *)
Definition binder_valid (frames : list bytes) : bool :=
  (3 <=? length frames)%nat && match frames with _ :: t :: _ => type_known t | _ => false end.

(** async_binder.py:47-57 [routine], up to the callback. *)
Definition binder_receive (frames : list bytes) : receipt :=
  if binder_valid frames then
    match frames with
    | source :: t :: payload =>
        match (ty ← enum_of type_value all_types t; deserialize ty payload) with
        | Ok m => Delivered source m
        | Raise e => Died e
        end
    | _ => Ignored
    end
  else Ignored.

(** async_connector.py:84-87 [send] and sync_connector.py:90-92, 98-102: type, payload. *)
Definition connector_send (order : list nat) (m : message) : res (list bytes) :=
  payload ← serialize order m; Ok (type_value (message_type_of m) :: payload).

(** async_connector.py:95-104 [__is_valid_message]; sync_connector.py:119-125 has the
    same two tests. *)
Definition connector_valid (frames : list bytes) : bool :=
  (2 <=? length frames)%nat && match frames with t :: _ => type_known t | _ => false end.

(** async_connector.py:68-82 [routine] and sync_connector.py:118-132
    [__routine_receive], with a callback set.  The source is the other end. *)
Definition connector_receive (frames : list bytes) : receipt :=
  if connector_valid frames then
    match frames with
    | t :: payload =>
        match (ty ← enum_of type_value all_types t; deserialize ty payload) with
        | Ok m => Delivered "" m
        | Raise e => Died e
        end
    | _ => Ignored
    end
  else Ignored.

(** ZeroMQ itself (assumed, not modelled further): a ROUTER socket strips the first
    frame and delivers the rest to that peer; frames from a peer arrive at the
    ROUTER prefixed with the peer's identity; DEALER and PAIR pass frames unchanged. *)
Definition router_out (frames : list bytes) : list bytes := drop 1 frames.
Definition router_in (peer : bytes) (frames : list bytes) : list bytes := peer :: frames.
