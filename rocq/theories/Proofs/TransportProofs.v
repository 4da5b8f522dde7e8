(** What the receive routines do with arbitrary frames. *)

From Coq Require Import Ascii.
From Verif.Model Require Import Base Message Transport ZMQConfig.
From Verif.Spec Require Import MessageSpec NumberSpec.
From Verif.Proofs Require Import BaseProofs MessageProofs ZMQConfigProofs NumberProofs.

Lemma type_unknown t : (∀ ty, type_value ty ≠ t) ↔ type_known t = false.
Proof.
  split.
  - intros H. destruct (type_known t) eqn:E; [|reflexivity]. apply existsb_exists in E as (ty & _ & E).
    apply String.eqb_eq in E. destruct (H _ E).
  - intros H ty <-. rewrite type_known_value in H. discriminate.
Qed.

Lemma binder_ignored frames :
  binder_receive frames = Ignored ↔
  (length frames < 3)%nat ∨ (∃ source t payload, frames = source :: t :: payload ∧ ∀ ty, type_value ty ≠ t).
Proof.
  unfold binder_receive, binder_valid. destruct frames as [|s [|t [|p ps]]]; cbn [length Nat.leb andb].
  1,2,3: split; [left; lia|reflexivity].
  destruct (type_known t) eqn:Et.
  - split.
    + destruct (_ ← _; _); discriminate.
    + intros [H|(s' & t' & p' & [= <- <- <-] & H)]; [lia|]. apply type_unknown in H. congruence.
  - split; [|reflexivity]. intros _. right. exists s, t, (p :: ps). split; [reflexivity|]. apply type_unknown. exact Et.
Qed.

Lemma connector_ignored frames :
  connector_receive frames = Ignored ↔
  (length frames < 2)%nat ∨ (∃ t payload, frames = t :: payload ∧ ∀ ty, type_value ty ≠ t).
Proof.
  unfold connector_receive, connector_valid. destruct frames as [|t [|p ps]]; cbn [length Nat.leb andb].
  1,2: split; [left; lia|reflexivity].
  destruct (type_known t) eqn:Et.
  - split.
    + destruct (_ ← _; _); discriminate.
    + intros [H|(t' & p' & [= <- <-] & H)]; [lia|]. apply type_unknown in H. congruence.
  - split; [|reflexivity]. intros _. right. exists t, (p :: ps). split; [reflexivity|]. apply type_unknown. exact Et.
Qed.

Lemma enum_of_ok {A} (value : A → bytes) l s a : enum_of value l s = Ok a → value a = s.
Proof.
  unfold enum_of. destruct (List.find _ l) eqn:E; [|discriminate]. apply find_some in E as [_ E].
  apply String.eqb_eq in E. intros [= ->]. exact E.
Qed.

Lemma enum_of_raise {A} (value : A → bytes) l s e : enum_of value l s = Raise e → e = ValueError.
Proof. unfold enum_of. destruct (List.find _ l); congruence. Qed.

(** One step of a decoder: case split on each read, closing the raising branch. *)
Ltac read :=
  match goal with
  | |- (match ?x with _ => _ end) = Ok _ → _ => let E := fresh "E" in destruct x eqn:E
  | |- (?x ≫= _) = Ok _ → _ => let E := fresh "E" in destruct x eqn:E; cbn [mbind res_bind]; [|discriminate]
  | |- Raise _ = Ok _ → _ => discriminate
  | |- Ok _ = Ok _ → _ => intros [= <-]
  end.

Lemma deserialize_type ty data m : deserialize ty data = Ok m → message_type_of m = ty.
Proof. destruct ty; cbn [deserialize]; try unfold deserialize_graph_task; cbv zeta; repeat read; reflexivity. Qed.

(** The exceptions a decoder can raise. *)
Definition decode_exn (e : exn) : Prop := e ∈ [KeyError; IndexError; ValueError; StructError; AssertionError].
Definition tame {A} (m : res A) : Prop := ∀ e, m = Raise e → decode_exn e.

Lemma tame_ok {A} (a : A) : tame (Ok a). Proof. intros e; discriminate. Qed.
Lemma tame_bind {A B} (m : res A) (k : A → res B) : tame m → (∀ a, tame (k a)) → tame (m ≫= k).
Proof. intros Hm Hk e. destruct m; cbn; [apply Hk|]. intros [= <-]. apply Hm. reflexivity. Qed.
Lemma tame_index d i : tame (index d i).
Proof. intros e. unfold index, from_option_exn. destruct (d !! i); [discriminate|]. intros [= <-]. unfold decode_exn. set_solver. Qed.
Lemma tame_enum {A} (value : A → bytes) l s : tame (enum_of value l s).
Proof. intros e H. apply enum_of_raise in H as ->. unfold decode_exn. set_solver. Qed.
Lemma tame_unpack s : tame (unpack_I s).
Proof. intros e. unfold unpack_I. destruct (_ =? _)%nat; [discriminate|]. intros [= <-]. unfold decode_exn. set_solver. Qed.

Lemma tame_args data : tame (deserialize_args data).
Proof.
  assert (H : ∀ n data, (length data <= n)%nat → tame (deserialize_args data)).
  2: eapply H; reflexivity.
  clear data. induction n as [|n IH]; intros [|a [|b data]] Hn; cbn [length] in Hn; try lia; cbn [deserialize_args];
    try apply tame_ok.
  - intros e. destruct (_ || _); intros [= <-]; unfold decode_exn; set_solver.
  - apply tame_bind.
    + intros e. destruct (String.eqb a "D"); [discriminate|]. destruct (String.eqb a "T"); [discriminate|].
      intros [= <-]; unfold decode_exn; set_solver.
    + intros x. apply tame_bind; [apply IH; lia|]. intros; apply tame_ok.
Qed.
Lemma tame_task data : tame (deserialize_task data).
Proof.
  unfold deserialize_task. repeat (apply tame_bind; [auto using tame_index, tame_args|intros]). apply tame_ok.
Qed.
Lemma after_length n data : (length (after n data) <= length data)%nat.
Proof. unfold after. rewrite drop_length. lia. Qed.
Lemma tame_graph fuel data : (length data <= fuel)%nat → tame (deserialize_graph fuel data).
Proof.
  revert data; induction fuel as [|fuel IH]; intros [|h data] Hl; cbn [length] in Hl; try lia; cbn [deserialize_graph]; try apply tame_ok.
  apply tame_bind; [apply tame_unpack|]. intros n. apply tame_bind; [apply tame_task|]. intros t.
  apply tame_bind; [|intros; apply tame_ok]. apply IH. pose proof (after_length n data). lia.
Qed.
Lemma tame_heartbeat s : tame (deserialize_heartbeat s).
Proof. intros e. unfold deserialize_heartbeat. destruct (_ =? _)%nat; [discriminate|]. intros [= <-]. unfold decode_exn; set_solver. Qed.
Lemma tame_raise {A} e : decode_exn e → tame (Raise e : res A).
Proof. intros H e' [= <-]. exact H. Qed.

Lemma tame_deserialize ty data : tame (deserialize ty data).
Proof.
  destruct ty; cbn [deserialize]; try unfold deserialize_graph_task; cbv zeta;
    repeat first [ apply tame_ok | apply tame_bind; [|intros ?] | apply tame_index | apply tame_enum | apply tame_unpack
                 | apply tame_args | apply tame_graph; reflexivity | apply tame_heartbeat
                 | apply tame_raise; unfold decode_exn; set_solver ].
  match goal with |- tame (if ?b then _ else _) => destruct b end;
    [apply tame_ok|apply tame_raise; unfold decode_exn; set_solver].
Qed.

Lemma binder_delivered frames source m : binder_receive frames = Delivered source m →
  ∃ payload, frames = source :: type_value (message_type_of m) :: payload ∧ payload ≠ [] ∧
             deserialize (message_type_of m) payload = Ok m.
Proof.
  unfold binder_receive, binder_valid. destruct frames as [|s [|t [|p ps]]]; cbn [length Nat.leb andb]; try discriminate.
  destruct (type_known t); [|discriminate].
  destruct (enum_of type_value all_types t) as [ty|] eqn:Et; cbn [mbind res_bind]; [|discriminate].
  apply enum_of_ok in Et. destruct (deserialize ty (p :: ps)) eqn:Ed; [|discriminate]. intros [= <- <-].
  pose proof (deserialize_type _ _ _ Ed) as <-. exists (p :: ps). subst t. split; [reflexivity|]. split; [discriminate|exact Ed].
Qed.

Lemma connector_delivered frames source m : connector_receive frames = Delivered source m →
  ∃ payload, frames = type_value (message_type_of m) :: payload ∧ payload ≠ [] ∧
             deserialize (message_type_of m) payload = Ok m.
Proof.
  unfold connector_receive, connector_valid. destruct frames as [|t [|p ps]]; cbn [length Nat.leb andb]; try discriminate.
  destruct (type_known t); [|discriminate].
  destruct (enum_of type_value all_types t) as [ty|] eqn:Et; cbn [mbind res_bind]; [|discriminate].
  apply enum_of_ok in Et. destruct (deserialize ty (p :: ps)) eqn:Ed; [|discriminate]. intros [= <- <-].
  pose proof (deserialize_type _ _ _ Ed) as <-. exists (p :: ps). subst t. split; [reflexivity|]. split; [discriminate|exact Ed].
Qed.

Lemma binder_died frames e : binder_receive frames = Died e → decode_exn e.
Proof.
  unfold binder_receive. destruct (binder_valid frames); [|discriminate]. destruct frames as [|s [|t p]]; try discriminate.
  destruct (_ ← _; _) eqn:E; [discriminate|]. intros [= <-]. revert E. apply tame_bind; [apply tame_enum|]. intros. apply tame_deserialize.
Qed.
Lemma connector_died frames e : connector_receive frames = Died e → decode_exn e.
Proof.
  unfold connector_receive. destruct (connector_valid frames); [|discriminate]. destruct frames as [|t p]; try discriminate.
  destruct (_ ← _; _) eqn:E; [discriminate|]. intros [= <-]. revert E. apply tame_bind; [apply tame_enum|]. intros. apply tame_deserialize.
Qed.

Lemma gx_kills source x xs : binder_receive (source :: "GX" :: x :: xs) = Died KeyError ∧
  connector_receive ("GX" :: x :: xs) = Died KeyError.
Proof. split; reflexivity. Qed.

(** "No colon in the host", read off the characters. *)
Lemma colon_free s : (∀ i, String.get i s ≠ Some (Ascii.ascii_of_nat 58)) ↔ has_colon s = false.
Proof.
  induction s as [|c s IH]; [split; [reflexivity|intros _ [|i]; discriminate]|].
  rewrite has_colon_cons. split.
  - intros H. destruct (Ascii.ascii_dec c ":") as [->|Hc].
    + exfalso. apply (H 0%nat). reflexivity.
    + apply IH. intros i. apply (H (S i)).
  - destruct (Ascii.ascii_dec c ":") as [->|Hc]; [discriminate|]. intros H i.
    destruct i as [|i]; [cbn; intros [= E]; congruence|]. apply IH. exact H.
Qed.

Lemma address_roundtrip' c :
  (zc_type c = Tcp ↔ is_Some (zc_port c)) →
  (zc_type c = Tcp → ∀ i, String.get i (zc_host c) ≠ Some (Ascii.ascii_of_nat 58)) →
  from_string (to_address c) = Ok c.
Proof. intros H1 H2. apply address_roundtrip; [exact H1|]. intros Ht. apply colon_free. auto. Qed.

Lemma frames_identify o1 o2 m1 m2 frames : proper m1 → proper m2 →
  connector_send o1 m1 = Ok frames → connector_send o2 m2 = Ok frames → m1 = m2.
Proof.
  intros H1 H2 E1 E2. apply peer_to_peer in E1, E2; try assumption. congruence.
Qed.

Lemma sent_is_delivered order peer m : proper m → encodable m →
  (∃ frames, connector_send order m = Ok frames ∧
     binder_receive (router_in peer frames) = Delivered peer m ∧
     connector_receive frames = Delivered "" m) ∧
  (∃ frames, binder_send order peer m = Ok (peer :: frames) ∧
     connector_receive (router_out (peer :: frames)) = Delivered "" m).
Proof.
  intros Hp He. apply (encodable_iff order) in He as [fs E]. split.
  - assert (Ec : connector_send order m = Ok (type_value (message_type_of m) :: fs)).
    { unfold connector_send. rewrite E. reflexivity. }
    eexists. split; [exact Ec|]. split; [eapply to_binder; eauto|eapply peer_to_peer; eauto].
  - assert (Eb : binder_send order peer m = Ok (peer :: type_value (message_type_of m) :: fs)).
    { unfold binder_send. rewrite E. reflexivity. }
    eexists. split; [exact Eb|]. apply (to_peer _ _ _ _ Hp Eb).
Qed.

Lemma unencodable order m :
  ((∃ frames, serialize order m = Ok frames) ↔ numbers_fit m ∧ has_functions m) ∧
  (∀ e, serialize order m = Raise e →
     (has_functions m ∧ ¬ numbers_fit m ∧ e = StructError) ∨ (¬ has_functions m ∧ e = ValueError)).
Proof.
  split; [apply encodable_iff|]. intros e H. apply raise_kinds in H as [(?&?&?)|[? ?]]; auto.
Qed.

Lemma string_length_app a b : String.length (String.append a b) = (String.length a + String.length b)%nat.
Proof. apply length_app. Qed.

Lemma receiver_killed :
  (∀ source x xs, binder_receive (source :: "GX" :: x :: xs) = Died KeyError ∧
                  connector_receive ("GX" :: x :: xs) = Died KeyError) ∧
  (∀ source id f, binder_receive [source; "TK"; id; f; "D"] = Died IndexError) ∧
  (∀ source id f, id ≠ "" → binder_receive [source; "TR"; id; "?"; f; f] = Died ValueError) ∧
  (∀ source x, binder_receive [source; "BR"; String.append x "12345"] = Died StructError) ∧
  ¬ (∀ frames, binder_receive frames = Ignored ∨ ∃ source m, binder_receive frames = Delivered source m).
Proof.
  split; [exact gx_kills|]. split; [reflexivity|]. split; [reflexivity|]. split.
  - intros source x. unfold binder_receive, binder_valid. cbn -[unpack_I append].
    unfold unpack_I. rewrite string_length_app. cbn [String.length].
    destruct (Nat.eqb_spec (String.length x + 5) 4); [lia|reflexivity].
  - intros H. destruct (H ["s"; "GX"; ""]) as [H1|(s & m & H1)]; discriminate H1.
Qed.

Lemma receive_partial frames :
  (binder_receive frames = Ignored ↔
     (length frames < 3)%nat ∨ (∃ source t payload, frames = source :: t :: payload ∧ ∀ ty, type_value ty ≠ t)) ∧
  (connector_receive frames = Ignored ↔
     (length frames < 2)%nat ∨ (∃ t payload, frames = t :: payload ∧ ∀ ty, type_value ty ≠ t)) ∧
  (∀ source m, binder_receive frames = Delivered source m →
     ∃ payload, frames = source :: type_value (message_type_of m) :: payload ∧ payload ≠ [] ∧
                deserialize (message_type_of m) payload = Ok m) ∧
  (∀ source m, connector_receive frames = Delivered source m →
     ∃ payload, frames = type_value (message_type_of m) :: payload ∧ payload ≠ [] ∧
                deserialize (message_type_of m) payload = Ok m) ∧
  (∀ e, binder_receive frames = Died e ∨ connector_receive frames = Died e →
     e ∈ [KeyError; IndexError; ValueError; StructError; AssertionError]).
Proof.
  split; [apply binder_ignored|]. split; [apply connector_ignored|].
  split; [apply binder_delivered|]. split; [apply connector_delivered|].
  intros e [H|H]; [eapply binder_died|eapply connector_died]; eauto.
Qed.

Lemma address_shape s c : from_string s = Ok c ↔
  (zc_type c = Tcp ↔ is_Some (zc_port c)) ∧
  match zc_port c with
  | None => s = zmq_value (zc_type c) +:+ "://" +:+ zc_host c
  | Some p => ∃ text, s = "tcp://" +:+ zc_host c +:+ ":" +:+ text ∧
                      (∀ i, String.get i (zc_host c) ≠ Some (Ascii.ascii_of_nat 58)) ∧
                      (∀ i, String.get i text ≠ Some (Ascii.ascii_of_nat 58)) ∧ written text p
  end.
Proof.
  split.
  - intros H. apply address_accepts in H as [H1 H2]. split; [exact H1|].
    destruct (zc_port c); [|exact H2]. destruct H2 as (text & -> & Ha & Hb & Hc).
    exists text. split; [reflexivity|]. rewrite !colon_free, <- py_int_written. auto.
  - destruct c as [t h p]. cbn [zc_type zc_host zc_port]. intros [Hv H]. destruct p as [p|].
    + assert (t = Tcp) as -> by (apply Hv; eauto). destruct H as (text & -> & Hh & Ht & Hp). rewrite colon_free in Hh, Ht. apply py_int_written in Hp. unfold from_string.
      change ("tcp://" +:+ h +:+ ":" +:+ text) with (zmq_value Tcp +:+ "://" +:+ (h +:+ ":" +:+ text)).
      rewrite (split_scheme Tcp) by auto. cbn [zmq_value String.eqb Ascii.eqb Bool.eqb]. rewrite split_colon by exact Hh. rewrite Ht, Hp. apply config_valid. auto.
    + assert (Ht : t ≠ Tcp) by (intros Et; apply Hv in Et as [? ?]; discriminate). subst s. unfold from_string. destruct t; [rewrite (split_scheme Inproc) by auto|rewrite (split_scheme Ipc) by auto|done]; cbn [zmq_value String.eqb Ascii.eqb Bool.eqb]; apply config_valid; auto.
Qed.
