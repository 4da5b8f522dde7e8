(** Proofs about the wire format. *)

From Verif.Model Require Import Base Message Transport.
From Verif.Spec Require Import MessageSpec.
From Verif.Proofs Require Import BaseProofs.
From Coq Require Import ZifyNat ZifyBool ZifyN.

(** ** Integers *)
Lemma of_byte_of z : of_byte (byte_of z) = z mod 256.
Proof.
  unfold of_byte, byte_of. pose proof (Z.mod_pos_bound z 256 ltac:(lia)).
  rewrite Ascii.N_ascii_embedding by lia. lia.
Qed.

Lemma of_byte_bound a : 0 <= of_byte a < 256.
Proof. unfold of_byte. pose proof (Ascii.N_ascii_bounded a). lia. Qed.

Lemma le_value_bytes n z : 0 <= z < 256 ^ Z.of_nat n → le_value (le_bytes n z) = z.
Proof.
  revert z; induction n as [|n IH]; intros z Hz.
  - cbn in *. lia.
  - cbn [le_bytes le_value]. rewrite of_byte_of.
    rewrite Nat2Z.inj_succ, Z.pow_succ_r in Hz by lia.
    rewrite IH.
    + pose proof (Z.div_mod z 256 ltac:(lia)). lia.
    + split; [apply Z.div_pos; lia|]. apply Z.div_lt_upper_bound; lia.
Qed.

Lemma le_bytes_length n z : String.length (le_bytes n z) = n.
Proof. revert z; induction n as [|n IH]; intros z; cbn; [reflexivity|]. rewrite IH. reflexivity. Qed.

Lemma pack_ok n z s : pack_uint n z = Ok s → 0 <= z < 256 ^ Z.of_nat n ∧ s = le_bytes n z.
Proof. unfold pack_uint. destruct ((0 <=? z) && (z <? 256 ^ Z.of_nat n)) eqn:E; [|discriminate]. intros [= <-]. split; [lia|reflexivity]. Qed.

Lemma pack_in n z : 0 <= z < 256 ^ Z.of_nat n → pack_uint n z = Ok (le_bytes n z).
Proof. intros H. unfold pack_uint. destruct ((0 <=? z) && (z <? 256 ^ Z.of_nat n)) eqn:E; [reflexivity|lia]. Qed.

Lemma pack_out n z : ¬ (0 <= z < 256 ^ Z.of_nat n) → pack_uint n z = Raise StructError.
Proof. intros H. unfold pack_uint. destruct ((0 <=? z) && (z <? 256 ^ Z.of_nat n)) eqn:E; [lia|reflexivity]. Qed.

Lemma unpack_pack z s : pack_uint 4 z = Ok s → unpack_I s = Ok z.
Proof.
  intros H. apply pack_ok in H as [Hz ->]. unfold unpack_I. rewrite le_bytes_length. cbn [Nat.eqb].
  rewrite le_value_bytes by exact Hz. reflexivity.
Qed.

Lemma u16_range z : u16 z ↔ 0 <= z < 256 ^ Z.of_nat 2. Proof. unfold u16. change (256 ^ Z.of_nat 2) with 65536. lia. Qed.
Lemma u32_range z : u32 z ↔ 0 <= z < 256 ^ Z.of_nat 4. Proof. unfold u32. change (256 ^ Z.of_nat 4) with 4294967296. lia. Qed.
Lemma u64_range z : u64 z ↔ 0 <= z < 256 ^ Z.of_nat 8. Proof. unfold u64. change (256 ^ Z.of_nat 8) with 18446744073709551616. lia. Qed.
Lemma count32_range {A} (l : list A) : count32 l ↔ 0 <= Z.of_nat (length l) < 256 ^ Z.of_nat 4.
Proof. unfold count32. change (256 ^ Z.of_nat 4) with 4294967296. lia. Qed.

(** ** Strings *)
Lemma str_take_app a b : str_take (String.length a) (a +:+ b) = a.
Proof. induction a as [|c a IH]; cbn; [destruct b; reflexivity|]. f_equal. exact IH. Qed.
Lemma str_drop_app a b : str_drop (String.length a) (a +:+ b) = b.
Proof. induction a as [|c a IH]; cbn; [destruct b; reflexivity|]. exact IH. Qed.
Lemma str_drop_drop i j s : str_drop i (str_drop j s) = str_drop (j + i) s.
Proof.
  revert s; induction j as [|j IH]; intros s; cbn; [reflexivity|].
  destruct s as [|c s]; [destruct i; reflexivity|]. apply IH.
Qed.
Lemma str_length_app a b : String.length (a +:+ b) = (String.length a + String.length b)%nat.
Proof.
  induction a as [|c a IH]; [reflexivity|].
  change (S (String.length (a +:+ b)) = S (String.length a + String.length b)). rewrite IH. reflexivity.
Qed.

Lemma field_skip i j n a s : String.length a = j → field (j + i) n (a +:+ s) = field i n s.
Proof. intros <-. unfold field. rewrite <- str_drop_drop, str_drop_app. reflexivity. Qed.
Lemma field_here n a s : String.length a = n → field 0 n (a +:+ s) = le_value a.
Proof. intros <-. unfold field. cbn [str_drop]. replace (str_drop 0 (a +:+ s)) with (a +:+ s) by (destruct (a +:+ s); reflexivity). rewrite str_take_app. reflexivity. Qed.

(** ** Enumerations *)
Lemma enum_of_value {A} (value : A → bytes) members a :
  Inj (=) (=) value → a ∈ members → enum_of value members (value a) = Ok a.
Proof.
  intros Hi. unfold enum_of. induction members as [|b members IH]; intros Ha; [inversion Ha|]. cbn.
  destruct (String.eqb_spec (value b) (value a)) as [E|E].
  - apply Hi in E. subst. reflexivity.
  - apply elem_of_cons in Ha as [->|Ha]; [done|]. apply IH. exact Ha.
Qed.
Lemma enum_of_inv {A} (value : A → bytes) members s a :
  enum_of value members s = Ok a → value a = s ∧ a ∈ members.
Proof.
  unfold enum_of. destruct (List.find _ _) as [b|] eqn:E; [|discriminate]. intros [= ->].
  apply List.find_some in E as [H1 H2]. apply String.eqb_eq in H2. apply elem_of_list_In in H1. auto.
Qed.

Global Instance type_value_inj : Inj (=) (=) type_value.
Proof. intros [] []; cbn; intros E; try reflexivity; discriminate E. Qed.
Global Instance status_value_inj : Inj (=) (=) status_value.
Proof. intros [] []; cbn; intros E; try reflexivity; discriminate E. Qed.
Global Instance echo_value_inj : Inj (=) (=) echo_value.
Proof. intros [] []; cbn; intros E; try reflexivity; discriminate E. Qed.
Global Instance node_value_inj : Inj (=) (=) node_value.
Proof. intros [] []; cbn; intros E; try reflexivity; discriminate E. Qed.
Global Instance fn_request_value_inj : Inj (=) (=) fn_request_value.
Proof. intros [] []; cbn; intros E; try reflexivity; discriminate E. Qed.
Global Instance fn_response_value_inj : Inj (=) (=) fn_response_value.
Proof. intros [] []; cbn; intros E; try reflexivity; discriminate E. Qed.

Lemma in_all_types t : t ∈ all_types. Proof. destruct t; unfold all_types; set_solver. Qed.
Lemma in_all_statuses t : t ∈ all_statuses. Proof. destruct t; unfold all_statuses; set_solver. Qed.
Lemma in_all_echoes t : t ∈ all_echoes. Proof. destruct t; unfold all_echoes; set_solver. Qed.
Lemma in_all_nodes t : t ∈ all_nodes. Proof. destruct t; unfold all_nodes; set_solver. Qed.
Lemma in_all_fn_requests t : t ∈ all_fn_requests. Proof. destruct t; unfold all_fn_requests; set_solver. Qed.
Lemma in_all_fn_responses t : t ∈ all_fn_responses. Proof. destruct t; unfold all_fn_responses; set_solver. Qed.

(** ** Tasks *)
Lemma deserialize_serialize_args args :
  deserialize_args (List.flat_map serialize_arg args) = Ok args.
Proof.
  induction args as [|a args IH]; [reflexivity|].
  destruct a; cbn in *; rewrite IH; reflexivity.
Qed.

Lemma deserialize_serialize_task t : deserialize_task (serialize_task t) = Ok t.
Proof.
  destruct t as [id f args]. unfold deserialize_task, serialize_task; cbn.
  rewrite drop_0, deserialize_serialize_args. reflexivity.
Qed.

Lemma serialize_task_length t : Z.of_nat (length (serialize_task t)) = 2 + 2 * Z.of_nat (length (task_args t)).
Proof.
  destruct t as [id f args]. unfold serialize_task; cbn [task_args task_id task_function length].
  assert (length (List.flat_map serialize_arg args) = (2 * length args)%nat); [|lia].
  induction args as [|a args IH]; [reflexivity|]. cbn [List.flat_map]. rewrite app_length, IH.
  destruct a; cbn; lia.
Qed.

Lemma slice_app (a b : list bytes) n : n = Z.of_nat (length a) → slice n (a ++ b) = a ∧ after n (a ++ b) = b.
Proof.
  intros ->. unfold slice, after. rewrite app_length.
  replace (Z.to_nat (Z.min (Z.of_nat (length a)) (Z.of_nat (length a + length b)))) with (length a) by lia.
  rewrite take_app, drop_app. auto.
Qed.

Lemma deserialize_serialize_graph g fs fuel : (length fs <= fuel)%nat →
  serialize_graph g = Ok fs → deserialize_graph fuel fs = Ok g.
Proof.
  revert fs fuel; induction g as [|t g IH]; intros fs fuel Hf; cbn [serialize_graph].
  - intros [= <-]. destruct fuel; reflexivity.
  - destruct (pack_uint 4 _) as [n|] eqn:En; [|discriminate].
    destruct (serialize_graph g) as [rest|] eqn:Eg; [|discriminate]. cbn. intros [= <-].
    cbn [length app] in Hf. destruct fuel as [|fuel]; [lia|].
    cbn [deserialize_graph]. rewrite (unpack_pack _ _ En). cbn [mbind res_bind].
    match goal with |- context [slice ?k ?l] => destruct (slice_app (serialize_task t) rest k eq_refl) as [E1 E2] end.
    change (task_id t :: task_function t :: List.flat_map serialize_arg (task_args t) ++ rest)
      with (serialize_task t ++ rest) in *.
    rewrite E1, E2, deserialize_serialize_task. cbn.
    rewrite (IH rest fuel); [reflexivity| |reflexivity].
    rewrite app_length in Hf. lia.
Qed.

Lemma serialize_graph_ok g :
  Forall (λ t, 2 + 2 * Z.of_nat (length (task_args t)) <= 4294967295) g ↔ ∃ fs, serialize_graph g = Ok fs.
Proof.
  induction g as [|t g IH].
  - split; [eexists; reflexivity|constructor].
  - rewrite Forall_cons. cbn [serialize_graph]. rewrite serialize_task_length.
    assert (H : 2 + 2 * Z.of_nat (length (task_args t)) <= 4294967295 ↔
                0 <= 2 + 2 * Z.of_nat (length (task_args t)) < 256 ^ Z.of_nat 4).
    { change (256 ^ Z.of_nat 4) with 4294967296. lia. }
    rewrite H. split.
    + intros [Ht Hg]. apply IH in Hg as [fs ->]. rewrite pack_in by exact Ht. cbn. eauto.
    + intros [fs Hfs]. destruct (pack_uint 4 _) as [n|] eqn:En; [|discriminate].
      apply pack_ok in En as [Hn _]. split; [exact Hn|]. apply IH.
      destruct (serialize_graph g); [eauto|discriminate].
Qed.

Lemma serialize_graph_raise g e : serialize_graph g = Raise e → e = StructError.
Proof.
  induction g as [|t g IH]; [discriminate|]. cbn [serialize_graph]. unfold pack_uint.
  destruct (_ && _); cbn; [|congruence]. destruct (serialize_graph g); cbn; [discriminate|]. intros [= ->]. apply IH. reflexivity.
Qed.

(** ** Dictionaries *)
Lemma dict_put_fresh {A} k (v : A) d : k ∉ d.*1 → dict_put k v d = d ++ [(k, v)].
Proof.
  induction d as [|[k' v'] d IH]; intros Hk; [reflexivity|]. cbn in *.
  destruct (String.eqb_spec k k') as [->|Hne]; [set_solver|]. rewrite IH by set_solver. reflexivity.
Qed.

Lemma dict_of_fold {A} (l d : list (bytes * A)) : NoDup (d ++ l).*1 →
  fold_left (λ d p, dict_put p.1 p.2 d) l d = d ++ l.
Proof.
  revert d; induction l as [|[k v] l IH]; intros d Hnd; cbn; [rewrite app_nil_r; reflexivity|].
  rewrite dict_put_fresh.
  - rewrite IH; rewrite <- app_assoc; [reflexivity|exact Hnd].
  - rewrite fmap_app in Hnd. cbn in Hnd. apply NoDup_app in Hnd as (_ & H & _).
    intros Hk. apply (H k Hk). left.
Qed.

Lemma dict_of_nodup {A} (l : list (bytes * A)) : NoDup l.*1 → dict_of l = l.
Proof. intros Hnd. unfold dict_of. rewrite dict_of_fold; [reflexivity|exact Hnd]. Qed.

Lemma zip_parts (fs : list (bytes * (bytes * bytes))) : zip fs.*1 (zip fs.*2.*1 fs.*2.*2) = fs.
Proof. induction fs as [|[k [n c]] fs IH]; cbn; [reflexivity|]. f_equal. exact IH. Qed.

(** ** Heartbeat *)
Lemma heartbeat_roundtrip h s : serialize_heartbeat h = Ok s → deserialize_heartbeat s = Ok h.
Proof.
  destruct h as [ac ar wc wr q l b1 b2 b3]. unfold serialize_heartbeat.
  cbn [hb_agent_cpu hb_agent_rss hb_worker_cpu hb_worker_rss hb_queued hb_latency hb_initialized hb_has_task hb_task_lock].
  destruct (pack_uint 2 ac) as [a|] eqn:Ea; [|discriminate]. cbn [mbind res_bind].
  destruct (pack_uint 8 ar) as [b|] eqn:Eb; [|discriminate]. cbn [mbind res_bind].
  destruct (pack_uint 2 wc) as [c|] eqn:Ec; [|discriminate]. cbn [mbind res_bind].
  destruct (pack_uint 8 wr) as [d|] eqn:Ed; [|discriminate]. cbn [mbind res_bind].
  destruct (pack_uint 2 q) as [e|] eqn:Ee; [|discriminate]. cbn [mbind res_bind].
  destruct (pack_uint 4 l) as [f|] eqn:Ef; [|discriminate]. cbn [mbind res_bind].
  intros Hs. apply (f_equal (λ r, match r with Ok x => x | Raise _ => "" end)) in Hs. cbn beta iota in Hs. subst s.
  apply pack_ok in Ea as [Ha ->], Eb as [Hb ->], Ec as [Hc ->], Ed as [Hd ->], Ee as [He ->], Ef as [Hf ->].
  unfold deserialize_heartbeat. rewrite !str_length_app, !le_bytes_length.
  assert (Hfl : ∀ x, String.length (flag x) = 1%nat) by reflexivity. rewrite !Hfl. cbn [Nat.add Nat.eqb].
  match goal with |- context [field 8 8 ?S] => change (field 8 8 S) with (field (2 + (6 + 0)) 8 S) end.
  match goal with |- context [field 16 2 ?S] => change (field 16 2 S) with (field (2 + (6 + (8 + 0))) 2 S) end.
  match goal with |- context [field 24 8 ?S] => change (field 24 8 S) with (field (2 + (6 + (8 + (2 + (6 + 0))))) 8 S) end.
  match goal with |- context [field 32 2 ?S] => change (field 32 2 S) with (field (2 + (6 + (8 + (2 + (6 + (8 + 0)))))) 2 S) end.
  match goal with |- context [field 36 4 ?S] => change (field 36 4 S) with (field (2 + (6 + (8 + (2 + (6 + (8 + (2 + (2 + 0)))))))) 4 S) end.
  match goal with |- context [field 40 1 ?S] => change (field 40 1 S) with (field (2 + (6 + (8 + (2 + (6 + (8 + (2 + (2 + (4 + 0))))))))) 1 S) end.
  match goal with |- context [field 41 1 ?S] => change (field 41 1 S) with (field (2 + (6 + (8 + (2 + (6 + (8 + (2 + (2 + (4 + (1 + 0)))))))))) 1 S) end.
  match goal with |- context [field 42 1 ?S] => change (field 42 1 S) with (field (2 + (6 + (8 + (2 + (6 + (8 + (2 + (2 + (4 + (1 + (1 + 0))))))))))) 1 S) end.
  repeat (rewrite field_skip by (apply le_bytes_length || reflexivity)).
  rewrite !field_here by (apply le_bytes_length || reflexivity).
  rewrite !le_value_bytes by assumption.
  replace (field 0 1 (flag b3)) with (le_value (flag b3)) by reflexivity.
  destruct b1, b2, b3; reflexivity.
Qed.

(** ** Round trip *)
Lemma roundtrip order m fs : proper m → serialize order m = Ok fs → deserialize (message_type_of m) fs = Ok m.
Proof.
  intros Hp. destruct m; cbn [serialize message_type_of deserialize].
  - intros [= <-]. rewrite deserialize_serialize_task. reflexivity.
  - intros [= <-]. cbn. rewrite enum_of_value; [reflexivity|apply _|apply in_all_echoes].
  - intros [= <-]. reflexivity.
  - destruct (pack_uint 4 duration) as [d|] eqn:E; [|discriminate]. cbn. intros [= <-]. cbn.
    rewrite enum_of_value; [|apply _|apply in_all_statuses]. cbn. rewrite (unpack_pack _ _ E). reflexivity.
  - destruct (pack_uint 4 (Z.of_nat (length functions))) as [nf|] eqn:Ef; [|discriminate]. cbn [mbind res_bind].
    assert (Hm : ∀ X : res (list bytes), match functions with [] => Raise ValueError | _ :: _ => X end = Ok fs → X = Ok fs)
      by (destruct functions; [discriminate|auto]).
    intros Hs. apply Hm in Hs. clear Hm. revert Hs. rename functions into fs0.
    destruct (serialize_graph graph) as [gb|] eqn:Eg; [|discriminate]. cbn [mbind res_bind].
    destruct (pack_uint 4 (Z.of_nat (length targets))) as [nt|] eqn:Et; [|discriminate]. cbn [mbind res_bind].
    intros [= <-]. unfold deserialize_graph_task.
    cbn [index from_option_exn lookup list_lookup mbind res_bind app].
    rewrite (unpack_pack _ _ Ef). cbn [mbind res_bind].
    change (drop 2 (id :: nf :: (fs0.*1 ++ fs0.*2.*1 ++ fs0.*2.*2) ++ nt :: targets ++ gb))
      with ((fs0.*1 ++ fs0.*2.*1 ++ fs0.*2.*2) ++ nt :: targets ++ gb).
    rewrite <- !app_assoc.
    destruct (slice_app fs0.*1 (fs0.*2.*1 ++ fs0.*2.*2 ++ nt :: targets ++ gb) (Z.of_nat (length fs0)))
      as [-> ->]; [rewrite fmap_length; reflexivity|].
    destruct (slice_app fs0.*2.*1 (fs0.*2.*2 ++ nt :: targets ++ gb) (Z.of_nat (length fs0)))
      as [-> ->]; [rewrite !fmap_length; reflexivity|].
    destruct (slice_app fs0.*2.*2 (nt :: targets ++ gb) (Z.of_nat (length fs0)))
      as [-> ->]; [rewrite !fmap_length; reflexivity|].
    rewrite zip_parts, dict_of_nodup by exact Hp.
    cbn [index from_option_exn lookup list_lookup mbind res_bind].
    rewrite (unpack_pack _ _ Et). cbn [mbind res_bind].
    change (drop 1 (nt :: targets ++ gb)) with (targets ++ gb).
    destruct (slice_app targets gb (Z.of_nat (length targets)) eq_refl) as [-> ->].
    rewrite (deserialize_serialize_graph graph gb) by (lia || exact Eg). reflexivity.
  - intros [= <-]. cbn. rewrite enum_of_value; [reflexivity|apply _|apply in_all_echoes].
  - intros [= <-]. reflexivity.
  - intros [= <-]. cbn. rewrite enum_of_value; [|apply _|apply in_all_statuses]. reflexivity.
  - destruct (pack_uint 4 n) as [d|] eqn:E; [|discriminate]. cbn. intros [= <-]. cbn.
    rewrite (unpack_pack _ _ E). reflexivity.
  - destruct (pack_uint 4 (Z.of_nat (length ids))) as [d|] eqn:E; [|discriminate]. cbn. intros [= <-].
    cbn [index from_option_exn lookup list_lookup mbind res_bind].
    rewrite (unpack_pack _ _ E). cbn [mbind res_bind]. change (drop 1 (d :: ids)) with ids.
    rewrite Z.eqb_refl. reflexivity.
  - destruct (serialize_heartbeat h) as [s|] eqn:E; [|discriminate]. cbn. intros [= <-]. cbn.
    rewrite (heartbeat_roundtrip h s E). reflexivity.
  - intros [= <-]. reflexivity.
  - intros [= <-]. cbn. rewrite enum_of_value; [reflexivity|apply _|apply in_all_fn_requests].
  - intros [= <-]. cbn. rewrite enum_of_value; [reflexivity|apply _|apply in_all_fn_responses].
  - intros [= <-]. reflexivity.
  - intros [= <-]. reflexivity.
  - intros [= <-]. reflexivity.
  - intros [= <-]. reflexivity.
  - intros [= <-]. cbn. rewrite enum_of_value; [reflexivity|apply _|apply in_all_statuses].
  - intros [= <-]. cbn. rewrite enum_of_value; [|apply _|apply in_all_nodes]. cbn.
    rewrite ?drop_0. do 2 f_equal. apply leibniz_equiv.
    rewrite shuffle_perm. apply list_to_set_elements.
Qed.

Lemma encodable_iff order m : (∃ fs, serialize order m = Ok fs) ↔ encodable m.
Proof.
  unfold encodable. destruct m; cbn [serialize numbers_fit has_functions];
    try (split; [auto|eauto]; fail).
  - rewrite u32_range. split.
    + intros [fs H]. destruct (pack_uint 4 duration) eqn:E; [|discriminate]. apply pack_ok in E. tauto.
    + intros [H _]. rewrite pack_in by exact H. cbn. eauto.
  - rewrite !count32_range, serialize_graph_ok. split.
    + intros [fs H]. destruct (pack_uint 4 (Z.of_nat (length functions))) eqn:E; [|discriminate]. cbn [mbind res_bind] in H.
      destruct functions as [|f0 functions]; [discriminate|].
      destruct (serialize_graph graph) as [gb|]; [|discriminate]. cbn [mbind res_bind] in H.
      destruct (pack_uint 4 (Z.of_nat (length targets))) eqn:E2; [|discriminate].
      apply pack_ok in E as [E _], E2 as [E2 _]. split; [split; [exact E|split; [exact E2|eauto]]|discriminate].
    + intros [(H1 & H2 & gb & Hg) H3]. rewrite (pack_in 4 (Z.of_nat (length functions)) H1). cbn [mbind res_bind].
      destruct functions as [|f0 functions]; [done|]. rewrite Hg. cbn [mbind res_bind].
      rewrite pack_in by exact H2. cbn. eauto.
  - rewrite u32_range. split.
    + intros [fs H]. destruct (pack_uint 4 n) eqn:E; [|discriminate]. apply pack_ok in E. tauto.
    + intros [H _]. rewrite pack_in by exact H. cbn. eauto.
  - rewrite count32_range. split.
    + intros [fs H]. destruct (pack_uint 4 _) eqn:E; [|discriminate]. apply pack_ok in E. tauto.
    + intros [H _]. rewrite pack_in by exact H. cbn. eauto.
  - rewrite !u16_range, !u64_range, u32_range. unfold serialize_heartbeat. split.
    + intros [fs H].
      destruct (pack_uint 2 (hb_agent_cpu h)) eqn:E1; [|discriminate]. cbn [mbind res_bind] in H.
      destruct (pack_uint 8 (hb_agent_rss h)) eqn:E2; [|discriminate]. cbn [mbind res_bind] in H.
      destruct (pack_uint 2 (hb_worker_cpu h)) eqn:E3; [|discriminate]. cbn [mbind res_bind] in H.
      destruct (pack_uint 8 (hb_worker_rss h)) eqn:E4; [|discriminate]. cbn [mbind res_bind] in H.
      destruct (pack_uint 2 (hb_queued h)) eqn:E5; [|discriminate]. cbn [mbind res_bind] in H.
      destruct (pack_uint 4 (hb_latency h)) eqn:E6; [|discriminate].
      apply pack_ok in E1 as [E1 _], E2 as [E2 _], E3 as [E3 _], E4 as [E4 _], E5 as [E5 _], E6 as [E6 _]. tauto.
    + intros [(H1 & H2 & H3 & H4 & H5 & H6) _]. rewrite !pack_in by assumption. cbn. eauto.
Qed.

Lemma pack_raise n z e : pack_uint n z = Raise e → e = StructError.
Proof. unfold pack_uint. destruct (_ && _); congruence. Qed.

Lemma raise_kinds order m e : serialize order m = Raise e →
  (has_functions m ∧ e = StructError ∧ ¬ numbers_fit m) ∨ (¬ has_functions m ∧ e = ValueError).
Proof.
  intros H.
  assert (Hn : ¬ encodable m).
  { rewrite <- (encodable_iff order). intros [fs Hfs]. congruence. }
  assert (Hcase : (e = ValueError ∧ ¬ has_functions m) ∨ (e = StructError ∧ has_functions m)).
  { destruct m; cbn [serialize has_functions] in *; try discriminate.
    - destruct (pack_uint 4 duration) eqn:E; [discriminate|]. apply pack_raise in E. cbn in H. right. split; [congruence|exact I].
    - destruct (pack_uint 4 (Z.of_nat (length functions))) eqn:E; cbn [mbind res_bind] in H.
      + destruct functions as [|f0 functions]; [left; split; [congruence|auto]|]. right.
        split; [|discriminate].
        destruct (serialize_graph graph) as [gb|] eqn:Eg; cbn [mbind res_bind] in H.
        * destruct (pack_uint 4 (Z.of_nat (length targets))) eqn:E2; [discriminate|].
          apply pack_raise in E2. cbn in H. congruence.
        * apply serialize_graph_raise in Eg. congruence.
      + apply pack_raise in E as E'. right. split; [congruence|].
        destruct functions; [|discriminate]. discriminate E.
    - destruct (pack_uint 4 n) eqn:E; [discriminate|]. apply pack_raise in E. cbn in H. right. split; [congruence|exact I].
    - destruct (pack_uint 4 _) eqn:E; [discriminate|]. apply pack_raise in E. cbn in H. right. split; [congruence|exact I].
    - right. split; [|exact I]. unfold serialize_heartbeat in H.
      destruct (pack_uint 2 (hb_agent_cpu h)) eqn:E; cbn [mbind res_bind] in H; [clear E|apply pack_raise in E; congruence].
      destruct (pack_uint 8 (hb_agent_rss h)) eqn:E; cbn [mbind res_bind] in H; [clear E|apply pack_raise in E; congruence].
      destruct (pack_uint 2 (hb_worker_cpu h)) eqn:E; cbn [mbind res_bind] in H; [clear E|apply pack_raise in E; congruence].
      destruct (pack_uint 8 (hb_worker_rss h)) eqn:E; cbn [mbind res_bind] in H; [clear E|apply pack_raise in E; congruence].
      destruct (pack_uint 2 (hb_queued h)) eqn:E; cbn [mbind res_bind] in H; [clear E|apply pack_raise in E; congruence].
      destruct (pack_uint 4 (hb_latency h)) eqn:E; cbn [mbind res_bind] in H; [clear E|apply pack_raise in E; congruence].
      discriminate. }
  unfold encodable in Hn. destruct Hcase as [[-> Hf]|[-> Hf]]; [auto|]. left. tauto.
Qed.

(** ** Injectivity *)
Lemma frames_injective o1 o2 m1 m2 p1 p2 : proper m1 → proper m2 →
  serialize o1 m1 = Ok p1 → serialize o2 m2 = Ok p2 →
  type_value (message_type_of m1) = type_value (message_type_of m2) → p1 = p2 → m1 = m2.
Proof.
  intros H1 H2 E1 E2 Ht ->. apply type_value_inj in Ht.
  pose proof (roundtrip _ _ _ H1 E1) as R1. pose proof (roundtrip _ _ _ H2 E2) as R2.
  rewrite Ht in R1. congruence.
Qed.

(** ** Transports *)
Lemma type_known_value t : type_known (type_value t) = true.
Proof.
  unfold type_known. apply existsb_exists. exists t. split; [apply elem_of_list_In, in_all_types|].
  apply String.eqb_refl.
Qed.

Lemma payload_nonempty order m fs : serialize order m = Ok fs → fs ≠ [].
Proof.
  destruct m; cbn [serialize]; try (intros [= <-]; discriminate).
  - destruct (pack_uint _ _); [|discriminate]. cbn. intros [= <-]. discriminate.
  - destruct (pack_uint 4 (Z.of_nat (length functions))); [|discriminate]. cbn [mbind res_bind]. destruct functions; [discriminate|].
    destruct (serialize_graph graph); [|discriminate]. cbn [mbind res_bind].
    destruct (pack_uint _ _); [|discriminate]. cbn. intros [= <-]. discriminate.
  - destruct (pack_uint _ _); [|discriminate]. cbn. intros [= <-]. discriminate.
  - destruct (pack_uint _ _); [|discriminate]. cbn. intros [= <-]. discriminate.
  - destruct (serialize_heartbeat _); [|discriminate]. cbn. intros [= <-]. discriminate.
Qed.

Lemma to_binder order peer m fs : proper m → connector_send order m = Ok fs →
  binder_receive (router_in peer fs) = Delivered peer m.
Proof.
  intros Hp. unfold connector_send. destruct (serialize order m) as [p|] eqn:E; [|discriminate]. cbn. intros [= <-].
  unfold router_in, binder_receive, binder_valid. cbn [length]. rewrite type_known_value.
  pose proof (payload_nonempty _ _ _ E). destruct p as [|x p]; [done|]. cbn [length Nat.leb andb].
  rewrite enum_of_value; [|apply _|apply in_all_types]. cbn [mbind res_bind].
  rewrite (roundtrip _ _ _ Hp E). reflexivity.
Qed.

Lemma to_peer order peer m fs : proper m → binder_send order peer m = Ok fs →
  fs !! 0%nat = Some peer ∧ connector_receive (router_out fs) = Delivered "" m.
Proof.
  intros Hp. unfold binder_send. destruct (serialize order m) as [p|] eqn:E; [|discriminate]. cbn. intros [= <-].
  split; [reflexivity|].
  unfold router_out. change (drop 1 (peer :: type_value (message_type_of m) :: p)) with (type_value (message_type_of m) :: p).
  unfold connector_receive, connector_valid. cbn [length]. rewrite type_known_value.
  pose proof (payload_nonempty _ _ _ E). destruct p as [|x p]; [done|]. cbn [length Nat.leb andb].
  rewrite enum_of_value; [|apply _|apply in_all_types]. cbn [mbind res_bind].
  rewrite (roundtrip _ _ _ Hp E). reflexivity.
Qed.

Lemma peer_to_peer order m fs : proper m → connector_send order m = Ok fs → connector_receive fs = Delivered "" m.
Proof.
  intros Hp. unfold connector_send. destruct (serialize order m) as [p|] eqn:E; [|discriminate]. cbn. intros [= <-].
  unfold connector_receive, connector_valid. cbn [length]. rewrite type_known_value.
  pose proof (payload_nonempty _ _ _ E). destruct p as [|x p]; [done|]. cbn [length Nat.leb andb].
  rewrite enum_of_value; [|apply _|apply in_all_types]. cbn [mbind res_bind].
  rewrite (roundtrip _ _ _ Hp E). reflexivity.
Qed.
