(** * The counters of the sockets *)

From Verif.Model Require Import Base Message Transport Counters.
From Verif.Spec Require Import CountersSpec.
From Verif.Proofs Require Import MessageProofs TransportProofs.

Lemma type_name_inj t u : type_name t = type_name u → t = u.
Proof. destruct t, u; intros E; first [reflexivity | discriminate E]. Qed.

Lemma tells_ext counts f g : (∀ t, f t = g t) → tells counts f → tells counts g.
Proof. intros E T key n. rewrite (T key n). split; intros (t & ? & ? & ?); exists t; [rewrite <- E|rewrite E]; auto. Qed.

Lemma tells_none : tells ∅ (λ _, 0).
Proof. intros key n. rewrite lookup_empty. split; [discriminate|]. intros (t & _ & -> & H). lia. Qed.

Lemma tells_value counts f t : (∀ u, 0 ≤ f u) → tells counts f → default 0 (counts !! type_name t) = f t.
Proof.
  intros Hp T. destruct (counts !! type_name t) as [n|] eqn:E; cbn [default].
  - apply T in E as (u & Eu & -> & _). apply type_name_inj in Eu. subst u. reflexivity.
  - specialize (Hp t). destruct (Z.eq_dec (f t) 0) as [->|Hn]; [reflexivity|].
    assert (counts !! type_name t = Some (f t)) as E2 by (apply T; exists t; repeat split; lia). congruence.
Qed.

Lemma tells_count counts f t : (∀ u, 0 ≤ f u) → tells counts f →
  tells (count_one t counts) (λ u, if same_type u t then f u + 1 else f u).
Proof.
  intros Hp T key n. unfold count_one. rewrite (tells_value _ _ t Hp T). unfold same_type.
  destruct (decide (type_name t = key)) as [<-|Hk].
  - rewrite lookup_insert. split.
    + intros [= <-]. exists t. rewrite bool_decide_eq_true_2 by reflexivity. specialize (Hp t). repeat split; lia.
    + intros (u & Eu & -> & _). apply type_name_inj in Eu. subst u. rewrite bool_decide_eq_true_2 by reflexivity. reflexivity.
  - rewrite lookup_insert_ne by exact Hk. rewrite (T key n).
    split; intros (u & -> & -> & H); exists u; (rewrite bool_decide_eq_false_2 in * by congruence); auto.
Qed.

Lemma handed_cons t x xs : handed t (x :: xs) =
  (match x with Handed _ m => if same_type t (message_type_of m) then 1 else 0 | _ => 0 end) + handed t xs.
Proof.
  unfold handed. cbn [List.filter]. destruct x as [s m| |m fs|e]; try reflexivity.
  destruct (same_type t (message_type_of m)); cbn [length]; lia.
Qed.
Lemma wired_cons t x xs : wired t (x :: xs) =
  (match x with Wired m _ => if same_type t (message_type_of m) then 1 else 0 | _ => 0 end) + wired t xs.
Proof.
  unfold wired. cbn [List.filter]. destruct x as [s m| |m fs|e]; try reflexivity.
  destruct (same_type t (message_type_of m)); cbn [length]; lia.
Qed.
Lemma handed_pos t xs : 0 ≤ handed t xs. Proof. unfold handed. lia. Qed.
Lemma wired_pos t xs : 0 ≤ wired t xs. Proof. unfold wired. lia. Qed.

(** What one step does to the counters when nothing is raised. *)
Definition counts_right (step : statistics → socket_event → statistics * socket_effect) : Prop :=
  ∀ s e s' x, step s e = (s', x) → (∀ e, x ≠ Failure e) →
  match x with
  | Handed _ m => s' = count_received (message_type_of m) s
  | Wired m _ => s' = count_sent (message_type_of m) s
  | _ => s' = s
  end.

Lemma binder_counts : counts_right binder_step.
Proof.
  intros s e s' x E Hf. destruct e as [frames|order to m]; cbn [binder_step] in E; cbv zeta in E.
  - destruct (binder_valid frames); [|injection E as <- <-; reflexivity].
    destruct frames as [|source [|t payload]]; try (injection E as <- <-; reflexivity).
    destruct (enum_of type_value all_types t) as [ty|]; [|injection E as <- <-; destruct (Hf e eq_refl)].
    destruct (deserialize ty payload) as [m|ex] eqn:Ed; injection E as <- <-; [|destruct (Hf ex eq_refl)].
    apply deserialize_type in Ed. subst ty. reflexivity.
  - destruct (binder_send order to m) as [fs|ex]; injection E as <- <-; [reflexivity|destruct (Hf ex eq_refl)].
Qed.

Lemma connector_counts : counts_right connector_step.
Proof.
  intros s e s' x E Hf. destruct e as [frames|order to m]; cbn [connector_step] in E; cbv zeta in E.
  - destruct (connector_valid frames); [|injection E as <- <-; reflexivity].
    destruct frames as [|t payload]; try (injection E as <- <-; reflexivity).
    destruct (enum_of type_value all_types t) as [ty|]; [|injection E as <- <-; destruct (Hf e eq_refl)].
    destruct (deserialize ty payload) as [m|ex] eqn:Ed; injection E as <- <-; [|destruct (Hf ex eq_refl)].
    apply deserialize_type in Ed. subst ty. reflexivity.
  - destruct (connector_send order m) as [fs|ex]; injection E as <- <-; [reflexivity|destruct (Hf ex eq_refl)].
Qed.

Lemma counts_run step : counts_right step → ∀ es s s' xs f g,
  (∀ t, 0 ≤ f t) → (∀ t, 0 ≤ g t) → tells (st_received s) f → tells (st_sent s) g →
  socket_run step s es = (s', xs) → no_failure xs →
  tells (st_received s') (λ t, f t + handed t xs) ∧ tells (st_sent s') (λ t, g t + wired t xs).
Proof.
  intros Hs. induction es as [|e es IH]; intros s s' xs f g Hf Hg Tf Tg E Hn; cbn [socket_run] in E.
  { injection E as <- <-. split; (eapply tells_ext; [|eassumption]); intros t; cbn; unfold handed, wired; cbn; lia. }
  destruct (step s e) as [s1 x] eqn:E1. destruct (socket_run step s1 es) as [s2 ys] eqn:E2. injection E as <- <-.
  assert (Hx : ∀ e, x ≠ Failure e) by (intros e0 ->; apply (Hn e0); left).
  assert (Hys : no_failure ys) by (intros e0 Hin; apply (Hn e0); right; exact Hin).
  pose proof (Hs _ _ _ _ E1 Hx) as H1. destruct x as [src m| |m fs|ex]; [subst s1..|destruct (Hx ex eq_refl)].
  - destruct (IH (count_received (message_type_of m) s) s2 ys (λ t, if same_type t (message_type_of m) then f t + 1 else f t) g) as [A B];
      [|exact Hg|exact (tells_count _ _ _ Hf Tf)|exact Tg|exact E2|exact Hys|].
    { intros t. specialize (Hf t). destruct (same_type _ _); lia. }
    split; [eapply tells_ext, A|eapply tells_ext, B]; intros t; rewrite ?handed_cons, ?wired_cons; [|lia].
    destruct (same_type _ _); lia.
  - destruct (IH s s2 ys f g Hf Hg Tf Tg E2 Hys) as [A B].
    split; [eapply tells_ext, A|eapply tells_ext, B]; intros t; rewrite ?handed_cons, ?wired_cons; lia.
  - destruct (IH (count_sent (message_type_of m) s) s2 ys f (λ t, if same_type t (message_type_of m) then g t + 1 else g t)) as [A B];
      [exact Hf| |exact Tf|exact (tells_count _ _ _ Hg Tg)|exact E2|exact Hys|].
    { intros t. specialize (Hg t). destruct (same_type _ _); lia. }
    split; [eapply tells_ext, A|eapply tells_ext, B]; intros t; rewrite ?handed_cons, ?wired_cons; [lia|].
    destruct (same_type _ _); lia.
Qed.

Lemma counters_true step : counts_right step → ∀ es s xs,
  socket_run step no_statistics es = (s, xs) → no_failure xs →
  tells (st_received s) (λ t, handed t xs) ∧ tells (st_sent s) (λ t, wired t xs).
Proof.
  intros Hs es s xs E Hn.
  apply (counts_run step Hs es no_statistics s xs (λ _, 0) (λ _, 0)) in E; [|lia|lia|exact tells_none|exact tells_none|exact Hn].
  exact E.
Qed.

(** The effects are those of the transport model. *)
Lemma binder_effect s frames : snd (binder_step s (Receive frames)) =
  match binder_receive frames with Ignored => Dropped | Delivered src m => Handed src m | Died e => Failure e end.
Proof.
  cbn [binder_step]. unfold binder_receive. destruct (binder_valid frames); [|reflexivity].
  destruct frames as [|source [|t payload]]; try reflexivity.
  destruct (enum_of type_value all_types t) as [ty|]; cbn [mbind res_bind]; [|reflexivity].
  destruct (deserialize ty payload); reflexivity.
Qed.
Lemma connector_effect s frames : snd (connector_step s (Receive frames)) =
  match connector_receive frames with Ignored => Dropped | Delivered src m => Handed src m | Died e => Failure e end.
Proof.
  cbn [connector_step]. unfold connector_receive. destruct (connector_valid frames); [|reflexivity].
  destruct frames as [|t payload]; try reflexivity.
  destruct (enum_of type_value all_types t) as [ty|]; cbn [mbind res_bind]; [|reflexivity].
  destruct (deserialize ty payload); reflexivity.
Qed.
