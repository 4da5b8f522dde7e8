(** Generic facts about histories. *)

From Verif.Model Require Import Base.
From Verif.Spec Require Import HistorySpec.

Section history.
Context {E : Type}.
Lemma occ_app (p : E → bool) h1 h2 : occurrences p (h1 ++ h2) = (occurrences p h1 + occurrences p h2)%nat.
Proof. unfold occurrences. rewrite List.filter_app, app_length. reflexivity. Qed.
Lemma occ_one (p : E → bool) e : occurrences p [e] = if p e then 1%nat else 0%nat.
Proof. unfold occurrences; cbn. destruct (p e); reflexivity. Qed.
Lemma occ_none (p : E → bool) h : (∀ e, e ∈ h → p e = false) → occurrences p h = 0%nat.
Proof.
  intros Hp. unfold occurrences. induction h as [|e h IH]; [reflexivity|]. cbn. rewrite Hp by set_solver. apply IH. set_solver.
Qed.
Lemma occ_pos (p : E → bool) h e : e ∈ h → p e = true → (1 <= occurrences p h)%nat.
Proof.
  intros Hin Hp. apply elem_of_list_split in Hin as (h1 & h2 & ->). rewrite occ_app.
  change (e :: h2) with ([e] ++ h2). rewrite occ_app, occ_one, Hp. lia.
Qed.

Lemma always_nil (P : list E → E → Prop) : always P []. Proof. intros [|x b] e a H; discriminate. Qed.
Lemma always_app (P : list E → E → Prop) h l :
  always P h → (∀ b e a, l = b ++ e :: a → P (h ++ b) e) → always P (h ++ l).
Proof.
  intros H Hl b e a Eq.
  destruct (decide (length b < length h)%nat) as [Hlt|Hge].
  - assert (Hx : ∃ h', h = b ++ e :: h').
    { clear -Eq Hlt. revert h Eq Hlt; induction b as [|x b IH]; intros h Eq Hlt; destruct h as [|y h]; cbn in *; try lia.
      - injection Eq as <- Eq. eauto.
      - injection Eq as <- Eq. destruct (IH h Eq) as [h' ->]; [lia|]. eauto. }
    destruct Hx as [h' ->]. eapply H. reflexivity.
  - assert (Hx : ∃ b', b = h ++ b' ∧ l = b' ++ e :: a).
    { clear -Eq Hge. revert b Eq Hge; induction h as [|y h IH]; intros b Eq Hge; cbn in *.
      - exists b. auto.
      - destruct b as [|x b]; [cbn in *; lia|]. injection Eq as -> Eq.
        destruct (IH b Eq) as (b' & -> & ->); [cbn in *; lia|]. exists b'. auto. }
    destruct Hx as (b' & -> & ->). apply (Hl b' e a). reflexivity.
Qed.
Lemma always_snoc (P : list E → E → Prop) h e : always P h → P h e → always P (h ++ [e]).
Proof.
  intros H He. apply always_app; [exact H|]. intros [|b0 b] e' a Eq.
  - injection Eq as <- <-. rewrite app_nil_r. exact He.
  - destruct b; discriminate.
Qed.
Lemma always_inv (P : list E → E → Prop) h l : always P (h ++ l) → always P h.
Proof. intros H b e a ->. eapply H. rewrite <- app_assoc. reflexivity. Qed.

Lemma always_at (P : list E → E → Prop) h e l : always P (h ++ e :: l) → P h e.
Proof. intros H. eapply H. reflexivity. Qed.

Lemma total_app (f : E → nat) h1 h2 : total f (h1 ++ h2) = (total f h1 + total f h2)%nat.
Proof. unfold total. apply sum_list_with_app. Qed.
Lemma occ_cons (p : E → bool) e h : occurrences p (e :: h) = ((if p e then 1 else 0) + occurrences p h)%nat.
Proof. unfold occurrences. cbn. destruct (p e); reflexivity. Qed.
Lemma occ_nil (p : E → bool) : occurrences p [] = 0%nat. Proof. reflexivity. Qed.

(** Checking [always] by computation, for the examples. *)
Fixpoint checked (p : list E → E → bool) (before h : list E) : bool :=
  match h with [] => true | e :: h => p before e && checked p (before ++ [e]) h end.
Lemma checked_always (p : list E → E → bool) (P : list E → E → Prop) h :
  (∀ b e, p b e = true → P b e) → checked p [] h = true → always P h.
Proof.
  intros Hp. assert (Hg : ∀ h b, checked p b h = true → ∀ before e after, h = before ++ e :: after → P (b ++ before) e).
  { induction h0 as [|x l IH]; intros b H before e after Eq; [destruct before; discriminate|].
    cbn in H. apply andb_true_iff in H as [H1 H2]. destruct before as [|y before]; injection Eq as <- Eq.
    - rewrite app_nil_r. auto.
    - specialize (IH _ H2 before e after Eq). rewrite <- app_assoc in IH. exact IH. }
  intros H before e after Eq. exact (Hg h [] H before e after Eq).
Qed.
End history.
