(** Facts about the basic definitions. *)

From Verif.Model Require Import Base.

Lemma N_of_ascii_inj a b : Ascii.N_of_ascii a = Ascii.N_of_ascii b → a = b.
Proof. intros E. rewrite <- (Ascii.ascii_N_embedding a), E. apply Ascii.ascii_N_embedding. Qed.

Lemma bytes_ltb_irrefl a : bytes_ltb a a = false.
Proof.
  induction a as [|x a IH]; cbn; [reflexivity|]. rewrite N.ltb_irrefl, N.eqb_refl. exact IH.
Qed.

Lemma bytes_ltb_trans a b c : bytes_ltb a b = true → bytes_ltb b c = true → bytes_ltb a c = true.
Proof.
  revert b c; induction a as [|x a IH]; intros [|y b] [|z c]; cbn; try congruence.
  destruct (N.ltb_spec (Ascii.N_of_ascii x) (Ascii.N_of_ascii y)) as [Hxy|Hxy];
  destruct (N.ltb_spec (Ascii.N_of_ascii y) (Ascii.N_of_ascii z)) as [Hyz|Hyz].
  - intros _ _. destruct (N.ltb_spec (Ascii.N_of_ascii x) (Ascii.N_of_ascii z)); [reflexivity|lia].
  - destruct (N.eqb_spec (Ascii.N_of_ascii y) (Ascii.N_of_ascii z)) as [E|]; [|congruence].
    intros _ _. rewrite <- E. destruct (N.ltb_spec (Ascii.N_of_ascii x) (Ascii.N_of_ascii y)); [reflexivity|lia].
  - destruct (N.eqb_spec (Ascii.N_of_ascii x) (Ascii.N_of_ascii y)) as [E|]; [|congruence].
    intros _ _. rewrite E. destruct (N.ltb_spec (Ascii.N_of_ascii y) (Ascii.N_of_ascii z)); [reflexivity|lia].
  - destruct (N.eqb_spec (Ascii.N_of_ascii x) (Ascii.N_of_ascii y)) as [E|]; [|congruence].
    destruct (N.eqb_spec (Ascii.N_of_ascii y) (Ascii.N_of_ascii z)) as [E'|]; [|congruence].
    intros H1 H2. rewrite E, E', N.ltb_irrefl, N.eqb_refl. eapply IH; eassumption.
Qed.

Lemma bytes_ltb_asym a b : bytes_ltb a b = true → bytes_ltb b a = false.
Proof.
  intros H1. destruct (bytes_ltb b a) eqn:H2; [|reflexivity].
  rewrite <- (bytes_ltb_irrefl a). symmetry. eapply bytes_ltb_trans; eassumption.
Qed.

Lemma bytes_ltb_total a b : bytes_ltb a b = false → bytes_ltb b a = false → a = b.
Proof.
  revert b; induction a as [|x a IH]; intros [|y b]; cbn; try congruence.
  destruct (N.ltb_spec (Ascii.N_of_ascii x) (Ascii.N_of_ascii y)); [congruence|].
  destruct (N.ltb_spec (Ascii.N_of_ascii y) (Ascii.N_of_ascii x)); [congruence|].
  assert (E : Ascii.N_of_ascii x = Ascii.N_of_ascii y) by lia.
  rewrite E, N.eqb_refl. intros H1 H2. apply N_of_ascii_inj in E as ->. f_equal. apply IH; assumption.
Qed.

Lemma take_out_perm {A} i (x : A) l :
  (take_out i x l).1 :: (take_out i x l).2 ≡ₚ x :: l.
Proof.
  revert x l; induction i as [|i IH]; intros x l; cbn; [reflexivity|].
  destruct l as [|y l]; [reflexivity|]. specialize (IH y l).
  destruct (take_out i y l) as [z l'']; cbn in *. rewrite <- IH. apply perm_swap.
Qed.

Lemma shuffle_perm {A} code (l : list A) : shuffle code l ≡ₚ l.
Proof.
  revert l; induction code as [|c code IH]; intros [|x l]; try reflexivity.
  cbn [shuffle]. pose proof (take_out_perm (c mod length (x :: l)) x l) as Hp.
  destruct (take_out (c mod length (x :: l)) x l) as [y l'']; cbn in Hp. rewrite IH. exact Hp.
Qed.

Lemma take_out_split {A} (l1 : list A) x y l2 :
  match l1 ++ y :: l2 with
  | [] => False
  | h :: t => h = x → take_out (length l1) h t = (y, l1 ++ l2)
  end.
Proof.
  revert x; induction l1 as [|z l1 IH]; intros x; cbn.
  - intros _. reflexivity.
  - intros _. destruct (l1 ++ y :: l2) as [|h t] eqn:E; [destruct l1; discriminate|].
    specialize (IH h eq_refl). rewrite IH. reflexivity.
Qed.

Lemma take_out_at {A} (l1 : list A) x l y l2 :
  x :: l = l1 ++ y :: l2 → take_out (length l1) x l = (y, l1 ++ l2).
Proof.
  intros E. pose proof (take_out_split l1 x y l2) as H. rewrite <- E in H. apply H. reflexivity.
Qed.

Lemma shuffle_all {A} (l l' : list A) : l ≡ₚ l' → ∃ code, shuffle code l = l'.
Proof.
  revert l; induction l' as [|y l' IH]; intros l Hp.
  - apply Permutation_nil_r in Hp. subst. exists []. reflexivity.
  - assert (Hin : y ∈ l) by (rewrite Hp; left).
    apply elem_of_list_split in Hin as (l1 & l2 & El).
    destruct l as [|x l]; [destruct l1; discriminate|].
    assert (Hp' : l1 ++ l2 ≡ₚ l').
    { apply (Permutation_cons_inv (a := y)). rewrite <- Hp, El. apply Permutation_middle. }
    destruct (IH _ Hp') as [code Hc]. exists (length l1 :: code).
    cbn [shuffle]. rewrite El at 1. rewrite Nat.mod_small.
    2:{ rewrite app_length. cbn. lia. }
    rewrite (take_out_at l1 x l y l2 El), Hc. reflexivity.
Qed.
