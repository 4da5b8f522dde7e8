(** Floats and the mean load of the workers (C11). *)

From Verif.Model Require Import Base Float Allocator.
From Verif.Proofs Require Import BaseProofs.

Lemma nearest_error p q : 0 < q → 2 * Z.abs (nearest p q * q - p) <= q.
Proof.
  intros Hq. unfold nearest. pose proof (Z.div_mod p q ltac:(lia)) as E. pose proof (Z.mod_pos_bound p q Hq) as R. set (d := p / q) in *. set (r := p mod q) in *.
  destruct (2 * r <? q) eqn:E1; [apply Z.ltb_lt in E1; nia|]. apply Z.ltb_ge in E1. destruct (q <? 2 * r) eqn:E2; [apply Z.ltb_lt in E2; nia|]. apply Z.ltb_ge in E2.
  destruct (Z.even d); nia.
Qed.
Lemma nearest_exact m q : 0 < q → nearest (m * q) q = m.
Proof. intros Hq. unfold nearest. rewrite Z.div_mul, Z.mod_mul by lia. destruct (2 * 0 <? q) eqn:E; [reflexivity|apply Z.ltb_ge in E; lia]. Qed.

Lemma exponent_below p q : 0 < p → 0 < q → q * 2 ^ Z.max 0 (exponent p q) <= p * 2 ^ Z.max 0 (- exponent p q).
Proof.
  intros Hp Hq. unfold exponent. set (k := Z.log2 p - Z.log2 q). destruct (_ <=? _) eqn:E; [apply Z.leb_le, E|].
  pose proof (Z.log2_spec p Hp) as [P1 P2]. pose proof (Z.log2_spec q Hq) as [Q1 Q2]. pose proof (Z.log2_nonneg p). pose proof (Z.log2_nonneg q).
  clear E. destruct (Z.le_gt_cases (k - 1) 0) as [Hk|Hk].
  - rewrite (Z.max_l 0 (k - 1)), (Z.max_r 0 (- (k - 1))) by lia. rewrite Z.mul_1_r.
    apply Z.le_trans with (2 ^ Z.log2 p * 2 ^ (- (k - 1))); [|apply Z.mul_le_mono_nonneg_r; [apply Z.pow_nonneg; lia|exact P1]].
    rewrite <- Z.pow_add_r by lia. replace (Z.log2 p + - (k - 1)) with (Z.succ (Z.log2 q)) by (unfold k; lia). lia.
  - rewrite (Z.max_r 0 (k - 1)), (Z.max_l 0 (- (k - 1))) by lia. rewrite Z.mul_1_r.
    apply Z.le_trans with (2 ^ Z.succ (Z.log2 q) * 2 ^ (k - 1)); [apply Z.mul_le_mono_nonneg_r; [apply Z.pow_nonneg; lia|lia]|].
    rewrite <- Z.pow_add_r by lia. replace (Z.succ (Z.log2 q) + (k - 1)) with (Z.log2 p) by (unfold k; lia). exact P1.
Qed.
Lemma exponent_above p q : 0 < p → 0 < q → p * 2 ^ Z.max 0 (- exponent p q) < 2 * q * 2 ^ Z.max 0 (exponent p q).
Proof.
  intros Hp Hq. unfold exponent. set (k := Z.log2 p - Z.log2 q).
  pose proof (Z.log2_spec p Hp) as [P1 P2]. pose proof (Z.log2_spec q Hq) as [Q1 Q2]. pose proof (Z.log2_nonneg p). pose proof (Z.log2_nonneg q).
  destruct (_ <=? _) eqn:E.
  - clear E. destruct (Z.le_gt_cases k 0) as [Hk|Hk].
    + rewrite (Z.max_l 0 k), (Z.max_r 0 (- k)) by lia. apply Z.lt_le_trans with (2 ^ Z.succ (Z.log2 p) * 2 ^ (- k)); [apply Z.mul_lt_mono_pos_r; [apply Z.pow_pos_nonneg; lia|exact P2]|].
      rewrite <- Z.pow_add_r by lia. replace (Z.succ (Z.log2 p) + - k) with (Z.succ (Z.log2 q)) by (unfold k; lia). rewrite Z.pow_succ_r by lia. lia.
    + rewrite (Z.max_r 0 k), (Z.max_l 0 (- k)) by lia. rewrite Z.pow_0_r, Z.mul_1_r. apply Z.lt_le_trans with (2 ^ Z.succ (Z.log2 p)); [exact P2|].
      replace (Z.succ (Z.log2 p)) with (1 + (Z.log2 q + k)) by (unfold k; lia). rewrite !Z.pow_add_r by lia. change (2 ^ 1) with 2. rewrite Z.mul_assoc. apply Z.mul_le_mono_nonneg_r; [apply Z.pow_nonneg; lia|lia].
  - apply Z.leb_gt in E. destruct (Z.le_gt_cases k 0) as [Hk|Hk].
    + rewrite (Z.max_l 0 k), (Z.max_r 0 (- k)) in E by lia. rewrite (Z.max_l 0 (k - 1)), (Z.max_r 0 (- (k - 1))) by lia. replace (- (k - 1)) with (1 + - k) by lia. rewrite Z.pow_add_r by lia. change (2 ^ 1) with 2. lia.
    + rewrite (Z.max_r 0 k), (Z.max_l 0 (- k)) in E by lia. rewrite (Z.max_r 0 (k - 1)), (Z.max_l 0 (- (k - 1))) by lia. replace k with (1 + (k - 1)) in E by lia. rewrite Z.pow_add_r in E by lia. change (2 ^ 1) with 2 in E. lia.
Qed.

(** Correctly rounded: the error is at most 2^-53 of the value. *)
Lemma float_error p q : 0 <= p → 0 < q → let '(a, b) := float_of p q in 0 < b ∧ 2 ^ 53 * Z.abs (a * q - p * b) <= p * b.
Proof.
  intros Hp Hq. unfold float_of. destruct (p =? 0) eqn:E0; [apply Z.eqb_eq in E0; subst; lia|]. apply Z.eqb_neq in E0. assert (Hp' : 0 < p) by lia. clear E0 Hp.
  pose proof (exponent_below p q Hp' Hq) as Hb. set (k := exponent p q) in *. clearbody k. destruct (52 - k <? 0) eqn:E.
  - apply Z.ltb_lt in E. split; [lia|]. rewrite (Z.max_r 0 k), (Z.max_l 0 (- k)), Z.pow_0_r in Hb by lia. set (s := 2 ^ (- (52 - k))). assert (Hs : 0 < s) by (apply Z.pow_pos_nonneg; lia).
    assert (E2 : 2 ^ k = 2 ^ 52 * s) by (unfold s; rewrite <- Z.pow_add_r by lia; f_equal; lia). rewrite E2 in Hb. clearbody s. pose proof (nearest_error p (q * s) ltac:(lia)) as Hn. set (m := nearest p (q * s)) in *. clearbody m.
    replace (m * s * q - p * 1) with (m * (q * s) - p) by ring. change (2 ^ 53) with (2 * 2 ^ 52). clear -Hn Hb Hq Hs. set (x := Z.abs _) in *. clearbody x. nia.
  - apply Z.ltb_ge in E. assert (Hs : 0 < 2 ^ (52 - k)) by (apply Z.pow_pos_nonneg; lia). split; [exact Hs|]. pose proof (nearest_error (p * 2 ^ (52 - k)) q Hq) as Hn.
    set (m := nearest _ _) in *. clearbody m. assert (Hb' : q * 2 ^ 52 <= p * 2 ^ (52 - k)).
    { destruct (Z.le_gt_cases k 0) as [Hk|Hk].
      - rewrite (Z.max_l 0 k), (Z.max_r 0 (- k)), Z.pow_0_r in Hb by lia. replace (52 - k) with (- k + 52) by lia. rewrite Z.pow_add_r by lia. rewrite Z.mul_assoc. apply Z.mul_le_mono_nonneg_r; lia.
      - rewrite (Z.max_r 0 k), (Z.max_l 0 (- k)), Z.pow_0_r in Hb by lia. assert (E2 : 2 ^ 52 = 2 ^ k * 2 ^ (52 - k)) by (rewrite <- Z.pow_add_r by lia; f_equal; lia). rewrite E2, Z.mul_assoc. apply Z.mul_le_mono_nonneg_r; lia. }
    change (2 ^ 53) with (2 * 2 ^ 52). set (x := Z.abs _) in *. clearbody x. clear -Hn Hb'. lia.
Qed.
(** Integers below 2^53 are floats. *)
Lemma float_exact m q : 0 <= m < 2 ^ 53 → 0 < q → let '(a, b) := float_of (m * q) q in 0 < b ∧ a = m * b.
Proof.
  intros Hm Hq. unfold float_of. destruct (m * q =? 0) eqn:E0; [apply Z.eqb_eq in E0; assert (m = 0) by nia; lia|]. apply Z.eqb_neq in E0. assert (Hp : 0 < m * q) by nia. clear E0.
  pose proof (exponent_below (m * q) q Hp Hq) as Hb. set (k := exponent (m * q) q) in *. clearbody k. destruct (52 - k <? 0) eqn:E.
  - exfalso. apply Z.ltb_lt in E. rewrite (Z.max_r 0 k), (Z.max_l 0 (- k)), Z.pow_0_r in Hb by lia. assert (2 ^ 53 <= 2 ^ k) by (apply Z.pow_le_mono_r; lia). nia.
  - apply Z.ltb_ge in E. assert (Hs : 0 < 2 ^ (52 - k)) by (apply Z.pow_pos_nonneg; lia). split; [exact Hs|]. replace (m * q * 2 ^ (52 - k)) with (m * 2 ^ (52 - k) * q) by ring. apply nearest_exact, Hq.
Qed.

(** A worker's excess over the mean. *)
Lemma ceil_between x n m : 0 < n → (m - 1) * n < x <= m * n → ceil_div x n = m.
Proof. intros Hn H. unfold ceil_div. assert ((- x) / n = - m); [|lia]. symmetry. apply (Z.div_unique (- x) n (- m) (m * n - x)); nia. Qed.
Definition float_excess (s n c : Z) : option Z :=
  let mean := float_of s n in
  if c * mean.2 >? mean.1 then
    let count := float_of c 1 in
    let difference := float_of (count.1 * mean.2 - mean.1 * count.2) (count.2 * mean.2) in
    Some (ceil_div difference.1 difference.2)
  else None.
Lemma excess_exact s n c : 0 < n → 0 <= c <= s → s * n < 2 ^ 52 → float_excess s n c = if c * n >? s then Some (ceil_div (c * n - s) n) else None.
Proof.
  intros Hn Hc Hs. unfold float_excess. assert (Hs' : 0 <= s < 2 ^ 52) by nia.
  pose proof (float_error s n ltac:(lia) Hn) as Hm. pose proof (float_exact (s / n) n ltac:(split; [apply Z.div_pos; lia|]; apply Z.le_lt_trans with s; [apply Z.div_le_upper_bound; nia|lia]) Hn) as Hx.
  pose proof (float_exact c 1 ltac:(lia) ltac:(lia)) as Hcx. rewrite Z.mul_1_r in Hcx. destruct (float_of c 1) as [cp cq]. destruct Hcx as [Hcq ->]. cbn [fst snd].
  pose proof (Z.div_mod s n ltac:(lia)) as Ed. pose proof (Z.mod_pos_bound s n Hn) as Hr. set (m := s / n) in *. set (r := s mod n) in *.
  assert (Hm0 : 0 <= m) by (apply Z.div_pos; lia). clearbody m r.
  assert (Hexp : s < c * n → ceil_div (c * n - s) n = c - m) by (intros H; apply ceil_between; [exact Hn|nia]).
  assert (Hcmp : s < c * n ↔ m < c) by nia.
  destruct (Z.eq_dec r 0) as [->|Hr0].
  - (* the mean is an integer *)
    rewrite Z.add_0_r in Ed. rewrite (Z.mul_comm m n), <- Ed in Hx. destruct (float_of s n) as [a b]. destruct Hx as [Hb ->]. cbn [fst snd]. clear Hm.
    assert (E1 : (c * b >? m * b) = (c * n >? s)). { apply eq_true_iff_eq. rewrite !Z.gtb_lt. rewrite Hcmp. nia. }
    rewrite E1. destruct (c * n >? s) eqn:E2; [|reflexivity]. apply Z.gtb_lt in E2. rewrite (Hexp E2). f_equal.
    replace (c * cq * b - m * b * cq) with ((c - m) * (cq * b)) by ring. pose proof (float_exact (c - m) (cq * b) ltac:(lia) ltac:(nia)) as H. destruct (float_of _ _) as [x y]. destruct H as [Hy ->]. cbn [fst snd].
    apply ceil_between; [exact Hy|nia].
  - (* between m and m + 1, with a distance *)
    clear Hx. destruct (float_of s n) as [a b]. destruct Hm as [Hb Hm]. cbn [fst snd].
    assert (Ha : 2 * Z.abs (a * n - s * b) < b) by nia.
    assert (Hlo : 2 * (a * n) > b * (2 * m * n + 1)) by nia.
    assert (Hhi : 2 * (a * n) < b * (2 * (m + 1) * n - 1)) by nia. clear Ha Hm.
    assert (E1 : (c * b >? a) = (c * n >? s)). { apply eq_true_iff_eq. rewrite !Z.gtb_lt. rewrite Hcmp. split; intros H; [|]; nia. }
    rewrite E1. destruct (c * n >? s) eqn:E2; [|reflexivity]. apply Z.gtb_lt in E2. rewrite (Hexp E2). f_equal. apply Hcmp in E2.
    replace (c * cq * b - a * cq) with ((c * b - a) * cq) by ring. set (d := c * b - a).
    assert (Hd1 : 2 * n * d > b * (2 * n * (c - m - 1) + 1)) by (unfold d; nia). assert (Hd2 : 2 * n * d < b * (2 * n * (c - m) - 1)) by (unfold d; nia).
    assert (Hdb : d <= c * b) by (unfold d; nia). clearbody d. assert (Hd0 : 0 < d) by nia. pose proof (float_error (d * cq) (cq * b) ltac:(nia) ltac:(nia)) as H. destruct (float_of _ _) as [x y]. destruct H as [Hy H]. cbn [fst snd].
    assert (Herr : 2 ^ 53 * Z.abs (x * b - d * y) <= d * y).
    { replace (x * (cq * b) - d * cq * y) with ((x * b - d * y) * cq) in H by ring. rewrite Z.abs_mul, (Z.abs_eq cq) in H by lia. apply (Z.mul_le_mono_pos_r _ _ cq Hcq).
      replace (d * y * cq) with (d * cq * y) by ring. rewrite <- Z.mul_assoc. exact H. }
    clear H. set (X := x * b - d * y) in *. assert (EX : x * b = d * y + X) by (unfold X; ring). clearbody X.
    assert (Hcn : c * n < 2 ^ 52) by (eapply Z.le_lt_trans; [apply Z.mul_le_mono_nonneg_r; [lia|apply Hc]|exact Hs]).
    assert (Hsm : 2 * n * Z.abs X < b * y).
    { assert (H1 : n * (2 ^ 53 * Z.abs X) <= n * (c * b * y)) by (apply Z.mul_le_mono_nonneg_l; [lia|]; eapply Z.le_trans; [exact Herr|apply Z.mul_le_mono_nonneg_r; lia]).
      assert (H2 : c * n * (b * y) < 2 ^ 52 * (b * y)) by (apply Z.mul_lt_mono_pos_r; [nia|exact Hcn]). change (2 ^ 53) with (2 * 2 ^ 52) in H1. clear -H1 H2.
      apply (Z.mul_lt_mono_pos_l (2 ^ 52)); [lia|]. lia. }
    clear Herr Hcn Hs Hs' Hlo Hhi E1 Hexp Hcmp. apply ceil_between; [exact Hy|].
    assert (A1 : y * (2 * n * d) > y * (b * (2 * n * (c - m - 1) + 1))) by (apply Z.lt_gt, Z.mul_lt_mono_pos_l; lia).
    assert (A2 : y * (2 * n * d) < y * (b * (2 * n * (c - m) - 1))) by (apply Z.mul_lt_mono_pos_l; lia).
    assert (B : 2 * n * (x * b) = y * (2 * n * d) + 2 * n * X) by (rewrite EX; ring).
    assert (C1 : 2 * n * b * ((c - m - 1) * y) < 2 * n * b * x) by lia. assert (C2 : 2 * n * b * x < 2 * n * b * ((c - m) * y)) by lia.
    apply Z.mul_lt_mono_pos_l in C1; [|nia]. apply Z.mul_lt_mono_pos_l in C2; [|nia]. lia.
Qed.
Lemma sum_bound (l : list Z) c : (∀ x, x ∈ l → 0 <= x) → c ∈ l → c <= foldr Z.add 0 l.
Proof.
  induction l as [|x l IH]; intros H Hc; [inversion Hc|]. cbn. assert (0 <= foldr Z.add 0 l). { clear -H. assert (∀ y, y ∈ l → 0 <= y) as H' by (intros y Hy; apply H; right; exact Hy). clear H. induction l as [|y l IH]; [reflexivity|]. cbn. pose proof (H' y ltac:(left)). assert (0 <= foldr Z.add 0 l); [|lia]. apply IH. intros z Hz. apply H'. right. exact Hz. }
  apply elem_of_cons in Hc as [->|Hc]; [lia|]. pose proof (H x ltac:(left)). pose proof (IH ltac:(intros y Hy; apply H; right; exact Hy) Hc). lia.
Qed.
Lemma balance_float_lemma a : foldr Z.add 0 ((λ p : bytes * gset bytes, Z.of_nat (size p.2)) <$> map_to_list (al_w2t a)) * Z.of_nat (size (al_w2t a)) < 2 ^ 52 →
  al_balance_float a = al_balance a.
Proof.
  intros H. unfold al_balance_float, al_balance. set (counts := (λ ts : gset bytes, Z.of_nat (size ts)) <$> al_w2t a).
  assert (Ev : (map_to_list counts).*2 ≡ₚ (λ p : bytes * gset bytes, Z.of_nat (size p.2)) <$> map_to_list (al_w2t a)).
  { unfold counts. rewrite map_to_list_fmap, <- list_fmap_compose. apply Permutation_refl', list_fmap_ext. intros i [] _. reflexivity. }
  assert (Es : foldr Z.add 0 (map_to_list counts).*2 = foldr Z.add 0 ((λ p : bytes * gset bytes, Z.of_nat (size p.2)) <$> map_to_list (al_w2t a))).
  { apply (foldr_permutation (=) Z.add 0); [|exact Ev]. intros. lia. }
  assert (El : length (map_to_list counts).*2 = size (al_w2t a)). { rewrite (Permutation_length Ev), fmap_length. reflexivity. }
  destruct (negb (existsb _ _)); [reflexivity|]. destruct (negb (negb _)); [reflexivity|]. rewrite El. rewrite <- Es in H.
  apply map_eq. intros w. rewrite !lookup_omap. destruct (counts !! w) as [c|] eqn:Ec; [|reflexivity]. cbn [mbind option_bind].
  assert (Hin : c ∈ (map_to_list counts).*2). { apply elem_of_list_fmap. exists (w, c). split; [reflexivity|]. apply elem_of_map_to_list. exact Ec. }
  assert (Hpos : ∀ x, x ∈ (map_to_list counts).*2 → 0 <= x). { intros x Hx. rewrite Ev in Hx. apply elem_of_list_fmap in Hx as (p & -> & _). lia. }
  apply (excess_exact (foldr Z.add 0 (map_to_list counts).*2) (Z.of_nat (size (al_w2t a))) c); [|split; [apply Hpos, Hin|apply sum_bound; [exact Hpos|exact Hin]]|exact H].
  assert (al_w2t a !! w ≠ None) as Hw. { unfold counts in Ec. rewrite lookup_fmap in Ec. destruct (al_w2t a !! w); [discriminate|discriminate]. }
  destruct (size (al_w2t a)) eqn:E; [|lia]. apply map_size_empty_inv in E. rewrite E in Hw. contradiction.
Qed.
