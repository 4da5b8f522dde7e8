(** Correctness of the transcribed heapq operations: they permute, they keep the
    heap order, and heappop returns a least element. *)

From Coq Require Import ZifyNat.
From Verif.Model Require Import Base Heapq.
Ltac Zify.zify_post_hook ::= Z.to_euclidean_division_equations.

Lemma insert_perm {A} (l : list A) i x y :
  l !! i = Some x → x :: <[i := y]> l ≡ₚ y :: l.
Proof.
  revert i; induction l as [|z l IH]; intros [|i] E; cbn in *; try discriminate.
  - injection E as ->. apply perm_swap.
  - etransitivity; [apply perm_swap|]. etransitivity; [|apply perm_swap].
    constructor. apply IH. exact E.
Qed.

Lemma swap_perm {A} (v : list A) i j x y :
  v !! i = Some x → v !! j = Some y → i ≠ j → <[j := x]> (<[i := y]> v) ≡ₚ v.
Proof.
  intros Hi Hj Hne. apply (Permutation_cons_inv (a := y)).
  rewrite (insert_perm (<[i := y]> v) j y x).
  - apply insert_perm. exact Hi.
  - rewrite list_lookup_insert_ne by congruence. exact Hj.
Qed.

Section heap.
Context {A : Type} (ltb : A -> A -> bool).

Definition hle (a b : A) : Prop := ltb b a = false.

Context (lt_asym : ∀ a b, ltb a b = true → ltb b a = false).
Context (le_trans : ∀ a b c, hle a b → hle b c → hle a c).

Definition child (i c : nat) : Prop := c = (2 * i + 1)%nat ∨ c = (2 * i + 2)%nat.

Definition heap_ok (h : list A) : Prop :=
  ∀ i c x y, child i c → h !! i = Some x → h !! c = Some y → hle x y.

Lemma hle_refl a : hle a a.
Proof. unfold hle. destruct (ltb a a) eqn:E; [|reflexivity]. rewrite <- E. apply lt_asym in E. congruence. Qed.

Lemma heap_ok_nil : heap_ok [].
Proof. intros i c x y _ H. rewrite lookup_nil in H. discriminate. Qed.

(** All edges are fine except the one into [pos]. *)
Definition ok_but_up (v : list A) (pos : nat) : Prop :=
  (∀ i c x y, child i c → c ≠ pos → v !! i = Some x → v !! c = Some y → hle x y) ∧
  (∀ g c x y, child g pos → child pos c → v !! g = Some x → v !! c = Some y → hle x y).

(** All edges are fine except those touching [pos]. *)
Definition ok_but_around (v : list A) (pos : nat) : Prop :=
  (∀ i c x y, child i c → c ≠ pos → i ≠ pos → v !! i = Some x → v !! c = Some y → hle x y) ∧
  (∀ g c x y, child g pos → child pos c → v !! g = Some x → v !! c = Some y → hle x y).

Lemma swap_lookup (v : list A) i j x y k :
  v !! i = Some x → v !! j = Some y → i ≠ j →
  <[j := x]> (<[i := y]> v) !! k
  = if decide (k = j) then Some x else if decide (k = i) then Some y else v !! k.
Proof.
  intros Hi Hj Hne.
  apply lookup_lt_Some in Hi as Li. apply lookup_lt_Some in Hj as Lj.
  destruct (decide (k = j)) as [->|].
  - apply list_lookup_insert. rewrite insert_length. exact Lj.
  - rewrite list_lookup_insert_ne by congruence. destruct (decide (k = i)) as [->|].
    + apply list_lookup_insert. exact Li.
    + apply list_lookup_insert_ne. congruence.
Qed.

Lemma siftdown_loop_length fuel h pos new : length (siftdown_loop ltb fuel h pos new) = length h.
Proof.
  revert h pos; induction fuel as [|fuel IH]; intros h pos; cbn; [apply insert_length|].
  destruct (Nat.eqb pos 0); [apply insert_length|].
  destruct (h !! _); [|reflexivity]. destruct (ltb new a); [|apply insert_length].
  rewrite IH. apply insert_length.
Qed.

Lemma siftdown_loop_spec fuel h pos new v :
  (pos < length h)%nat → (pos <= fuel)%nat → v = <[pos := new]> h →
  siftdown_loop ltb fuel h pos new ≡ₚ v ∧
  (ok_but_up v pos → heap_ok (siftdown_loop ltb fuel h pos new)).
Proof.
  revert h pos v; induction fuel as [|fuel IH]; intros h pos v Hlt Hf ->.
  - cbn. split; [reflexivity|]. intros [P1 _] i c x y Hc. apply P1; [exact Hc|].
    unfold child in Hc. lia.
  - cbn [siftdown_loop]. destruct (Nat.eqb_spec pos 0) as [->|Hpos].
    { split; [reflexivity|]. intros [P1 _] i c x y Hc. apply P1; [exact Hc|].
      unfold child in Hc. lia. }
    assert (Hp : child ((pos - 1) / 2) pos) by (unfold child; lia).
    assert (Hne : ((pos - 1) / 2)%nat ≠ pos) by lia.
    destruct (h !! ((pos - 1) / 2)%nat) as [parent|] eqn:Ep.
    2:{ exfalso. apply lookup_ge_None in Ep. lia. }
    set (pp := ((pos - 1) / 2)%nat) in *.
    assert (Hvpos : <[pos := new]> h !! pos = Some new) by (apply list_lookup_insert; exact Hlt).
    assert (Hvpp : <[pos := new]> h !! pp = Some parent)
      by (rewrite list_lookup_insert_ne by congruence; exact Ep).
    destruct (ltb new parent) eqn:Elt.
    + assert (Ev : <[pp := new]> (<[pos := parent]> h)
                   = <[pp := new]> (<[pos := parent]> (<[pos := new]> h)))
        by (rewrite list_insert_insert; reflexivity).
      destruct (IH (<[pos := parent]> h) pp _ ltac:(rewrite insert_length; lia) ltac:(lia) (eq_sym Ev))
        as [IHp IHo].
      split.
      { rewrite IHp. apply swap_perm; auto. }
      intros [P1 P2]. apply IHo. clear IHo IHp IH.
      assert (Hlk : ∀ k, <[pp := new]> (<[pos := parent]> (<[pos := new]> h)) !! k
                = if decide (k = pp) then Some new else if decide (k = pos) then Some parent
                  else <[pos := new]> h !! k) by (intros k; apply swap_lookup; auto).
      split.
      * intros i c x y Hc Hcpp. rewrite !Hlk.
        rewrite (decide_False (P := c = pp)) by exact Hcpp.
        destruct (decide (c = pos)) as [->|Hcpos].
        { assert (i = pp) by (unfold child in *; lia). subst i.
          rewrite decide_True by reflexivity. intros [= <-] [= <-]. unfold hle. apply lt_asym; exact Elt. }
        destruct (decide (i = pp)) as [->|Hi].
        { intros [= <-] Hy. apply (le_trans _ parent).
          - unfold hle; apply lt_asym; exact Elt.
          - apply (P1 pp c parent y); auto. }
        destruct (decide (i = pos)) as [->|Hi'].
        { intros [= <-] Hy. apply (P2 pp c parent y); auto. }
        intros Hx Hy. apply (P1 i c x y); auto.
      * intros g c x y Hg Hc. rewrite !Hlk.
        rewrite (decide_False (P := g = pp)) by (unfold child in *; lia).
        rewrite (decide_False (P := g = pos)) by (unfold child in *; lia).
        rewrite (decide_False (P := c = pp)) by (unfold child in *; lia).
        intros Hx.
        assert (Hgp : hle x parent) by (apply (P1 g pp x parent); auto).
        destruct (decide (c = pos)) as [->|Hcpos].
        { intros [= <-]. exact Hgp. }
        intros Hy. apply (le_trans _ parent); [exact Hgp|]. apply (P1 pp c parent y); auto.
    + split; [reflexivity|]. intros [P1 _] i c x y Hc Hx Hy.
      destruct (decide (c = pos)) as [->|Hcpos]; [|apply (P1 i c x y); auto].
      assert (i = pp) by (unfold child in *; lia). subst i.
      rewrite Hvpp in Hx. injection Hx as <-. rewrite Hvpos in Hy. injection Hy as <-. exact Elt.
Qed.

Lemma siftdown_perm h pos : siftdown ltb h pos ≡ₚ h.
Proof.
  unfold siftdown. destruct (h !! pos) as [new|] eqn:E; [|reflexivity].
  apply lookup_lt_Some in E as L.
  destruct (siftdown_loop_spec pos h pos new _ L ltac:(lia) eq_refl) as [H _].
  rewrite H. rewrite list_insert_id by exact E. reflexivity.
Qed.

Lemma siftdown_ok h pos : ok_but_up h pos → (pos < length h)%nat → heap_ok (siftdown ltb h pos).
Proof.
  intros P L. unfold siftdown. destruct (h !! pos) as [new|] eqn:E.
  2:{ apply lookup_ge_None in E. lia. }
  destruct (siftdown_loop_spec pos h pos new _ L ltac:(lia) eq_refl) as [_ H].
  apply H. rewrite list_insert_id by exact E. exact P.
Qed.

Lemma heappush_perm h x : heappush ltb h x ≡ₚ x :: h.
Proof. unfold heappush. rewrite siftdown_perm. rewrite Permutation_app_comm. reflexivity. Qed.

Lemma heappush_ok h x : heap_ok h → heap_ok (heappush ltb h x).
Proof.
  intros Hok. unfold heappush. apply siftdown_ok.
  2:{ rewrite app_length; cbn; lia. }
  split.
  - intros i c a b Hc Hne Ha Hb. apply (Hok i c); auto.
    + apply lookup_lt_Some in Hb. rewrite app_length in Hb; cbn in Hb.
      rewrite lookup_app_l in Ha by (unfold child in *; lia). exact Ha.
    + apply lookup_lt_Some in Hb as L. rewrite app_length in L; cbn in L.
      rewrite lookup_app_l in Hb by lia. exact Hb.
  - intros g c a b _ Hc _ Hb. apply lookup_lt_Some in Hb. rewrite app_length in Hb; cbn in Hb.
    unfold child in Hc. lia.
Qed.

Lemma siftup_loop_spec fuel h pos new v :
  (pos < length h)%nat → (length h <= fuel + pos)%nat → v = <[pos := new]> h →
  let r := siftup_loop ltb fuel h pos new in
  r.1 ≡ₚ v ∧ length r.1 = length h ∧ (r.2 < length h)%nat ∧
  (ok_but_around v pos → ok_but_up r.1 r.2).
Proof.
  revert h pos v; induction fuel as [|fuel IH]; intros h pos v Hlt Hf ->; [lia|].
  cbn [siftup_loop].
  assert (Hvpos : <[pos := new]> h !! pos = Some new) by (apply list_lookup_insert; exact Hlt).
  (* the step to the child [c0] holding [a0], smaller than the other child *)
  assert (Hstep : ∀ c0 a0, child pos c0 → h !! c0 = Some a0 →
    (∀ c1 a1, child pos c1 → c1 ≠ c0 → h !! c1 = Some a1 → hle a0 a1) →
    let r := siftup_loop ltb fuel (<[pos := a0]> h) c0 new in
    r.1 ≡ₚ <[pos := new]> h ∧ length r.1 = length h ∧ (r.2 < length h)%nat ∧
    (ok_but_around (<[pos := new]> h) pos → ok_but_up r.1 r.2)).
  { intros c0 a0 Hc0 Ha0 Hmin. cbn zeta.
    assert (Hne : c0 ≠ pos) by (unfold child in *; lia).
    apply lookup_lt_Some in Ha0 as L0.
    assert (Hv0 : <[pos := new]> h !! c0 = Some a0)
      by (rewrite list_lookup_insert_ne by congruence; exact Ha0).
    assert (Ev : <[c0 := new]> (<[pos := a0]> h)
                 = <[c0 := new]> (<[pos := a0]> (<[pos := new]> h)))
      by (rewrite list_insert_insert; reflexivity).
    destruct (IH (<[pos := a0]> h) c0 _ ltac:(rewrite insert_length; lia)
                ltac:(rewrite insert_length; unfold child in *; lia) (eq_sym Ev)) as (Hp & Hl & Hr & Ho).
    rewrite insert_length in Hl, Hr.
    split; [rewrite Hp; apply swap_perm; auto|]. split; [exact Hl|]. split; [exact Hr|].
    intros [Q1 Q2]. apply Ho. clear Ho Hp Hl Hr IH.
    assert (Hlk : ∀ k, <[c0 := new]> (<[pos := a0]> (<[pos := new]> h)) !! k
              = if decide (k = c0) then Some new else if decide (k = pos) then Some a0
                else <[pos := new]> h !! k) by (intros k; apply swap_lookup; auto).
    split.
    - intros i c x y Hc Hcc Hic. rewrite !Hlk.
      rewrite (decide_False (P := c = c0)) by exact Hcc.
      rewrite (decide_False (P := i = c0)) by exact Hic.
      destruct (decide (i = pos)) as [->|Hi].
      + rewrite (decide_False (P := c = pos)) by (unfold child in *; lia).
        intros [= <-] Hy. apply (Hmin c y); auto.
        rewrite list_lookup_insert_ne in Hy by (unfold child in *; lia). exact Hy.
      + destruct (decide (c = pos)) as [->|Hcp].
        * intros Hx [= <-]. apply (Q2 i c0 x a0); auto.
        * intros Hx Hy. apply (Q1 i c x y); auto.
    - intros g c x y Hg Hc. rewrite !Hlk.
      assert (g = pos) by (unfold child in *; lia). subst g.
      rewrite (decide_False (P := pos = c0)) by congruence. rewrite decide_True by reflexivity.
      rewrite (decide_False (P := c = c0)) by (unfold child in *; lia).
      rewrite (decide_False (P := c = pos)) by (unfold child in *; lia).
      intros [= <-] Hy. apply (Q1 c0 c a0 y); auto. unfold child in *; lia. }
  destruct (h !! (2 * pos + 1)%nat) as [a|] eqn:Ea.
  - replace (2 * pos + 1 + 1)%nat with (2 * pos + 2)%nat by lia.
    destruct (h !! (2 * pos + 2)%nat) as [b|] eqn:Eb.
    + destruct (ltb a b) eqn:Elt.
      * apply Hstep; [unfold child; lia|exact Ea|].
        intros c1 a1 Hc1 Hn1 H1. assert (c1 = (2 * pos + 2)%nat) by (unfold child in *; lia). subst.
        rewrite Eb in H1. injection H1 as <-. unfold hle. apply lt_asym. exact Elt.
      * apply Hstep; [unfold child; lia|exact Eb|].
        intros c1 a1 Hc1 Hn1 H1. assert (c1 = (2 * pos + 1)%nat) by (unfold child in *; lia). subst.
        rewrite Ea in H1. injection H1 as <-. exact Elt.
    + apply Hstep; [unfold child; lia|exact Ea|].
      intros c1 a1 Hc1 Hn1 H1. assert (c1 = (2 * pos + 2)%nat) by (unfold child in *; lia). subst.
      congruence.
  - cbn. split; [reflexivity|]. rewrite insert_length. split; [reflexivity|]. split; [exact Hlt|].
    apply lookup_ge_None in Ea.
    intros [Q1 Q2]. split; [|exact Q2].
    intros i c x y Hc Hcp Hx Hy. apply (Q1 i c x y); auto.
    intros ->. apply lookup_lt_Some in Hy. rewrite insert_length in Hy. unfold child in *; lia.
Qed.

Lemma siftup_spec h : h ≠ [] →
  siftup ltb h ≡ₚ h ∧ (ok_but_around h 0 → heap_ok (siftup ltb h)).
Proof.
  intros Hne. unfold siftup. destruct h as [|new h]; [done|]. cbn [lookup list_lookup].
  set (l := new :: h) in *.
  assert (Hv : l = <[0%nat := new]> l) by reflexivity.
  assert (Hl : (0 < length l)%nat) by (cbn; lia).
  pose proof (siftup_loop_spec (length l) l 0 new l Hl ltac:(lia) Hv) as Hs. cbn zeta in Hs.
  destruct (siftup_loop ltb (length l) l 0 new) as [h' p]; cbn in Hs.
  destruct Hs as (Hp & Hlen & Hlt & Hok). split.
  - rewrite siftdown_perm. exact Hp.
  - intros Q. apply siftdown_ok; [apply Hok; exact Q|]. rewrite Hlen. exact Hlt.
Qed.

Lemma heappop_nil : heappop ltb [] = Raise IndexError.
Proof. reflexivity. Qed.

Lemma heap_min h x : heap_ok h → h !! 0%nat = Some x → ∀ y, y ∈ h → hle x y.
Proof.
  intros Hok Hx y Hy. apply elem_of_list_lookup in Hy as [i Hi].
  revert y Hi. induction i as [i IH] using lt_wf_ind. intros y Hi.
  destruct (decide (i = 0%nat)) as [->|Hne].
  - rewrite Hx in Hi. injection Hi as <-. apply hle_refl.
  - apply lookup_lt_Some in Hi as L.
    destruct (h !! ((i - 1) / 2)%nat) as [p|] eqn:Ep.
    2:{ apply lookup_ge_None in Ep. lia. }
    apply (le_trans _ p).
    + apply (IH ((i - 1) / 2)%nat); [lia|exact Ep].
    + apply (Hok ((i - 1) / 2)%nat i); auto. unfold child. lia.
Qed.

Lemma heappop_spec h : h ≠ [] →
  ∃ x h', heappop ltb h = Ok (x, h') ∧ h !! 0%nat = Some x ∧ h ≡ₚ x :: h' ∧
          (heap_ok h → heap_ok h' ∧ ∀ y, y ∈ h → hle x y).
Proof.
  intros Hne. destruct (last h) as [z|] eqn:El; [|apply last_None in El; done].
  apply last_Some in El as [l ->]. unfold heappop. rewrite last_snoc, removelast_last.
  destruct l as [|x l].
  - exists z, []. cbn. repeat split; auto.
    + apply heap_ok_nil.
    + intros y Hy. apply elem_of_list_singleton in Hy. subst. apply hle_refl.
  - exists x, (siftup ltb (<[0%nat:=z]> (x :: l))).
    destruct (siftup_spec (<[0%nat:=z]> (x :: l))) as [Hp Ho]; [discriminate|].
    split; [reflexivity|]. split; [reflexivity|]. split.
    + rewrite Hp. cbn. rewrite (Permutation_app_comm l [z]). reflexivity.
    + intros Hok. split.
      * apply Ho. split.
        -- intros i c a b Hc Hc0 Hi0 Ha Hb. apply (Hok i c); auto.
           ++ rewrite list_lookup_insert_ne in Ha by congruence.
              apply lookup_app_l_Some. exact Ha.
           ++ rewrite list_lookup_insert_ne in Hb by congruence.
              apply lookup_app_l_Some. exact Hb.
        -- intros g c a b Hg. unfold child in Hg. lia.
      * apply heap_min; [exact Hok|reflexivity].
Qed.

End heap.
