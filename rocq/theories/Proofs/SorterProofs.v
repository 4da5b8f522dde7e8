(** The topological sorter: counts, ready nodes, completion. *)

From Verif.Model Require Import Base Message Sorter.
From Verif.Proofs Require Import BaseProofs.

(** Predecessors of a node in the dictionary given to the sorter. *)
Definition pr (gr : list (bytes * list bytes)) (n : bytes) : list bytes := (gr ≫= λ p, if decide (p.1 = n) then p.2 else []).
Lemma pr_app gr1 gr2 n : pr (gr1 ++ gr2) n = pr gr1 n ++ pr gr2 n.
Proof. unfold pr. apply bind_app. Qed.
Lemma pr_one n ps m : pr [(n, ps)] m = if decide (n = m) then ps else [].
Proof. unfold pr. cbn. rewrite app_nil_r. reflexivity. Qed.
Lemma pr_fresh gr n : n ∉ gr.*1 → pr gr n = [].
Proof.
  induction gr as [|[m ps] gr IH]; [reflexivity|]. cbn. intros H. apply not_elem_of_cons in H as [H1 H2].
  rewrite decide_False by congruence. apply IH, H2.
Qed.
Lemma elem_of_pr gr n p : p ∈ pr gr n ↔ ∃ ps, (n, ps) ∈ gr ∧ p ∈ ps.
Proof.
  unfold pr. rewrite elem_of_list_bind. split.
  - intros ([m ps] & H1 & H2). cbn in H1. destruct (decide (m = n)) as [->|]; [eauto|set_solver].
  - intros (ps & H1 & H2). exists (n, ps). cbn. rewrite decide_True by reflexivity. auto.
Qed.

Lemma pr_nodup gr n : NoDup gr.*1 ∧ (∀ n ps, (n, ps) ∈ gr → NoDup ps) → NoDup (pr gr n).
Proof.
  induction gr as [|[m ps] gr IH]; intros [Hd Hp]; [constructor|]. cbn in Hd. apply NoDup_cons in Hd as [Hm Hd]. unfold pr. cbn.
  fold (pr gr n). case_decide as E; [subst m; rewrite pr_fresh by exact Hm; rewrite app_nil_r; apply (Hp n); left|].
  apply IH. split; [exact Hd|]. intros x qs Hx. apply (Hp x). right. exact Hx.
Qed.

(** ** Building *)
Record built (pr : bytes → list bytes) (cnt : bytes → Z) (dom : bytes → Prop) (s : sorter) : Prop := {
  b_info n k succ : so_info s !! n = Some (k, succ) → k = cnt n ∧ NoDup succ ∧ ∀ m, m ∈ succ ↔ n ∈ pr m;
  b_dom n : is_Some (so_info s !! n) ↔ dom n;
  b_order : NoDup (so_order s) ∧ ∀ n, n ∈ so_order s ↔ dom n;
  b_rest : so_ready s = [] ∧ so_passed s = 0 ∧ so_finished s = 0 }.

Lemma built_touch (pr : bytes → list bytes) (cnt : bytes → Z) (dom : bytes → Prop) s n : (¬ dom n → cnt n = 0) → (¬ dom n → ∀ m, n ∉ pr m) → built pr cnt dom s →
  built pr cnt (λ x, dom x ∨ x = n) (so_touch s n).
Proof.
  intros Hc Hp [H1 H2 [H3 H4] H5]. unfold so_touch. destruct (so_info s !! n) as [i|] eqn:En.
  - assert (dom n) as Hd by (apply H2; eauto). split; auto.
    + intros x. rewrite H2. split; [auto|]. intros [?| ->]; auto.
    + split; [exact H3|]. intros x. rewrite H4. split; [auto|]. intros [?| ->]; auto.
  - assert (¬ dom n) as Hd. { intros [x Hx]%H2. congruence. }
    split; cbn; auto.
    + intros x k succ. rewrite lookup_insert_Some. intros [[<- [= <- <-]]|[_ Hx]]; [|eauto].
      split; [symmetry; auto|]. split; [constructor|]. intros m. split; [set_solver|]. intros Hm. destruct (Hp Hd m Hm).
    + intros x. rewrite lookup_insert_is_Some, H2. destruct (decide (n = x)); naive_solver.
    + split.
      * apply NoDup_app. split; [exact H3|]. split; [|apply NoDup_singleton]. intros x Hx Hx'. apply elem_of_list_singleton in Hx' as ->. apply H4 in Hx. auto.
      * intros x. rewrite elem_of_app, H4, elem_of_list_singleton. reflexivity.
Qed.
Lemma built_ext (pr pr' : bytes → list bytes) (cnt cnt' : bytes → Z) (dom dom' : bytes → Prop) s : (∀ n, pr n = pr' n) → (∀ n, cnt n = cnt' n) → (∀ n, dom n ↔ dom' n) →
  built pr cnt dom s → built pr' cnt' dom' s.
Proof.
  intros E1 E2 E3 [H1 H2 [H3 H4] H5]. split; auto.
  - intros n k succ H. destruct (H1 _ _ _ H) as (-> & A & B). split; [auto|]. split; [exact A|]. intros m. rewrite B, E1. reflexivity.
  - intros n. rewrite H2. apply E3.
  - split; [exact H3|]. intros n. rewrite H4. apply E3.
Qed.
Definition upd {A} (f : bytes → A) (n : bytes) (v : A) : bytes → A := λ x, if decide (x = n) then v else f x.
Lemma built_add (pr : bytes → list bytes) (cnt : bytes → Z) (dom : bytes → Prop) s n ps : NoDup ps → (∀ m p, p ∈ pr m → dom p) → (∀ m, ¬ dom m → cnt m = 0) → cnt n = 0 → pr n = [] →
  built pr cnt dom s →
  built (upd pr n ps) (upd cnt n (Z.of_nat (length ps))) (λ x, dom x ∨ x = n ∨ x ∈ ps) (so_add s n ps).
Proof.
  intros Hnd Hcl Hz Hn Hpn H. unfold so_add.
  apply (built_touch _ _ _ _ n) in H; [|auto|intros Hd m Hm; apply Hd; eauto].
  set (s1 := so_touch s n) in *.
  assert (H1 : built (upd pr n []) (upd cnt n (Z.of_nat (length ps))) (λ x, dom x ∨ x = n) (so_alter (λ p, (p.1 + Z.of_nat (length ps), p.2)) n s1)).
  { destruct H as [A1 A2 A3 A4]. split; auto.
    - cbn. intros x k succ Hx. unfold upd. destruct (decide (x = n)) as [->|Hne].
      + rewrite lookup_alter in Hx. destruct (so_info s1 !! n) as [[k0 succ0]|] eqn:E0; [|discriminate]. cbn in Hx. injection Hx as <- <-.
        destruct (A1 _ _ _ E0) as (-> & B1 & B2). rewrite Hn. split; [lia|]. split; [exact B1|]. intros m. rewrite B2.
        case_decide as Hd; [subst m; rewrite Hpn; reflexivity|reflexivity].
      + rewrite lookup_alter_ne in Hx by auto. destruct (A1 _ _ _ Hx) as (-> & B1 & B2). split; [reflexivity|]. split; [exact B1|].
        intros m. rewrite B2. case_decide as Hd; [subst m; rewrite Hpn; reflexivity|reflexivity].
    - cbn. intros x. rewrite lookup_alter_is_Some. apply A2. }
  clear H. set (s2 := so_alter _ n s1) in *. clearbody s2. clear s1.
  assert (Hgo : ∀ done todo s, ps = done ++ todo →
    built (upd pr n done) (upd cnt n (Z.of_nat (length ps))) (λ x, dom x ∨ x = n ∨ x ∈ done) s →
    built (upd pr n ps) (upd cnt n (Z.of_nat (length ps))) (λ x, dom x ∨ x = n ∨ x ∈ ps)
      (foldl (λ s p, so_alter (λ i, (i.1, i.2 ++ [n])) p (so_touch s p)) s todo)).
  2: { apply (Hgo [] ps s2 eq_refl). eapply built_ext; [..|exact H1]; auto. set_solver. }
  clear s2 H1. intros done todo. revert done. induction todo as [|p todo IH]; intros done s2 Eps H2; cbn [foldl].
  { rewrite app_nil_r in Eps. subst done. exact H2. }
  apply (IH (done ++ [p])); [rewrite <- app_assoc; exact Eps|].
  assert (p ∉ done) as Hpd. { rewrite Eps in Hnd. apply NoDup_app in Hnd as (_ & Hx & _). intros Hp. apply (Hx p Hp). left. }
  apply (built_touch _ _ _ _ p) in H2.
  2: { intros Hd. unfold upd. case_decide; [tauto|]. apply Hz. tauto. }
  2: { intros Hd m. unfold upd. case_decide; [exact Hpd|]. intros Hm. apply Hd. left. eapply Hcl, Hm. }
  set (s3 := so_touch s2 p) in *. destruct H2 as [A1 A2 A3 A4]. split; auto.
  - cbn. intros x k succ Hx. destruct (decide (x = p)) as [->|Hne].
    + rewrite lookup_alter in Hx. destruct (so_info s3 !! p) as [[k0 succ0]|] eqn:E0; [|discriminate]. cbn in Hx. injection Hx as <- <-.
      destruct (A1 _ _ _ E0) as (-> & B1 & B2). split; [reflexivity|].
      assert (n ∉ succ0). { rewrite B2. unfold upd. rewrite decide_True by reflexivity. exact Hpd. }
      split; [apply NoDup_app; split; [exact B1|]; split; [set_solver|apply NoDup_singleton]|].
      intros m. rewrite elem_of_app, B2, elem_of_list_singleton. unfold upd. case_decide; set_solver.
    + rewrite lookup_alter_ne in Hx by auto. destruct (A1 _ _ _ Hx) as (-> & B1 & B2). split; [reflexivity|]. split; [exact B1|].
      intros m. rewrite B2. unfold upd. case_decide; set_solver.
  - cbn. intros x. rewrite lookup_alter_is_Some, A2. set_solver.
  - destruct A3 as [A3 A3']. split; [exact A3|]. intros x. cbn. rewrite A3'. set_solver.
Qed.

Definition good_dict (gr : list (bytes * list bytes)) : Prop := NoDup gr.*1 ∧ ∀ n ps, (n, ps) ∈ gr → NoDup ps.
Definition node_in (gr : list (bytes * list bytes)) (n : bytes) : Prop := n ∈ gr.*1 ∨ ∃ m, n ∈ pr gr m.
Lemma built_of_graph gr : good_dict gr → built (pr gr) (λ n, Z.of_nat (length (pr gr n))) (node_in gr) (so_of_graph gr).
Proof.
  unfold so_of_graph. induction gr as [|[n ps] gr IH] using rev_ind; intros [Hd Hps].
  { cbn. split; cbn; auto.
    - intros n k succ. rewrite lookup_empty. discriminate.
    - intros n. rewrite lookup_empty. unfold node_in. cbn. split; [intros [? ?]; discriminate|]. unfold pr. cbn. set_solver.
    - split; [constructor|]. intros n. unfold node_in, pr. cbn. set_solver. }
  rewrite fmap_app in Hd. apply NoDup_app in Hd as (Hd1 & Hd2 & _).
  assert (n ∉ gr.*1) as Hn. { intros Hn. apply (Hd2 n Hn). left. }
  rewrite foldl_app. cbn [foldl fst snd].
  assert (IH' : good_dict gr). { split; [exact Hd1|]. intros m qs Hm. apply (Hps m). apply elem_of_app. auto. }
  apply (built_add _ _ _ _ n ps) in IH; [..|exact IH'].
  - eapply built_ext; [..|exact IH].
    + intros m. rewrite pr_app, pr_one. unfold upd. destruct (decide (m = n)) as [->|Hne].
      * rewrite decide_True by reflexivity. rewrite pr_fresh by exact Hn. reflexivity.
      * rewrite decide_False by auto. rewrite app_nil_r. reflexivity.
    + intros m. rewrite pr_app, pr_one. unfold upd. destruct (decide (m = n)) as [->|Hne].
      * rewrite decide_True by reflexivity. rewrite pr_fresh by exact Hn. reflexivity.
      * rewrite decide_False by auto. rewrite app_nil_r. reflexivity.
    + intros m. unfold node_in. rewrite fmap_app, elem_of_app. cbn. setoid_rewrite pr_app. setoid_rewrite elem_of_app. setoid_rewrite pr_one.
      split.
      * intros [[?|[x Hx]]|[->|Hx]]; [auto|right; eauto|left; right; left|]. right. exists n. right. rewrite decide_True by reflexivity. exact Hx.
      * intros [[?|Hx]|[x [Hx|Hx]]]; [auto|apply elem_of_list_singleton in Hx; auto|eauto|]. case_decide; [auto|set_solver].
  - apply (Hps n). apply elem_of_app. right. left.
  - intros m p Hp. right. eauto.
  - intros m Hm. assert (m ∉ gr.*1) by (unfold node_in in Hm; tauto). rewrite pr_fresh by assumption. reflexivity.
  - rewrite pr_fresh by exact Hn. reflexivity.
  - apply pr_fresh, Hn.
Qed.

(** ** Cycles *)
Lemma eliminate_ok gr (S : bytes → Prop) : (∀ n, S n → ∃ p, p ∈ pr gr n ∧ S p) →
  ∀ r gone order, eliminate r gr gone order = [] → (∀ n, n ∈ gone → ¬ S n) → ∀ n, n ∈ order → ¬ S n.
Proof.
  intros HS r. induction r as [|r IH]; intros gone order; cbn [eliminate]; [intros ->; set_solver|].
  set (blocked := λ n, existsb _ gr). intros He Hg.
  assert (Hgo : ∀ n, blocked n = false → ¬ S n).
  { intros n Hb Hn. destruct (HS n Hn) as (p & Hp & Sp). apply elem_of_pr in Hp as (ps & H1 & H2).
    apply not_true_iff_false in Hb. apply Hb. apply existsb_exists. exists (n, ps). split; [apply elem_of_list_In; exact H1|]. cbn.
    rewrite String.eqb_refl. cbn. apply existsb_exists. exists p. split; [apply elem_of_list_In; exact H2|].
    apply negb_true_iff. apply bool_decide_eq_false. intros Hx. exact (Hg p Hx Sp). }
  intros n Hn. destruct (blocked n) eqn:Eb; [|auto]. eapply IH; [exact He| |].
  - intros m. rewrite elem_of_union, elem_of_list_to_set. intros [Hm|Hm]; [auto|]. apply elem_of_list_In, filter_In in Hm as [_ Hm].
    apply Hgo. apply negb_true_iff. exact Hm.
  - apply elem_of_list_In, filter_In. split; [apply elem_of_list_In; exact Hn|exact Eb].
Qed.
Definition acyclic (gr : list (bytes * list bytes)) : Prop :=
  ∀ S : bytes → Prop, (∀ n, S n → ∃ p, p ∈ pr gr n ∧ S p) → ∀ n, node_in gr n → ¬ S n.
Lemma has_cycle_ok gr order : has_cycle gr order = false → (∀ n, node_in gr n → n ∈ order) → acyclic gr.
Proof.
  unfold has_cycle. destruct (eliminate _ _ _ _) eqn:E; [|discriminate]. intros _ Ho S HS n Hn.
  eapply eliminate_ok; [exact HS|exact E|set_solver|auto].
Qed.

(** ** Running *)
Definition is_done (s : sorter) (n : bytes) : Prop := ∃ succ, so_info s !! n = Some (-2, succ).
Global Instance is_done_dec s n : Decision (is_done s n).
Proof.
  unfold is_done. destruct (so_info s !! n) as [[k succ]|]; [|right; intros [? ?]; discriminate].
  destruct (decide (k = -2)) as [->|]; [left; eauto|right; intros [? [= ? ?]]; congruence].
Defined.
Definition open_preds (s : sorter) (l : list bytes) : list bytes := filter (λ p, ¬ is_done s p) l.
Definition outs (m : gmap bytes (Z * list bytes)) : Z := Z.of_nat (size (filter (λ p, p.2.1 = -1) m)).
Notation out s := (outs (so_info s)).
Record sorted (gr : list (bytes * list bytes)) (extra : list bytes) (s : sorter) : Prop := {
  st_info n k succ : so_info s !! n = Some (k, succ) →
    NoDup succ ∧ (∀ m, m ∈ succ ↔ n ∈ pr gr m) ∧
    ((k = -2 ∨ k = -1) ∧ open_preds s (pr gr n) = [] ∧ n ∉ extra ∨
     0 <= k ∧ k = Z.of_nat (length (open_preds s (pr gr n))) + (if decide (n ∈ extra) then 1 else 0));
  st_dom n : is_Some (so_info s !! n) ↔ node_in gr n;
  st_ready : NoDup (so_ready s) ∧ ∀ n, n ∈ so_ready s ↔ ∃ succ, so_info s !! n = Some (0, succ);
  st_nodup n : NoDup (pr gr n) }.
Definition balanced (s : sorter) : Prop := so_passed s - so_finished s = out s.

Lemma outs_insert m n (k k0 : Z) (sc sc0 : list bytes) : m !! n = Some (k0, sc0) →
  outs (<[n := (k, sc)]> m) = outs m + (if decide (k = -1) then 1 else 0) - (if decide (k0 = -1) then 1 else 0).
Proof.
  intros Hn. unfold outs. rewrite <- (insert_id m n (k0, sc0) Hn) at 2. rewrite <- !(insert_delete_insert m).
  assert (∀ k sc, size (filter (λ p : bytes * (Z * list bytes), p.2.1 = (-1)%Z) (<[n := (k, sc)]> (delete n m))) =
    (size (filter (λ p : bytes * (Z * list bytes), p.2.1 = (-1)%Z) (delete n m)) + (if decide (k = (-1)%Z) then 1 else 0))%nat) as H.
  { intros k' sc'. destruct (decide (k' = -1)) as [->|Hne].
    - rewrite map_filter_insert_True by reflexivity. rewrite map_size_insert_None; [lia|].
      rewrite map_filter_delete. apply lookup_delete.
    - rewrite map_filter_insert_False by (cbn; congruence). rewrite delete_idemp. lia. }
  rewrite !H. repeat case_decide; lia.
Qed.

Lemma sorted_prepare gr s : good_dict gr → so_prepare gr (so_of_graph gr) = Ok s →
  sorted gr [] s ∧ balanced s ∧ acyclic gr ∧ (∀ n k succ, so_info s !! n = Some (k, succ) → 0 <= k).
Proof.
  intros Hg. pose proof (built_of_graph gr Hg) as [H1 H2 [H3 H4] (H5 & H6 & H7)]. unfold so_prepare.
  destruct (has_cycle _ _) eqn:Hc; [discriminate|]. intros [= <-]. cbn.
  assert (Hk : ∀ n k succ, so_info (so_of_graph gr) !! n = Some (k, succ) → 0 <= k).
  { intros n k succ Hn. destruct (H1 _ _ _ Hn) as (-> & _). lia. }
  split; [|split; [|split; [eapply has_cycle_ok; [exact Hc|]; intros n; apply H4|exact Hk]]].
  set (s := Sorter _ _ _ _ _). split; cbn; auto using pr_nodup.
  - intros n k succ Hn. destruct (H1 _ _ _ Hn) as (-> & A & B). split; [exact A|]. split; [exact B|]. right.
    split; [lia|]. rewrite decide_False by set_solver. rewrite Z.add_0_r. f_equal. f_equal. symmetry. unfold open_preds. clear -Hk.
    induction (pr gr n) as [|p l IH]; [reflexivity|]. rewrite filter_cons_True; [rewrite IH; reflexivity|].
    intros [sc Hp]. apply Hk in Hp. lia.
  - split; [apply NoDup_ListNoDup, List.NoDup_filter, NoDup_ListNoDup, H3|].
    intros n. rewrite elem_of_list_In, filter_In, <- elem_of_list_In, H4. split.
    + intros [_ Hn]. destruct (so_info _ !! n) as [[k sc]|]; [|discriminate]. destruct k; try discriminate. eauto.
    + intros [sc Hn]. split; [apply H2; eauto|]. rewrite Hn. reflexivity.
  - unfold balanced. cbn. rewrite H6, H7. unfold outs.
    assert (filter (λ p : bytes * (Z * list bytes), p.2.1 = -1) (so_info (so_of_graph gr)) = ∅) as ->; [|rewrite map_size_empty; reflexivity].
    apply map_filter_empty_iff. intros n [k sc] Hn E. cbn in E. apply Hk in Hn. lia.
Qed.

Lemma alter_as_insert {A} (f : A → A) n (m : gmap bytes A) v : m !! n = Some v → alter f n m = <[n := f v]> m.
Proof.
  intros H. apply map_eq. intros x. destruct (decide (n = x)) as [<-|Hne].
  - rewrite lookup_alter, lookup_insert, H. reflexivity.
  - rewrite lookup_alter_ne, lookup_insert_ne by assumption. reflexivity.
Qed.

(** Handing out. *)
Definition hand (l : list bytes) (m : gmap bytes (Z * list bytes)) : gmap bytes (Z * list bytes) :=
  foldr (λ n m, alter (λ i, (-1, i.2)) n m) m l.
Lemma hand_lookup l m n : hand l m !! n = if decide (n ∈ l) then (λ i, (-1, i.2)) <$> m !! n else m !! n.
Proof.
  induction l as [|x l IH]; cbn; [rewrite decide_False by set_solver; reflexivity|]. fold (hand l m).
  destruct (decide (n = x)) as [->|Hne].
  - rewrite lookup_alter, IH. rewrite (decide_True (P := x ∈ x :: l)) by (left). case_decide; [|reflexivity].
    destruct (m !! x) as [[? ?]|]; reflexivity.
  - rewrite lookup_alter_ne by auto. rewrite IH. destruct (decide (n ∈ l)); [rewrite decide_True by (right; assumption)|rewrite decide_False by set_solver]; reflexivity.
Qed.
Lemma hand_outs l m : NoDup l → (∀ n, n ∈ l → ∃ k sc, m !! n = Some (k, sc) ∧ k ≠ -1) → outs (hand l m) = outs m + Z.of_nat (length l).
Proof.
  intros Hd. induction Hd as [|x l Hx Hd IH]; intros Hm; cbn; [lia|].
  destruct (Hm x) as (k & sc & Ex & Hk); [left|]. fold (hand l m).
  assert (Ex' : hand l m !! x = Some (k, sc)) by (rewrite hand_lookup, decide_False by exact Hx; exact Ex).
  rewrite (alter_as_insert _ _ _ _ Ex'). cbn. rewrite (outs_insert _ _ _ _ _ _ Ex'), IH by (intros; apply Hm; right; assumption).
  rewrite decide_True by reflexivity. rewrite decide_False by exact Hk. lia.
Qed.
Definition unhanded (s : sorter) (n : bytes) : Prop := ∃ k sc, so_info s !! n = Some (k, sc) ∧ 0 <= k.
Lemma open_preds_ext s s' l : (∀ p, p ∈ l → is_done s p ↔ is_done s' p) → open_preds s l = open_preds s' l.
Proof.
  unfold open_preds. induction l as [|p l IH]; intros H; [reflexivity|].
  assert (IH' := IH (λ p Hp, H p (elem_of_list_further _ _ _ Hp))). rewrite !filter_cons, IH'.
  specialize (H p (elem_of_list_here _ _)). destruct (decide (¬ is_done s p)), (decide (¬ is_done s' p)); tauto.
Qed.
Lemma get_ready_ok gr s s' l : sorted gr [] s → balanced s → so_get_ready s = (s', l) →
  sorted gr [] s' ∧ balanced s' ∧ NoDup l ∧ (∀ n, n ∈ l → unhanded s n) ∧
  (∀ n, is_done s' n ↔ is_done s n) ∧ (∀ n, unhanded s' n ↔ unhanded s n ∧ n ∉ l).
Proof.
  intros [H1 H2 [H3 H4] H5] Hb. unfold so_get_ready. fold (hand (so_ready s) (so_info s)). intros [= <- <-].
  set (s' := Sorter _ _ _ _ _). set (l := so_ready s) in *.
  assert (Hl : ∀ n, so_info s' !! n = if decide (n ∈ l) then (λ i, (-1, i.2)) <$> so_info s !! n else so_info s !! n) by (intros; apply hand_lookup).
  assert (Hdone : ∀ n, is_done s' n ↔ is_done s n).
  { intros n. unfold is_done. rewrite Hl. case_decide as Hn; [|reflexivity]. apply H4 in Hn as [sc ->]. cbn. split; intros [? ?]; congruence. }
  split; [|split; [|split; [exact H3|split; [|split; [exact Hdone|]]]]].
  - split; auto.
    + intros n k sc Hn. rewrite Hl in Hn.
      rewrite (open_preds_ext s' s) by (intros; apply Hdone). case_decide as Hin; [|auto].
      pose proof Hin as [sc0 E]%H4. rewrite E in Hn. cbn in Hn. injection Hn as <- <-. destruct (H1 _ _ _ E) as (A & B & [[? ?]|[_ C]]); [lia|].
      split; [exact A|]. split; [exact B|]. left. split; [auto|]. rewrite decide_False in C by set_solver. split; [|set_solver].
      destruct (open_preds s (pr gr n)); [reflexivity|cbn in C; lia].
    + intros n. rewrite <- H2, Hl. case_decide; [|reflexivity]. apply fmap_is_Some.
    + cbn. split; [constructor|]. intros n. split; [set_solver|]. intros [sc Hn]. change (so_info s' !! n = Some (0, sc)) in Hn. rewrite Hl in Hn. case_decide as Hin.
      * destruct (so_info s !! n); discriminate.
      * exfalso. apply Hin, H4. eauto.
  - unfold balanced in *. cbn. rewrite hand_outs; [lia|exact H3|]. intros n Hn. apply H4 in Hn as [sc E]. exists 0, sc. split; [exact E|lia].
  - intros n Hn. apply H4 in Hn as [sc E]. exists 0, sc. split; [exact E|lia].
  - intros n. unfold unhanded. rewrite Hl. case_decide as Hn.
    + split; [|tauto]. intros (k & sc & E & Hk). destruct (so_info s !! n); cbn in E; [injection E as <- <-; lia|discriminate].
    + tauto.
Qed.

Lemma release_ok gr s m rest : sorted gr (m :: rest) s → m ∉ rest → node_in gr m →
  let s' := so_release s m in
  sorted gr rest s' ∧ so_passed s' = so_passed s ∧ so_finished s' = so_finished s ∧ out s' = out s ∧
  (∀ n, is_done s' n ↔ is_done s n) ∧ (∀ n, unhanded s' n ↔ unhanded s n).
Proof.
  intros [H1 H2 [H3 H4] H5] Hm Hin. apply H2 in Hin as [[k sc] E]. unfold so_release. rewrite E. cbn zeta.
  set (s' := Sorter _ _ _ _ _).
  destruct (H1 _ _ _ E) as (A & B & [(_ & _ & C)|[_ C]]); [set_solver|]. rewrite decide_True in C by left.
  assert (Hi : ∀ n, so_info s' !! n = if decide (m = n) then Some (k - 1, sc) else so_info s !! n).
  { intros n. cbn. destruct (decide (m = n)) as [<-|Hne]; [apply lookup_insert|apply lookup_insert_ne; exact Hne]. }
  assert (Hdone : ∀ n, is_done s' n ↔ is_done s n).
  { intros n. unfold is_done. rewrite Hi. case_decide as Hn; [|reflexivity]. subst n. split; intros [sc' E']; [|rewrite E in E']; injection E' as E' _; lia. }
  split; [|split; [reflexivity|split; [reflexivity|split; [|split; [exact Hdone|]]]]].
  - split; auto.
    + intros n k' sc' Hn. rewrite Hi in Hn. rewrite (open_preds_ext s' s) by (intros; apply Hdone). case_decide as En.
      * subst n. injection Hn as <- <-. split; [exact A|]. split; [exact B|]. right. rewrite decide_False by exact Hm. lia.
      * destruct (H1 _ _ _ Hn) as (A' & B' & C'). split; [exact A'|]. split; [exact B'|]. destruct C' as [(C1 & C2 & C3)|[C1 C2]]; [left|right].
        -- split; [exact C1|]. split; [exact C2|set_solver].
        -- split; [exact C1|]. destruct (decide (n ∈ rest)); [rewrite decide_True in C2 by (right; assumption)|rewrite decide_False in C2 by set_solver]; exact C2.
    + intros n. rewrite <- H2, Hi. case_decide as En; [subst n; rewrite E; split; eauto|reflexivity].
    + assert (m ∉ so_ready s) as Hmr. { rewrite H4. intros [sc' E']. rewrite E in E'. injection E' as -> _. lia. }
      cbn [so_ready s']. split.
      * destruct (k - 1 =? 0); [|exact H3]. apply NoDup_app. split; [exact H3|]. split; [set_solver|apply NoDup_singleton].
      * intros n. rewrite Hi. destruct (Z.eqb_spec (k - 1) 0) as [Ek|Ek].
        -- rewrite elem_of_app, elem_of_list_singleton, H4, Ek. case_decide as En; [subst n; split; eauto|]. split; [intros [?|?]; [auto|congruence]|auto].
        -- case_decide as En; [subst n; split; [intros ?; tauto|intros [? [= ? ?]]; lia]|apply H4].
  - cbn. rewrite (outs_insert _ _ _ _ _ _ E). rewrite !decide_False by lia. lia.
  - intros n. unfold unhanded. rewrite Hi. case_decide as En; [|reflexivity]. subst n. rewrite E. split; intros (? & ? & [= <- <-] & ?).
    + exists k, sc. split; [reflexivity|lia].
    + exists (k - 1), sc. split; [reflexivity|lia].
Qed.
Lemma releases_ok gr l : ∀ s, sorted gr l s → NoDup l → (∀ m, m ∈ l → node_in gr m) →
  let s' := foldl so_release s l in
  sorted gr [] s' ∧ so_passed s' = so_passed s ∧ so_finished s' = so_finished s ∧ out s' = out s ∧
  (∀ n, is_done s' n ↔ is_done s n) ∧ (∀ n, unhanded s' n ↔ unhanded s n).
Proof.
  induction l as [|m l IH]; intros s H Hd Hin; cbn [foldl]; [repeat (split; [solve [auto]|]); auto|].
  apply NoDup_cons in Hd as [Hm Hd]. destruct (release_ok gr s m l H Hm) as (A1 & A2 & A3 & A4 & A5 & A6); [apply Hin; left|].
  destruct (IH _ A1 Hd) as (B1 & B2 & B3 & B4 & B5 & B6); [intros; apply Hin; right; assumption|].
  split; [exact B1|]. split; [congruence|]. split; [congruence|]. split; [congruence|]. split; intros n; [rewrite B5|rewrite B6]; auto.
Qed.
Lemma open_preds_done (s s' : sorter) n l : NoDup l → ¬ is_done s n → (∀ p, is_done s' p ↔ is_done s p ∨ p = n) →
  length (open_preds s l) = (length (open_preds s' l) + (if decide (n ∈ l) then 1 else 0))%nat.
Proof.
  intros Hd Hn Hs. induction Hd as [|p l Hp Hd IH]; [reflexivity|]. unfold open_preds in *. rewrite !filter_cons.
  destruct (decide (p = n)) as [->|Hne].
  - rewrite (decide_True (P := n ∈ n :: l)) by left. rewrite (decide_True (P := ¬ is_done s n)) by exact Hn.
    rewrite (decide_False (P := ¬ is_done s' n)) by (rewrite Hs; tauto). cbn. rewrite IH, decide_False by exact Hp. lia.
  - assert (Hio : (if decide (n ∈ p :: l) then 1 else 0)%nat = (if decide (n ∈ l) then 1 else 0)%nat) by (repeat case_decide; set_solver).
    rewrite Hio. destruct (decide (¬ is_done s p)) as [H1|H1].
    + rewrite (decide_True (P := ¬ is_done s' p)) by (rewrite Hs; tauto). cbn. lia.
    + rewrite (decide_False (P := ¬ is_done s' p)) by (rewrite Hs; tauto). lia.
Qed.
Lemma open_preds_in s l p : p ∈ open_preds s l ↔ p ∈ l ∧ ¬ is_done s p.
Proof. unfold open_preds. rewrite elem_of_list_filter. tauto. Qed.
Lemma done_ok gr s n s' : sorted gr [] s → balanced s → so_done s n = Ok s' →
  sorted gr [] s' ∧ balanced s' ∧ (∀ x, is_done s' x ↔ is_done s x ∨ x = n) ∧ (∀ x, unhanded s' x ↔ unhanded s x) ∧ ¬ unhanded s n ∧ node_in gr n.
Proof.
  intros [H1 H2 [H3 H4] H5] Hb. unfold so_done. destruct (so_info s !! n) as [[k sc]|] eqn:E; [|discriminate].
  destruct (Z.eqb_spec k (-1)) as [->|]; [|discriminate]. intros [= <-].
  set (s1 := so_alter _ n s).
  assert (Hi : ∀ x, so_info s1 !! x = if decide (n = x) then Some (-2, sc) else so_info s !! x).
  { intros x. cbn. destruct (decide (n = x)) as [<-|Hne]; [rewrite lookup_alter, E; reflexivity|apply lookup_alter_ne; exact Hne]. }
  assert (Hdone : ∀ x, is_done s1 x ↔ is_done s x ∨ x = n).
  { intros x. unfold is_done. rewrite Hi. case_decide as Ex; [subst x; split; eauto|]. split; [auto|]. intros [?| ->]; [auto|congruence]. }
  assert (Hnd : ¬ is_done s n). { intros [sc' E']. congruence. }
  destruct (H1 _ _ _ E) as (A & B & [(_ & C & _)|[? _]]); [|lia].
  assert (Hself : n ∉ sc). { rewrite B. intros Hx. assert (n ∈ open_preds s (pr gr n)) as Hx'; [apply open_preds_in; auto|rewrite C in Hx'; set_solver]. }
  assert (Hsub : ∀ x, open_preds s (pr gr x) = [] → open_preds s1 (pr gr x) = []).
  { intros x Hx. pose proof (open_preds_done s s1 n (pr gr x) (H5 x) Hnd Hdone) as Hlen. rewrite Hx in Hlen. cbn in Hlen.
    destruct (open_preds s1 (pr gr x)); [reflexivity|cbn in Hlen; lia]. }
  assert (Hs1 : sorted gr sc s1).
  { split; auto.
    - intros x k' sc' Hx. rewrite Hi in Hx. case_decide as Ex.
      + subst x. injection Hx as <- <-. split; [exact A|]. split; [exact B|]. left. auto.
      + destruct (H1 _ _ _ Hx) as (A' & B' & C'). split; [exact A'|]. split; [exact B'|]. destruct C' as [(C1 & C2 & _)|[C1 C2]]; [left|right].
        * split; [exact C1|]. split; [auto|]. rewrite B. intros Hx'. assert (n ∈ open_preds s (pr gr x)) as Hy; [apply open_preds_in; auto|rewrite C2 in Hy; set_solver].
        * split; [exact C1|]. rewrite decide_False in C2 by set_solver. rewrite (open_preds_done s s1 n (pr gr x) (H5 x) Hnd Hdone) in C2.
          destruct (decide (n ∈ pr gr x)) as [Hx'|Hx']; rewrite <- B in Hx'; [rewrite decide_True by exact Hx'|rewrite decide_False by exact Hx']; lia.
    - intros x. rewrite <- H2, Hi. case_decide as Ex; [subst x; rewrite E; split; eauto|reflexivity].
    - split; [exact H3|]. intros x. cbn [so_ready s1 so_alter]. rewrite H4, Hi. case_decide as Ex; [subst x; rewrite E; split; intros [? [= ?]]|reflexivity]. }
  destruct (releases_ok gr sc s1 Hs1 A) as (R1 & R2 & R3 & R4 & R5 & R6).
  { intros m Hm. apply B in Hm. unfold node_in. left. apply elem_of_pr in Hm as (ps & Hps & _). apply elem_of_list_fmap. exists (m, ps). auto. }
  set (s2 := foldl so_release s1 sc) in *.
  assert (Ho1 : out s1 = out s - 1).
  { unfold s1. cbn. rewrite (alter_as_insert _ _ _ _ E). cbn. rewrite (outs_insert _ _ _ _ _ _ E).
    rewrite decide_False by lia. rewrite decide_True by reflexivity. lia. }
  split; [|split; [|split; [|split; [|split]]]].
  - destruct R1 as [Q1 Q2 Q3 Q4]. split; auto.
  - unfold balanced in *. cbn. cbn in R2, R3. rewrite R2, R3, R4, Ho1. lia.
  - intros x. rewrite <- Hdone. exact (R5 x).
  - intros x. transitivity (unhanded s1 x); [exact (R6 x)|]. unfold unhanded. rewrite Hi. case_decide as Ex; [|reflexivity].
    subst x. rewrite E. split; intros (? & ? & [= <- <-] & ?); lia.
  - intros (? & ? & E' & ?). rewrite E in E'. injection E' as <- <-. lia.
  - apply H2. eauto.
Qed.
(** When nothing is active any more, every node is done. *)
Lemma inactive_all_done gr s : sorted gr [] s → balanced s → acyclic gr → so_is_active s = false → ∀ n, node_in gr n → is_done s n.
Proof.
  intros [H1 H2 [H3 H4] H5] Hb Hac Ha n Hn. unfold so_is_active in Ha. apply orb_false_iff in Ha as [Ha1 Ha2].
  apply Z.ltb_ge in Ha1. assert (so_ready s = []) as Hr by (destruct (so_ready s); [reflexivity|discriminate]).
  assert (Hout : out s = 0) by (unfold balanced, outs in *; lia).
  assert (Hno : ∀ x k sc, so_info s !! x = Some (k, sc) → k = -2 ∨ 0 < k).
  { intros x k sc Hx. assert (k ≠ -1). { intros ->. unfold outs in Hout.
      assert (filter (λ p : bytes * (Z * list bytes), p.2.1 = -1) (so_info s) = ∅) as He by (apply map_size_empty_iff; lia).
      apply (map_filter_empty_not_lookup _ _ x (-1, sc)) in He; [|reflexivity]. auto. }
    assert (k ≠ 0). { intros ->. assert (x ∈ so_ready s) as Hin by (apply H4; eauto). rewrite Hr in Hin. set_solver. }
    destruct (H1 _ _ _ Hx) as (_ & _ & [([?|?] & _)|[? _]]); lia. }
  destruct (decide (is_done s n)) as [|Hnd]; [assumption|exfalso].
  apply (Hac (λ x, node_in gr x ∧ ¬ is_done s x)) with n; [|exact Hn|auto].
  intros x [Hx Hxd]. apply H2 in Hx as [[k sc] Ex]. destruct (Hno _ _ _ Ex) as [->|Hk]; [destruct Hxd; exists sc; exact Ex|].
  destruct (H1 _ _ _ Ex) as (_ & _ & [([?|?] & _)|[_ C]]); [lia..|]. rewrite decide_False in C by set_solver.
  destruct (open_preds s (pr gr x)) as [|p l] eqn:Eo; [cbn in C; lia|].
  assert (p ∈ open_preds s (pr gr x)) as Hp by (rewrite Eo; left). apply open_preds_in in Hp as [Hp Hpd].
  exists p. split; [exact Hp|]. split; [|exact Hpd]. right. eauto.
Qed.
