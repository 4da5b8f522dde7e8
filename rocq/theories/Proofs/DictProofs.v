(** Proofs that OneToManyDict and KeyValueDictSet refine their specifications. *)

From Verif.Model Require Import Base OneToManyDict.
From Verif.Spec Require Import DictSpec.

Section otm_proofs.
Context {K V : Type} `{Countable K} `{Countable V}.
Implicit Types (d : otm K V) (f : gmap V K).

Lemma elem_of_owned f k v : v ∈ owned f k ↔ f !! v = Some k.
Proof.
  unfold owned. rewrite elem_of_dom. unfold is_Some. split.
  - intros [k' Hk]. apply map_filter_lookup_Some in Hk as [Hk E]. cbn in E. congruence.
  - intros Hk. exists k. apply map_filter_lookup_Some. auto.
Qed.

Lemma owned_empty f k : owned f k = ∅ ↔ ∀ v, f !! v ≠ Some k.
Proof.
  rewrite <- leibniz_equiv_iff, elem_of_equiv_empty. setoid_rewrite elem_of_owned. reflexivity.
Qed.

(** The key map is determined by the value map. *)
Definition otm_inv d : Prop :=
  ∀ k s, o_k2v d !! k = Some s ↔ (s = owned (o_v2k d) k ∧ s ≠ ∅).

Lemma otm_inv_empty : otm_inv otm_empty.
Proof.
  intros k s. cbn. rewrite lookup_empty. split; [discriminate|].
  intros [-> Hne]. exfalso. apply Hne. apply owned_empty. intros v. rewrite lookup_empty. discriminate.
Qed.

Lemma otm_inv_lookup d k : otm_inv d →
  o_k2v d !! k = if decide (owned (o_v2k d) k = ∅) then None else Some (owned (o_v2k d) k).
Proof.
  intros I. destruct (decide _) as [E|E].
  - destruct (o_k2v d !! k) as [s|] eqn:Ek; [|reflexivity]. apply I in Ek as [-> ?]. done.
  - apply I. auto.
Qed.

Lemma otm_inv_intro k2v v2k :
  (∀ k, k2v !! k = if decide (owned v2k k = ∅) then None else Some (owned v2k k)) →
  otm_inv (OTM k2v v2k).
Proof.
  intros E k s. cbn. rewrite E. destruct (decide _) as [E'|E']; split.
  - discriminate.
  - intros [-> ?]; done.
  - intros [= <-]. auto.
  - intros [-> _]. reflexivity.
Qed.

Lemma owned_insert f k v k' : f !! v = None ∨ f !! v = Some k →
  owned (<[v:=k]> f) k' = if decide (k' = k) then {[v]} ∪ owned f k else owned f k'.
Proof.
  intros Hv. apply leibniz_equiv. intros w. rewrite elem_of_owned, lookup_insert_Some.
  destruct (decide (k' = k)) as [->|Hne].
  - rewrite elem_of_union, elem_of_singleton, elem_of_owned.
    destruct (decide (v = w)) as [->|]; intuition congruence.
  - rewrite elem_of_owned. destruct (decide (v = w)) as [->|]; intuition congruence.
Qed.

Lemma otm_add_spec d k v : otm_inv d →
  match o_v2k d !! v with
  | Some k' => if decide (k' = k)
               then ∃ d', otm_add d k v = Ok d' ∧ otm_inv d' ∧ o_v2k d' = o_v2k d
               else otm_add d k v = Raise ValueError
  | None => ∃ d', otm_add d k v = Ok d' ∧ otm_inv d' ∧ o_v2k d' = <[v := k]> (o_v2k d)
  end.
Proof.
  intros I.
  assert (Hgo : o_v2k d !! v = None ∨ o_v2k d !! v = Some k →
    otm_inv (OTM (alter (λ s, {[v]} ∪ s) k
      (match o_k2v d !! k with Some _ => o_k2v d | None => <[k := ∅]> (o_k2v d) end))
      (<[v := k]> (o_v2k d)))).
  { intros Hv. apply otm_inv_intro. intros k'. rewrite owned_insert by exact Hv.
    pose proof (otm_inv_lookup d k I) as Ek.
    destruct (decide (k' = k)) as [->|Hne].
    - rewrite lookup_alter. rewrite decide_False by set_solver.
      destruct (decide (owned (o_v2k d) k = ∅)) as [E|E]; rewrite Ek.
      + rewrite lookup_insert. cbn. rewrite E. reflexivity.
      + rewrite Ek. reflexivity.
    - rewrite lookup_alter_ne by congruence. rewrite <- (otm_inv_lookup d k' I).
      destruct (o_k2v d !! k); [reflexivity|]. apply lookup_insert_ne. congruence. }
  unfold otm_add. destruct (o_v2k d !! v) as [k'|] eqn:Ev; cbn.
  - destruct (decide (k' = k)) as [->|Hne].
    + rewrite bool_decide_eq_true_2 by reflexivity. cbn. eexists; split; [reflexivity|].
      split; [apply Hgo; auto|]. cbn. apply insert_id. exact Ev.
    + rewrite bool_decide_eq_false_2 by exact Hne. reflexivity.
  - eexists; split; [reflexivity|]. split; [apply Hgo; auto|reflexivity].
Qed.

Lemma pop_all_spec (m : gmap V K) vs :
  NoDup vs → (∀ v, v ∈ vs → is_Some (m !! v)) →
  pop_all m vs = Ok (filter (λ p, p.1 ∉ vs) m).
Proof.
  revert m; induction vs as [|v vs IH]; intros m Hnd Hin; cbn.
  - f_equal. symmetry. apply map_filter_id. intros. apply not_elem_of_nil.
  - apply NoDup_cons in Hnd as [Hv Hnd].
    destruct (Hin v) as [k Hk]; [left|]. rewrite Hk.
    rewrite IH; [|exact Hnd|].
    + f_equal. apply map_eq. intros w. apply option_eq. intros k'.
      rewrite !map_filter_lookup_Some, lookup_delete_Some, not_elem_of_cons. cbn.
      intuition congruence.
    + intros w Hw. rewrite lookup_delete_ne; [apply Hin; right; exact Hw|]. intros ->. done.
Qed.

Lemma otm_remove_key_spec d k : otm_inv d →
  if decide (owned (o_v2k d) k = ∅) then otm_remove_key d k = Raise KeyError
  else ∃ d', otm_remove_key d k = Ok (d', owned (o_v2k d) k) ∧ otm_inv d' ∧
             o_v2k d' = filter (λ p, p.2 ≠ k) (o_v2k d).
Proof.
  intros I. pose proof (otm_inv_lookup d k I) as Ek. unfold otm_remove_key.
  destruct (decide _) as [E|E]; rewrite Ek; [reflexivity|].
  rewrite pop_all_spec; [|apply NoDup_elements|].
  2:{ intros v Hv. apply elem_of_elements, elem_of_owned in Hv. eauto. }
  cbn.
  assert (Hf : filter (λ p, p.1 ∉ elements (owned (o_v2k d) k)) (o_v2k d)
               = filter (λ p, p.2 ≠ k) (o_v2k d)).
  { apply map_filter_ext. intros v k' Hv. cbn. rewrite elem_of_elements, elem_of_owned.
    rewrite Hv. split; congruence. }
  rewrite Hf. eexists; split; [reflexivity|]. split; [|reflexivity].
  apply otm_inv_intro. intros k'.
  assert (Ho : owned (filter (λ p, p.2 ≠ k) (o_v2k d)) k'
               = if decide (k' = k) then ∅ else owned (o_v2k d) k').
  { apply leibniz_equiv. intros v. rewrite elem_of_owned, map_filter_lookup_Some. cbn.
    destruct (decide (k' = k)) as [->|?].
    - split; [intros [? ?]; done|]. intros Hin. apply elem_of_empty in Hin as [].
    - rewrite elem_of_owned. intuition congruence. }
  rewrite Ho. destruct (decide (k' = k)) as [->|Hne].
  - rewrite lookup_delete. rewrite decide_True by reflexivity. reflexivity.
  - rewrite lookup_delete_ne by congruence. apply otm_inv_lookup. exact I.
Qed.

Lemma otm_remove_value_spec d v : otm_inv d →
  match o_v2k d !! v with
  | None => otm_remove_value d v = Raise ValueError
  | Some k => ∃ d', otm_remove_value d v = Ok (d', k) ∧ otm_inv d' ∧ o_v2k d' = delete v (o_v2k d)
  end.
Proof.
  intros I. unfold otm_remove_value. destruct (o_v2k d !! v) as [k|] eqn:Ev; [|reflexivity].
  pose proof (otm_inv_lookup d k I) as Ek.
  assert (Hin : v ∈ owned (o_v2k d) k) by (apply elem_of_owned; exact Ev).
  rewrite decide_False in Ek by set_solver. rewrite Ek.
  rewrite bool_decide_eq_true_2 by exact Hin.
  eexists; split; [reflexivity|]. split; [|reflexivity].
  apply otm_inv_intro. intros k'.
  assert (Ho : owned (delete v (o_v2k d)) k'
               = if decide (k' = k) then owned (o_v2k d) k ∖ {[v]} else owned (o_v2k d) k').
  { apply leibniz_equiv. intros w. rewrite elem_of_owned, lookup_delete_Some.
    destruct (decide (k' = k)) as [->|?].
    - rewrite elem_of_difference, elem_of_singleton, elem_of_owned. intuition congruence.
    - rewrite elem_of_owned. destruct (decide (v = w)) as [->|]; intuition congruence. }
  rewrite Ho. destruct (decide (k' = k)) as [->|Hne].
  - destruct (decide (owned (o_v2k d) k ∖ {[v]} = ∅)) as [E|E].
    + rewrite bool_decide_eq_true_2 by exact E. apply lookup_delete.
    + rewrite bool_decide_eq_false_2 by exact E. apply lookup_insert.
  - transitivity (o_k2v d !! k'); [|apply otm_inv_lookup; exact I].
    case_bool_decide; [apply lookup_delete_ne|apply lookup_insert_ne]; congruence.
Qed.

Lemma otm_has_key_spec d k : otm_inv d →
  otm_has_key d k = negb (bool_decide (owned (o_v2k d) k = ∅)).
Proof.
  intros I. unfold otm_has_key. rewrite (otm_inv_lookup d k I).
  destruct (decide _) as [E|E].
  - rewrite (bool_decide_eq_true_2 _ E). apply bool_decide_eq_false_2. intros [? ?]; discriminate.
  - rewrite (bool_decide_eq_false_2 _ E). apply bool_decide_eq_true_2. eauto.
Qed.

Lemma otm_keys_spec d : otm_inv d → dom (o_k2v d) = list_to_set (map_to_list (o_v2k d)).*2.
Proof.
  intros I. apply leibniz_equiv. intros k. rewrite elem_of_dom, elem_of_list_to_set.
  rewrite (otm_inv_lookup d k I). rewrite elem_of_list_fmap. split.
  - destruct (decide _) as [E|E]; intros [s Hs]; [discriminate|].
    apply set_choose_L in E as [v Hv]. apply elem_of_owned in Hv.
    exists (v, k). split; [reflexivity|]. apply elem_of_map_to_list. exact Hv.
  - intros ([v k'] & -> & Hin). apply elem_of_map_to_list in Hin. cbn.
    destruct (decide _) as [E|E]; [|eauto]. exfalso. apply elem_of_owned in Hin. rewrite E in Hin. set_solver.
Qed.

Lemma otm_call_refines d c : otm_inv d →
  otm_inv (otm_call d c).1 ∧
  owner_call (o_v2k d) c = (o_v2k (otm_call d c).1, (otm_call d c).2).
Proof.
  intros I. destruct c as [k v|k|v|k|v|v|k|]; cbn.
  - pose proof (otm_add_spec d k v I) as Ha. destruct (o_v2k d !! v) as [k'|] eqn:Ev.
    + destruct (decide (k' = k)) as [->|Hne].
      * destruct Ha as (d' & -> & I' & E). cbn. rewrite E. auto.
      * rewrite Ha. auto.
    + destruct Ha as (d' & -> & I' & E). cbn. rewrite E. auto.
  - pose proof (otm_remove_key_spec d k I) as Ha. destruct (decide _) as [E|E].
    + rewrite Ha. auto.
    + destruct Ha as (d' & -> & I' & E'). cbn. rewrite E'. auto.
  - pose proof (otm_remove_value_spec d v I) as Ha. destruct (o_v2k d !! v) as [k|].
    + destruct Ha as (d' & -> & I' & E'). cbn. rewrite E'. auto.
    + rewrite Ha. auto.
  - rewrite (otm_has_key_spec d k I). auto.
  - auto.
  - split; [exact I|]. unfold otm_get_key. destruct (o_v2k d !! v); reflexivity.
  - split; [exact I|]. unfold otm_get_values. rewrite (otm_inv_lookup d k I).
    destruct (decide _); reflexivity.
  - rewrite (otm_keys_spec d I). auto.
Qed.

Lemma otm_calls_refine ops d : otm_inv d →
  run_calls otm_call d ops = run_calls owner_call (o_v2k d) ops.
Proof.
  revert d; induction ops as [|c ops IH]; intros d I; [reflexivity|].
  cbn [run_calls]. destruct (otm_call_refines d c I) as [I' ->].
  destruct (otm_call d c) as [d' r]; cbn in *. f_equal. apply IH. exact I'.
Qed.

Lemma otm_refines (ops : list (otm_op K V)) : run_calls otm_call otm_empty ops = run_calls owner_call (∅ : gmap V K) ops.
Proof. exact (otm_calls_refine ops otm_empty otm_inv_empty). Qed.
End otm_proofs.

Section kvs_proofs.
Context {K V : Type} `{Countable K} `{Countable V}.
Implicit Types (d : kvs K V) (r : gset (K * V)).

Lemma elem_of_related r k v : v ∈ related r k ↔ (k, v) ∈ r.
Proof.
  unfold related. rewrite elem_of_map. split.
  - intros ([k' v'] & -> & Hin). apply elem_of_filter in Hin as [Hk Hin]. cbn in *. subst. exact Hin.
  - intros Hin. exists (k, v). split; [reflexivity|]. apply elem_of_filter. auto.
Qed.

Definition kvs_rep d r : Prop :=
  ∀ k, d !! k = if decide (related r k = ∅) then None else Some (related r k).

Lemma related_eq r k s : (∀ v, v ∈ s ↔ (k, v) ∈ r) → related r k = s.
Proof. intros E. apply leibniz_equiv. intros v. rewrite elem_of_related, E. reflexivity. Qed.

Lemma kvs_call_refines d r c : kvs_rep d r →
  kvs_rep (kvs_call d c).1 (relation_call r c).1 ∧ (relation_call r c).2 = (kvs_call d c).2.
Proof.
  intros R. destruct c as [k v|k|k v|k|k]; cbn.
  - split; [|reflexivity]. intros k'. unfold kvs_add.
    destruct (decide (k' = k)) as [->|Hne].
    + assert (E : related (r ∪ {[(k, v)]}) k = {[v]} ∪ related r k).
      { apply related_eq. intros w. rewrite elem_of_union, elem_of_singleton, elem_of_related.
        set_solver. }
      rewrite E, decide_False by set_solver. rewrite lookup_alter.
      pose proof (R k) as Ek. destruct (decide (related r k = ∅)) as [Ee|Ee]; rewrite Ek.
      * rewrite lookup_insert, Ee. reflexivity.
      * rewrite Ek. reflexivity.
    + assert (E : related (r ∪ {[(k, v)]}) k' = related r k').
      { apply related_eq. intros w. rewrite elem_of_related. set_solver. }
      rewrite E, <- R. rewrite lookup_alter_ne by congruence.
      destruct (d !! k); [reflexivity|]. apply lookup_insert_ne. congruence.
  - unfold kvs_remove_key. rewrite (R k). destruct (decide _) as [E|E]; cbn; [auto|].
    split; [|reflexivity]. intros k'. destruct (decide (k' = k)) as [->|Hne].
    + rewrite lookup_delete, decide_True; [reflexivity|]. apply related_eq. intros v.
      rewrite elem_of_filter. set_solver.
    + rewrite lookup_delete_ne by congruence. rewrite R.
      assert (E' : related (filter (λ p, p.1 ≠ k) r) k' = related r k').
      { apply related_eq. intros v. rewrite elem_of_filter, elem_of_related. cbn. intuition congruence. }
      rewrite E'. reflexivity.
  - unfold kvs_remove_value. rewrite (R k). destruct (decide (related r k = ∅)) as [E|E].
    + cbn. rewrite decide_False; [auto|]. rewrite <- elem_of_related, E. set_solver.
    + destruct (decide ((k, v) ∈ r)) as [Hin|Hin].
      * rewrite bool_decide_eq_true_2 by (apply elem_of_related; exact Hin). cbn.
        split; [|reflexivity]. intros k'. destruct (decide (k' = k)) as [->|Hne].
        -- assert (E' : related (r ∖ {[(k, v)]}) k = related r k ∖ {[v]}).
           { apply related_eq. intros w. rewrite !elem_of_difference, !elem_of_singleton, elem_of_related.
             intuition congruence. }
           rewrite E'. destruct (decide (related r k ∖ {[v]} = ∅)) as [Ee|Ee].
           ++ rewrite bool_decide_eq_true_2 by exact Ee. apply lookup_delete.
           ++ rewrite bool_decide_eq_false_2 by exact Ee. apply lookup_insert.
        -- assert (E' : related (r ∖ {[(k, v)]}) k' = related r k').
           { apply related_eq. intros w. rewrite elem_of_difference, elem_of_singleton, elem_of_related.
             intuition congruence. }
           rewrite E', <- R. case_bool_decide; [apply lookup_delete_ne|apply lookup_insert_ne]; congruence.
      * rewrite bool_decide_eq_false_2 by (rewrite elem_of_related; exact Hin). auto.
  - split; [exact R|]. unfold kvs_contains. rewrite R. destruct (decide _) as [E|E].
    + rewrite (bool_decide_eq_true_2 _ E). reflexivity.
    + rewrite (bool_decide_eq_false_2 _ E). reflexivity.
  - split; [exact R|]. unfold kvs_get_values. rewrite R. destruct (decide _); reflexivity.
Qed.

Lemma kvs_calls_refine ops d r : kvs_rep d r →
  run_calls kvs_call d ops = run_calls relation_call r ops.
Proof.
  revert d r; induction ops as [|c ops IH]; intros d r R; [reflexivity|].
  cbn [run_calls]. destruct (kvs_call_refines d r c R) as [R' E].
  destruct (kvs_call d c) as [d' x], (relation_call r c) as [r' y]; cbn in *. subst. f_equal.
  apply IH. exact R'.
Qed.

Lemma kvs_rep_empty : kvs_rep ∅ ∅.
Proof.
  intros k. rewrite lookup_empty, decide_True; [reflexivity|]. apply related_eq. set_solver.
Qed.

Lemma kvs_refines ops : run_calls kvs_call (∅ : kvs K V) ops = run_calls relation_call (∅ : gset (K * V)) ops.
Proof. exact (kvs_calls_refine ops _ _ kvs_rep_empty). Qed.
End kvs_proofs.
