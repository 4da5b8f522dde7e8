(** * map, and waiting for futures *)

From Verif.Model Require Import Base Message Client ClientCalls.
From Verif.Spec Require Import HistorySpec ClientSpec ClientCallsSpec.
From Verif.Proofs Require Import BaseProofs HistoryProofs ClientProofs ClientRuns CallProofs GetProofs.

(** ** Futures *)
Lemma occ_two (k : fkey) h v w : (occurrences (sets k) h <= 1)%nat → CSet k v ∈ h → CSet k w ∈ h → v = w.
Proof.
  induction h as [|e h IH]; intros Ho Hv Hw; [inversion Hv|]. rewrite occ_cons in Ho.
  apply elem_of_cons in Hv as [<-|Hv], Hw as [Ew|Hw].
  - congruence.
  - exfalso. cbn [sets] in Ho. rewrite bool_decide_eq_true_2 in Ho by done.
    pose proof (occ_pos (sets k) h _ Hw ltac:(cbn; by apply bool_decide_eq_true)). lia.
  - subst e. exfalso. cbn [sets] in Ho. rewrite bool_decide_eq_true_2 in Ho by done.
    pose proof (occ_pos (sets k) h _ Hv ltac:(cbn; by apply bool_decide_eq_true)). lia.
  - apply IH; auto. destruct (sets k e); lia.
Qed.
Lemma f_result_set es c h k v : k_run es = (c, h) → new_ids h → CSet k v ∈ h →
  f_result (c, h) k = Some (match v with Value p => Returns p | _ => Raises v end).
Proof.
  intros Hr Hn Hin. pose proof (run_base _ _ _ Hr Hn) as Hb. pose proof (set_once_run _ _ _ Hr Hn k) as Ho.
  pose proof (occ_pos (sets k) h _ Hin ltac:(cbn; by apply bool_decide_eq_true)) as Hp.
  pose proof (a_once _ _ Hb k) as E. unfold f_result. cbn. case_bool_decide as Hs; [|lia]. rewrite Hs.
  destruct (List.find _ h) as [e|] eqn:Ef.
  - apply List.find_some in Ef as [H1 H2]. apply elem_of_list_In in H1. destruct e as [| |k' w|]; try done. apply bool_decide_eq_true in H2 as ->.
    rewrite (occ_two k h v w Ho Hin H1). destruct w; done.
  - exfalso. eapply List.find_none in Ef; [|apply elem_of_list_In, Hin]. cbn in Ef. rewrite bool_decide_eq_true_2 in Ef; done.
Qed.
Lemma f_result_returns c h k p : f_result (c, h) k = Some (Returns p) → CSet k (Value p) ∈ h.
Proof.
  unfold f_result. cbn. destruct (k_state c !! k) as [[]|]; try done.
  destruct (List.find _ h) as [e|] eqn:Ef; [|done]. apply List.find_some in Ef as [H1 H2]. apply elem_of_list_In in H1.
  destruct e as [| |k' []|]; try done. apply bool_decide_eq_true in H2 as ->. intros [= ->]. done.
Qed.
Lemma f_collect_values s ks vs : f_collect s ks = Some (inl vs) ↔ Forall2 (λ k v, f_result s k = Some (Returns v)) ks vs.
Proof.
  revert vs. induction ks as [|k ks IH]; intros vs; cbn.
  - split; [intros [= <-]; constructor|]. intros H. by inversion H.
  - split.
    + destruct (f_result s k) as [[p| |]|] eqn:E; try done. destruct (f_collect s ks) as [[ws|]|]; try done. intros [= <-]. constructor; [done|]. by apply IH.
    + intros H. inversion H as [|? v ? ws H1 H2]; subst. rewrite H1. apply IH in H2. rewrite H2. done.
Qed.
Lemma f_collect_error s ks o : f_collect s ks = Some (inr o) →
  ∃ i k, ks !! i = Some k ∧ f_result s k = Some o ∧ ∀ j k', (j < i)%nat → ks !! j = Some k' → ∃ v, f_result s k' = Some (Returns v).
Proof.
  induction ks as [|k ks IH]; cbn; [done|]. destruct (f_result s k) as [r|] eqn:E; [|done].
  assert (Hnow : r = o → ∃ i k0, (k :: ks) !! i = Some k0 ∧ f_result s k0 = Some o ∧ ∀ j k', (j < i)%nat → (k :: ks) !! j = Some k' → ∃ v, f_result s k' = Some (Returns v)).
  { intros ->. exists 0%nat, k. split; [done|]. split; [done|]. intros; lia. }
  destruct r as [p| |]; [|intros [= <-]; auto..]. destruct (f_collect s ks) as [[|]|] eqn:Ec; [done| |done]. intros [= ->].
  destruct (IH eq_refl) as (i & k' & H1 & H2 & H3). exists (S i), k'. split; [done|]. split; [done|].
  intros [|j] k0 Hj Hk; [injection Hk as <-; eauto|]. eapply H3; [|exact Hk]. lia.
Qed.
Lemma cause_in h e : cause h = Some e → CIn e ∈ h.
Proof.
  unfold cause. assert (H : ∀ c, foldl cause_of c h = Some e → c = Some e ∨ CIn e ∈ h).
  { induction h as [|x h IH]; intros c; cbn; [auto|]. intros H. apply IH in H as [H|H]; [|right; by right].
    destruct x; cbn in H; auto. injection H as ->. right. left. }
  intros Hc. apply H in Hc as [Hc|Hc]; done.
Qed.
Lemma set_value_message es c h k p : k_run es = (c, h) → new_ids h → CSet k (Value p) ∈ h →
  match k with
  | inl t => ∃ d, CIn (KRecv (MTaskResult t Success d p) true) ∈ h
  | inr (g, i) => ∃ ps, CIn (KRecv (MGraphTaskResult g Success ps) true) ∈ h ∧ ps !! i = Some p
  end.
Proof.
  intros Hr Hn Hin. pose proof (own_result_run _ _ _ Hr Hn) as Ho. apply elem_of_list_split in Hin as (b & a & ->). apply always_at in Ho.
  destruct k as [t|[g i]]; cbn in Ho.
  - destruct Ho as [d Hd]. exists d. apply elem_of_app. left. by apply cause_in.
  - destruct Ho as (ps & Hd & Hi). exists ps. split; [|done]. apply elem_of_app. left. by apply cause_in.
Qed.

(** ** The rows *)
Definition full_row (sig : list param) (args : list bytes) : list bytes := args ++ (optional_value ∅ <$> drop (length args) (positional sig)).
Lemma rows_ok sig rows : signature_ok sig → (∀ args, args ∈ rows → ¬ misses sig args ∅) → c_rows sig (Row <$> rows) = (full_row sig <$> rows, None).
Proof.
  intros Hs. induction rows as [|args rows IH]; intros Hm; [done|]. cbn. rewrite convert_ok by (auto; apply Hm; left).
  rewrite IH by (intros a Ha; apply Hm; by right). done.
Qed.
Lemma all_rows (rows : list (list bytes)) : forallb (λ r, match r with Row _ => true | OtherRow => false end) (Row <$> rows) = true.
Proof. induction rows; done. Qed.
Lemma rows_bad sig rows args rest : signature_ok sig → (∀ a, a ∈ rows → ¬ misses sig a ∅) → misses sig args ∅ →
  c_rows sig ((Row <$> rows) ++ Row args :: rest) = (full_row sig <$> rows, Some TypeError).
Proof.
  intros Hs. induction rows as [|a rows IH]; intros Hm Ha; cbn; [by rewrite convert_missing|]. rewrite convert_ok by (auto; apply Hm; left).
  rewrite IH by (try done; intros x Hx; apply Hm; by right). done.
Qed.
Lemma other_row rows : OtherRow ∈ rows → forallb (λ r, match r with Row _ => true | OtherRow => false end) rows = false.
Proof. intros H. apply not_true_iff_false. intros Hf. eapply forallb_forall in Hf; [|apply elem_of_list_In, H]. done. Qed.

Lemma map_calls sig rows f name content ids : signature_ok sig → (∀ args, args ∈ rows → ¬ misses sig args ∅) → length ids = length rows →
  ∃ calls, c_map sig (Sequence (Row <$> rows)) = (calls, None) ∧ length (c_map_calls f name content ids calls) = length rows ∧
    ∀ i args t, rows !! i = Some args → ids !! i = Some t → ∃ rest, c_map_calls f name content ids calls !! i = Some (KSubmit t f name content (args ++ rest)) ∧
      Forall2 (λ p v, p_default p = Some v) (drop (length args) (positional sig)) rest.
Proof.
  intros Hs Hm Hl. exists (full_row sig <$> rows). unfold c_map. cbn [items used_up]. rewrite all_rows, rows_ok by done.
  split; [done|]. split; [unfold c_map_calls; rewrite zip_with_length, fmap_length; lia|]. intros i args t Hi Ht. exists (optional_value ∅ <$> drop (length args) (positional sig)). split.
  - unfold c_map_calls. rewrite lookup_zip_with, Ht, list_lookup_fmap, Hi. done.
  - apply Forall2_fmap_r, Forall_Forall2_diag, Forall_lookup. intros j p Hj. rewrite lookup_drop in Hj.
    change (p_default p = Some (optional_value ∅ p)). destruct (p_default p) eqn:E; [unfold optional_value; rewrite E, lookup_empty; done|]. exfalso. apply (Hm args); [by eapply elem_of_list_lookup_2|].
    exists (length args + j)%nat, p. repeat split; try done. lia.
Qed.
Lemma map_values es c h ids vs : k_run es = (c, h) → new_ids h → f_collect (c, h) (FTask <$> ids) = Some (inl vs) →
  length vs = length ids ∧ ∀ i t v, ids !! i = Some t → vs !! i = Some v → ∃ d, CIn (KRecv (MTaskResult t Success d v) true) ∈ h.
Proof.
  intros Hr Hn Hc. apply f_collect_values in Hc. split.
  - apply Forall2_length in Hc. rewrite fmap_length in Hc. done.
  - intros i t v Hi Hv. destruct (Forall2_lookup_r _ _ _ _ _ Hc Hv) as (k & Hk & E). rewrite list_lookup_fmap, Hi in Hk. injection Hk as <-.
    apply f_result_returns in E. exact (set_value_message _ _ _ _ _ Hr Hn E).
Qed.
Lemma map_complete es c h ids vs : k_run es = (c, h) → new_ids h → Forall2 (λ t v, CSet (FTask t) (Value v) ∈ h) ids vs →
  f_collect (c, h) (FTask <$> ids) = Some (inl vs).
Proof.
  intros Hr Hn HF. apply f_collect_values. induction HF as [|t v ids vs H _ IH]; [constructor|]. cbn. constructor; [|exact IH].
  exact (f_result_set _ _ _ _ _ Hr Hn H).
Qed.

(** ** get *)
Lemma zip_fst {A B} (l : list A) (k : list B) : length l = length k → (zip l k).*1 = l.
Proof. intros H. apply fst_zip. lia. Qed.
Lemma get_distinct (ids : bytes → bytes) g graph keys : well_formed graph keys → NoDup keys → (∀ n m, computed graph n → computed graph m → ids n = ids m → n = m) →
  c_targets ids keys = ids <$> keys ∧
  foldl (λ d p, put_key p.1 p.2 d) [] (zip keys ((λ i, FGraph g i) <$> seq 0 (length (c_targets ids keys)))) = zip keys ((λ i, FGraph g i) <$> seq 0 (length keys)).
Proof.
  intros Hw HN Hi. assert (HNi : NoDup (ids <$> keys)).
  { destruct Hw as [Hk _]. clear -HN Hi Hk. induction keys as [|k keys IH]; [constructor|]. apply NoDup_cons in HN as [H1 H2]. cbn. apply NoDup_cons. split.
    - intros Hx. apply elem_of_list_fmap in Hx as (k' & E & Hk'). apply Hi in E; [subst; done|apply Hk; left|apply Hk; by right].
    - apply IH; [|done]. intros x Hx. apply Hk. by right. }
  pose proof (targets_distinct ids keys HNi) as E. split; [done|]. rewrite E, fmap_length. rewrite puts_fresh; [done|]. cbn.
  rewrite zip_fst; [done|]. rewrite fmap_length, seq_length. done.
Qed.
