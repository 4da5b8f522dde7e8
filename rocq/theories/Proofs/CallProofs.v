(** * Keyword arguments *)

From Verif.Model Require Import Base ClientCalls.
From Verif.Spec Require Import ClientCallsSpec.

Definition kwonly_defaults (kwargs : gmap bytes bytes) (ps : list param) : gmap bytes bytes :=
  foldl (λ m p, match p_kind p, p_default p with KeywordOnly, Some d => <[p_name p := d]> m | _, _ => m end) kwargs ps.
Lemma kwonly_defaults_other ps k : (∀ p, p ∈ ps → p_kind p = KeywordOnly → p_name p ≠ k) →
  ∀ kwargs, kwonly_defaults kwargs ps !! k = kwargs !! k.
Proof.
  unfold kwonly_defaults. induction ps as [|p ps IH]; intros Hps kwargs; [done|]. cbn [foldl]. rewrite IH by (intros q Hq; apply Hps; set_solver).
  destruct (p_kind p) eqn:E; try done. destruct (p_default p); [|done]. rewrite lookup_insert_ne; [done|]. apply Hps; [set_solver|done].
Qed.

Lemma elem_of_positional sig p : p ∈ positional sig ↔ p ∈ sig ∧ by_position p = true.
Proof. unfold positional. rewrite !elem_of_list_In, filter_In. done. Qed.
Lemma nodup_names_inj (sig : list param) p q : NoDup (p_name <$> sig) → p ∈ sig → q ∈ sig → p_name p = p_name q → p = q.
Proof.
  intros HN Hp Hq E. apply elem_of_list_lookup in Hp as [i Hi], Hq as [j Hj].
  assert (i = j) as ->.
  { eapply NoDup_lookup; [exact HN| |]; rewrite list_lookup_fmap; [rewrite Hi; reflexivity|rewrite Hj, E; reflexivity]. }
  congruence.
Qed.
Lemma nodup_positional sig : NoDup (p_name <$> sig) → NoDup (p_name <$> positional sig).
Proof.
  unfold positional. induction sig as [|p sig IH]; [done|]. rewrite fmap_cons, NoDup_cons. intros [H1 H2].
  cbn [List.filter]. destruct (by_position p) eqn:E; [|auto]. rewrite fmap_cons, NoDup_cons. split; [|auto].
  intros Hx. apply H1. apply elem_of_list_fmap in Hx as (q & Eq & Hq). apply elem_of_positional in Hq as [Hq _].
  rewrite Eq. apply elem_of_list_fmap. eauto.
Qed.

Lemma take_required_ok ps : NoDup (p_name <$> ps) → ∀ args kwargs,
  (∀ p, p ∈ ps → is_Some (kwargs !! p_name p)) →
  ∃ kwargs', c_take_required ps args kwargs = Ok (args ++ ((λ p, default "" (kwargs !! p_name p)) <$> ps), kwargs')
    ∧ ∀ k, k ∉ p_name <$> ps → kwargs' !! k = kwargs !! k.
Proof.
  induction ps as [|p ps IH]; intros HN args kwargs Hk; [exists kwargs; cbn; rewrite app_nil_r; done|].
  rewrite fmap_cons in HN. apply NoDup_cons in HN as [Hp HN]. cbn [c_take_required].
  destruct (Hk p ltac:(set_solver)) as [v Hv]. rewrite Hv.
  destruct (IH HN (args ++ [v]) (delete (p_name p) kwargs)) as (kw & E & Hkw).
  { intros q Hq. rewrite lookup_delete_ne; [apply Hk; set_solver|]. intros X. apply Hp. rewrite X. apply elem_of_list_fmap. eauto. }
  exists kw. split.
  - rewrite E. rewrite fmap_cons, Hv, <- app_assoc. cbn. do 3 f_equal. f_equal. apply list_fmap_ext. intros ? q Hq.
    rewrite lookup_delete_ne; [done|]. intros X. apply Hp. rewrite X. apply elem_of_list_fmap. exists q. split; [done|]. eapply elem_of_list_lookup_2; eauto.
  - intros k Hn. rewrite fmap_cons in Hn. rewrite Hkw by set_solver. rewrite lookup_delete_ne; [done|set_solver].
Qed.
Lemma take_required_fail ps p : NoDup (p_name <$> ps) → p ∈ ps → ∀ args kwargs, kwargs !! p_name p = None →
  c_take_required ps args kwargs = Raise TypeError.
Proof.
  induction ps as [|q ps IH]; intros HN Hp args kwargs Hk; [set_solver|]. rewrite fmap_cons in HN. apply NoDup_cons in HN as [Hq HN]. cbn [c_take_required].
  apply elem_of_cons in Hp as [->|Hp]; [rewrite Hk; done|]. destruct (kwargs !! p_name q) eqn:E; [|done].
  apply IH; [done|done|]. rewrite lookup_delete_ne; [done|congruence].
Qed.
Definition optional_value (kwargs : gmap bytes bytes) (p : param) : bytes := default (default "" (p_default p)) (kwargs !! p_name p).
Lemma take_optional_ok ps : NoDup (p_name <$> ps) → ∀ args kwargs,
  c_take_optional ps args kwargs = args ++ (optional_value kwargs <$> ps).
Proof.
  induction ps as [|p ps IH]; intros HN args kwargs; [cbn; rewrite app_nil_r; done|].
  rewrite fmap_cons in HN. apply NoDup_cons in HN as [Hp HN]. cbn [c_take_optional]. rewrite IH by done.
  rewrite fmap_cons, <- app_assoc. cbn. f_equal. unfold optional_value at 2. f_equal. apply list_fmap_ext. intros ? q Hq. unfold optional_value.
  rewrite lookup_delete_ne; [done|]. intros X. apply Hp. rewrite X. apply elem_of_list_fmap. exists q. split; [done|]. eapply elem_of_list_lookup_2; eauto.
Qed.

(** The required parameters come first. *)
Definition defaults_last (ps : list param) : Prop :=
  ∀ i j p q, ps !! i = Some p → ps !! j = Some q → (i < j)%nat → p_default q = None → p_default p = None.
Lemma required_prefix ps : defaults_last ps →
  (∀ p, p ∈ take (length (List.filter required ps)) ps → p_default p = None) ∧
  (∀ p, p ∈ drop (length (List.filter required ps)) ps → p_default p ≠ None).
Proof.
  induction ps as [|p ps IH]; intros HD; [cbn; split; intros q Hq; inversion Hq|]. assert (HD' : defaults_last ps).
  { intros i j a b Hi Hj Hl. exact (HD (S i) (S j) a b Hi Hj ltac:(lia)). }
  destruct (IH HD') as [H1 H2]. cbn [List.filter]. destruct (p_default p) as [d|] eqn:E.
  - assert (Hall : ∀ q, q ∈ ps → p_default q ≠ None).
    { intros q Hq Hn. apply elem_of_list_lookup in Hq as [j Hj]. pose proof (HD 0%nat (S j) p q eq_refl Hj ltac:(lia) Hn). congruence. }
    assert (Hf : List.filter required ps = []).
    { clear -Hall. induction ps as [|q ps IH]; [done|]. cbn [List.filter]. unfold required at 1. destruct (p_default q) eqn:E; [|destruct (Hall q); [apply elem_of_cons; auto|done]].
      apply IH. intros x Hx. apply Hall, elem_of_cons. auto. }
    replace (required p) with false by (unfold required; rewrite E; done). rewrite Hf. cbn. split; [intros q Hq; inversion Hq|]. intros q Hq. apply elem_of_cons in Hq as [->|Hq]; [congruence|auto].
  - replace (required p) with true by (unfold required; rewrite E; done). cbn [length take drop]. split; [|exact H2]. intros q Hq. apply elem_of_cons in Hq as [->|Hq]; auto.
Qed.

Lemma kwonly_not_positional sig p q : NoDup (p_name <$> sig) → p ∈ positional sig → q ∈ sig → p_kind q = KeywordOnly → p_name q ≠ p_name p.
Proof.
  intros HN Hp Hq Hk E. apply elem_of_positional in Hp as [Hp Hb]. assert (q = p) as -> by (eapply nodup_names_inj; eauto).
  unfold by_position in Hb. rewrite Hk in Hb. discriminate.
Qed.
Lemma fmap_drop_nodup n (ps : list param) : NoDup (p_name <$> ps) → NoDup (p_name <$> drop n ps).
Proof. rewrite fmap_drop. intros H. rewrite <- (take_drop n) in H. apply NoDup_app in H as (_ & _ & H). exact H. Qed.
Lemma fmap_take_nodup n (ps : list param) : NoDup (p_name <$> ps) → NoDup (p_name <$> take n ps).
Proof. rewrite fmap_take. intros H. rewrite <- (take_drop n) in H. apply NoDup_app in H as (H & _ & _). exact H. Qed.

Lemma convert_ok sig args kwargs : signature_ok sig → ¬ misses sig args kwargs →
  c_convert sig args kwargs = Ok (args ++ (optional_value kwargs <$> drop (length args) (positional sig))).
Proof.
  intros [HN HD] Hm. unfold c_convert. fold (positional sig). set (ps := positional sig) in *.
  assert (HP : NoDup (p_name <$> ps)) by (apply nodup_positional; done).
  destruct (Nat.leb_spec (length ps) (length args)) as [Hl|Hl].
  { rewrite drop_ge by lia. cbn. rewrite app_nil_r. done. }
  fold (kwonly_defaults kwargs sig). set (kw := kwonly_defaults kwargs sig).
  assert (Hkw : ∀ p, p ∈ ps → kw !! p_name p = kwargs !! p_name p).
  { intros p Hp. apply kwonly_defaults_other. intros q Hq Hk. exact (kwonly_not_positional sig p q HN Hp Hq Hk). }
  set (r := length (List.filter required ps)). destruct (required_prefix ps HD) as [R1 R2]. fold r in R1, R2.
  set (mid := take (r - length args) (drop (length args) ps)).
  assert (Hmid : ∀ p, p ∈ mid → p ∈ ps ∧ p_default p = None ∧ is_Some (kwargs !! p_name p)).
  { intros p Hp. unfold mid in Hp. apply elem_of_list_lookup in Hp as [i Hi]. rewrite lookup_take_Some, lookup_drop in Hi. destruct Hi as [Hi Hlt].
    assert (p_default p = None).
    { apply R1. apply elem_of_list_lookup. exists (length args + i)%nat. rewrite lookup_take; [done|lia]. }
    split; [eapply elem_of_list_lookup_2; eauto|]. split; [done|]. destruct (kwargs !! p_name p) eqn:E; [eauto|].
    exfalso. apply Hm. exists (length args + i)%nat, p. repeat split; auto; lia. }
  destruct (take_required_ok mid (fmap_take_nodup _ _ (fmap_drop_nodup _ _ HP)) args kw) as (kw' & E & Hkw').
  { intros p Hp. destruct (Hmid p Hp) as (H1 & _ & H3). rewrite Hkw; done. }
  rewrite E. f_equal. set (args' := args ++ _).
  assert (Hdr : drop (length args') ps = drop (r - length args) (drop (length args) ps)).
  { unfold args', mid. rewrite drop_drop, app_length, fmap_length, take_length, drop_length.
    destruct (decide (r - length args <= length ps - length args)%nat) as [Hr|Hr].
    - f_equal. lia.
    - rewrite !drop_ge; [done|lia|lia]. }
  rewrite take_optional_ok.
  2:{ rewrite Hdr. apply fmap_drop_nodup, fmap_drop_nodup, HP. }
  unfold args' at 1. rewrite <- app_assoc. f_equal. rewrite Hdr.
  rewrite <- (take_drop (r - length args) (drop (length args) ps)) at 2. rewrite fmap_app. fold mid. f_equal.
  - apply list_fmap_ext. intros i p Hp. apply elem_of_list_lookup_2 in Hp. destruct (Hmid p Hp) as (H1 & H2 & [v Hv]).
    unfold optional_value. rewrite Hkw, Hv by done. done.
  - apply list_fmap_ext. intros i p Hp. unfold optional_value. rewrite Hkw'.
    + rewrite Hkw; [done|]. apply elem_of_list_lookup_2 in Hp. rewrite drop_drop in Hp. rewrite <- (take_drop (length args + (r - length args)) ps). set_solver.
    + pose proof (fmap_drop_nodup (length args) ps HP) as Hx. rewrite <- (take_drop (r - length args) (drop (length args) ps)) in Hx.
      rewrite fmap_app in Hx. fold mid in Hx. apply NoDup_app in Hx as (_ & Hx & _). intros Hy. apply (Hx _ Hy).
      apply elem_of_list_fmap. exists p. split; [done|]. eapply elem_of_list_lookup_2; eauto.
Qed.
Lemma convert_missing sig args kwargs : signature_ok sig → misses sig args kwargs → c_convert sig args kwargs = Raise TypeError.
Proof.
  intros [HN HD] (i & p & Hi & Hl & Hd & Hk). unfold c_convert. fold (positional sig). set (ps := positional sig) in *.
  assert (HP : NoDup (p_name <$> ps)) by (apply nodup_positional; done).
  destruct (Nat.leb_spec (length ps) (length args)) as [Hle|Hle].
  { apply lookup_lt_Some in Hi. lia. }
  fold (kwonly_defaults kwargs sig). destruct (required_prefix ps HD) as [R1 R2]. set (r := length (List.filter required ps)) in *.
  assert (i < r)%nat.
  { destruct (decide (i < r)%nat); [done|]. exfalso. apply (R2 p); [|done]. apply elem_of_list_lookup. exists (i - r)%nat. rewrite lookup_drop.
    replace (r + (i - r))%nat with i by lia. exact Hi. }
  rewrite (take_required_fail _ p); [done| | |].
  - apply fmap_take_nodup, fmap_drop_nodup, HP.
  - apply elem_of_list_lookup. exists (i - length args)%nat. rewrite lookup_take by lia. rewrite lookup_drop.
    replace (length args + (i - length args))%nat with i by lia. exact Hi.
  - rewrite kwonly_defaults_other; [done|]. intros q Hq Hko. exact (kwonly_not_positional sig p q HN (elem_of_list_lookup_2 _ _ _ Hi) Hq Hko).
Qed.
Lemma misses_dec sig args kwargs : misses sig args kwargs ∨ ¬ misses sig args kwargs.
Proof.
  assert (H : misses sig args kwargs ↔ Exists (λ p, p_default p = None ∧ kwargs !! p_name p = None) (drop (length args) (positional sig))).
  { rewrite Exists_exists. split.
    - intros (i & p & Hi & Hl & Hd & Hk). exists p. split; [|done]. apply elem_of_list_lookup. exists (i - length args)%nat. rewrite lookup_drop.
      replace (length args + (i - length args))%nat with i by lia. exact Hi.
    - intros (p & Hp & Hd & Hk). apply elem_of_list_lookup in Hp as [i Hi]. rewrite lookup_drop in Hi. exists (length args + i)%nat, p.
      repeat split; auto; lia. }
  rewrite H. destruct (decide (Exists (λ p, p_default p = None ∧ kwargs !! p_name p = None) (drop (length args) (positional sig)))); auto.
Qed.
Lemma convert_raises sig args kwargs e : signature_ok sig →
  c_convert sig args kwargs = Raise e ↔ e = TypeError ∧ misses sig args kwargs.
Proof.
  intros Hs. destruct (misses_dec sig args kwargs) as [Hm|Hm].
  - rewrite convert_missing by done. split; [intros [= <-]; done|intros [-> _]; done].
  - rewrite convert_ok by done. split; [done|tauto].
Qed.

(** ** Python's frames *)
Lemma positional_at sig p : p ∈ sig → by_position p = true → ∃ i, positional sig !! i = Some p.
Proof. intros H1 H2. apply elem_of_list_lookup. apply elem_of_positional. done. Qed.
Lemma positional_inj sig i j p : NoDup (p_name <$> sig) → positional sig !! i = Some p → positional sig !! j = Some p → i = j.
Proof.
  intros HN Hi Hj. eapply NoDup_lookup; [apply (nodup_positional sig HN)| |]; rewrite list_lookup_fmap; [rewrite Hi|rewrite Hj]; reflexivity.
Qed.
Lemma binds_not_missing sig args kwargs fr : signature_ok sig → binds sig args kwargs fr → ¬ misses sig args kwargs.
Proof.
  intros [HN HD] HB (i & p & Hi & Hl & Hd & Hk). pose proof (elem_of_list_lookup_2 _ _ _ Hi) as Hp. apply elem_of_positional in Hp as [Hp Hb].
  destruct (b_open _ _ _ _ HB p Hp) as (v & _ & Hv).
  - unfold named. rewrite Hb. done.
  - intros j Hj. rewrite (positional_inj sig j i p) by done. exact Hl.
  - rewrite Hk, Hd in Hv. destruct (by_keyword p); discriminate.
Qed.
Lemma binds_unique sig args kwargs fr fr' : NoDup (p_name <$> sig) → binds sig args kwargs fr → binds sig args kwargs fr' → fr = fr'.
Proof.
  intros HN H1 H2. destruct fr as [P S X], fr' as [P' S' X']. f_equal.
  - apply map_eq. intros k.
    assert (Hone : ∀ A B, binds sig args kwargs A → binds sig args kwargs B → ∀ v, fr_params A !! k = Some v → fr_params B !! k = Some v).
    { clear -HN. intros A B HA HB v Hv. destruct (b_only _ _ _ _ HA k) as (p & Hp & Hn & <-); [eauto|].
      destruct (by_position p) eqn:Eb.
      - destruct (positional_at sig p Hp Eb) as [i Hi]. destruct (decide (i < length args)%nat) as [Hl|Hl].
        + destruct (lookup_lt_is_Some_2 args i Hl) as [w Hw]. pose proof (b_position _ _ _ _ HA i p w Hi Hw). rewrite (b_position _ _ _ _ HB i p w Hi Hw). congruence.
        + assert (Ho : ∀ j, positional sig !! j = Some p → (length args <= j)%nat).
          { intros j Hj. rewrite (positional_inj sig j i p) by done. lia. }
          destruct (b_open _ _ _ _ HA p Hp Hn Ho) as (a & Ha & Ca), (b_open _ _ _ _ HB p Hp Hn Ho) as (b & Hb & Cb).
          destruct (by_keyword p); [destruct (kwargs !! p_name p)|]; congruence.
      - assert (Ho : ∀ j, positional sig !! j = Some p → (length args <= j)%nat).
        { intros j Hj. apply elem_of_list_lookup_2, elem_of_positional in Hj as [_ Hj]. congruence. }
        destruct (b_open _ _ _ _ HA p Hp Hn Ho) as (a & Ha & Ca), (b_open _ _ _ _ HB p Hp Hn Ho) as (b & Hb & Cb).
        destruct (by_keyword p); [destruct (kwargs !! p_name p)|]; congruence. }
    apply option_eq. intros v. split; [apply (Hone _ _ H1 H2)|apply (Hone _ _ H2 H1)].
  - pose proof (b_star _ _ _ _ H1). pose proof (b_star _ _ _ _ H2). cbn in *. congruence.
  - apply map_eq. intros k. pose proof (b_extra _ _ _ _ H1 k). pose proof (b_extra _ _ _ _ H2 k). cbn in *. congruence.
Qed.

(** What the worker's call [fn( *all)] sees of an accepted call. *)
Section accepted.
  Context (sig : list param) (args : list bytes) (kwargs : gmap bytes bytes) (fr : frame).
  Context (Hs : signature_ok sig) (HB : binds sig args kwargs fr).
  Context (Hpo : ∀ p, p ∈ sig → p_kind p = PositionalOnly → kwargs !! p_name p = None).
  Let all := args ++ (optional_value kwargs <$> drop (length args) (positional sig)).

  Lemma all_length : length all = Nat.max (length args) (length (positional sig)).
  Proof. unfold all. rewrite app_length, fmap_length, drop_length. lia. Qed.
  Lemma all_at i p v : positional sig !! i = Some p → all !! i = Some v → fr_params fr !! p_name p = Some v.
  Proof.
    intros Hi. unfold all. rewrite lookup_app_Some. intros [Hv|[Hl Hv]]; [exact (b_position _ _ _ _ HB i p v Hi Hv)|].
    rewrite list_lookup_fmap, lookup_drop in Hv. replace (length args + (i - length args))%nat with i in Hv by lia. rewrite Hi in Hv. injection Hv as <-.
    pose proof (elem_of_list_lookup_2 _ _ _ Hi) as Hp. apply elem_of_positional in Hp as [Hp Hb].
    destruct (b_open _ _ _ _ HB p Hp) as (w & Hw & Cw).
    { unfold named. rewrite Hb. done. }
    { intros j Hj. rewrite (positional_inj sig j i p); [lia|apply Hs|done|done]. }
    rewrite Hw. f_equal. unfold optional_value. unfold by_keyword in Cw. unfold by_position in Hb. destruct (p_kind p) eqn:Ek; try discriminate.
    - rewrite (Hpo p Hp Ek), Cw. done.
    - destruct (kwargs !! p_name p) as [x|]; cbn; [done|]. rewrite Cw. done.
  Qed.
  Lemma all_star : drop (length (positional sig)) all = fr_star fr.
  Proof.
    rewrite (b_star _ _ _ _ HB). unfold all. destruct (decide (length args <= length (positional sig))%nat) as [Hl|Hl].
    - rewrite (drop_ge args) by lia. apply drop_ge. rewrite app_length, fmap_length, drop_length. lia.
    - rewrite (drop_ge (positional sig)) by lia. cbn. rewrite app_nil_r. done.
  Qed.
  Lemma all_surplus : (length (positional sig) < length all)%nat → has_kind VarPositional sig.
  Proof. rewrite all_length. intros H. apply (b_surplus _ _ _ _ HB). lia. Qed.
  Lemma all_open p : p ∈ sig → named p = true → (∀ i, positional sig !! i = Some p → (length all <= i)%nat) → p_kind p = KeywordOnly.
  Proof.
    intros Hp Hn Ho. unfold named in Hn. destruct (by_position p) eqn:Eb.
    - destruct (positional_at sig p Hp Eb) as [i Hi]. specialize (Ho i Hi). rewrite all_length in Ho. apply lookup_lt_Some in Hi. lia.
    - unfold by_position in Eb. unfold by_keyword in Hn. destruct (p_kind p); done.
  Qed.

  (** Positional parameters and [*args] are the same; keyword-only parameters have
      their defaults and [**kwargs] is empty. *)
  Lemma worker_frame fr' : binds sig all ∅ fr' →
    (∀ p, p ∈ sig → by_position p = true → fr_params fr' !! p_name p = fr_params fr !! p_name p) ∧
    fr_star fr' = fr_star fr ∧
    (∀ p, p ∈ sig → p_kind p = KeywordOnly → fr_params fr' !! p_name p = p_default p ∧ p_default p ≠ None) ∧
    fr_extra fr' = ∅.
  Proof.
    intros H'. repeat split.
    - intros p Hp Hb. destruct (positional_at sig p Hp Hb) as [i Hi].
      destruct (lookup_lt_is_Some_2 all i) as [v Hv]. { rewrite all_length. apply lookup_lt_Some in Hi. lia. }
      rewrite (b_position _ _ _ _ H' i p v Hi Hv). symmetry. eapply all_at; eauto.
    - rewrite (b_star _ _ _ _ H'). apply all_star.
    - destruct (b_open _ _ _ _ H' p) as (v & Hv & Cv); [done|unfold named, by_keyword; rewrite H0; apply orb_true_r| |].
      { intros j Hj. apply elem_of_list_lookup_2, elem_of_positional in Hj as [_ Hj]. unfold by_position in Hj. rewrite H0 in Hj. done. }
      unfold by_keyword in Cv. rewrite H0, lookup_empty in Cv. congruence.
    - destruct (b_open _ _ _ _ H' p) as (v & Hv & Cv); [done|unfold named, by_keyword; rewrite H0; apply orb_true_r| |].
      { intros j Hj. apply elem_of_list_lookup_2, elem_of_positional in Hj as [_ Hj]. unfold by_position in Hj. rewrite H0 in Hj. done. }
      unfold by_keyword in Cv. rewrite H0, lookup_empty in Cv. congruence.
    - apply map_eq. intros k. rewrite (b_extra _ _ _ _ H' k), !lookup_empty. destruct (existsb _ _); done.
  Qed.

  (** All keywords name positional-or-keyword parameters: the same frame. *)
  Lemma same_frame : (∀ k, is_Some (kwargs !! k) → ∃ p, p ∈ sig ∧ p_kind p = PositionalOrKeyword ∧ p_name p = k) → binds sig all ∅ fr.
  Proof.
    intros Hk. split.
    - exact all_surplus.
    - symmetry. exact all_star.
    - intros k v. rewrite lookup_empty. done.
    - intros. apply lookup_empty.
    - intros k. rewrite (b_extra _ _ _ _ HB k), lookup_empty. destruct (existsb _ _) eqn:E; [done|].
      destruct (kwargs !! k) eqn:Ek; [|done]. exfalso. destruct (Hk k) as (p & Hp & Hkind & Hn); [eauto|].
      assert (existsb (λ p, by_keyword p && String.eqb (p_name p) k) sig = true); [|congruence].
      apply existsb_exists. exists p. split; [apply elem_of_list_In; done|]. unfold by_keyword. rewrite Hkind, Hn. apply String.eqb_refl.
    - exact all_at.
    - intros p Hp Hn Ho. pose proof (all_open p Hp Hn Ho) as Hko.
      destruct (b_open _ _ _ _ HB p Hp Hn) as (v & Hv & Cv).
      { intros j Hj. apply elem_of_list_lookup_2, elem_of_positional in Hj as [_ Hj]. unfold by_position in Hj. rewrite Hko in Hj. done. }
      exists v. split; [done|]. rewrite lookup_empty. unfold by_keyword in *. rewrite Hko in *.
      destruct (kwargs !! p_name p) eqn:Ek; [|done]. exfalso. destruct (Hk (p_name p)) as (q & Hq & Hkind & Hnm); [eauto|].
      assert (q = p) as -> by (eapply nodup_names_inj; [apply Hs|done|done|done]). congruence.
    - exact (b_only _ _ _ _ HB).
  Qed.
End accepted.

(** Keywords that name no open positional parameter make no difference. *)
Lemma convert_ignores sig args kwargs k v : signature_ok sig →
  (∀ i p, positional sig !! i = Some p → p_name p = k → (i < length args)%nat) →
  c_convert sig args (<[k := v]> kwargs) = c_convert sig args kwargs.
Proof.
  intros Hs Hk.
  assert (Hp : ∀ i p, positional sig !! i = Some p → (length args <= i)%nat → (<[k := v]> kwargs) !! p_name p = kwargs !! p_name p).
  { intros i p Hi Hl. rewrite lookup_insert_ne; [done|]. intros E. specialize (Hk i p Hi (eq_sym E)). lia. }
  assert (Hm : misses sig args (<[k := v]> kwargs) ↔ misses sig args kwargs).
  { split; intros (i & p & Hi & Hl & Hd & Hn); exists i, p; (repeat split; try done); [rewrite <- (Hp i p Hi Hl)|rewrite (Hp i p Hi Hl)]; done. }
  destruct (misses_dec sig args kwargs) as [H|H].
  - rewrite !convert_missing; tauto.
  - rewrite !convert_ok by tauto. do 2 f_equal. apply list_fmap_ext. intros i p Hi. rewrite lookup_drop in Hi. unfold optional_value.
    rewrite (Hp _ p Hi); [done|lia].
Qed.
