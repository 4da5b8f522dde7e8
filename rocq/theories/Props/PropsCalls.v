(** * What calls of the client turn into: C56-C59 *)

From stdpp Require Import relations.
From Verif.Model Require Import Base Message Client ClientCalls.
From Verif.Spec Require Import HistorySpec ClientSpec ClientCallsSpec.
From Verif.Proofs Require Import BaseProofs HistoryProofs ClientProofs ClientRuns CallProofs GetProofs MapProofs.
From Verif.Props Require Import PropsClient.

(** ** C56 *)

(** For a sequence of argument lists [map] calls submit once per item, in order, with the
    item's arguments followed by the defaults of the parameters beyond; [ids] are the ids
    the calls get, one after the other. *)
Theorem C56_one_call_per_item : ∀ sig rows f name content ids, signature_ok sig → (∀ args, args ∈ rows → ¬ misses sig args ∅) → length ids = length rows →
  ∃ calls, c_map sig (Sequence (Row <$> rows)) = (calls, None) ∧ length (c_map_calls f name content ids calls) = length rows ∧
    ∀ i args t, rows !! i = Some args → ids !! i = Some t → ∃ rest, c_map_calls f name content ids calls !! i = Some (KSubmit t f name content (args ++ rest)) ∧
      Forall2 (λ p v, p_default p = Some v) (drop (length args) (positional sig)) rest.
Proof. exact map_calls. Qed.
Print Assumptions C56_one_call_per_item.
(** The list it returns has one value per call, in order: the [i]-th is the payload of a
    Success result for the [i]-th task.  It returns as soon as all futures have values. *)
Theorem C56_results_in_order : ∀ es c h ids vs, k_run es = (c, h) → new_ids h → f_collect (c, h) (FTask <$> ids) = Some (inl vs) →
  length vs = length ids ∧ ∀ i t v, ids !! i = Some t → vs !! i = Some v → ∃ d, CIn (KRecv (MTaskResult t Success d v) true) ∈ h.
Proof. exact map_values. Qed.
Print Assumptions C56_results_in_order.
Theorem C56_returns : ∀ es c h ids vs, k_run es = (c, h) → new_ids h → Forall2 (λ t v, CSet (FTask t) (Value v) ∈ h) ids vs →
  f_collect (c, h) (FTask <$> ids) = Some (inl vs).
Proof. exact map_complete. Qed.
Print Assumptions C56_returns.
(** What it raises is the outcome of the first future without a value. *)
Theorem C56_first_error : ∀ s ids o, f_collect s (FTask <$> ids) = Some (inr o) →
  ∃ i t, ids !! i = Some t ∧ f_result s (FTask t) = Some o ∧ ∀ j t', (j < i)%nat → ids !! j = Some t' → ∃ v, f_result s (FTask t') = Some (Returns v).
Proof.
  intros s ids o H. apply f_collect_error in H as (i & k & H1 & H2 & H3). rewrite list_lookup_fmap in H1.
  destruct (ids !! i) as [t|] eqn:Ei; [|done]. injection H1 as <-. exists i, t. split; [done|]. split; [done|].
  intros j t' Hj Ht. apply (H3 j (FTask t') Hj). rewrite list_lookup_fmap, Ht. done.
Qed.
Print Assumptions C56_first_error.
(** A one-shot iterator is used up by the type check: nothing is submitted and the
    result is the empty list. *)
Theorem C56_one_shot_refuted : ∀ sig rows s, c_map sig (OneShot (Row <$> rows)) = ([], None) ∧ f_collect s (FTask <$> []) = Some (inl []).
Proof. intros sig rows s. unfold c_map. cbn [items used_up]. rewrite all_rows. done. Qed.
Print Assumptions C56_one_shot_refuted.
(** An item that is no tuple or list: TypeError, and nothing is submitted. *)
Theorem C56_bad_item : ∀ sig it, OtherRow ∈ items it → c_map sig it = ([], Some TypeError).
Proof. intros sig it H. unfold c_map. rewrite other_row by done. done. Qed.
Print Assumptions C56_bad_item.
(** Too few arguments: TypeError, after the items before it have been submitted. *)
Theorem C56_too_few : ∀ sig before args after, signature_ok sig → (∀ a, a ∈ before → ¬ misses sig a ∅) → misses sig args ∅ →
  ∃ calls, c_map sig (Sequence ((Row <$> before) ++ Row args :: (Row <$> after))) = (calls, Some TypeError) ∧ length calls = length before.
Proof.
  intros sig before args after Hs Hb Ha. exists (full_row sig <$> before). unfold c_map. cbn [items used_up].
  assert (forallb (λ r, match r with Row _ => true | OtherRow => false end) ((Row <$> before) ++ Row args :: (Row <$> after)) = true) as ->.
  { rewrite forallb_app. cbn. rewrite !all_rows. done. }
  rewrite rows_bad by done. split; [done|apply fmap_length].
Qed.
Print Assumptions C56_too_few.

Definition sig_ab : list param := [Param "a" PositionalOrKeyword None; Param "b" PositionalOrKeyword (Some "2")].
Lemma sig_ab_ok : signature_ok sig_ab.
Proof.
  split; [apply (bool_decide_unpack _); vm_compute; exact I|].
  intros [|[|i]] [|[|j]] p q; cbn; intros H1 H2; try lia; try done. injection H1 as <-. injection H2 as <-. done.
Qed.
Example C56_example :
  c_map sig_ab (Sequence [Row ["x"]; Row ["y"; "z"]]) = ([["x"; "2"]; ["y"; "z"]], None) ∧
  c_map_calls "f" "name" "code" ["a"; "b"] [["a"]; ["b"]] = [KSubmit "a" "f" "name" "code" ["a"]; KSubmit "b" "f" "name" "code" ["b"]] ∧
  f_collect (k_run (two ++ [KRecv (MTaskResult "b" Success 1 "vb") true])) [FTask "a"; FTask "b"] = None ∧
  f_collect (k_run (two ++ [KRecv (MTaskResult "b" Success 1 "vb") true; KRecv (MTaskResult "a" Success 1 "va") true])) [FTask "a"; FTask "b"] = Some (inl ["va"; "vb"]) ∧
  f_collect (k_run (two ++ [KRecv (MTaskResult "b" Failed 1 "no") true; KRecv (MTaskResult "a" Success 1 "va") true])) [FTask "a"; FTask "b"] = Some (inr (Raises (Error "no"))) ∧
  new_ids (k_run (two ++ [KRecv (MTaskResult "b" Success 1 "vb") true; KRecv (MTaskResult "a" Success 1 "va") true])).2.
Proof. split_and!; [vm_compute; reflexivity..|]. apply new_ids_check. vm_compute. reflexivity. Qed.

(** ** C57 *)

(** The tuple sent to the worker binds every parameter as the direct call does, when all
    keywords name positional-or-keyword parameters. *)
Theorem C57_same_call : ∀ sig args kwargs fr, signature_ok sig → binds sig args kwargs fr →
  (∀ k, is_Some (kwargs !! k) → ∃ p, p ∈ sig ∧ p_kind p = PositionalOrKeyword ∧ p_name p = k) →
  ∃ all, c_convert sig args kwargs = Ok all ∧ binds sig all ∅ fr ∧ ∀ fr', binds sig all ∅ fr' → fr' = fr.
Proof.
  intros sig args kwargs fr Hs HB Hk. eexists. split; [apply convert_ok; [done|by eapply binds_not_missing]|].
  assert (Hsame : binds sig (args ++ (optional_value kwargs <$> drop (length args) (positional sig))) ∅ fr).
  { apply same_frame; try done. intros p Hp Hkind. destruct (kwargs !! p_name p) eqn:E; [|done]. exfalso.
    destruct (Hk (p_name p)) as (q & Hq & Hqk & Hqn); [eauto|]. assert (q = p) as -> by (eapply nodup_names_inj; [apply Hs|done..]). congruence. }
  split; [exact Hsame|]. intros fr' H'. eapply binds_unique; [apply Hs|exact H'|exact Hsame].
Qed.
Print Assumptions C57_same_call.
(** submit raises exactly when a required positional parameter is missing. *)
Theorem C57_missing : ∀ sig args kwargs e, signature_ok sig → c_convert sig args kwargs = Raise e ↔ e = TypeError ∧ misses sig args kwargs.
Proof. intros sig args kwargs e. apply convert_raises. Qed.
Print Assumptions C57_missing.
(** Keyword-only parameters: whatever the call gives, the worker's call sees the default,
    and fails if there is none; [**kwargs] arrives empty. *)
Theorem C57_keyword_only_refuted : ∀ sig args kwargs fr p, signature_ok sig → binds sig args kwargs fr →
  (∀ q, q ∈ sig → p_kind q = PositionalOnly → kwargs !! p_name q = None) → p ∈ sig → p_kind p = KeywordOnly →
  ∃ all, c_convert sig args kwargs = Ok all ∧ (p_default p = None → ¬ ∃ fr', binds sig all ∅ fr') ∧
    ∀ fr', binds sig all ∅ fr' → fr_params fr' !! p_name p = p_default p ∧ fr_extra fr' = ∅.
Proof.
  intros sig args kwargs fr p Hs HB Hpo Hp Hk. eexists. split; [apply convert_ok; [done|by eapply binds_not_missing]|]. split.
  - intros Hd [fr' H']. destruct (worker_frame sig args kwargs fr Hs HB Hpo fr' H') as (_ & _ & H & _). destruct (H p Hp Hk). done.
  - intros fr' H'. destruct (worker_frame sig args kwargs fr Hs HB Hpo fr' H') as (_ & _ & H & He). destruct (H p Hp Hk). done.
Qed.
Print Assumptions C57_keyword_only_refuted.
(** The positional parameters and [*args] are right even then. *)
Theorem C57_positional_right : ∀ sig args kwargs fr, signature_ok sig → binds sig args kwargs fr →
  (∀ q, q ∈ sig → p_kind q = PositionalOnly → kwargs !! p_name q = None) →
  ∃ all, c_convert sig args kwargs = Ok all ∧ ∀ fr', binds sig all ∅ fr' →
    (∀ p, p ∈ sig → by_position p = true → fr_params fr' !! p_name p = fr_params fr !! p_name p) ∧ fr_star fr' = fr_star fr.
Proof.
  intros sig args kwargs fr Hs HB Hpo. eexists. split; [apply convert_ok; [done|by eapply binds_not_missing]|].
  intros fr' H'. destruct (worker_frame sig args kwargs fr Hs HB Hpo fr' H') as (H1 & H2 & _). done.
Qed.
Print Assumptions C57_positional_right.
(** A keyword that names no open positional parameter (for Python: a value for
    [**kwargs], or an error) is silently dropped. *)
Theorem C57_dropped_keyword_refuted : ∀ sig args kwargs k v, signature_ok sig →
  (∀ i p, positional sig !! i = Some p → p_name p = k → (i < length args)%nat) →
  c_convert sig args (<[k := v]> kwargs) = c_convert sig args kwargs.
Proof. exact convert_ignores. Qed.
Print Assumptions C57_dropped_keyword_refuted.

Definition sig_ac : list param := [Param "a" PositionalOrKeyword None; Param "c" KeywordOnly (Some "3")].
Lemma sig_ac_ok : signature_ok sig_ac.
Proof.
  split; [apply (bool_decide_unpack _); vm_compute; exact I|].
  intros [|[|i]] [|[|j]] p q; cbn; intros H1 H2; try lia; try done.
Qed.
Ltac in_sig H := repeat (apply elem_of_cons in H as [->|H]); try (by apply elem_of_nil in H).
Lemma ab_binds : binds sig_ab ["1"] {["b" := "9"]} (Frame {["a" := "1"; "b" := "9"]} [] ∅).
Proof.
  split.
  - cbn. lia.
  - done.
  - intros k v. rewrite lookup_singleton_Some. intros [<- _]. left. exists (Param "b" PositionalOrKeyword (Some "2")). split; [right; left|done].
  - intros [|[|i]] p; cbn; intros H Hl; [injection H as <-; done|lia|done].
  - intros k. cbn [fr_extra]. rewrite lookup_empty. destruct (existsb _ _) eqn:E; [done|]. symmetry. apply lookup_singleton_None. intros <-. done.
  - intros [|[|i]] p v; cbn [positional sig_ab List.filter by_position p_kind lookup list_lookup]; intros H1 H2; try done. injection H1 as <-. injection H2 as <-. done.
  - intros p Hp Hn Ho. in_sig Hp; [exfalso; specialize (Ho 0%nat eq_refl); cbn in Ho; lia|]. exists "9". split; done.
  - intros k [v Hk]. cbn [fr_params] in Hk. apply lookup_insert_Some in Hk as [[<- _]|[_ Hk]]; [|apply lookup_singleton_Some in Hk as [<- _]]; eexists; (split; [|split]); [left|done|done|right; left|done|done].
Qed.
Lemma ac_binds : binds sig_ac ["1"] {["c" := "9"]} (Frame {["a" := "1"; "c" := "9"]} [] ∅).
Proof.
  split.
  - cbn. lia.
  - done.
  - intros k v. rewrite lookup_singleton_Some. intros [<- _]. left. exists (Param "c" KeywordOnly (Some "3")). split; [right; left|done].
  - intros [|[|i]] p; cbn; intros H Hl; [injection H as <-; done|lia|done].
  - intros k. cbn [fr_extra]. rewrite lookup_empty. destruct (existsb _ _) eqn:E; [done|]. symmetry. apply lookup_singleton_None. intros <-. done.
  - intros [|[|i]] p v; cbn [positional sig_ac List.filter by_position p_kind lookup list_lookup]; intros H1 H2; try done. injection H1 as <-. injection H2 as <-. done.
  - intros p Hp Hn Ho. in_sig Hp; [exfalso; specialize (Ho 0%nat eq_refl); cbn in Ho; lia|]. exists "9". split; done.
  - intros k [v Hk]. cbn [fr_params] in Hk. apply lookup_insert_Some in Hk as [[<- _]|[_ Hk]]; [|apply lookup_singleton_Some in Hk as [<- _]]; eexists; (split; [|split]); [left|done|done|right; left|done|done].
Qed.
Lemma ac_worker : binds sig_ac ["1"] ∅ (Frame {["a" := "1"; "c" := "3"]} [] ∅).
Proof.
  split.
  - cbn. lia.
  - done.
  - intros k v. rewrite lookup_empty. done.
  - intros [|[|i]] p; cbn; intros H Hl; [injection H as <-; done|lia|done].
  - intros k. cbn [fr_extra]. rewrite lookup_empty. destruct (existsb _ _); done.
  - intros [|[|i]] p v; cbn [positional sig_ac List.filter by_position p_kind lookup list_lookup]; intros H1 H2; try done. injection H1 as <-. injection H2 as <-. done.
  - intros p Hp Hn Ho. in_sig Hp; [exfalso; specialize (Ho 0%nat eq_refl); cbn in Ho; lia|]. exists "3". split; done.
  - intros k [v Hk]. cbn [fr_params] in Hk. apply lookup_insert_Some in Hk as [[<- _]|[_ Hk]]; [|apply lookup_singleton_Some in Hk as [<- _]]; eexists; (split; [|split]); [left|done|done|right; left|done|done].
Qed.
Example C57_example :
  c_convert sig_ab ["1"] {["b" := "9"]} = Ok ["1"; "9"] ∧ c_convert sig_ab [] {["b" := "9"]} = Raise TypeError ∧
  c_convert sig_ab ["1"] {["x" := "9"]} = Ok ["1"; "2"] ∧
  binds sig_ab ["1"] {["b" := "9"]} (Frame {["a" := "1"; "b" := "9"]} [] ∅) ∧
  (* the direct call has c = 9, the worker's call c = 3 *)
  binds sig_ac ["1"] {["c" := "9"]} (Frame {["a" := "1"; "c" := "9"]} [] ∅) ∧
  c_convert sig_ac ["1"] {["c" := "9"]} = Ok ["1"] ∧ binds sig_ac ["1"] ∅ (Frame {["a" := "1"; "c" := "3"]} [] ∅).
Proof. split_and!; [vm_compute; reflexivity..|exact ab_binds|exact ac_binds|vm_compute; reflexivity|exact ac_worker]. Qed.
(** [def f(a="0", /, **kw)] called as [f(a="1")]: Python leaves [a] at "0"; the worker gets "1". *)
Example C57_positional_only_refuted :
  c_convert [Param "a" PositionalOnly (Some "0"); Param "kw" VarKeyword None] [] {["a" := "1"]} = Ok ["1"].
Proof. vm_compute. reflexivity. Qed.

(** ** C58 *)

(** Distinct ids for distinct nodes (uuid1), distinct digests for distinct functions. *)
Definition distinct_ids (graph : ugraph) (ids : bytes → bytes) : Prop := ∀ n m, computed graph n → computed graph m → ids n = ids m → n = m.
Definition distinct_digests (graph : ugraph) (digest : bytes → bytes) : Prop :=
  ∀ n name c args n' name' c' args', (n, GCall name c args) ∈ graph → (n', GCall name' c' args') ∈ graph → digest c = digest c' → c = c'.

(** Distinct keys: the [i]-th key is mapped to the [i]-th future, whose target is the
    key's node. *)
Theorem C58_own_future : ∀ ids digest g graph keys m futures returned, well_formed graph keys → NoDup keys → distinct_ids graph ids →
  c_get ids digest g graph keys = Ok (m, futures, returned) →
  returned = zip keys futures ∧ length futures = length keys ∧ (∃ functions tasks, m = MGraphTask g functions (ids <$> keys) tasks) ∧
  ∀ i k, keys !! i = Some k → returned !! i = Some (k, FGraph g i).
Proof.
  intros ids digest g graph keys m futures returned Hw HN Hi Hg. destruct (get_ok ids digest g graph keys Hw) as (fns & tasks & E & _).
  rewrite Hg in E. destruct (get_distinct ids g graph keys Hw HN Hi) as [Et Ef]. rewrite Ef in E. rewrite Et in E. injection E as -> -> ->.
  rewrite !fmap_length. split; [done|]. split; [by rewrite seq_length|]. split; [eauto|].
  intros i k Hk. rewrite lookup_zip_with, Hk. cbn. rewrite list_lookup_fmap, lookup_seq_lt; [done|]. by eapply lookup_lt_Some.
Qed.
Print Assumptions C58_own_future.
(** So when the results the scheduler sends are the values of the targets of the graph
    sent, [get] returns every key with the value of its node in the user's graph. *)
Theorem C58_own_value : ∀ interp ids digest g graph keys functions targets tasks futures returned es c h kvs,
  NoDup graph.*1 → NoDup keys → distinct_ids graph ids → distinct_digests graph digest →
  c_get ids digest g graph keys = Ok (MGraphTask g functions targets tasks, futures, returned) →
  k_run es = (c, h) → new_ids h →
  (∀ ps loads, CIn (KRecv (MGraphTaskResult g Success ps) loads) ∈ h → Forall2 (task_value interp functions tasks) targets ps) →
  c_get_values (c, h) returned = Some (inl kvs) →
  kvs.*1 = keys ∧ ∀ k v, (k, v) ∈ kvs → node_value interp graph k v.
Proof.
  intros interp ids digest g graph keys fns targets tasks futures ret es c h kvs HN HK Hi Hd Hg Hr Hn Hp Hv.
  assert (Hw : well_formed graph keys). { apply check_iff. unfold c_get in Hg. destruct (c_check _ _ _); done. }
  destruct (C58_own_future _ _ _ _ _ _ _ _ Hw HK Hi Hg) as (-> & Hl & (f' & t' & [= -> -> ->]) & Hfut).
  destruct (get_ok ids digest g graph keys Hw) as (fns & tasks' & E & HT & HF1 & HF2). rewrite Hg in E. injection E as <- _ <- _.
  unfold c_get_values in Hv. destruct (f_collect _ _) as [[vs|]|] eqn:Ec; try done. injection Hv as <-. apply f_collect_values in Ec.
  assert (Hlen : length vs = length keys). { apply Forall2_length in Ec. rewrite snd_zip in Ec by lia. lia. }
  rewrite (fst_zip keys futures) by lia. split; [apply zip_fst; lia|]. intros k v Hin. apply elem_of_list_lookup in Hin as [i Hlk].
  rewrite lookup_zip_with_Some in Hlk. destruct Hlk as (k0 & v0 & [= <- <-] & Hki & Hvi).
  destruct (Forall2_lookup_r _ _ _ _ _ Ec Hvi) as (fk & Hfk & Er). pose proof (Hfut i k Hki) as Hz. rewrite list_lookup_fmap, Hz in Hfk. injection Hfk as <-.
  apply f_result_returns in Er. destruct (set_value_message _ _ _ _ _ Hr Hn Er) as (ps & Hm & Hpi). specialize (Hp _ _ Hm).
  destruct (Forall2_lookup_r _ _ _ _ _ Hp Hpi) as (t & Ht & Htv). rewrite list_lookup_fmap, Hki in Ht. injection Ht as <-.
  eapply (values_backward interp graph ids digest f' t'); eauto. destruct Hw as [Hk _]. apply Hk. by eapply elem_of_list_lookup_2.
Qed.
Print Assumptions C58_own_value.
(** A repeated key: [get(graph, [a, a, b])] returns the value of [b] under [a] and no [b]. *)
Theorem C58_repeated_refuted : ∀ ids digest g graph a b m futures returned, distinct_ids graph ids → a ≠ b →
  c_get ids digest g graph [a; a; b] = Ok (m, futures, returned) →
  (∃ functions tasks, m = MGraphTask g functions [ids a; ids b] tasks) ∧ returned = [(a, FGraph g 1%nat)].
Proof.
  intros ids digest g graph a b m futures ret Hi Hab Hg.
  assert (Hw : well_formed graph [a; a; b]). { apply check_iff. unfold c_get in Hg. destruct (c_check _ _ _); done. }
  destruct (get_ok ids digest g graph _ Hw) as (fns & tasks & E & _). rewrite Hg in E.
  assert (Hne : ids a ≠ ids b). { intros X. apply Hab. apply Hi; [apply Hw; left|apply Hw; right; right; left|done]. }
  assert (Et : c_targets ids [a; a; b] = [ids a; ids b]).
  { unfold c_targets. cbn. unfold put_key, put_last. cbn. rewrite String.eqb_refl. cbn. destruct (String.eqb_spec (ids a) (ids b)); done. }
  rewrite Et in E. injection E as -> _ ->. split; [eauto|]. cbn. unfold put_key, put_last. cbn. rewrite String.eqb_refl. done.
Qed.
Print Assumptions C58_repeated_refuted.

(** ** C59 *)

(** [get] raises iff a key is no computed node, an argument is no node name, or the
    dependencies are cyclic (Spec/ClientCallsSpec.v: well_formed). *)
Theorem C59_rejects : ∀ ids digest g graph keys, (∃ e, c_get ids digest g graph keys = Raise e) ↔ ¬ well_formed graph keys.
Proof. exact get_raises. Qed.
Print Assumptions C59_rejects.
(** The graph sent for an accepted graph denotes the same computation: the targets are
    the tasks of the keys, and a node and its task have the same values. *)
Theorem C59_same_computation : ∀ ids digest g graph keys functions targets tasks futures returned,
  NoDup graph.*1 → distinct_ids graph ids → distinct_digests graph digest →
  c_get ids digest g graph keys = Ok (MGraphTask g functions targets tasks, futures, returned) →
  NoDup targets ∧ (∀ t, t ∈ targets ↔ ∃ k, k ∈ keys ∧ t = ids k) ∧
  (∀ t, t ∈ (task_id <$> tasks) ↔ ∃ n, computed graph n ∧ t = ids n) ∧
  ∀ interp n, computed graph n → ∀ v, task_value interp functions tasks (ids n) v ↔ node_value interp graph n v.
Proof.
  intros ids digest g graph keys fns targets tasks futures ret HN Hi Hd Hg.
  assert (Hw : well_formed graph keys). { apply check_iff. unfold c_get in Hg. destruct (c_check _ _ _); done. }
  destruct (get_ok ids digest g graph keys Hw) as (fns' & tasks' & E & HT & HF1 & HF2). rewrite Hg in E. injection E as <- -> <- -> ->.
  destruct (targets_spec ids keys) as [H1 H2]. split; [done|]. split; [|split].
  - intros t. rewrite H2, elem_of_list_fmap. naive_solver.
  - intros t. rewrite elem_of_list_fmap. split.
    + intros (k & -> & Hk). apply elem_of_list_lookup in Hk as [i Hk]. destruct (Forall2_lookup_r _ _ _ _ _ HT Hk) as ([n [[a b] args]] & Hn & E1 & _).
      apply elem_of_list_lookup_2, elem_of_calls in Hn. exists n. split; [unfold computed; eauto|exact E1].
    + intros (n & (a & b & args & Hn) & ->). assert (Hc : (n, (a, b, args)) ∈ c_calls graph) by (apply elem_of_calls; exact Hn).
      apply elem_of_list_lookup in Hc as [i Hc]. destruct (Forall2_lookup_l _ _ _ _ _ HT Hc) as (k & Hk & E1 & _). exists k. split; [done|by eapply elem_of_list_lookup_2].
  - intros interp n Hn v. split.
    + intros Hv. eapply values_backward; eauto.
    + intros Hv. eapply values_forward; eauto.
Qed.
Print Assumptions C59_same_computation.
(** Every node of an accepted graph has exactly one value. *)
Theorem C59_value_exists : ∀ interp graph keys n, NoDup graph.*1 → well_formed graph keys → n ∈ graph.*1 →
  ∃ v, node_value interp graph n v ∧ ∀ w, node_value interp graph n w → w = v.
Proof.
  intros interp graph keys n HN Hw Hn. destruct (node_value_total interp graph keys Hw n Hn) as [v Hv]. exists v. split; [done|].
  intros w Hx. symmetry. exact (node_value_unique interp graph n v HN Hv w Hx).
Qed.
Print Assumptions C59_value_exists.

Definition diamond : ugraph :=
  [("a", GData "1"); ("d", GCall "add" "ADD" [AName "b"; AName "c"]); ("b", GCall "inc" "INC" [AName "a"]); ("c", GCall "inc" "INC" [AName "a"])].
Definition diamond_id (n : bytes) : bytes := "id" +:+ n.
Example C58_C59_example :
  c_get diamond_id (λ c, c) "g" diamond ["d"; "b"] =
    Ok (MGraphTask "g" [("ADD", ("add", "ADD")); ("INC", ("inc", "INC"))] ["idd"; "idb"]
          [Task "idd" "ADD" [ArgTask "idb"; ArgTask "idc"]; Task "idb" "INC" [ArgData "1"]; Task "idc" "INC" [ArgData "1"]],
        [FGraph "g" 0%nat; FGraph "g" 1%nat], [("d", FGraph "g" 0%nat); ("b", FGraph "g" 1%nat)]) ∧
  c_get diamond_id (λ c, c) "g" diamond ["a"] = Raise KeyError ∧
  c_get diamond_id (λ c, c) "g" (diamond ++ [("e", GCall "inc" "INC" [AName "z"])]) ["d"] = Raise KeyError ∧
  c_get diamond_id (λ c, c) "g" (diamond ++ [("e", GCall "inc" "INC" [AName "e"])]) ["d"] = Raise CycleError ∧
  NoDup diamond.*1 ∧ distinct_ids diamond diamond_id ∧ distinct_digests diamond (λ c, c) ∧
  node_value (λ c vs, c +:+ String.concat "," vs) diamond "d" ("ADD" +:+ "INC1,INC1") ∧
  (let s := k_run [KGraph (MGraphTask "g" [] ["idd"; "idb"] []) 2; KGraphStep "g"; KRecv (MGraphTaskResult "g" Success ["x"; "y"]) true] in
   c_get_values s [("d", FGraph "g" 0%nat); ("b", FGraph "g" 1%nat)] = Some (inl [("d", "x"); ("b", "y")])).
Proof.
  split_and!; try (vm_compute; reflexivity).
  - apply (bool_decide_unpack _). vm_compute. exact I.
  - intros n m _ _. unfold diamond_id. intros H. by simplify_eq.
  - intros n name c args n' name' c' args' _ _ ->. done.
  - set (interp := λ (c : bytes) (vs : list bytes), c +:+ String.concat "," vs).
    assert (Ha : node_value interp diamond "a" "1") by (apply value_data; left).
    assert (Hb : node_value interp diamond "b" (interp "INC" ["1"])).
    { eapply value_call; [right; right; left|]. constructor; [exact Ha|constructor]. }
    assert (Hc : node_value interp diamond "c" (interp "INC" ["1"])).
    { eapply value_call; [right; right; right; left|]. constructor; [exact Ha|constructor]. }
    change ("ADD" +:+ "INC1,INC1") with (interp "ADD" [interp "INC" ["1"]; interp "INC" ["1"]]).
    eapply value_call; [right; left|]. constructor; [exact Hb|]. constructor; [exact Hc|]. constructor.
Qed.
