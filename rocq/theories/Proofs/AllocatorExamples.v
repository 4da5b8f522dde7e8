(** Remaining lemmas behind C07-C13. *)

From Verif.Model Require Import Base PriorityQueue Allocator.
From Verif.Spec Require Import AllocatorSpec.
From Verif.Proofs Require Import AllocatorProofs.

Lemma leak_lemma :
  ∃ calls t answers, al_run (al_init 1) (calls ++ [AAssign t]) = (answers ++ [AResult AllFull], None) ∧
    ∃ w, w ∈ lg_workers (ledger_after lg_empty calls answers) ∧
         load (ledger_after lg_empty calls answers) w = 0.
Proof.
  exists [AAddWorker "w"; AAssign "a"; AHasAvailable; ARemoveTask "a"], "b",
    [ABool true; AResult (Assigned "w"); ABool false; AWorker (Some "w")].
  split; [by_compute|]. exists "w". split; by_compute.
Qed.

Lemma unavailable_lemma :
  al_run (al_init 1) [AAddWorker "w"; AAssign "a"; AHasAvailable; ARemoveTask "a"; AHasAvailable; ARemoveWorker "w"]
  = ([ABool true; AResult (Assigned "w"); ABool false; AWorker (Some "w"); ABool false], Some ValueError).
Proof. by_compute. Qed.

Lemma allocator_disjoint_lemma :
  ∀ max calls w w' t answers answer answer',
  al_run (al_init max) (calls ++ [ARemoveWorker w; ARemoveWorker w'])
    = (answers ++ [ATasks answer; ATasks answer'], None) →
  t ∈ answer → t ∉ answer'.
Proof.
  intros max calls w w' t answers answer answer' E H1 H2.
  change (calls ++ [ARemoveWorker w; ARemoveWorker w']) with (calls ++ [ARemoveWorker w] ++ [ARemoveWorker w']) in E.
  change (answers ++ [ATasks answer; ATasks answer']) with (answers ++ [ATasks answer] ++ [ATasks answer']) in E.
  rewrite !app_assoc in E.
  assert (Hl : length answers = length calls).
  { apply al_run_length in E. rewrite !app_length in E. cbn in E. lia. }
  pose proof (allocator_remove_worker_lemma _ _ _ _ _ E) as Hr. injection Hr as ->.
  pose proof (al_every_history max (calls ++ [ARemoveWorker w; ARemoveWorker w'])) as Hc.
  rewrite <- !app_assoc in E. cbn in E. rewrite E in Hc. cbn [fst] in Hc.
  destruct (al_conforms_after false max calls lg_empty answers _ [ARemoveWorker w'] _ [ATasks _] Hc Hl) as [Hd _].
  apply elem_of_tasks_of in H2.
  assert (Ha : ∀ os rs g o r, length rs = length os →
     ledger_after g (os ++ [o]) (rs ++ [r]) = seen (ledger_after g os rs) o r).
  { induction os as [|o1 os IH]; intros rs g o r; destruct rs; try discriminate; cbn; [reflexivity|].
    intros Hl'. injection Hl' as Hl'. apply IH. exact Hl'. }
  rewrite Ha in H2 by exact Hl. cbn in H2. apply map_filter_lookup_Some in H2 as [H2 H3]. cbn in H3.
  inversion Hd; subst.
  - apply elem_of_tasks_of in H1. congruence.
  - set_solver.
Qed.

Lemma allocator_advice_moderate_lemma :
  ∀ max calls answers advice w k,
  al_run (al_init max) (calls ++ [ABalance]) = (answers ++ [AAdvice advice], None) →
  advice !! w = Some k →
  let g := ledger_after lg_empty calls answers in
  1 <= k <= load g w ∧ load g w - k = total_load g / Z.of_nat (size (lg_workers g)).
Proof.
  intros max calls answers advice w k E Hk. cbn zeta.
  destruct (allocator_advice_lemma _ _ _ _ E) as (m & Hm & [H1 H2]). injection Hm as <-.
  set (g := ledger_after lg_empty calls answers) in *.
  assert (Hib := H1 ltac:(intros ->; rewrite lookup_empty in Hk; discriminate)).
  destruct (H2 Hib) as [H3 H4]. pose proof (H4 w k Hk) as ->.
  destruct (proj1 (H3 w) ltac:(eauto)) as [Hw Hgt].
  set (n := Z.of_nat (size (lg_workers g))) in *.
  assert (Hn : 0 < n).
  { assert (size (lg_workers g) ≠ 0%nat); [|lia]. intros E0. apply size_empty_inv in E0. set_solver. }
  assert (Ht : 0 <= total_load g) by (unfold total_load; lia).
  pose proof (Z.div_lt_upper_bound (total_load g) n (load g w) Hn ltac:(lia)).
  pose proof (Z.div_pos (total_load g) n Ht Hn). lia.
Qed.
