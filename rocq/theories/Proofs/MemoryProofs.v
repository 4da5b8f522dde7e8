(** * Memory housekeeping (C93) *)

From Verif.Model Require Import Base EventLoop MemoryCleaner.
From Verif.Spec Require Import LoopSpec MemorySpec.
From Verif.Proofs Require Import LoopProofs.

Lemma memory_spaced interval threshold turns : ∀ prev,
  spaced interval (prev :: collected turns (memory_run interval threshold prev turns)).
Proof.
  induction turns as [|[now rss] turns IH]; intros prev.
  { intros [|i] a b Ha Hb; cbn in *; discriminate. }
  cbn [memory_run]. unfold clean_memory. destruct (now - prev <? interval) eqn:E.
  - cbn [collected app]. exact (IH prev).
  - cbn [collected]. apply Z.ltb_ge in E. intros [|i] a b Ha Hb.
    + cbn in Ha, Hb. injection Ha as <-. injection Hb as <-. lia.
    + exact (IH now i a b Ha Hb).
Qed.

Lemma memory_acts interval threshold turns : ∀ prev i now rss acts,
  turns !! i = Some (now, rss) → memory_run interval threshold prev turns !! i = Some acts →
  (Trim ∈ acts ↔ Collect ∈ acts ∧ threshold <= rss) ∧ (acts = [] ∨ acts = [Collect] ∨ acts = [Collect; Trim]).
Proof.
  induction turns as [|[t r] turns IH]; intros prev i now rss acts Ht Ha; [discriminate|].
  cbn [memory_run] in Ha. destruct (clean_memory interval threshold prev t r) as [prev' a] eqn:E.
  destruct i as [|i]; [|exact (IH _ _ _ _ _ Ht Ha)].
  cbn in Ht, Ha. injection Ht as <- <-. injection Ha as <-. unfold clean_memory in E.
  destruct (t - prev <? interval); [injection E as <- <-|].
  { split; [|auto]. split; [intros H; inversion H|intros [H _]; inversion H]. }
  destruct (r <? threshold) eqn:E2; injection E as <- <-.
  - apply Z.ltb_lt in E2. split; [|auto]. split.
    + intros H. apply elem_of_list_singleton in H. discriminate.
    + intros [_ H]. lia.
  - apply Z.ltb_ge in E2. split; [|auto]. split; [|set_solver]. intros _. split; [left|exact E2].
Qed.

Lemma memory_length interval threshold turns : ∀ prev, length (memory_run interval threshold prev turns) = length turns.
Proof. induction turns as [|[t r] l IH]; intros prev; [reflexivity|]. cbn [memory_run]. destruct (clean_memory _ _ _ _ _). cbn. by rewrite IH. Qed.

Definition latest (start : Z) (times : list Z) : Z := default start (last times).

Lemma latest_cons start t times : latest start (t :: times) = latest t times.
Proof. unfold latest. destruct times; [reflexivity|]. rewrite last_cons. by destruct (last (z :: times)) eqn:E; [|apply last_None in E]. Qed.

(** The last turn leaves a collection less than the interval ago. *)
Lemma memory_recent interval threshold turns now rss : 0 < interval → ∀ prev,
  now - latest prev (collected (turns ++ [(now, rss)]) (memory_run interval threshold prev (turns ++ [(now, rss)]))) < interval.
Proof.
  intros Hi. induction turns as [|[t r] turns IH]; intros prev.
  - cbn [app memory_run]. unfold clean_memory. destruct (now - prev <? interval) eqn:E.
    + cbn [collected app]. unfold latest. cbn. apply Z.ltb_lt in E. lia.
    + cbn [collected app]. rewrite latest_cons. unfold latest. cbn. lia.
  - cbn [app memory_run]. unfold clean_memory. destruct (t - prev <? interval).
    + cbn [collected app]. apply IH.
    + cbn [collected app]. rewrite latest_cons. apply IH.
Qed.

Lemma memory_soon interval threshold slack prev start now turns :
  0 < interval → 0 <= slack → prev <= start → start <= prev + slack →
  on_schedule cleanup_interval slack start now (turns.*1) →
  now < latest prev (collected turns (memory_run interval threshold prev turns)) + interval + cleanup_interval + slack.
Proof.
  intros Hi Hsl H1 H2 Hs. apply schedule_last in Hs.
  destruct turns as [|[t r] turns _] using rev_ind.
  - cbn in Hs. cbn. unfold latest, cleanup_interval. cbn. lia.
  - rewrite fmap_app in Hs. cbn in Hs. rewrite last_snoc in Hs.
    pose proof (memory_recent interval threshold turns t r Hi prev). lia.
Qed.
