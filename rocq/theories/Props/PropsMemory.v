(** * Property C93: memory housekeeping of a processor *)

From Verif.Model Require Import Base EventLoop MemoryCleaner.
From Verif.Spec Require Import LoopSpec MemorySpec.
From Verif.Proofs Require Import LoopProofs MemoryProofs.

(** C93.  Two garbage collections, and the start and the first one, are at least the
    configured interval apart, whatever the clock does. *)
Theorem C93_not_too_often :
  ∀ interval threshold start turns,
  spaced interval (start :: collected turns (memory_run interval threshold start turns)).
Proof. intros. apply memory_spaced. Qed.
Print Assumptions C93_not_too_often.

(** In every turn: memory is given back only after a collection, and then exactly when
    the process is at or above the threshold. *)
Theorem C93_trim :
  ∀ interval threshold start turns i now rss acts,
  turns !! i = Some (now, rss) → memory_run interval threshold start turns !! i = Some acts →
  (Trim ∈ acts ↔ Collect ∈ acts ∧ threshold <= rss) ∧ (acts = [] ∨ acts = [Collect] ∨ acts = [Collect; Trim]).
Proof. exact (λ interval threshold start turns, memory_acts interval threshold turns start). Qed.
Print Assumptions C93_trim.

(** While the thread makes its turns every second, late by at most [slack], the last
    collection (or the construction, at [built]) is always less than the interval
    plus a second plus the slack ago. *)
Theorem C93_often_enough :
  ∀ interval threshold slack built start now turns,
  0 < interval → 0 <= slack → built <= start <= built + slack →
  on_schedule cleanup_interval slack start now (turns.*1) →
  ∃ last_time, last (built :: collected turns (memory_run interval threshold built turns)) = Some last_time ∧
  now < last_time + interval + cleanup_interval + slack.
Proof.
  intros interval threshold slack built start now turns Hi Hs [H1 H2] Ho.
  exists (latest built (collected turns (memory_run interval threshold built turns))). split.
  - unfold latest. rewrite last_cons. by destruct (last (collected _ _)).
  - exact (memory_soon _ _ _ _ _ _ _ Hi Hs H1 H2 Ho).
Qed.
Print Assumptions C93_often_enough.

(** Interval 3, threshold 100: turns every second (one of them late by one second). *)
Definition memory_turns : list (Z * Z) := [(10, 500); (11, 500); (12, 500); (13, 99); (15, 500); (16, 100); (17, 500)].
Example C93_example :
  memory_run 3 100 10 memory_turns = [[]; []; []; [Collect]; []; [Collect; Trim]; []] ∧
  collected memory_turns (memory_run 3 100 10 memory_turns) = [13; 16] ∧
  on_schedule cleanup_interval 1 10 18 (memory_turns.*1).
Proof.
  split; [reflexivity|]. split; [reflexivity|].
  exists [Turn 0 0; Turn 0 0; Turn 0 0; Turn 1 0; Turn 0 0; Turn 0 0; Turn 0 0; Turn 0 0], 18.
  split; [|split; [reflexivity|lia]]. repeat constructor; cbn; lia.
Qed.

(** No smaller bound on whole seconds holds: before the turn at 15 the construction is 5
    seconds ago, and the interval plus a second plus the slack is 6. *)
Example C93_tight :
  on_schedule cleanup_interval 1 10 15 [10; 11; 12; 13] ∧
  collected [(10, 0); (11, 0); (12, 0); (13, 0)] (memory_run 4 100 10 [(10, 0); (11, 0); (12, 0); (13, 0)]) = [].
Proof.
  split; [|reflexivity]. exists [Turn 0 0; Turn 0 0; Turn 0 0; Turn 0 1; Turn 0 0], 15.
  split; [|split; [reflexivity|lia]]. repeat constructor; cbn; lia.
Qed.
