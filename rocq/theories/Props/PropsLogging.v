(** * Logging: C100 *)

From Verif.Model Require Import Base Formatter Logging.
From Verif.Spec Require Import LoggingSpec.
From Verif.Proofs Require Import BaseProofs LoggingProofs.

(** C100.  After [setup_logger(files, level)], a record of at least this level (and of DEBUG)
    is written to every destination asked for and to no other, once to each, in the terminal's
    or the file's format; a lesser one nowhere.  The file that is named "console" does not go
    together with the terminal. *)
Theorem C100_delivery : ∀ expand opens files level hs L r,
  ¬ ("console" ∈ files ∧ ∃ f, f ∈ files ∧ (f = "-" ∨ f = "/dev/stdout")) →
  setup_logger expand opens files level = Ok hs → level_number level = Some L →
  let out := written hs r in
  (r_level r < Z.max 10 L → out = []) ∧
  (Z.max 10 L <= r_level r → (∀ d, d ∈ out.*1 ↔ ∃ f, f ∈ files ∧ d = asked_for expand f) ∧
    ((∀ f g, f ∈ files → g ∈ files → expand f = expand g → f = g) → NoDup out.*1)) ∧
  (∀ d text, (d, text) ∈ out → line_for d r text).
Proof. intros expand opens files level hs L r. exact (delivery_lemma expand opens files level hs L r). Qed.
Print Assumptions C100_delivery.

(** Paths "tcp://..." are rejected; any others work if the level is known and the files can
    be opened. *)
Theorem C100_starts : ∀ expand opens files level,
  ((∃ x, "tcp://" +:+ x ∈ files) → setup_logger expand opens files level = Raise NotImplementedError) ∧
  ((¬ ∃ x, "tcp://" +:+ x ∈ files) → is_Some (level_number level) → (∀ f p, f ∈ files → asked_for expand f = InFile p → opens p = true) →
   ∃ hs, setup_logger expand opens files level = Ok hs).
Proof. exact starts_lemma. Qed.
Print Assumptions C100_starts.

(** The names of the levels mean what they mean in Python, and the shorter name that a line
    begins with means the level of its record. *)
Theorem C100_levels : ∀ name n, (name, n) ∈ severities → level_number name = Some n ∧ level_number (level_name n) = Some n.
Proof. intros name n H. repeat (apply elem_of_cons in H as [[= -> ->]|H]; [vm_compute; auto|]). by apply elem_of_nil in H. Qed.
Print Assumptions C100_levels.

(** The terminal gets nothing when a file named "console" follows it, and the file nothing
    when the terminal follows. *)
Theorem C100_console_refuted : ∀ r, 20 <= r_level r →
  (∃ hs, setup_logger id (λ _, true) ["-"; "console"] "INFO" = Ok hs ∧ (written hs r).*1 = [InFile "console"]) ∧
  (∃ hs, setup_logger id (λ _, true) ["console"; "-"] "INFO" = Ok hs ∧ (written hs r).*1 = [Terminal]).
Proof.
  intros r Hr. assert (E1 : (r_level r <? 10) = false) by (apply Z.ltb_ge; lia). assert (E2 : (20 <=? r_level r) = true) by (apply Z.leb_le; lia).
  split; eexists; (split; [vm_compute; reflexivity|]); unfold written; rewrite E1; cbn [omap list_omap fst snd]; rewrite E2; reflexivity.
Qed.
Print Assumptions C100_console_refuted.

(** A block under a [ScopedLogger], shorter than 104 days: two lines are logged, the second
    with the time that passed in microseconds, whatever the block returns or raises. *)
Theorem C100_elapsed : ∀ A message start stop (body : res A), start <= stop < start + 2 ^ 53 →
  ∃ text, says text ((stop - start) / 1000) ∧
    scoped message start stop body = (["beginning " +:+ message; "completed " +:+ message +:+ " in " +:+ text], body).
Proof. intros A. exact scoped_lemma. Qed.
Print Assumptions C100_elapsed.

Definition started_at (n : Z) : record := Record n "2024-01-01 00:00:00+0000" "main" "run" "7" "hello".
Example C100_example :
  (∃ hs, setup_logger id (λ _, true) ["/dev/stdout"; "/tmp/log"; "-"] "WARNING" = Ok hs ∧
    written hs (started_at 20) = [] ∧
    written hs (started_at 40) = [(Terminal, "[EROR]2024-01-01 00:00:00+0000: hello"); (InFile "/tmp/log", "[EROR]2024-01-01 00:00:00+0000:main:run:7: hello")]) ∧
  setup_logger id (λ _, true) ["-"; "tcp://127.0.0.1:80"] "INFO" = Raise NotImplementedError ∧
  setup_logger id (λ _, true) ["-"] "LOUD" = Raise ValueError ∧
  scoped "work" 1000 90061001234567 (Raise ValueError : res unit) =
    (["beginning work"; "completed work in 1 day, 1:01:01.001233"], Raise ValueError) ∧
  (scoped "work" 0 5000000999 (Ok tt)).1 = ["beginning work"; "completed work in 0:00:05"].
Proof.
  split; [eexists; split; [vm_compute; reflexivity|split; vm_compute; reflexivity]|]. split; [vm_compute; reflexivity|]. split; [vm_compute; reflexivity|]. split; vm_compute; reflexivity.
Qed.
