(** * What starting a scheduler or a cluster should do

    A command line, as a user thinks of it: options with their values, and the address. *)

From Coq Require Import Ascii.
From Verif.Model Require Import Base ZMQConfig Startup.
From Verif.Spec Require Import NumberSpec.

Inductive item : Type :=
| Number (name : string) (value : Z)
| Loop (name value : string)
| Address (text : string).

(** How an item is typed. *)
Definition typed (i : item) : list string :=
  match i with
  | Number name value => [name; print_int value]
  | Loop name value => [name; value]
  | Address text => [text]
  end.
Definition command_line (l : list item) : list string := l ≫= typed.

(** Of several values given for an option, the last one counts. *)
Fixpoint setting (names : list string) (def : Z) (l : list item) : Z :=
  match l with
  | [] => def
  | Number name value :: l => setting names (if decide (name ∈ names) then value else def) l
  | _ :: l => setting names def l
  end.
Fixpoint loop_setting (def : string) (l : list item) : string :=
  match l with
  | [] => def
  | Loop _ value :: l => loop_setting value l
  | _ :: l => loop_setting def l
  end.

(** Only known options with good values, and exactly one address, [text]. *)
Definition good_item (numbers loops : list string) (i : item) : Prop :=
  match i with
  | Number name _ => name ∈ numbers
  | Loop name value => name ∈ loops ∧ (value = "builtin" ∨ value = "uvloop")
  | Address _ => True
  end.
Definition addresses (l : list item) : list string := omap (λ i, match i with Address t => Some t | _ => None end) l.
Definition good_line (numbers loops : list string) (text : string) (l : list item) : Prop :=
  Forall (good_item numbers loops) l ∧ addresses l = [text].

(** A word that does not begin with a dash. *)
Definition plain_text (s : string) : Prop := match s with String "-"%char _ => False | _ => True end.
(** What makes a command line wrong, from some word on: an option whose value is not a
    number (or no event loop), or that is followed by no value. *)
Inductive wrong_rest (numbers loops : list string) : list string → Prop :=
| wrong_number name value rest : name ∈ numbers → plain_text value → (∀ z, ¬ written value z) → wrong_rest numbers loops (name :: value :: rest)
| wrong_loop name value rest : name ∈ loops → plain_text value → value ≠ "builtin" → value ≠ "uvloop" → wrong_rest numbers loops (name :: value :: rest)
| wrong_end name : name ∈ numbers ++ loops → wrong_rest numbers loops [name]
| wrong_value name name' rest : name ∈ numbers ++ loops → name' ∈ numbers ++ loops → wrong_rest numbers loops (name :: name' :: rest).
(** What is typed without option is not exactly one good address. *)
Definition wrong_address (l : list item) : Prop := ∀ text c, addresses l = [text] → from_string text ≠ Ok c.

Definition scheduler_numbers : list string :=
  ["--io-threads"; "--max-number-of-tasks-waiting"; "-mt"; "--worker-timeout-seconds"; "-wt"; "--function-retention-seconds"; "-ft";
   "--load-balance-seconds"; "-ls"; "--load-balance-trigger-times"; "-lbt"; "--per-worker-queue-size"; "-qs"].
Definition scheduler_loops : list string := ["--event-loop"; "-e"].
Definition cluster_numbers : list string :=
  ["--num-of-workers"; "-n"; "--heartbeat-interval"; "-hi"; "--function-retention-seconds"; "-ft"; "--death-timeout-seconds"; "-dt";
   "--garbage-collect-interval-seconds"; "-gc"; "--trim-memory-threshold-bytes"; "-tm"].
Definition cluster_loops : list string := ["--event-loop"; "-el"].
