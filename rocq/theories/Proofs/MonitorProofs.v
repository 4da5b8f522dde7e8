(** * The monitor process (C97) *)

From Verif.Model Require Import Base Message Transport Formatter Top MonitorLoop.
From Verif.Spec Require Import MessageSpec TopSpec MonitorSpec.
From Verif.Proofs Require Import BaseProofs MessageProofs TransportProofs TopProofs.

Lemma choose_shortcut key s : choose key s = default s (shortcut key).
Proof.
  unfold choose, shortcut, sort_options, shortcuts. cbn [List.find fst snd].
  repeat (match goal with |- context [Z.of_nat (Ascii.nat_of_ascii ?a)] => let v := eval vm_compute in (Z.of_nat (Ascii.nat_of_ascii a)) in change (Z.of_nat (Ascii.nat_of_ascii a)) with v end).
  repeat (match goal with |- context [?a =? key] => destruct (a =? key); [reflexivity|] end). reflexivity.
Qed.
Lemma shortcut_column key c : shortcut key = Some c → c ∈ columns.
Proof.
  unfold shortcut. destruct (List.find _ _) as [p|] eqn:E; [|done]. intros [= <-]. apply find_some in E as [E _]. unfold shortcuts in E. cbn in E.
  repeat (destruct E as [<-|E]; [cbn; apply (bool_decide_unpack _); vm_compute; exact I|]). destruct E.
Qed.
Lemma column_ok keys : column_after keys ∈ columns.
Proof.
  unfold column_after. destruct (last (omap shortcut keys)) as [c|] eqn:E; cbn; [|apply (bool_decide_unpack _); vm_compute; exact I].
  apply last_Some_elem_of in E. apply elem_of_list_omap in E as (k & _ & E). by eapply shortcut_column.
Qed.
Lemma column_snoc keys key : column_after (keys ++ [key]) = choose key (column_after keys).
Proof.
  rewrite choose_shortcut. unfold column_after. rewrite omap_app. cbn. destruct (shortcut key) as [c|]; cbn; [by rewrite last_snoc|by rewrite app_nil_r].
Qed.
Lemma published_turn loads sort_by m key order frames : published loads m → connector_send order m = Ok frames → monitor_turn loads sort_by (Arrives frames key) =
  match m with MSchedulerState d => show_status loads sort_by d key | _ => (sort_by, Passed) end.
Proof.
  intros Hp E. unfold connector_send in E. destruct (serialize order m) as [payload|e] eqn:Es; [|done]. injection E as <-.
  assert (Hm : proper m) by (destruct m; try destruct Hp; exact I). pose proof (roundtrip order m payload Hm Es) as Hr.
  assert (Hne : payload ≠ []). { intros ->. destruct m; try destruct Hp; cbn in Es; discriminate. }
  destruct payload as [|x payload]; [done|]. cbn [monitor_turn].
  assert (type_known (type_value (message_type_of m)) = true) as -> by (destruct m; try destruct Hp; vm_compute; reflexivity).
  assert (enum_of type_value all_types (type_value (message_type_of m)) = Ok (message_type_of m)) as -> by (destruct m; try destruct Hp; vm_compute; reflexivity).
  cbn [mbind res_bind]. rewrite Hr. destruct m; try destruct Hp; reflexivity.
Qed.
Lemma watch loads sent : ∀ arrivals keys, Forall2 (λ (p : message * Z) a, published loads p.1 ∧ ∃ order frames, connector_send order p.1 = Ok frames ∧ a = Arrives frames p.2) sent arrivals →
  length (monitor_run loads (column_after keys) arrivals) = length sent ∧
  ∀ i m key, sent !! i = Some (m, key) →
    match m with
    | MSchedulerState d => ∃ r texts, loads d = Ok r ∧ screen r (column_after (keys ++ keys_read (take (S i) sent))) = Ok texts ∧ monitor_run loads (column_after keys) arrivals !! i = Some (Draws texts)
    | _ => monitor_run loads (column_after keys) arrivals !! i = Some Passed
    end.
Proof.
  induction sent as [|[m key] sent IH]; intros arrivals keys H; inversion H as [|? a ? arrivals' (Hp & order & frames & Es & ->) H']; subst; clear H; cbn [fst snd] in *; [split; [reflexivity|done]|].
  cbn [monitor_run]. rewrite (published_turn loads _ m key order frames Hp Es).
  assert (Hno : ∀ sent', (∀ d, m ≠ MSchedulerState d) → keys_read ((m, key) :: sent') = keys_read sent') by (intros s' Hn; cbn; destruct m; try reflexivity; destruct (Hn data); reflexivity).
  assert (Hpass : (∀ d, m ≠ MSchedulerState d) →
    length (Passed :: monitor_run loads (column_after keys) arrivals') = length ((m, key) :: sent) ∧
    ∀ i m' key', ((m, key) :: sent) !! i = Some (m', key') →
      match m' with
      | MSchedulerState d => ∃ r texts, loads d = Ok r ∧ screen r (column_after (keys ++ keys_read (take (S i) ((m, key) :: sent)))) = Ok texts ∧ (Passed :: monitor_run loads (column_after keys) arrivals') !! i = Some (Draws texts)
      | _ => (Passed :: monitor_run loads (column_after keys) arrivals') !! i = Some Passed
      end).
  { intros Hn. destruct (IH arrivals' keys H') as [L1 L2]. split; [cbn; congruence|]. intros [|i] m' key' Hi.
    - injection Hi as <- <-. destruct m; try reflexivity. destruct (Hn data). reflexivity.
    - cbn in Hi. specialize (L2 i m' key' Hi). cbn [take]. cbn [take] in L2. rewrite (Hno _ Hn). destruct m'; exact L2. }
  assert (Hc : (∃ d, m = MSchedulerState d) ∨ ∀ d, m ≠ MSchedulerState d) by (destruct m; eauto; right; discriminate).
  destruct Hc as [[d ->]|Hn]; [|destruct m; try (apply Hpass; discriminate); destruct (Hn data); reflexivity]. clear Hpass Hno.
  destruct Hp as (r & El & Hok). unfold show_status. rewrite El. rewrite <- column_snoc.
  destruct (screen_ok r (column_after (keys ++ [key])) Hok (column_ok _)) as (t1 & t2 & ps1 & ps2 & _ & _ & _ & Esc & _). rewrite Esc.
  destruct (IH arrivals' (keys ++ [key]) H') as [L1 L2]. split; [cbn; congruence|]. intros [|i] m' key' Hi.
  - injection Hi as <- <-. exists r, (ps1 ++ ps2). split; [exact El|]. split; [exact Esc|reflexivity].
  - cbn in Hi. specialize (L2 i m' key' Hi). cbn [take keys_read omap list_omap fst snd]. rewrite <- app_assoc in L2. destruct m'; exact L2.
Qed.
Lemma run_app loads : ∀ before s after, Forall goes_on (monitor_run loads s before) → ∃ s', monitor_run loads s (before ++ after) = monitor_run loads s before ++ monitor_run loads s' after ∧ length (monitor_run loads s before) = length before.
Proof.
  induction before as [|a before IH]; intros s after H; [exists s; done|]. cbn [monitor_run app] in *. destruct (monitor_turn loads s a) as [s1 t]. apply Forall_cons in H as [Ht H].
  destruct t; try destruct Ht; destruct (IH s1 after H) as (s' & E & El); exists s'; rewrite E; cbn; rewrite El; done.
Qed.
Lemma run_length loads : ∀ before s, Forall goes_on (monitor_run loads s before) → length (monitor_run loads s before) = length before.
Proof. intros before s H. destruct (run_app loads before s [] H) as (_ & _ & E). exact E. Qed.
Lemma run_column loads : ∀ before s, Forall goes_on (monitor_run loads s before) → ∃ s', ∀ after, monitor_run loads s (before ++ after) = monitor_run loads s before ++ monitor_run loads s' after.
Proof.
  induction before as [|a before IH]; intros s H; [exists s; done|]. cbn [monitor_run app] in *. destruct (monitor_turn loads s a) as [s1 t]. apply Forall_cons in H as [Ht H].
  destruct t; try destruct Ht; destruct (IH s1 H) as (s' & E); exists s'; intros after; rewrite E; done.
Qed.
