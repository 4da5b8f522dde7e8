(** * Options given as name=value: proofs *)

From Verif.Model Require Import Base ZMQConfig Startup MonitorCommand.
From Verif.Spec Require Import StartupSpec NumberSpec.
From Verif.Proofs Require Import ZMQConfigProofs NumberProofs StartupProofs.
From Coq Require Import Ascii.

Fixpoint has_equals (s : string) : bool :=
  match s with EmptyString => false | String c s => Ascii.eqb c "=" || has_equals s end.
Lemma has_equals_app n v : has_equals (n +:+ "=" +:+ v) = true.
Proof. induction n as [|c n IH]; [done|]. rewrite app_cons. cbn [has_equals]. rewrite IH. by rewrite orb_true_r. Qed.
Lemma split_equals n v : has_equals n = false → split_at "=" (n +:+ "=" +:+ v) = Some (n, v).
Proof.
  induction n as [|c n IH]; intros H.
  - apply (split_at_here "=" v).
  - cbn [has_equals] in H. apply orb_false_iff in H as [Hc H]. rewrite app_cons, split_at_step.
    + by rewrite IH.
    + cbn [String.prefix]. destruct (ascii_dec "=" c) as [<-|]; [by rewrite Ascii.eqb_refl in Hc|done].
Qed.
(** Option names begin with a dash and no digit, and contain no equals sign. *)
Definition names_ok (t : list opt) : bool := forallb (λ o, forallb (λ n, no_number n && negb (has_equals n)) (op_names o)) t.
Lemma find_unknown t s : names_ok t = true → has_equals s = true → List.find (λ o, existsb (String.eqb s) (op_names o)) t = None.
Proof.
  intros Ht Hs. induction t as [|o t IH]; [done|]. cbn in Ht. apply andb_true_iff in Ht as [Ho Ht]. cbn [List.find].
  destruct (existsb (String.eqb s) (op_names o)) eqn:E; [|by apply IH].
  apply existsb_exists in E as (x & Hx & E). apply String.eqb_eq in E as <-. rewrite forallb_forall in Ho. apply Ho in Hx.
  apply andb_true_iff in Hx as [_ Hx]. by rewrite Hs in Hx.
Qed.
Lemma classify_equals t n v o : names_ok t = true → classify t n = WOption o → classify t (n +:+ "=" +:+ v) = WEquals o v.
Proof.
  intros Ht H. assert (Hf : List.find (λ o, existsb (String.eqb n) (op_names o)) t = Some o).
  { revert H. unfold classify. destruct n as [|a n]; [done|]. destruct a as [[] [] [] [] [] [] [] []]; try done.
    destruct (List.find _ t) eqn:F; [intros [= <-]; done|]. by repeat case_match. }
  assert (Hn : no_number n && negb (has_equals n) = true).
  { apply find_some in Hf as [Hi He]. unfold names_ok in Ht. rewrite forallb_forall in Ht. apply Ht in Hi. rewrite forallb_forall in Hi.
    apply existsb_exists in He as (x & Hx & E). apply String.eqb_eq in E as <-. by apply Hi. }
  apply andb_true_iff in Hn as [Hn He]. apply negb_true_iff in He.
  pose proof (find_unknown t (n +:+ "=" +:+ v) Ht (has_equals_app n v)) as Hu. pose proof (split_equals n v He) as Hsp.
  destruct n as [|a n]; [done|]. destruct (ascii_dec a "-") as [->|N]; [|by destruct a as [[] [] [] [] [] [] [] []]].
  destruct n as [|b n]; [done|]. cbn in Hn. apply negb_true_iff in Hn.
  unfold classify. rewrite !app_cons in *. rewrite Hu. cbn [negative_number]. rewrite Hn. cbn [andb]. cbn [String.eqb Ascii.eqb].
  rewrite Hsp, Hf. reflexivity.
Qed.
Lemma collect_equals t n v o pre rest ns : names_ok t = true → classify t n = WOption o → classify t v = WPlain →
  collect t (pre ++ (n +:+ "=" +:+ v) :: rest) ns = collect t (pre ++ n :: v :: rest) ns.
Proof.
  intros Ht Hn Hv. pose proof (classify_equals t n v o Ht Hn) as He. remember (length pre) as m eqn:Em.
  revert pre ns Em. induction (lt_wf m) as [m _ IH]. intros pre ns ->. destruct pre as [|w pre].
  - cbn [app collect]. by rewrite He, Hn, Hv.
  - cbn [app collect]. destruct (classify t w) as [o'| | |o' v']; [|apply (IH (length pre)); cbn; lia|done|].
    + destruct pre as [|x pre]; cbn [app].
      * by rewrite He, Hn.
      * destruct (classify t x) as [| | |]; [done| |done|done]. destruct (ns_option o' x ns) as [ns'|]; [|done]. apply (IH (length pre)); cbn; lia.
    + destruct (ns_option o' v' ns) as [ns'|]; [|done]. apply (IH (length pre)); cbn; lia.
Qed.
Lemma known t numbers loops n : forallb (is_int t) numbers = true → forallb (is_loop t) loops = true → n ∈ numbers ++ loops → ∃ o, classify t n = WOption o.
Proof. intros H1 H2 [H|H]%elem_of_app; [destruct (int_ok t numbers H1 n H) as (o & E & _)|destruct (loop_ok t loops H2 n H) as (o & E & _)]; eauto. Qed.
Lemma value_plain t v : table_ok t = true → plain_text v ∨ (∃ z, v = print_int z) → classify t v = WPlain.
Proof. intros Ht [H|[z ->]]; [by apply plain_classify|by apply classify_int]. Qed.
Lemma equals_sign n v pre rest : plain_text v ∨ (∃ z, v = print_int z) →
  (n ∈ scheduler_numbers ++ scheduler_loops → scheduler_command (pre ++ (n +:+ "=" +:+ v) :: rest) = scheduler_command (pre ++ n :: v :: rest)) ∧
  (n ∈ cluster_numbers ++ cluster_loops → ∀ cpus, cluster_command cpus (pre ++ (n +:+ "=" +:+ v) :: rest) = cluster_command cpus (pre ++ n :: v :: rest)) ∧
  (n = "--timeout" → monitor_command (pre ++ (n +:+ "=" +:+ v) :: rest) = monitor_command (pre ++ n :: v :: rest)).
Proof.
  intros Hv. split; [|split].
  - intros H. destruct (known scheduler_table scheduler_numbers scheduler_loops n eq_refl eq_refl H) as [o Ho].
    unfold scheduler_command. by rewrite (collect_equals scheduler_table n v o pre rest _ eq_refl Ho (value_plain scheduler_table v eq_refl Hv)).
  - intros H cpus. destruct (known cluster_table cluster_numbers cluster_loops n eq_refl eq_refl H) as [o Ho].
    unfold cluster_command. by rewrite (collect_equals cluster_table n v o pre rest _ eq_refl Ho (value_plain cluster_table v eq_refl Hv)).
  - intros ->. unfold monitor_command. by rewrite (collect_equals monitor_table "--timeout" v (Opt ["--timeout"] "timeout" KInt) pre rest _ eq_refl eq_refl (value_plain monitor_table v eq_refl Hv)).
Qed.
