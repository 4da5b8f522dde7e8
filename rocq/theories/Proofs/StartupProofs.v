(** * Starting up: proofs *)

From Verif.Model Require Import Base ZMQConfig SchedulerState Startup.
From Verif.Spec Require Import StartupSpec.
From Verif.Proofs Require Import ZMQConfigProofs NumberProofs.
From Coq Require Import Ascii DecimalString.

(** ** Command lines *)

Lemma digits_all s : digits s = true → all_digits s = true.
Proof. induction s as [|c s IH]; cbn; [done|]. rewrite !andb_true_iff. intros [-> H]. auto. Qed.

Lemma print_int_plain z : ∃ c s, is_digit c = true ∧ all_digits s = true ∧ (print_int z = String c s ∨ print_int z = String "-" (String c s)).
Proof.
  destruct (print_int_shape z) as [u Hu]. destruct (nilzero_digits u) as [D N].
  destruct (NilZero.string_of_uint u) as [|c s] eqn:E; [done|]. cbn in D. apply andb_true_iff in D as [D1 D2].
  exists c, s. split; [done|]. split; [by apply digits_all|]. destruct Hu as [->| ->]; auto.
Qed.

(** No option name looks like a negative number. *)
Definition no_number (s : string) : bool := match s with String "-" (String c _) => negb (is_digit c) | _ => false end.
Definition table_ok (t : list opt) : bool := forallb (λ o, forallb no_number (op_names o)) t.

Lemma find_none t c s : table_ok t = true → is_digit c = true →
  List.find (λ o, existsb (String.eqb (String "-" (String c s))) (op_names o)) t = None.
Proof.
  intros Ht Hc. induction t as [|o t IH]; [done|]. cbn in Ht. apply andb_true_iff in Ht as [H1 H2]. cbn [List.find].
  assert (existsb (String.eqb (String "-" (String c s))) (op_names o) = false) as ->; [|auto].
  clear -H1 Hc. induction (op_names o) as [|n l IH]; [done|]. cbn in H1. apply andb_true_iff in H1 as [H1 H2].
  cbn [existsb]. rewrite IH by done. rewrite orb_false_r. apply String.eqb_neq. intros <-. cbn in H1. by rewrite Hc in H1.
Qed.
Lemma classify_int t z : table_ok t = true → classify t (print_int z) = WPlain.
Proof.
  intros Ht. destruct (print_int_plain z) as (c & s & Hc & Hs & [E|E]); rewrite E; unfold classify.
  - destruct (digit_facts _ Hc) as (_ & _ & _ & _ & H). destruct c as [[] [] [] [] [] [] [] []]; try done.
  - rewrite find_none by done. cbn. by rewrite Hc, Hs.
Qed.
Lemma classify_address t s c : from_string s = Ok c → classify t s = WPlain.
Proof.
  intros H. destruct s as [|a s]; [done|]. unfold classify.
  destruct (ascii_dec a "-") as [->|N]; [|destruct a as [[] [] [] [] [] [] [] []]; done].
  exfalso. revert H. unfold from_string. destruct (split_at "://" (String "-" s)) as [[ty r]|] eqn:E; [|done].
  apply split_at_app in E. destruct ty as [|b ty]; [done|]. rewrite app_cons in E. injection E as <- _. done.
Qed.

Lemma plain_classify t s : plain_text s → classify t s = WPlain.
Proof. unfold plain_text, classify. destruct s as [|a s]; [done|]. destruct a as [[] [] [] [] [] [] [] []]; done. Qed.
Section lines.
  Context (t : list opt) (numbers loops : list string).
  Hypothesis Ht : table_ok t = true.
  (** The options of the table, by name. *)
  Hypothesis Hn : ∀ n, n ∈ numbers → ∃ o, classify t n = WOption o ∧ op_kind o = KInt ∧ n ∈ op_names o ∧ o ∈ t.
  Hypothesis Hl : ∀ n, n ∈ loops → ∃ o, classify t n = WOption o ∧ op_kind o = KLoop.
  Hypothesis Hd : ∀ o o' n, o ∈ t → o' ∈ t → n ∈ op_names o → (n ∈ op_names o' ↔ op_dest o = op_dest o').

  Lemma collect_line text cf l ns : from_string text = Ok cf → Forall (good_item numbers loops) l → Forall (λ a, a = text) (addresses l) →
    ∃ ns', collect t (command_line l) ns = Parsed ns' ∧
      ns_plain ns' = ns_plain ns ++ addresses l ∧
      (∀ o def, o ∈ t → int_of ns' (op_dest o) def = setting (op_names o) (int_of ns (op_dest o) def) l) ∧
      loop_of ns' = loop_setting (loop_of ns) l.
  Proof.
    intros Hf Hg Ha. revert ns. induction l as [|i l IH]; intros ns.
    - exists ns. cbn. rewrite app_nil_r. done.
    - apply Forall_cons in Hg as [Hi Hg]. destruct i as [n z|n v|x].
      + destruct (Hn n Hi) as (o & Eo & Ko & No & To). cbn [command_line typed mbind list_bind app]. fold (command_line l).
        cbn [collect]. rewrite Eo, classify_int by done. unfold ns_option. rewrite Ko, (proj1 (py_int_print z)).
        destruct (IH Hg Ha (Namespace (<[op_dest o:=z]> (ns_int ns)) (ns_loop ns) (ns_plain ns))) as (ns' & E1 & E2 & E3 & E4).
        exists ns'. split; [done|]. split; [done|]. split; [|done]. intros o' def Ho'. rewrite E3 by done. cbn [setting]. f_equal.
        unfold int_of. cbn [ns_int]. destruct (decide (n ∈ op_names o')) as [H|H].
        * apply (Hd o o' n) in H; [|done..]. rewrite <- H, lookup_insert. done.
        * rewrite lookup_insert_ne; [done|]. intros E. apply H. by apply (Hd o o' n).
      + destruct Hi as [Hi Hv]. destruct (Hl n Hi) as (o & Eo & Ko). cbn [command_line typed mbind list_bind app]. fold (command_line l).
        cbn [collect]. rewrite Eo. assert (classify t v = WPlain) as -> by (destruct Hv as [->| ->]; done).
        unfold ns_option. rewrite Ko. assert (existsb (String.eqb v) allowed_loops = true) as -> by (destruct Hv as [->| ->]; done).
        destruct (IH Hg Ha (Namespace (ns_int ns) (Some v) (ns_plain ns))) as (ns' & E1 & E2 & E3 & E4).
        exists ns'. done.
      + cbn [addresses omap list_omap] in Ha. apply Forall_cons in Ha as [-> Ha]. cbn [command_line typed mbind list_bind app]. fold (command_line l).
        cbn [collect]. rewrite (classify_address _ _ _ Hf).
        destruct (IH Hg Ha (ns_positional text ns)) as (ns' & E1 & E2 & E3 & E4). exists ns'. split; [done|]. split; [|done].
        rewrite E2. cbn. by rewrite <- app_assoc.
  Qed.

  Lemma collect_prefix l ns rest : Forall (good_item numbers loops) l → Forall plain_text (addresses l) →
    ∃ ns', collect t (command_line l ++ rest) ns = collect t rest ns' ∧ ns_plain ns' = ns_plain ns ++ addresses l.
  Proof.
    intros Hg Ha. revert ns. induction l as [|i l IH]; intros ns; [exists ns; cbn; rewrite app_nil_r; done|].
    apply Forall_cons in Hg as [Hg1 Hg]. destruct i as [n' z|n' v'|x].
    - destruct (Hn n' Hg1) as (o & Eo & Ko & _). cbn [command_line typed mbind list_bind app]. fold (command_line l).
      cbn [collect]. rewrite Eo, classify_int by done. unfold ns_option. rewrite Ko, (proj1 (py_int_print z)). by destruct (IH Hg Ha (Namespace (<[op_dest o:=z]> (ns_int ns)) (ns_loop ns) (ns_plain ns))) as (ns' & ? & ?); eauto.
    - destruct Hg1 as [Hi' Hv']. destruct (Hl n' Hi') as (o & Eo & Ko). cbn [command_line typed mbind list_bind app]. fold (command_line l).
      cbn [collect]. rewrite Eo. assert (classify t v' = WPlain) as -> by (destruct Hv' as [->| ->]; done).
      unfold ns_option. rewrite Ko. assert (existsb (String.eqb v') allowed_loops = true) as -> by (destruct Hv' as [->| ->]; done). by destruct (IH Hg Ha (Namespace (ns_int ns) (Some v') (ns_plain ns))) as (ns' & ? & ?); eauto.
    - cbn [addresses omap list_omap] in Ha. apply Forall_cons in Ha as [Hx Ha]. cbn [command_line typed mbind list_bind app]. fold (command_line l).
      cbn [collect]. rewrite plain_classify by done. destruct (IH Hg Ha (ns_positional x ns)) as (ns' & E1 & E2). exists ns'. split; [exact E1|]. rewrite E2. cbn. by rewrite <- app_assoc.
  Qed.
  Lemma option_classify n : n ∈ numbers ++ loops → ∃ o, classify t n = WOption o.
  Proof. intros [(o & Eo & _)%Hn|(o & Eo & _)%Hl]%elem_of_app; eauto. Qed.
  Lemma collect_wrong l ns rest : Forall (good_item numbers loops) l → Forall plain_text (addresses l) → wrong_rest numbers loops rest →
    collect t (command_line l ++ rest) ns = UsageError.
  Proof.
    intros Hg Ha Hw. destruct (collect_prefix l ns rest Hg Ha) as (ns' & -> & _). destruct Hw as [n v rest Hi Hv Hp|n v rest Hi Hv H1 H2|n Hi|n n' rest Hi Hi'].
    - destruct (Hn n Hi) as (o & Eo & Ko & _). cbn [collect]. rewrite Eo, plain_classify by done. unfold ns_option. rewrite Ko. destruct (py_int v) as [z|] eqn:Ep; [|reflexivity]. apply py_int_written in Ep. by destruct (Hp z).
    - destruct (Hl n Hi) as (o & Eo & Ko). cbn [collect]. rewrite Eo, plain_classify by done. unfold ns_option. rewrite Ko. cbn.
      destruct (String.eqb_spec v "builtin"); [done|]. destruct (String.eqb_spec v "uvloop"); done.
    - destruct (option_classify n Hi) as [o Eo]. cbn [collect]. by rewrite Eo.
    - destruct (option_classify n Hi) as [o Eo], (option_classify n' Hi') as [o' Eo']. cbn [collect]. by rewrite Eo, Eo'.
  Qed.
  Lemma collect_address l : Forall (good_item numbers loops) l → Forall plain_text (addresses l) → wrong_address l →
    ∃ ns, collect t (command_line l) no_arguments = Parsed ns ∧ address_of ns = None.
  Proof.
    intros Hg Ha Hw. destruct (collect_prefix l no_arguments [] Hg Ha) as (ns & E1 & E2). rewrite app_nil_r in E1. exists ns. split; [exact E1|]. cbn in E2. unfold address_of. rewrite E2.
    destruct (addresses l) as [|a [|b k]] eqn:El; [done| |done]. destruct (from_string a) as [c|] eqn:Ef; [|done]. by destruct (Hw a c El).
  Qed.
End lines.

Lemma dest_ok t : forallb (λ o, forallb (λ o', forallb (λ n, Bool.eqb (existsb (String.eqb n) (op_names o')) (String.eqb (op_dest o) (op_dest o'))) (op_names o)) t) t = true →
  ∀ o o' n, o ∈ t → o' ∈ t → n ∈ op_names o → (n ∈ op_names o' ↔ op_dest o = op_dest o').
Proof.
  intros H o o' n Ho Ho' Hn. rewrite forallb_forall in H. apply elem_of_list_In in Ho, Ho', Hn. specialize (H o Ho). rewrite forallb_forall in H.
  specialize (H o' Ho'). rewrite forallb_forall in H. specialize (H n Hn). apply Bool.eqb_prop in H.
  rewrite <- String.eqb_eq, <- H, existsb_exists. split.
  - intros Hx. exists n. by rewrite <- elem_of_list_In, String.eqb_refl.
  - intros (x & Hx & E). apply String.eqb_eq in E as <-. by apply elem_of_list_In.
Qed.
Definition is_int (t : list opt) (n : string) : bool :=
  match classify t n with WOption o => match op_kind o with KInt => existsb (String.eqb n) (op_names o) | KLoop => false end | _ => false end.
Definition is_loop (t : list opt) (n : string) : bool :=
  match classify t n with WOption o => match op_kind o with KLoop => true | KInt => false end | _ => false end.
Lemma int_ok t numbers : forallb (is_int t) numbers = true → ∀ n, n ∈ numbers → ∃ o, classify t n = WOption o ∧ op_kind o = KInt ∧ n ∈ op_names o ∧ o ∈ t.
Proof.
  intros H n Hn. rewrite forallb_forall in H. apply elem_of_list_In in Hn. specialize (H n Hn). revert H. unfold is_int.
  destruct (classify t n) as [o| | |] eqn:E; [|done..]. destruct (op_kind o) eqn:K; [|done]. intros H. exists o. split; [done|]. split; [done|].
  apply existsb_exists in H as (x & H & E'). apply String.eqb_eq in E' as <-. split; [by apply elem_of_list_In|].
  revert E. unfold classify. destruct n as [|a n]; [done|]. destruct a as [[] [] [] [] [] [] [] []]; try done.
  destruct (List.find _ t) eqn:F; [|repeat case_match; done]. intros [= <-]. apply find_some in F as [F _]. by apply elem_of_list_In.
Qed.
Lemma loop_ok t loops : forallb (is_loop t) loops = true → ∀ n, n ∈ loops → ∃ o, classify t n = WOption o ∧ op_kind o = KLoop.
Proof.
  intros H n Hn. rewrite forallb_forall in H. apply elem_of_list_In in Hn. specialize (H n Hn). revert H. unfold is_loop.
  destruct (classify t n) as [o| | |] eqn:E; [|done..]. destruct (op_kind o) eqn:K; [done|]. eauto.
Qed.

Lemma scheduler_line text a l : good_line scheduler_numbers scheduler_loops text l → from_string text = Ok a →
  scheduler_command (command_line l) = Parsed (SchedulerArgs a
    (setting ["--io-threads"] 1 l) (setting ["--max-number-of-tasks-waiting"; "-mt"] (-1) l) (setting ["--per-worker-queue-size"; "-qs"] 1000 l)
    (setting ["--worker-timeout-seconds"; "-wt"] 60 l) (setting ["--function-retention-seconds"; "-ft"] 20 l)
    (setting ["--load-balance-seconds"; "-ls"] 1 l) (setting ["--load-balance-trigger-times"; "-lbt"] 2 l) (loop_setting "builtin" l)).
Proof.
  intros [Hg Ha] Hf.
  destruct (collect_line scheduler_table scheduler_numbers scheduler_loops eq_refl (int_ok scheduler_table scheduler_numbers eq_refl) (loop_ok scheduler_table scheduler_loops eq_refl)
    (dest_ok scheduler_table eq_refl) text a l no_arguments Hf Hg ltac:(rewrite Ha; by repeat constructor)) as (ns & E1 & E2 & E3 & E4).
  unfold scheduler_command. rewrite E1. unfold address_of. rewrite E2, Ha. cbn [no_arguments ns_plain app]. rewrite Hf.
  assert (I : ∀ names d def, Opt names d KInt ∈ scheduler_table → int_of ns d def = setting names def l) by (intros names d def Ho; apply (E3 _ def) in Ho; exact Ho).
  unfold scheduler_table in I.
  f_equal. f_equal; try (apply I; set_solver). exact E4.
Qed.
Lemma cluster_line cpus text a l : good_line cluster_numbers cluster_loops text l → from_string text = Ok a →
  cluster_command cpus (command_line l) = Parsed (ClusterArgs a
    (setting ["--num-of-workers"; "-n"] (cpus - 1) l) (setting ["--heartbeat-interval"; "-hi"] 2 l)
    (setting ["--function-retention-seconds"; "-ft"] 20 l) (setting ["--death-timeout-seconds"; "-dt"] 10 l)
    (setting ["--garbage-collect-interval-seconds"; "-gc"] 30 l) (setting ["--trim-memory-threshold-bytes"; "-tm"] (2 ^ 30) l)
    (loop_setting "builtin" l)).
Proof.
  intros [Hg Ha] Hf.
  destruct (collect_line cluster_table cluster_numbers cluster_loops eq_refl (int_ok cluster_table cluster_numbers eq_refl) (loop_ok cluster_table cluster_loops eq_refl)
    (dest_ok cluster_table eq_refl) text a l no_arguments Hf Hg ltac:(rewrite Ha; by repeat constructor)) as (ns & E1 & E2 & E3 & E4).
  unfold cluster_command. rewrite E1. unfold address_of. rewrite E2, Ha. cbn [no_arguments ns_plain app]. rewrite Hf.
  assert (I : ∀ names d def, Opt names d KInt ∈ cluster_table → int_of ns d def = setting names def l) by (intros names d def Ho; apply (E3 _ def) in Ho; exact Ho).
  unfold cluster_table in I.
  f_equal. f_equal; try (apply I; set_solver). exact E4.
Qed.

Lemma scheduler_wrong l rest : Forall (good_item scheduler_numbers scheduler_loops) l → Forall plain_text (addresses l) → wrong_rest scheduler_numbers scheduler_loops rest →
  scheduler_command (command_line l ++ rest) = UsageError.
Proof.
  intros Hg Ha Hw. unfold scheduler_command. by rewrite (collect_wrong scheduler_table scheduler_numbers scheduler_loops eq_refl (int_ok scheduler_table scheduler_numbers eq_refl) (loop_ok scheduler_table scheduler_loops eq_refl)).
Qed.
Lemma cluster_wrong cpus l rest : Forall (good_item cluster_numbers cluster_loops) l → Forall plain_text (addresses l) → wrong_rest cluster_numbers cluster_loops rest →
  cluster_command cpus (command_line l ++ rest) = UsageError.
Proof.
  intros Hg Ha Hw. unfold cluster_command. by rewrite (collect_wrong cluster_table cluster_numbers cluster_loops eq_refl (int_ok cluster_table cluster_numbers eq_refl) (loop_ok cluster_table cluster_loops eq_refl)).
Qed.
Lemma scheduler_nowhere l : Forall (good_item scheduler_numbers scheduler_loops) l → Forall plain_text (addresses l) → wrong_address l → scheduler_command (command_line l) = UsageError.
Proof.
  intros Hg Ha Hw. unfold scheduler_command.
  destruct (collect_address scheduler_table scheduler_numbers scheduler_loops eq_refl (int_ok scheduler_table scheduler_numbers eq_refl) (loop_ok scheduler_table scheduler_loops eq_refl) l Hg Ha Hw) as (ns & -> & ->). done.
Qed.
Lemma cluster_nowhere cpus l : Forall (good_item cluster_numbers cluster_loops) l → Forall plain_text (addresses l) → wrong_address l → cluster_command cpus (command_line l) = UsageError.
Proof.
  intros Hg Ha Hw. unfold cluster_command.
  destruct (collect_address cluster_table cluster_numbers cluster_loops eq_refl (int_ok cluster_table cluster_numbers eq_refl) (loop_ok cluster_table cluster_loops eq_refl) l Hg Ha Hw) as (ns & -> & ->). done.
Qed.

(** ** Addresses *)

Lemma app_string_list a b : String.list_ascii_of_string (a +:+ b) = String.list_ascii_of_string a ++ String.list_ascii_of_string b.
Proof. induction a as [|c a IH]; [done|]. rewrite app_cons. cbn. by rewrite IH. Qed.
Lemma string_list_inj a b : String.list_ascii_of_string a = String.list_ascii_of_string b → a = b.
Proof. revert b. induction a as [|c a IH]; intros [|d b]; cbn; try done. intros [= -> H]. f_equal. auto. Qed.
Lemma cut_last {A} (x : A) (l1 l2 r1 r2 : list A) : l1 ++ x :: r1 = l2 ++ x :: r2 → x ∉ r1 → x ∉ r2 → l1 = l2 ∧ r1 = r2.
Proof.
  revert l2. induction l1 as [|c l1 IH]; intros [|d l2]; cbn; intros E H1 H2.
  - by injection E as ->.
  - injection E as <- ->. set_solver.
  - injection E as -> <-. set_solver.
  - injection E as -> E. by destruct (IH l2 E H1 H2) as [-> ->].
Qed.
Lemma digits_no_underscore s : all_digits s = true → "_"%char ∉ String.list_ascii_of_string s.
Proof.
  induction s as [|c s IH]; cbn; [set_solver|]. rewrite andb_true_iff. intros [Hc Hs]. destruct (digit_facts _ Hc) as (_ & _ & H & _). set_solver.
Qed.
Lemma print_no_underscore z : "_"%char ∉ String.list_ascii_of_string (print_int z).
Proof.
  destruct (print_int_plain z) as (c & s & Hc & Hs & [E|E]); rewrite E; cbn; pose proof (digits_no_underscore s Hs); destruct (digit_facts _ Hc) as (_ & _ & H1 & _); set_solver.
Qed.
Lemma print_int_inj z z' : print_int z = print_int z' → z = z'.
Proof. intros E. pose proof (proj1 (py_int_print z)) as H. rewrite E, (proj1 (py_int_print z')) in H. by injection H. Qed.

Lemma monitor_inj h1 p1 h2 p2 :
  monitor_host (ZMQConfig Tcp h1 (Some p1)) = monitor_host (ZMQConfig Tcp h2 (Some p2)) → h1 = h2 ∧ p1 = p2.
Proof.
  unfold monitor_host. cbn [zc_host zc_port]. intros E. apply (f_equal String.list_ascii_of_string) in E. rewrite !app_string_list in E.
  apply app_inv_head in E. rewrite !(assoc_L (++)) in E. apply app_inv_tail in E. rewrite <- !(assoc_L (++)) in E.
  apply (cut_last "_"%char) in E as [E1 E2]; [|apply print_no_underscore..]. split; [by apply string_list_inj|].
  apply print_int_inj, string_list_inj, E2.
Qed.

Lemma scheduler_ok u a : (∃ up, scheduler_run u a = Ok up) ↔
  zc_type (sa_address a) = Tcp ∧ (sa_event_loop a = "builtin" ∨ (sa_event_loop a = "uvloop" ∧ u = true)).
Proof.
  unfold scheduler_run, register_event_loop, scheduler_init, allowed_loops. cbn [existsb]. split.
  - intros [up H]. destruct (String.eqb_spec (sa_event_loop a) "builtin") as [Eb|Nb].
    + rewrite Eb in H. cbn in H. case_bool_decide; [|done]. auto.
    + destruct (String.eqb_spec (sa_event_loop a) "uvloop") as [Eb|Nu]; [|done]. destruct u; cbn in H; [|done]. case_bool_decide; [|done]. auto.
  - intros [Ht He]. rewrite bool_decide_true by done. destruct He as [->|[-> ->]]; cbn; eauto.
Qed.
Lemma scheduler_up_ok u a up : scheduler_run u a = Ok up →
  su_listens up = to_address (sa_address a) ∧ su_publishes up = "ipc://" +:+ monitor_host (sa_address a) ∧ su_event_loop up = sa_event_loop a ∧
  su_io_threads up = sa_io_threads a ∧
  su_config up = Config (sa_max_number_of_tasks_waiting a) (sa_per_worker_queue_size a) (sa_worker_timeout_seconds a)
    (sa_function_retention_seconds a) (sa_load_balance_seconds a) (sa_load_balance_trigger_times a) ∧ zc_type (sa_address a) = Tcp.
Proof.
  unfold scheduler_run, scheduler_init. destruct (register_event_loop _ _); [|done]. cbn. case_bool_decide; [|done]. cbn. intros [= <-]. done.
Qed.

(** ** The life of a cluster *)

Lemma destroy_all started reaped l told : (∀ w, w ∈ l → (w < started)%nat ∧ w ∉ reaped) →
  destroy started reaped l told = (list_to_set l ∪ told, None).
Proof.
  revert told. induction l as [|w l IH]; intros told H; cbn [destroy].
  - f_equal. set_solver.
  - destruct (H w ltac:(set_solver)) as [H1 H2]. rewrite (proj2 (Nat.ltb_lt _ _) H1). cbn [negb]. rewrite bool_decide_false by done.
    rewrite IH by set_solver. f_equal. set_solver.
Qed.

Record cl_inv (c : cluster) : Prop := {
  ci_alive : ∀ w, w ∈ cl_alive c → (w < cl_workers c)%nat;
  ci_none : match cl_phase c with Fresh | Handling | Preparing | InProcess | Killed => cl_alive c = ∅ | _ => True end;
  ci_one : match cl_phase c with Preparing | InProcess => cl_workers c = 1%nat | Starting k => cl_workers c ≠ 1%nat ∧ (k <= cl_workers c)%nat
           | Joining k => cl_workers c ≠ 1%nat ∧ (k <= cl_workers c)%nat ∧ (∀ w, (w < k)%nat → w ∈ cl_reaped c) | _ => True end;
  ci_reaped : ∀ w, w ∈ cl_alive c → match cl_phase c with Starting k => w ∉ cl_reaped c ∧ (w < k)%nat | _ => w ∉ cl_reaped c end;
  ci_seen : match cl_phase c with Fresh | Handling => cl_reaped c = ∅ | Starting k => ∀ w, w ∈ cl_reaped c → (w < k)%nat | _ => True end }.
Lemma handler_inv st li c : cl_inv c → cl_inv (cl_handler st li c).
Proof.
  intros [H1 H2 H3 H4 H5]. unfold cl_handler. destruct (destroy _ _ _ _) as [told [e|]].
  - constructor; cbn; auto. intros w Hw. specialize (H4 w Hw). destruct (cl_phase c); try done. by destruct H4.
  - constructor; cbn; auto.
Qed.
Lemma cl_step_inv c e : cl_inv c → cl_inv (cl_step c e).
Proof.
  intros H. assert (H' := H). destruct H' as [H1 H2 H3 H4 H5]. destruct e as [|s|w]; cbn [cl_step].
  - destruct (cl_phase c) as [| |k|k| | | | |e] eqn:P; try exact H.
    + constructor; cbn; rewrite ?P in *; auto.
    + destruct (Nat.eqb_spec (cl_workers c) 1) as [E|E]; constructor; cbn; rewrite ?P in *; auto.
      * split; [done|lia].
      * rewrite H2. set_solver.
      * rewrite H5. set_solver.
    + destruct (Nat.ltb_spec k (cl_workers c)) as [E|E].
      * constructor; cbn; try done.
        -- intros w. rewrite elem_of_union, elem_of_singleton. intros [->|Hw]; auto.
        -- split; [apply H3|lia].
        -- intros w. rewrite elem_of_union, elem_of_singleton. intros Hw. split; [|destruct Hw as [->|Hw]; [lia|specialize (H4 w Hw); lia]].
           rewrite elem_of_union, elem_of_difference. intros [Hr|[Hr Ha]].
           ++ destruct Hw as [->|Hw]; [apply H5 in Hr; lia|by apply H4 in Hr].
           ++ destruct Hw as [->|Hw]; [|done]. apply elem_of_list_to_set, elem_of_seq in Hr. lia.
        -- intros w. rewrite elem_of_union, elem_of_difference, elem_of_list_to_set, elem_of_seq. intros [Hr|[Hr _]]; [apply H5 in Hr|]; lia.
      * constructor; cbn; rewrite ?P in *; auto.
        -- split; [apply H3|]. split; [lia|]. intros; lia.
        -- intros w Hw. by apply H4.
    + destruct (Nat.ltb_spec k (cl_workers c)) as [E|E].
      * destruct (decide (k ∈ cl_alive c)); [exact H|]. constructor; cbn; try done.
        -- split; [apply H3|]. split; [lia|]. intros w Hw. apply elem_of_union. destruct (decide (w = k)); [set_solver|]. right. apply H3. lia.
        -- intros w Hw. specialize (H4 w Hw). cbn in H4. rewrite not_elem_of_union, not_elem_of_singleton. split; [|done]. by intros ->.
      * constructor; cbn; rewrite ?P in *; auto.
    + constructor; cbn; rewrite ?P in *; auto.
  - destruct (cl_phase c) as [| |k|k| | | | |e] eqn:P; try exact H; try (by apply handler_inv).
    + constructor; cbn; rewrite ?P in *; auto.
    + destruct s; [|by apply handler_inv]. constructor; cbn; rewrite ?P in *; auto.
  - constructor; cbn; auto.
    + set_solver.
    + destruct (cl_phase c); set_solver.
    + intros x Hx. apply H4. set_solver.
Qed.

Lemma run_inv a es : cl_inv (cl_run a es) ∧ cl_workers (cl_run a es) = Z.to_nat (ca_n_workers a).
Proof.
  induction es as [|e es [IH1 IH2]] using rev_ind.
  - split; [|done]. constructor; cbn; set_solver.
  - unfold cl_run. rewrite foldl_app. cbn [foldl]. fold (cl_run a es). split; [by apply cl_step_inv|].
    rewrite <- IH2. generalize (cl_run a es) as c. intros c. destruct e as [|s|w]; cbn [cl_step]; [| |done].
    + destruct (cl_phase c); try done; repeat case_match; done.
    + assert (∀ x y, cl_workers (cl_handler x y c) = cl_workers c) by (intros x y; unfold cl_handler; by case_match).
      destruct (cl_phase c); try done. by destruct s.
Qed.

Lemma workers_lemma a es w : w ∈ cl_alive (cl_run a es) → Z.of_nat w < ca_n_workers a.
Proof. intros H. destruct (run_inv a es) as [I E]. apply (ci_alive _ I) in H. lia. Qed.

Lemma starting_steps n k alive told : (k <= n)%nat → alive = list_to_set (seq 0 k) →
  foldl cl_step (Cluster n (Starting k) alive ∅ told) (replicate (S (n - k)) CStep) = Cluster n (Joining 0) (list_to_set (seq 0 n)) ∅ told.
Proof.
  intros Hk. remember (n - k)%nat as m eqn:Em. revert k alive Hk Em. induction m as [|m IH]; intros k alive Hk Em ->.
  - assert (k = n) as -> by lia. cbn [replicate foldl cl_step cl_phase cl_workers]. by rewrite Nat.ltb_irrefl.
  - rewrite replicate_S. cbn [foldl]. unfold cl_step at 2. cbn [cl_phase cl_workers cl_alive cl_reaped cl_told].
    rewrite (proj2 (Nat.ltb_lt k n)) by lia.
    assert (∅ ∪ list_to_set (seq 0 k) ∖ list_to_set (seq 0 k) = (∅ : gset nat)) as -> by set_solver.
    apply (IH (S k)); [lia|lia|]. rewrite seq_S, list_to_set_app_L. cbn. set_solver.
Qed.
Lemma start_lemma a : ca_n_workers a ≠ 1 →
  let n := Z.to_nat (ca_n_workers a) in
  cl_run a (replicate (n + 3) CStep) = Cluster n (Joining 0) (list_to_set (seq 0 n)) ∅ ∅.
Proof.
  intros H n. unfold cl_run, cl_start. fold n. replace (n + 3)%nat with (S (S (S (n - 0)))) by lia. do 2 rewrite replicate_S. cbn [foldl].
  unfold cl_step at 3. cbn [cl_phase]. unfold cl_step at 2. cbn [cl_phase cl_at cl_workers].
  destruct (Nat.eqb_spec n 1); [lia|]. unfold cl_at. cbn [cl_workers cl_alive cl_reaped cl_told]. apply starting_steps; [lia|done].
Qed.

Lemma signal_lemma a es s k : let c := cl_run a es in cl_phase c = Joining k → cl_reaped c = ∅ →
  let c' := cl_step c (CSignal s) in
  cl_phase c' = cl_phase c ∧ cl_alive c' = cl_alive c ∧ cl_reaped c' = ∅ ∧ (∀ w, Z.of_nat w < ca_n_workers a → w ∈ cl_told c').
Proof.
  intros c Hp Hr c'. destruct (run_inv a es) as [I E]. fold c in I, E. subst c'. unfold cl_step. rewrite Hp. unfold cl_handler.
  rewrite destroy_all.
  - cbn. rewrite Hp. split; [done|]. split; [done|]. split; [done|]. intros w Hw. apply elem_of_union. left. apply elem_of_list_to_set, elem_of_seq. lia.
  - intros w Hw. apply elem_of_seq in Hw. rewrite Hr. split; [lia|set_solver].
Qed.

Lemma exits n p alive reaped told l :
  foldl cl_step (Cluster n p alive reaped told) (CExit <$> l) = Cluster n p (alive ∖ list_to_set l) reaped told.
Proof.
  revert alive. induction l as [|w l IH]; intros alive; cbn -[cl_step].
  - f_equal. set_solver.
  - unfold cl_step at 2. cbn [cl_workers cl_phase cl_alive cl_reaped cl_told]. rewrite IH. f_equal. set_solver.
Qed.
Lemma joining_steps n k reaped told : (k <= n)%nat →
  cl_phase (foldl cl_step (Cluster n (Joining k) ∅ reaped told) (replicate (S (n - k)) CStep)) = Ended.
Proof.
  intros Hk. remember (n - k)%nat as m eqn:Em. revert k reaped Hk Em. induction m as [|m IH]; intros k reaped Hk Em.
  - assert (k = n) as -> by lia. cbn [replicate foldl cl_step cl_phase cl_workers]. by rewrite Nat.ltb_irrefl.
  - rewrite replicate_S. cbn [foldl]. unfold cl_step at 2. cbn [cl_phase cl_workers cl_alive cl_reaped cl_told].
    rewrite (proj2 (Nat.ltb_lt k n)) by lia. rewrite decide_False by set_solver. apply IH; lia.
Qed.
(** A cluster in which all workers have ended ends. *)
Lemma end_lemma a es k : let c := cl_run a es in cl_phase c = Joining k →
  let n := Z.to_nat (ca_n_workers a) in
  cl_phase (foldl cl_step c ((CExit <$> seq 0 n) ++ replicate (S n) CStep)) = Ended.
Proof.
  intros c Hp n. destruct (run_inv a es) as [I E]. fold c n in I, E. rewrite foldl_app. destruct c as [n' p al re to] eqn:Ec. cbn in Hp, E. subst n' p.
  rewrite exits. pose proof (ci_one _ I) as H1. cbn in H1. pose proof (ci_alive _ I) as H2. cbn in H2.
  assert (al ∖ list_to_set (seq 0 n) = ∅) as ->.
  { apply leibniz_equiv, elem_of_equiv_empty. intros w. rewrite elem_of_difference, elem_of_list_to_set, elem_of_seq. intros [Hw Hn]. apply Hn.
    specialize (H2 w Hw). lia. }
  replace (S n) with (S (n - k) + k)%nat by lia. rewrite replicate_add, foldl_app.
  pose proof (joining_steps n k re to ltac:(lia)) as J. revert J. generalize (foldl cl_step (Cluster n (Joining k) ∅ re to) (replicate (S (n - k)) CStep)) as c0.
  clear. intros c0 H. induction k as [|k IH]; [done|]. rewrite replicate_S. cbn [foldl]. unfold cl_step at 2. by rewrite H.
Qed.

Lemma joined_signal_lemma a es s k : let c := cl_run a es in cl_phase c = Joining (S k) →
  let c' := cl_step c (CSignal s) in cl_phase c' = Broken ProcessLookupError ∧ cl_told c' = cl_told c ∧ cl_alive c' = cl_alive c.
Proof.
  intros c Hp c'. destruct (run_inv a es) as [I _]. fold c in I. pose proof (ci_one _ I) as H. rewrite Hp in H. destruct H as (_ & H1 & H2).
  subst c'. unfold cl_step. rewrite Hp. unfold cl_handler. destruct (cl_workers c) as [|n] eqn:En; [lia|]. cbn [seq destroy].
  rewrite (proj2 (Nat.ltb_lt 0 (S n))) by lia. cbn [negb]. rewrite bool_decide_true by (apply H2; lia). done.
Qed.

Lemma destroy_short started reaped l told : (∃ w, w ∈ l ∧ (started <= w)%nat) → ∃ told' e, destroy started reaped l told = (told', Some e).
Proof.
  revert told. induction l as [|w l IH]; intros told (x & Hx & Hs); [set_solver|]. cbn [destroy].
  destruct (Nat.ltb_spec w started) as [Hw|Hw]; cbn [negb]; [|eauto]. case_bool_decide; [eauto|]. apply IH. exists x. split; [|done].
  apply elem_of_cons in Hx as [->|Hx]; [lia|done].
Qed.
Lemma starting_signal_lemma a es s k : let c := cl_run a es in cl_phase c = Starting k → Z.of_nat k < ca_n_workers a →
  ∃ e, cl_phase (cl_step c (CSignal s)) = Broken e.
Proof.
  intros c Hp Hk. destruct (run_inv a es) as [_ E]. fold c in E. unfold cl_step. rewrite Hp. unfold cl_handler.
  destruct (destroy_short k (cl_reaped c) (seq 0 (cl_workers c)) (cl_told c)) as (told & e & ->); [|eauto].
  exists k. rewrite elem_of_seq. lia.
Qed.
