(** Concrete histories with graphs. *)

From Verif.Model Require Import Base OneToManyDict Allocator Message Sorter Scheduler.
From Verif.Spec Require Import SchedulerSpec.
From Verif.Proofs Require Import BaseProofs SchedCount SchedContent SchedGraph SchedExamples.

Definition node (t : bytes) (args : list argument) : task := Task t "f" args.
Definition graph (g : bytes) (targets : list bytes) (ns : list task) : list round :=
  [from "cl" (MGraphTask g [("f", ("name", "code"))] targets ns); tick EGraph].
(** The result of a task under the "concatenate" interpretation of functions. *)
Definition cat (f : bytes) (vs : list bytes) : bytes := (f +:+ "(" +:+ foldr (λ v acc, v +:+ "," +:+ acc) ")" vs).
Definition reply (t v : bytes) : round := from "w1" (MTaskResult t Success 1 v).

(** z depends on x and y; both results are targets' inputs. *)
Definition diamond : list task := [node "x" [ArgData "1"]; node "y" [ArgTask "x"; ArgData "2"]; node "z" [ArgTask "x"; ArgTask "y"]].
Definition diamond_run : list round :=
  [from "w1" beat] ++ graph "G" ["z"; "x"] diamond ++
  [tick EDispatch; reply "x" "f(1,)"; tick EDispatch; reply "y" "f(f(1,),2,)"; tick EDispatch; reply "z" "f(f(1,),f(f(1,),2,),)"].

(** ** Counterexamples *)
(** C43: the same input twice. *)
Definition two_nodes (x y : task) : list round :=
  [from "w1" beat] ++ graph "G" [task_id y] [x; y] ++ [tick EDispatch; reply (task_id x) "v"].
(** C44: a graph of two independent nodes, one running and one still queued. *)
Definition pair : list round :=
  [from "w1" beat] ++ graph "G" ["x"; "y"] [node "x" [ArgData "1"]; node "y" [ArgData "2"]] ++ [tick EDispatch].
Definition pair_running : list round := pair ++ [tick EDispatch].
Definition finished : list round :=
  [from "w1" beat] ++ graph "G" ["x"] [node "x" [ArgData "1"]] ++ [tick EDispatch; reply "x" "v"].
(** C45: waiting limit zero and no worker. *)
Definition stuck : list round := graph "G" ["x"] [node "x" [ArgData "1"]].

(** ** Checks *)
Definition honestb (before : history) (e : entry) : bool :=
  match e with
  | LIn _ (ERecv _ (MTaskResult t Success _ r)) =>
      existsb (λ e, match e with
        | LSend w (MTask k) => String.eqb (task_id k) t &&
            let vs := omap (λ a, match a with ArgData d => Some d | ArgTask _ => None end) (task_args k) in
            bool_decide (task_args k = ArgData <$> vs) && String.eqb r (cat (task_function k) vs)
        | _ => false end) before
  | _ => true
  end.
Lemma honestb_ok before e : honestb before e = true → honest cat before e.
Proof.
  destruct e as [now ev| | | | | |]; try done. destruct ev as [src m| | | | |]; try done. destruct m; try done. cbn [honestb honest].
  match goal with st : task_status |- _ => destruct st; try done end.
  intros (x & Hx & H)%existsb_exists. destruct x as [|w m| | | | |]; try discriminate. destruct m; try discriminate.
  apply andb_true_iff in H as [H1 H]. apply andb_true_iff in H as [H2 H3].
  apply String.eqb_eq in H1, H3. apply bool_decide_eq_true in H2. apply elem_of_list_In in Hx. eauto 10.
Qed.
Lemma diamond_honest : always (honest cat) (s_log (run cfg diamond_run)).
Proof.
  intros before e after E. refine (alwaysb_ok _ _ honestb_ok _ [] _ before e after E). vm_compute. reflexivity.
Qed.
Definition graph_messages (h : history) : list (bytes * message) :=
  omap (λ e, match e with LIn _ (ERecv c (MGraphTask g fs ts ns)) => Some (c, MGraphTask g fs ts ns) | _ => None end) h.
Lemma graph_messages_ok h c g fs ts ns : received c (MGraphTask g fs ts ns) h → (c, MGraphTask g fs ts ns) ∈ graph_messages h.
Proof. intros [now H]. apply elem_of_list_omap. eexists. split; [exact H|reflexivity]. Qed.
Lemma diamond_shape : let h := s_log (run cfg diamond_run) in
  ∀ cl g fs ts ns, received cl (MGraphTask g fs ts ns) h →
     closed ns ∧ unshared ns h ∧ ∀ t, t ∈ ts → ∃ n, n ∈ ns ∧ task_id n = t.
Proof.
  intros h. assert (Hg : ∀ cl g fs ts ns, received cl (MGraphTask g fs ts ns) h → ts = ["z"; "x"] ∧ ns = diamond).
  { intros cl g fs ts ns H%graph_messages_ok. revert H. replace (graph_messages h) with [("cl", MGraphTask "G" [("f", ("name", "code"))] ["z"; "x"] diamond)] by (vm_compute; reflexivity).
    intros [= -> -> -> -> ->]%elem_of_list_singleton. auto. }
  intros cl g fs ts ns [-> ->]%Hg. split; [|split].
  - intros n x Hn Hx. unfold diamond in *. repeat (apply elem_of_cons in Hn as [-> |Hn]); [..|set_solver]; cbn in Hx;
      repeat (apply elem_of_cons in Hx as [Hx|Hx]); try discriminate; try (apply elem_of_nil in Hx; contradiction); injection Hx as ->.
    1, 2: exists (node "x" [ArgData "1"]); split; [left|reflexivity].
    exists (node "y" [ArgTask "x"; ArgData "2"]). split; [right; left|reflexivity].
  - intros n Hn. split.
    + intros c k [now H]. exfalso. revert H. unfold h. vm_compute. intros H.
      repeat (apply elem_of_cons in H as [H|H]; [discriminate|]). apply elem_of_nil in H. exact H.
    + intros c g' fs' ts' ns' n' [-> ->]%Hg Hn' E. eapply (ids_inj diamond); [by_compute|exact Hn'|exact Hn|exact E].
  - intros t Ht. unfold diamond. repeat (apply elem_of_cons in Ht as [-> |Ht]); [..|set_solver].
    + exists (node "z" [ArgTask "x"; ArgTask "y"]). split; [right; right; left|reflexivity].
    + exists (node "x" [ArgData "1"]). split; [left|reflexivity].
Qed.
Lemma stuck_hung : hung "G" "x" 0 (run cfg0 stuck).
Proof.
  assert (Et : s_t2g (run cfg0 stuck) = {["x" := "G"]}) by by_compute.
  assert (Eg : dom (s_graphs (run cfg0 stuck)) = {["G"]}) by by_compute.
  assert (Eq : s_gqueue (run cfg0 stuck) = []) by (vm_compute; reflexivity).
  assert (Eo : occurrences (is_graph_result "G") (s_log (run cfg0 stuck)) = 0%nat) by (vm_compute; reflexivity).
  assert (Ek : s_tasks (run cfg0 stuck) !! "x" = None) by (vm_compute; reflexivity).
  revert Et Eg Eq Eo Ek. generalize (run cfg0 stuck). intros s Et Eg Eq Eo Ek. split.
  - exact Eo.
  - exact Ek.
  - intros x. rewrite Et. intros [H _]%lookup_singleton_Some. congruence.
  - intros g' i x n H Hne. exfalso. apply Hne. apply elem_of_dom_2 in H. rewrite Eg in H. set_solver.
  - intros c gt H. rewrite Eq in H. set_solver.
Qed.
Lemma run_app c rs rs' : run c (rs ++ rs') = run_from (run c rs) rs'.
Proof. unfold run, run_from. apply foldl_app. Qed.
Lemma stuck_lemma : let s := run cfg0 stuck in
  s_dead s = None ∧ received "cl" (MGraphTask "G" [("f", ("name", "code"))] ["x"] [Task "x" "f" [ArgData "1"]]) (s_log s) ∧
  LSend "cl" (MTaskEcho "x" NoWorker) ∈ s_log s ∧
  ∀ rs', Forall (λ r, elsewhere "G" "x" (rd_event r)) rs' →
    occurrences (is_graph_result "G") (s_log (run cfg0 (stuck ++ rs'))) = 0%nat.
Proof.
  cbv zeta. split; [vm_compute; reflexivity|]. split; [exists 0; by_compute|]. split; [by_compute|].
  intros rs' Hrs. rewrite run_app. exact (hung_run "G" "x" 0 _ rs' Hrs stuck_hung).
Qed.
