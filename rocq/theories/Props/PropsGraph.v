(** * Properties C40-C45: graphs

    As in PropsScheduler, [run c rs] is the scheduler after an arbitrary history. *)

From Verif.Model Require Import Base OneToManyDict Allocator Message Sorter Scheduler.
From Verif.Spec Require Import DictSpec SchedulerSpec.
From Verif.Proofs Require Import SchedCount SchedContent SchedGlobal SchedGraph SchedNodes SchedExamples GraphExamples.

(** C40.  A task sent to a worker that nobody submitted individually is a node of a
    submitted graph, accepted for the client that submitted the graph, with every
    reference to a node replaced by a payload some worker reported as that node's
    success -- before. *)
Theorem C40_node_after_dependencies :
  ∀ c rs before w k after,
  s_log (run c rs) = before ++ LSend w (MTask k) :: after →
  (¬ ∃ cl, received cl (MTask k) before) →
  ∃ cl g fs ts ns n, received cl (MGraphTask g fs ts ns) before ∧ accepted cl (task_id k) before ∧ n ∈ ns ∧
    task_id k = task_id n ∧ task_function k = task_function n ∧
    Forall2 (λ a' a, match a with
      | ArgData d => a' = ArgData d
      | ArgTask x => ∃ r w d, a' = ArgData r ∧ received w (MTaskResult x Success d r) before
      end) (task_args k) (task_args n).
Proof.
  intros c rs before w k after E Hn. destruct (node_ready_lemma c rs before w k after E Hn) as (cl & g & fs & ts & ns & n & H1 & H2 & H3 & H4 & H5 & H6 & _).
  exists cl, g, fs, ts, ns, n. auto 10.
Qed.
Print Assumptions C40_node_after_dependencies.

(** ... and it enters the task queue once per submission: a node sent out again was
    taken back in between. *)
Theorem C40_node_started_once :
  ∀ c rs t before after, s_log (run c rs) = before ++ after →
  (occurrences (is_accept t) before <= occurrences (is_submission t) before)%nat ∧
  (occurrences (is_dispatch t) before <= occurrences (is_submission t) before + moments (takes_back t) before)%nat.
Proof.
  intros c rs t before after E. pose proof (accept_once_lemma c rs t before after E). pose proof (dispatch_count_lemma c rs t before after E). lia.
Qed.
Print Assumptions C40_node_started_once.

(** The diamond z(x, y), y(x): x, y, z are sent in this order with the values of the
    inputs. *)
Example C40_example :
  omap (λ e, match e with LSend _ (MTask k) => Some k | _ => None end) (s_log (run cfg diamond_run)) =
    [Task "x" "f" [ArgData "1"]; Task "y" "f" [ArgData "f(1,)"; ArgData "2"];
     Task "z" "f" [ArgData "f(1,)"; ArgData "f(f(1,),2,)"]] ∧
  occurrences (is_submission "y") (s_log (run cfg diamond_run)) = 1%nat.
Proof. vm_compute. split; reflexivity. Qed.

(** C41.  Suppose workers compute ([apply f args] is what function [f] returns) and in
    every submitted graph references and targets are nodes and ids are not shared.
    Then a successful graph result lists the values of the targets, in order, where
    [value] evaluates the submitted nodes directly.  Values are unique when the ids
    of a graph's nodes are distinct. *)
Theorem C41_graph_result_is_value :
  ∀ c rs apply cl g rs', let h := s_log (run c rs) in
  always (honest apply) h →
  (∀ cl g fs ts ns, received cl (MGraphTask g fs ts ns) h →
     closed ns ∧ unshared ns h ∧ ∀ t, t ∈ ts → ∃ n, n ∈ ns ∧ task_id n = t) →
  LSend cl (MGraphTaskResult g Success rs') ∈ h →
  ∃ fs ts ns, received cl (MGraphTask g fs ts ns) h ∧ Forall2 (value apply ns) ts rs'.
Proof. exact graph_value_lemma. Qed.
Print Assumptions C41_graph_result_is_value.

Theorem C41_value_unique :
  ∀ apply ns, NoDup (task_id <$> ns) → ∀ t v v', value apply ns t v → value apply ns t v' → v = v'.
Proof. exact value_unique. Qed.
Print Assumptions C41_value_unique.

(** The diamond meets the hypotheses, and is answered. *)
Example C41_example : let h := s_log (run cfg diamond_run) in
  always (honest cat) h ∧
  (∀ cl g fs ts ns, received cl (MGraphTask g fs ts ns) h →
     closed ns ∧ unshared ns h ∧ ∀ t, t ∈ ts → ∃ n, n ∈ ns ∧ task_id n = t) ∧
  LSend "cl" (MGraphTaskResult "G" Success ["f(f(1,),f(f(1,),2,),)"; "f(1,)"]) ∈ h ∧
  NoDup (task_id <$> diamond).
Proof.
  cbv zeta. split; [exact diamond_honest|]. split; [exact diamond_shape|]. split; [by_compute|]. by_compute.
Qed.

(** C42.  At every point of every history there are no more answers to graph [g] than
    submissions of it, each sent to a client that submitted it. *)
Theorem C42_answered_at_most_once :
  ∀ c rs g before after, s_log (run c rs) = before ++ after →
  (occurrences (is_graph_result g) before <= occurrences (is_graph_submission g) before)%nat.
Proof. exact graph_once_lemma. Qed.
Print Assumptions C42_answered_at_most_once.

(** A successful answer means that a worker reported success for every node of the
    graph, and carries such results for the targets in order. *)
Theorem C42_success_means_all_done :
  ∀ c rs before cl g rs' after,
  s_log (run c rs) = before ++ LSend cl (MGraphTaskResult g Success rs') :: after →
  (∃ fs ts ns, received cl (MGraphTask g fs ts ns) before ∧ ∀ n, n ∈ ns → ∃ r, success before (task_id n) r) ∧
  (∃ fs ts ns, received cl (MGraphTask g fs ts ns) before ∧ Forall2 (success before) ts rs').
Proof.
  intros c rs before cl g rs' after E. split; [eapply all_nodes_lemma; exact E|]. destruct (Inv3_run c rs) as [H _]. exact (H _ _ _ E).
Qed.
Print Assumptions C42_success_means_all_done.

(** Any other answer carries the status and the payload of one node: of the worker
    report being handled, or of a cancellation. *)
Theorem C42_failure_names_a_node :
  ∀ c rs before cl g st rs' after,
  s_log (run c rs) = before ++ LSend cl (MGraphTaskResult g st rs') :: after → st ≠ Success →
  graph_from cl g before ∧ ∃ t d p, rs' = [p] ∧ node_of_graph t g before ∧
    ((∃ w, last_input before = Some (ERecv w (MTaskResult t st d p))) ∨ (st = Canceled ∧ d = 0 ∧ p = "")).
Proof. exact graph_failure_lemma. Qed.
Print Assumptions C42_failure_names_a_node.

Example C42_example :
  last (sent (run cfg (pair_running ++ [from "w1" (MTaskResult "x" Failed 1 "boom")]))) = Some (LSend "cl" (MGraphTaskResult "G" Failed ["boom"])) ∧
  last (sent (run cfg diamond_run)) = Some (LSend "cl" (MGraphTaskResult "G" Success ["f(f(1,),f(f(1,),2,),)"; "f(1,)"])).
Proof. vm_compute. split; reflexivity. Qed.

(** C43.  A node that refers to the same node twice is never sent to a worker: a node that
    is sent has no input twice ... *)
Theorem C43_repeated_input_never_runs :
  ∀ c rs before w k after, s_log (run c rs) = before ++ LSend w (MTask k) :: after →
  (¬ ∃ cl, received cl (MTask k) before) →
  ∃ cl g fs ts ns n, received cl (MGraphTask g fs ts ns) before ∧ n ∈ ns ∧ task_id n = task_id k ∧ task_function n = task_function k ∧
    length (task_args n) = length (task_args k) ∧
    ∀ x l1 l2 l3, task_args n ≠ l1 ++ ArgTask x :: l2 ++ ArgTask x :: l3.
Proof.
  intros c rs before w k after E Hn. destruct (node_ready_lemma c rs before w k after E Hn) as (cl & g & fs & ts & ns & n & H1 & H2 & H3 & H4 & H5 & H6 & H7).
  exists cl, g, fs, ts, ns, n. do 4 (split; [done|]). split; [symmetry; exact (Forall2_length _ _ _ H6)|].
  intros x l1 l2 l3 Ea. rewrite Ea in H7. unfold references in H7.
  rewrite omap_app in H7. cbn in H7. rewrite omap_app in H7. cbn in H7. apply NoDup_app in H7 as (_ & _ & H7).
  apply NoDup_cons in H7 as [H7 _]. apply H7. set_solver.
Qed.
Print Assumptions C43_repeated_input_never_runs.
Example C43_example : ∃ before w after,
  s_log (run cfg diamond_run) = before ++ LSend w (MTask (Task "z" "f" [ArgData "f(1,)"; ArgData "f(f(1,),2,)"])) :: after ∧
  ¬ ∃ cl, received cl (MTask (Task "z" "f" [ArgData "f(1,)"; ArgData "f(f(1,),2,)"])) before.
Proof.
  exists (take 26 (s_log (run cfg diamond_run))), "w1", (drop 27 (s_log (run cfg diamond_run))). split; [vm_compute; reflexivity|].
  intros (cl & now & H). set (l := take 26 (s_log (run cfg diamond_run))) in H. vm_compute in l. subst l. repeat (apply elem_of_cons in H as [H|H]; [discriminate|]). apply elem_of_nil in H as [].
Qed.

(** ... because starting it ends the scheduler. *)
Theorem C43_repeated_input_refuted :
  ∃ c rs, s_dead (run c rs) = Some KeyError ∧ last (s_log (run c rs)) = Some (LCrash KeyError) ∧
    rs = two_nodes (Task "x" "f" [ArgData "1"]) (Task "y" "f" [ArgTask "x"; ArgTask "x"]).
Proof. eexists cfg, _. split; [|split; [|reflexivity]]; vm_compute; reflexivity. Qed.
Print Assumptions C43_repeated_input_refuted.

(** C44.  A node fails, or the graph is cancelled, while another ready node is still
    queued in the scheduler; or a finished graph is cancelled: the scheduler ends. *)
Theorem C44_cleanup_refuted :
  ∃ c rs, let s := run c rs in
  (s_dead s = None ∧ s_unassigned s = ["y"] ∧ holder (s_log s) = {["x" := "w1"]} ∧
   received "cl" (MGraphTask "G" [("f", ("name", "code"))] ["x"; "y"] [Task "x" "f" [ArgData "1"]; Task "y" "f" [ArgData "2"]]) (s_log s)) ∧
  s_dead (run c (rs ++ [from "cl" (MGraphTaskCancel "G")])) = Some KeyError ∧
  s_dead (run c (rs ++ [from "w1" (MTaskResult "x" Failed 1 "boom")])) = Some KeyError.
Proof. exists cfg, pair. split; [|vm_compute; auto]. split; [vm_compute; reflexivity|]. split; [vm_compute; reflexivity|]. split; [by_compute|exists 0; by_compute]. Qed.
Print Assumptions C44_cleanup_refuted.

Theorem C44_cancel_finished_refuted :
  ∃ c rs, let s := run c rs in
  s_dead s = None ∧ LSend "cl" (MGraphTaskResult "G" Success ["v"]) ∈ s_log s ∧
  s_dead (run c (rs ++ [from "cl" (MGraphTaskCancel "G")])) = Some ValueError.
Proof. exists cfg, finished. split; [vm_compute; reflexivity|]. split; [by_compute|vm_compute; reflexivity]. Qed.
Print Assumptions C44_cancel_finished_refuted.

(** C45.  With a waiting limit of zero and no worker, a graph of one node is accepted
    and hangs: in every continuation that does not use its ids for something new there
    is never an answer to it, not even when it is cancelled. *)
Theorem C45_hanging_graph_refuted :
  ∃ c rs, let s := run c rs in
  s_dead s = None ∧ received "cl" (MGraphTask "G" [("f", ("name", "code"))] ["x"] [Task "x" "f" [ArgData "1"]]) (s_log s) ∧
  LSend "cl" (MTaskEcho "x" NoWorker) ∈ s_log s ∧
  ∀ rs', Forall (λ r, elsewhere "G" "x" (rd_event r)) rs' →
    occurrences (is_graph_result "G") (s_log (run c (rs ++ rs'))) = 0%nat.
Proof. exists cfg0, stuck. exact stuck_lemma. Qed.
Print Assumptions C45_hanging_graph_refuted.

(** Among them: a worker arrives, other work is done, the graph is cancelled. *)
Example C45_example :
  let rs' := [from "w" beat; tick EDispatch; from "cl" (MTask (task_of "a")); tick EDispatch; done "w" "a"; tick EGraph;
              from "cl" (MGraphTaskCancel "G")] in
  Forall (λ r, elsewhere "G" "x" (rd_event r)) rs' ∧
  sent (run cfg0 (stuck ++ rs')) = [LSend "cl" (MFunctionResponse FnOK "f" "" ""); LSend "cl" (MTaskEcho "x" NoWorker); LSend "w" MHeartbeatEcho; LSend "cl" (MTaskEcho "a" SubmitOK);
     LSend "w" (MTask (task_of "a")); LSend "cl" (MTaskResult "a" Success 7 "value")].
Proof. split; [repeat constructor; cbn; discriminate|]. vm_compute. reflexivity. Qed.
