(** Deciding whether an execution with graphs is orderly, for the examples of C86. *)

From Verif.Model Require Import Base Message Client Worker Processor Scheduler System.
From Verif.Spec Require Import SchedulerSpec SystemSpec FlowSpec TrafficSpec GraphFlowSpec.
From Verif.Proofs Require Import BaseProofs TrafficExamples SystemProofs SystemExamples FlowExamples.

Definition namedb (t : bytes) (m : message) : bool :=
  match m with MTask k => String.eqb t (task_id k) | MGraphTask g _ _ ns => bool_decide (t ∈ g :: (task_id <$> ns)) | _ => false end.
Lemma namedb_spec t m : namedb t m = true ↔ named t m.
Proof.
  destruct m; cbn; try (split; done); [apply String.eqb_eq|]. rewrite bool_decide_eq_true, elem_of_cons. reflexivity.
Qed.
Definition freeb (y : system) (t : bytes) : bool :=
  forallb (λ p, forallb (λ e, match e with CIn (KSubmit t' _ _ _ _) => negb (String.eqb t' t) | CIn (KGraph m _) => negb (namedb t m) | _ => true end) p.2.2) (map_to_list (y_clients y)).
Lemma freeb_free y t : freeb y t = true → free y t.
Proof.
  unfold freeb. rewrite forallb_forall. intros H c e. unfold history_of. destruct (y_clients y !! c) as [x|] eqn:Hx; [|intros []%elem_of_nil]. intros He.
  specialize (H (c, x)). rewrite <- elem_of_list_In, elem_of_map_to_list in H. specialize (H Hx). cbn [snd] in H. rewrite forallb_forall in H. specialize (H (CIn e)). rewrite <- elem_of_list_In in H. specialize (H He).
  destruct e; try exact I; apply negb_true_iff in H; [apply String.eqb_neq, H|]. intros E%namedb_spec. congruence.
Qed.
Definition graphedb (y : system) (t : bytes) : bool :=
  existsb (λ p, existsb (λ e, match e with CIn (KGraph m _) => namedb t m | _ => false end) p.2.2) (map_to_list (y_clients y)).
Lemma graphedb_spec y t : of_graph y t → graphedb y t = true.
Proof.
  intros (c & m & n & Hm & Ht). unfold history_of in Hm. destruct (y_clients y !! c) as [x|] eqn:Hx; [|by apply elem_of_nil in Hm].
  apply existsb_exists. exists (c, x). rewrite <- elem_of_list_In, elem_of_map_to_list. split; [exact Hx|]. apply existsb_exists. exists (CIn (KGraph m n)). rewrite <- elem_of_list_In. split; [exact Hm|]. apply namedb_spec, Ht.
Qed.
Definition gcheck (y : system) (a : action) : bool :=
  match a with
  | UserDoes c (KSubmit t f name _ _) => utf8 name && freeb y t
  | UserDoes c (KGraph (MGraphTask g fs ts ns) n) => (n =? length ts)%nat && fitb g fs ts ns && forallb (freeb y) (g :: (task_id <$> ns))
  | UserDoes c (KGraphStep _) => true
  | ToClient c m loads => check y a && match y_clients y !! c with Some x => bool_decide (k_sending x.1 = ∅) | None => true end
  | ToScheduler from (MTaskResult t st _ _) _ _ => check y a && (negb (graphedb y t) || bool_decide (st = Success))
  | _ => check y a
  end.
Lemma gcheck_orderly y a : gcheck y a = true → orderly_graphs y a.
Proof.
  destruct a as [c|w death now retention|c e|c m loads|now codes e|from m now codes|w now e|w m now|w m now|w now e|w m loads now]; try exact (check_orderly y _).
  - destruct e as [t f name content args|t|m n|g| | |]; try exact (check_orderly y _); try done.
    + intros [Hn Hf]%andb_true_iff. split; [exact Hn|apply freeb_free, Hf].
    + destruct m as [| | | |g fs ts ns| | | | | | | | | | | | | | |]; try done. intros [[Hn Hf]%andb_true_iff Hx]%andb_true_iff. exists g, fs, ts, ns. split; [reflexivity|]. split; [apply Nat.eqb_eq, Hn|]. split; [apply fitb_ok, Hf|].
      intros x Hi. rewrite forallb_forall in Hx. apply freeb_free, Hx, elem_of_list_In, elem_of_cons, Hi.
  - intros [Hc Hs]%andb_true_iff. split; [apply check_orderly, Hc|]. intros x Hx. rewrite Hx in Hs. exact (bool_decide_eq_true_1 _ Hs).
  - destruct m as [| | |t st d p| | | | | | | | | | | | | | | |]; try exact (check_orderly y _). intros [Hc Hs]%andb_true_iff. split; [apply check_orderly, Hc|]. intros Hg%graphedb_spec. rewrite Hg in Hs. exact (bool_decide_eq_true_1 _ Hs).
Qed.
Fixpoint gchecks (y : system) (acts : list action) : bool :=
  match acts with [] => true | a :: acts => gcheck y a && gchecks (act y a) acts end.
Lemma gchecks_orderly c acts : gchecks (boot c) acts = true → orderly_graphs_run c acts.
Proof.
  assert (Hgo : ∀ acts y before a after, acts = before ++ a :: after → gchecks y acts = true → orderly_graphs (foldl act y before) a).
  { clear. intros acts y before. revert acts y. induction before as [|b before IH]; intros acts y a after -> [Ha Hr]%andb_true_iff; [apply gcheck_orderly, Ha|]. cbn. eapply IH; [reflexivity|exact Hr]. }
  intros H before a after E. exact (Hgo _ _ _ _ _ E H).
Qed.

(** A client submits a graph; another one a task with a function of that graph. *)
Definition graph_course : list action :=
  opening ++
  [ToAgent "w" MHeartbeatEcho 1; NewClient "dl"; UserDoes "cl" (KGraph the_graph 2); UserDoes "cl" (KGraphStep "g"); ToScheduler "cl" the_graph 1 []; SchedulerDoes 1 [] EGraph; SchedulerDoes 2 [] EDispatch;
   ToClient "cl" (MFunctionResponse FnOK "f" "" "") true; ToClient "cl" (MFunctionResponse FnOK "h" "" "") true;
   UserDoes "dl" (KSubmit "u" "f" "fname" "body" ["z"]); UserDoes "dl" (KStep "u"); UserDoes "dl" (KStep "u"); UserDoes "dl" (KStep "u");
   ToScheduler "dl" (MFunctionRequest FnAdd "f" "fname" "body") 1 []; ToClient "dl" (MFunctionResponse FnDuplicated "f" "" "") true;
   ToScheduler "dl" (MTask other_task) 2 []; SchedulerDoes 2 [] EDispatch; SchedulerDoes 3 [] EWorkers; SchedulerDoes 3 [] EFunctions; SchedulerDoes 3 [] EStatus; AgentDoes "w" 3 WTimeout] ++
  take 4 (work (Task "a" "f" [ArgData "x"]) "fname" "body" "fx") ++ [ToAgent "w" (MTask other_task) 5] ++ drop 4 (work (Task "a" "f" [ArgData "x"]) "fname" "body" "fx") ++
  [SchedulerDoes 4 [] EDispatch; AgentDoes "w" 5 WLoop; AgentDoes "w" 5 WLoop; AgentDoes "w" 5 WLoop;
   ToProcessor "w" (MTask other_task) true 5; ProcessorDoes "w" 5 PLook; ProcessorDoes "w" 6 (PRun (Raised "no") 5);
   ToAgentInside "w" (MTaskResult "u" Failed 5 "no") 6; ToScheduler "w" (MTaskResult "u" Failed 5 "no") 6 []] ++
  work (Task "b" "h" [ArgData "fx"; ArgData "y"]) "hname" "code" "hfxy" ++
  [ToClient "cl" (MTaskEcho "a" SubmitOK) true; ToClient "cl" (MTaskEcho "b" SubmitOK) true; ToClient "cl" (MGraphTaskResult "g" Success ["hfxy"; "fx"]) true;
   ToClient "dl" (MTaskEcho "u" SubmitOK) true; ToClient "dl" (MTaskResult "u" Failed 5 "no") true].
Lemma graph_course_orderly : orderly_graphs_run cfg graph_course.
Proof. apply gchecks_orderly. vm_compute. reflexivity. Qed.

(** A graph with two nodes, a worker that takes one task at a time, and the first node raises
    while the second waits in the scheduler. *)
Definition two_nodes : message := MGraphTask "g" [("f", ("fname", "body"))] ["a"; "b"] [Task "a" "f" [ArgData "x"]; Task "b" "f" [ArgData "y"]].
Definition one_at_a_time : config := Config (-1) 1 60 3600 1 2.
Definition failing_begin : list action :=
  opening ++
  [ToAgent "w" MHeartbeatEcho 1; UserDoes "cl" (KGraph two_nodes 2); UserDoes "cl" (KGraphStep "g"); ToScheduler "cl" two_nodes 1 []; SchedulerDoes 1 [] EGraph; SchedulerDoes 2 [] EDispatch; SchedulerDoes 2 [] EDispatch] ++
  take 10 (work (Task "a" "f" [ArgData "x"]) "fname" "body" "") ++
  [ProcessorDoes "w" 4 (PRun (Raised "no") 5); ToAgentInside "w" (MTaskResult "a" Failed 5 "no") 4].
Definition failing_end : action := ToScheduler "w" (MTaskResult "a" Failed 5 "no") 4 [].
Lemma failing_begin_orderly : orderly_graphs_run one_at_a_time failing_begin.
Proof. apply gchecks_orderly. vm_compute. reflexivity. Qed.
Lemma failing_end_orderly : orderly (execute one_at_a_time failing_begin) failing_end.
Proof. apply check_orderly. vm_compute. reflexivity. Qed.

(** The first half of [graph_course]: the worker has the first node and the other task. *)
Definition graph_begin : list action :=
  take (length opening + 21) graph_course ++ take 4 (work (Task "a" "f" [ArgData "x"]) "fname" "body" "fx") ++ [ToAgent "w" (MTask other_task) 5].
Lemma graph_begin_orderly : orderly_graphs_run cfg graph_begin.
Proof. apply gchecks_orderly. vm_compute. reflexivity. Qed.
Definition intactb (y : system) : bool :=
  forallb (λ p, forallb (λ e, match e with POut (MTaskResult _ Failed _ _) => false | _ => true end) (n_calls p.2) && match c_main (n_processor p.2) with Found _ | Calling _ _ => false | _ => true end) (map_to_list (y_workers y)).
Lemma intactb_ok y : intactb y = true → nodes_intact y.
Proof.
  unfold intactb. rewrite forallb_forall. intros H w x Hx. specialize (H (w, x)). rewrite <- elem_of_list_In, elem_of_map_to_list in H. specialize (H Hx). cbn [snd] in H. apply andb_true_iff in H as [H1 H2]. split.
  - intros t d p Hp. rewrite forallb_forall in H1. apply elem_of_list_In in Hp. specialize (H1 _ Hp). discriminate.
  - destruct (c_main (n_processor x)); try exact I; discriminate.
Qed.
