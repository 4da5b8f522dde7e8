(** Executions of the whole system, used as examples. *)

From Verif.Model Require Import Base OneToManyDict Allocator Message Client Worker Processor Sorter Scheduler System.
From Verif.Spec Require Import SystemSpec.
Definition cfg : config := Config (-1) 2 60 3600 1 2.
Definition heart : message := MHeartbeat (Heartbeat 1 2 3 4 0 0 true false false).
(** A client and a worker that has started its processor and announced itself. *)
Definition opening : list action :=
  [NewClient "cl"; NewWorker "w" 60 0 3600; ToAgentInside "w" (MTaskResult "" Success 0 "") 1;
   AgentDoes "w" 1 (WHeartbeat 1 2 3 4); ToScheduler "w" heart 1 []].
Definition the_task : task := Task "t" "f" [ArgData "x"; ArgData "y"].
(** Running a task at the worker, when the scheduler has sent it. *)
Definition work (k : task) (name content v : bytes) : list action :=
  [ToAgent "w" (MTask k) 2; AgentDoes "w" 2 WLoop; AgentDoes "w" 2 WLoop; AgentDoes "w" 2 WLoop;
   ToProcessor "w" (MTask k) true 3; ToAgentInside "w" (MFunctionRequest FnRequest (task_function k) "" "") 3;
   ToScheduler "w" (MFunctionRequest FnRequest (task_function k) "" "") 3 [];
   ToAgent "w" (MFunctionResponse FnOK (task_function k) name content) 3;
   ToProcessor "w" (MFunctionResponse FnOK (task_function k) name content) true 3;
   ProcessorDoes "w" 3 PLook; ProcessorDoes "w" 4 (PRun (Returned v) 5);
   ToAgentInside "w" (MTaskResult (task_id k) Success 5 v) 4; ToScheduler "w" (MTaskResult (task_id k) Success 5 v) 4 []].
Definition submission : list action :=
  opening ++
  [UserDoes "cl" (KSubmit "t" "f" "fname" "body" ["x"; "y"]); UserDoes "cl" (KStep "t");
   ToScheduler "cl" (MFunctionRequest FnAdd "f" "fname" "body") 1 []; UserDoes "cl" (KStep "t"); UserDoes "cl" (KStep "t");
   ToClient "cl" (MFunctionResponse FnOK "f" "" "") true; ToScheduler "cl" (MTask the_task) 1 [];
   ToClient "cl" (MTaskEcho "t" SubmitOK) true; SchedulerDoes 2 [] EDispatch] ++
  work the_task "fname" "body" "xy" ++ [ToClient "cl" (MTaskResult "t" Success 5 "xy") true].

Definition the_graph : message :=
  MGraphTask "g" [("f", ("fname", "body")); ("h", ("hname", "code"))] ["b"; "a"]
    [Task "a" "f" [ArgData "x"]; Task "b" "h" [ArgTask "a"; ArgData "y"]].
Definition graph_run : list action :=
  opening ++
  [UserDoes "cl" (KGraph the_graph 2); UserDoes "cl" (KGraphStep "g"); ToScheduler "cl" the_graph 1 []; SchedulerDoes 1 [] EGraph; SchedulerDoes 2 [] EDispatch] ++
  work (Task "a" "f" [ArgData "x"]) "fname" "body" "fx" ++ [SchedulerDoes 4 [] EDispatch] ++
  work (Task "b" "h" [ArgData "fx"; ArgData "y"]) "hname" "code" "hfxy" ++
  [ToClient "cl" (MGraphTaskResult "g" Success ["hfxy"; "fx"]) true].

(** Only client "cl" did anything. *)
Definition the_history (acts : list action) : list kentry := history_of (execute cfg acts) "cl".
Lemma only_client acts : dom (y_clients (execute cfg acts)) = {["cl"]} → ∀ c e, e ∈ history_of (execute cfg acts) c → c = "cl" ∧ e ∈ the_history acts.
Proof.
  intros Hd c e. destruct (decide (c = "cl")) as [->|Hne]; [auto|]. unfold history_of.
  assert (Hn : y_clients (execute cfg acts) !! c = None) by (apply not_elem_of_dom; rewrite Hd; set_solver).
  rewrite Hn. intros H. by apply elem_of_nil in H.
Qed.
Lemma submission_client : dom (y_clients (execute cfg submission)) = {["cl"]}.
Proof. by_compute. Qed.
Lemma graph_client : dom (y_clients (execute cfg graph_run)) = {["cl"]}.
Proof. by_compute. Qed.
Lemma submission_history : the_history submission =
  [CIn (KSubmit "t" "f" "fname" "body" ["x"; "y"]); CIn (KStep "t"); COut (MFunctionRequest FnAdd "f" "fname" "body"); CIn (KStep "t"); CIn (KStep "t");
   CIn (KRecv (MFunctionResponse FnOK "f" "" "") true); COut (MTask the_task); CIn (KRecv (MTaskEcho "t" SubmitOK) true);
   CIn (KRecv (MTaskResult "t" Success 5 "xy") true); CSet (FTask "t") (Value "xy")].
Proof. vm_compute. reflexivity. Qed.
Lemma graph_history : the_history graph_run =
  [CIn (KGraph the_graph 2); COut the_graph; CIn (KGraphStep "g"); CIn (KRecv (MGraphTaskResult "g" Success ["hfxy"; "fx"]) true);
   CSet (FGraph "g" 0%nat) (Value "hfxy"); CSet (FGraph "g" 1%nat) (Value "fx")].
Proof. vm_compute. reflexivity. Qed.
Ltac members H := repeat (apply elem_of_cons in H as [H|H]; [try discriminate H|]); [..|by apply elem_of_nil in H].
Lemma submission_submits c t f name content args : submits (execute cfg submission) c t f name content args →
  c = "cl" ∧ t = "t" ∧ f = "f" ∧ name = "fname" ∧ content = "body" ∧ args = ["x"; "y"].
Proof.
  intros H. apply (only_client _ submission_client) in H as [-> H]. rewrite submission_history in H. members H. injection H as -> -> -> -> ->. auto 10.
Qed.
Lemma submission_asks c g fs ts ns : ¬ asks (execute cfg submission) c g fs ts ns.
Proof. intros [n H]. apply (only_client _ submission_client) in H as [-> H]. rewrite submission_history in H. members H. Qed.
Lemma graph_submits c t f name content args : ¬ submits (execute cfg graph_run) c t f name content args.
Proof. intros H. apply (only_client _ graph_client) in H as [-> H]. rewrite graph_history in H. members H. Qed.
Lemma graph_asks c g fs ts ns : asks (execute cfg graph_run) c g fs ts ns → c = "cl" ∧ MGraphTask g fs ts ns = the_graph.
Proof. intros [n H]. apply (only_client _ graph_client) in H as [-> H]. rewrite graph_history in H. members H. injection H as -> -> -> -> _. auto. Qed.
Lemma submission_identified : identified (execute cfg submission).
Proof.
  assert (Hw : ∀ n, wanted (execute cfg submission) n → n = the_task).
  { intros n [(c & t & f & name & content & args & H & ->)|(c & g & fs & ts & ns & H & _)]; [|destruct (submission_asks _ _ _ _ _ H)].
    apply submission_submits in H as (-> & -> & -> & -> & -> & ->). reflexivity. }
  split.
  - intros n Hn. rewrite (Hw n Hn). discriminate.
  - intros n n' Hn Hn' _. rewrite (Hw n Hn), (Hw n' Hn'). reflexivity.
  - intros * H. destruct (submission_asks _ _ _ _ _ H).
  - intros f content content' [(c & t & name & args & H)|(c & g & fs & ts & ns & name & H & _)]; [|destruct (submission_asks _ _ _ _ _ H)].
    intros [(c' & t' & name' & args' & H')|(c' & g & fs & ts & ns & name' & H' & _)]; [|destruct (submission_asks _ _ _ _ _ H')].
    apply submission_submits in H as (_ & _ & _ & _ & -> & _). apply submission_submits in H' as (_ & _ & _ & _ & -> & _). reflexivity.
Qed.
Lemma graph_identified : identified (execute cfg graph_run).
Proof.
  assert (Hw : ∀ n, wanted (execute cfg graph_run) n → n = Task "a" "f" [ArgData "x"] ∨ n = Task "b" "h" [ArgTask "a"; ArgData "y"]).
  { intros n [(c & t & f & name & content & args & H & _)|(c & g & fs & ts & ns & H & Hn)]; [destruct (graph_submits _ _ _ _ _ _ H)|].
    apply graph_asks in H as [_ [= -> -> -> ->]]. members Hn; auto. }
  assert (Hp : ∀ f content, provides (execute cfg graph_run) f content → (f = "f" ∧ content = "body") ∨ (f = "h" ∧ content = "code")).
  { intros f content [(c & t & name & args & H)|(c & g & fs & ts & ns & name & H & Hn)]; [destruct (graph_submits _ _ _ _ _ _ H)|].
    apply graph_asks in H as [_ [= -> -> -> ->]]. members Hn; injection Hn; auto. }
  split.
  - intros n Hn. destruct (Hw n Hn) as [->| ->]; discriminate.
  - intros n n' Hn Hn'. destruct (Hw n Hn) as [->| ->], (Hw n' Hn') as [->| ->]; cbn; congruence.
  - intros c c' g fs fs' ts ts' ns ns' H H'. apply graph_asks in H as [-> E]. apply graph_asks in H' as [-> E']. rewrite <- E' in E. injection E; auto.
  - intros f content content' H H'. apply Hp in H as [[-> ->]|[-> ->]]; apply Hp in H' as [[? ->]|[? ->]]; congruence.
Qed.
Definition calls_of (y : system) (w : bytes) : list pentry := match y_workers y !! w with Some x => n_calls x | None => [] end.
Lemma calls_ran y w content args o : PCalled content args o ∈ calls_of y w → ran y content args o.
Proof. unfold calls_of. destruct (y_workers y !! w) as [x|] eqn:E; [|intros H; by apply elem_of_nil in H]. intros H. exists w, x. auto. Qed.
Definition pureb (apply : bytes → list bytes → bytes) (y : system) : bool :=
  forallb (λ p, forallb (λ e, match e with PCalled content args (Returned v) => String.eqb v (apply content args) | _ => true end) (n_calls p.2)) (map_to_list (y_workers y)).
Lemma pureb_ok apply y : pureb apply y = true → pure y apply.
Proof.
  unfold pureb. rewrite forallb_forall. intros H content args v (w & x & Hx & Hi). specialize (H (w, x)). rewrite <- elem_of_list_In, elem_of_map_to_list in H. specialize (H Hx). cbn [snd] in H.
  rewrite forallb_forall in H. apply elem_of_list_In in Hi. specialize (H _ Hi). cbn in H. by apply String.eqb_eq in H.
Qed.
