(** * The whole system: C62 and C72 *)

From Verif.Model Require Import Base Message Client ClientCalls Worker Processor Scheduler System.
From Verif.Spec Require Import ClientCallsSpec SystemSpec.
From Verif.Proofs Require Import BaseProofs MapProofs SystemProofs SystemExamples.

(** ** C62 *)

(** A value that a submit future gets is one that the submitted function returned, on some
    worker, for the submitted arguments. *)
Theorem C62_submit_gives_function_value : ∀ cfg acts c t p, let y := execute cfg acts in
  identified y → CSet (FTask t) (Value p) ∈ history_of y c →
  ∃ f name content args, submits y c t f name content args ∧ ran y content args (Returned p).
Proof.
  intros cfg acts c t p y Hid H. destruct (submit_value cfg acts (id_some _ Hid) c t p H) as (f & name & content & args & Hs & Hc).
  exists f, name, content, args. split; [exact Hs|]. eapply submit_computed; eauto.
Qed.
Print Assumptions C62_submit_gives_function_value.
(** A value that a future of get gets is a value of the target with that index: obtained
    by running the target's function on its arguments, with values obtained in the same way
    for those that are other nodes. *)
Theorem C62_get_gives_graph_value : ∀ cfg acts c g i p, let y := execute cfg acts in
  identified y → CSet (FGraph g i) (Value p) ∈ history_of y c →
  ∃ fs ts ns t, asks y c g fs ts ns ∧ ts !! i = Some t ∧ computed y t p.
Proof. intros cfg acts c g i p y Hid. exact (graph_value cfg acts (id_some _ Hid) c g i p). Qed.
Print Assumptions C62_get_gives_graph_value.
(** For functions that depend only on their arguments these values are determined: tasks
    that were run several times, moved or sent again make no difference. *)
Theorem C62_values_determined : ∀ cfg acts apply t v v', let y := execute cfg acts in
  identified y → pure y apply → computed y t v → computed y t v' → v = v'.
Proof. intros cfg acts apply t v v' y Hid Hp H H'. exact (computed_unique y apply Hid Hp t v H v' H'). Qed.
Print Assumptions C62_values_determined.
Theorem C62_pure_submit : ∀ cfg acts apply c t f name content args p, let y := execute cfg acts in
  identified y → pure y apply → submits y c t f name content args → CSet (FTask t) (Value p) ∈ history_of y c →
  p = apply content args.
Proof.
  intros cfg acts apply c t f name content args p y Hid Hp Hs H.
  destruct (submit_value cfg acts (id_some _ Hid) c t p H) as (_ & _ & _ & _ & _ & Hc).
  apply Hp. eapply submit_computed; eauto.
Qed.
Print Assumptions C62_pure_submit.
(** [map] over a sequence of argument lists returns the function's values in order, each for
    the item's arguments and the defaults of the parameters beyond. [ids] are the ids that
    the calls of submit got. *)
Theorem C62_pure_map : ∀ cfg acts apply c x sig rows f name content ids calls vs, let y := execute cfg acts in
  identified y → pure y apply → y_clients y !! c = Some x → signature_ok sig → (∀ args, args ∈ rows → ¬ misses sig args ∅) → length ids = length rows →
  c_map sig (Sequence (Row <$> rows)) = (calls, None) → (∀ e, e ∈ c_map_calls f name content ids calls → CIn e ∈ history_of y c) →
  f_collect x (FTask <$> ids) = Some (inl vs) →
  Forall2 (λ args v, ∃ rest, Forall2 (λ p d, p_default p = Some d) (drop (length args) (positional sig)) rest ∧ v = apply content (args ++ rest)) rows vs.
Proof.
  intros cfg acts apply c [k h] sig rows f name content ids calls vs y Hid Hp Hx Hs Hm Hl Hc He Hv.
  destruct (map_calls sig rows f name content ids Hs Hm Hl) as (calls' & E & _ & Hcalls). rewrite Hc in E. injection E as <-.
  apply f_collect_values in Hv. pose proof (Forall2_length _ _ _ Hv) as Ev. rewrite fmap_length in Ev. apply Forall2_same_length_lookup. split; [lia|].
  intros i args v Hi Hvi. destruct (Forall2_lookup_r _ _ _ _ _ Hv Hvi) as (key & Hk & Hf). rewrite list_lookup_fmap in Hk. destruct (ids !! i) as [t|] eqn:Et; [|discriminate]. injection Hk as <-.
  destruct (Hcalls i args t Hi Et) as (rest & Hcall & Hrest). exists rest. split; [exact Hrest|].
  apply (C62_pure_submit cfg acts apply c t f name content); [exact Hid|exact Hp|apply He, (elem_of_list_lookup_2 _ _ _ Hcall)|].
  unfold history_of. fold y. rewrite Hx. exact (f_result_returns _ _ _ _ Hf).
Qed.
Print Assumptions C62_pure_map.
(** An exception comes from a processor that failed to run that task, or a node of that graph. *)
Theorem C62_submit_error_reported : ∀ cfg acts c t p, let y := execute cfg acts in
  CSet (FTask t) (Error p) ∈ history_of y c →
  (∃ f name content args, submits y c t f name content args) ∧
  ∃ w x d, y_workers y !! w = Some x ∧ POut (MTaskResult t Failed d p) ∈ n_calls x.
Proof. exact submit_error. Qed.
Print Assumptions C62_submit_error_reported.
Theorem C62_get_error_reported : ∀ cfg acts c g i p, let y := execute cfg acts in
  identified y → CSet (FGraph g i) (Error p) ∈ history_of y c →
  ∃ fs ts ns n, asks y c g fs ts ns ∧ n ∈ ns ∧
  ∃ w x d, y_workers y !! w = Some x ∧ POut (MTaskResult (task_id n) Failed d p) ∈ n_calls x.
Proof.
  intros cfg acts c g i p y Hid H. destruct (graph_error cfg acts c g i p H) as (fs & ts & ns & n & Ha & fs' & ts' & ns' & c' & Ha' & Hn & Hw).
  destruct (id_graph _ Hid _ _ _ _ _ _ _ _ _ Ha Ha') as (_ & _ & _ & E). exists fs, ts, ns, n. split; [exact Ha|]. rewrite E. split; [exact Hn|exact Hw].
Qed.
Print Assumptions C62_get_error_reported.

(** ** C72 *)

(** Workers run only functions that users provided, on arguments that users gave or that
    were computed for them. *)
Theorem C72_only_wanted_work : ∀ cfg acts content args o, let y := execute cfg acts in
  identified y → ran y content args o →
  ∃ n, wanted y n ∧ provides y (task_function n) content ∧ arguments y (task_args n) args.
Proof. intros cfg acts content args o y Hid. exact (called_wanted cfg acts (id_some _ Hid) content args o). Qed.
Print Assumptions C72_only_wanted_work.

(** A task submitted, sent to a worker, run and answered; and a graph of two nodes. *)
Example C62_example :
  identified (execute cfg submission) ∧ CSet (FTask "t") (Value "xy") ∈ history_of (execute cfg submission) "cl" ∧
  submits (execute cfg submission) "cl" "t" "f" "fname" "body" ["x"; "y"] ∧ ran (execute cfg submission) "body" ["x"; "y"] (Returned "xy").
Proof.
  split; [exact submission_identified|]. split; [by_compute|]. split; [unfold submits; by_compute|]. apply (calls_ran _ "w"); by_compute.
Qed.
(** The function puts its arguments together; [map] with one item, and a default. *)
Definition together (content : bytes) (args : list bytes) : bytes := foldr String.append "" args.
Definition sig_xy : list param := [Param "a" PositionalOrKeyword None; Param "b" PositionalOrKeyword (Some "y")].
Example C62_example_map : identified (execute cfg submission) ∧ pure (execute cfg submission) together ∧
  (∃ x, y_clients (execute cfg submission) !! "cl" = Some x ∧ f_collect x (FTask <$> ["t"]) = Some (inl ["xy"])) ∧
  signature_ok sig_xy ∧ ¬ misses sig_xy ["x"] ∅ ∧ c_map sig_xy (Sequence (Row <$> [["x"]])) = ([["x"; "y"]], None) ∧
  ∀ e, e ∈ c_map_calls "f" "fname" "body" ["t"] [["x"; "y"]] → CIn e ∈ history_of (execute cfg submission) "cl".
Proof.
  split; [exact submission_identified|]. split.
  { apply pureb_ok. vm_compute. reflexivity. }
  split.
  { assert (H : (λ x, f_collect x (FTask <$> ["t"])) <$> y_clients (execute cfg submission) !! "cl" = Some (Some (inl ["xy"]))) by (vm_compute; reflexivity).
    destruct (y_clients (execute cfg submission) !! "cl") as [x|]; [|discriminate]. injection H as H. eauto. }
  split.
  { split; [apply (bool_decide_unpack _); vm_compute; exact I|].
    intros [|[|i]] [|[|j]] p q; cbn; intros H1 H2; try lia; try done. injection H1 as <-. injection H2 as <-. done. }
  split.
  { intros (i & p & Hi & Hl & Hd & _). destruct i as [|[|i]]; cbn in *; [lia| |discriminate]. injection Hi as <-. discriminate. }
  split; [vm_compute; reflexivity|]. intros e ->%elem_of_list_singleton. by_compute.
Qed.
Example C62_example_graph :
  identified (execute cfg graph_run) ∧ CSet (FGraph "g" 0%nat) (Value "hfxy") ∈ history_of (execute cfg graph_run) "cl" ∧
  ran (execute cfg graph_run) "code" ["fx"; "y"] (Returned "hfxy") ∧ ran (execute cfg graph_run) "body" ["x"] (Returned "fx").
Proof.
  split; [exact graph_identified|]. split; [by_compute|]. split; apply (calls_ran _ "w"); by_compute.
Qed.
Example C72_example : ran (execute cfg graph_run) "code" ["fx"; "y"] (Returned "hfxy").
Proof. apply C62_example_graph. Qed.
